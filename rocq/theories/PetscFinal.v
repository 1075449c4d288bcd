(** Proofs of C71. *)
From Verif Require Import Outcome ZList ZListProofs Num Kernel KernelProofs Gather Loop
  ModelIndex IndexProofs ModelDisc3D ModelDisc2D ModelCH SpecGrid Disc3DProofs Stencil3Proofs Make3Proofs
  BC3Proofs Disc2DProofs Make2Proofs CHProofs SpecField SumProofs FieldProofs ModelReduce ReduceProofs ModelObs ModelTime Step1Proofs
  ModelCSR SpecMatrix ModelJac SpecJac Jac1Proofs Jac2Proofs Jac3Proofs Jac4Proofs JacFinal SpecTime ModelRun ExampleNum
  ModelMon SpecMon Mon1Proofs Mon2Proofs Mon3Proofs Mon4Proofs MonFinal ModelPetsc SpecPetsc PetscProofs.
From Coq Require Import Reals String Lra ZifyBool ZifyNat List.
Local Open Scope list_scope.
Local Open Scope Z_scope.

Lemma like3 {V} `{N : Num V} (dom : domain V) (d : disc3 V) variant p A :
  valid_domain3 dom -> 2 <= nhalo dom -> nhalo dom <= nx dom /\ nhalo dom <= ny dom /\ nhalo dom <= nz dom ->
  make3 dom = Ok d -> 0 <= variant <= 2 ->
  solves_like3 dom d variant p A (F3 d variant p) (G3 d variant p A).
Proof.
  intros HV HN HT HM VR O notify notify' mon ta tr sc c r x y o ts RC OK SC SR FT.
  destruct (make3_inv dom d HV HM) as (W & D). subst dom.
  set (DD := deps3 d variant p notify mon ta tr). set (dom := d3_domain d) in *. set (n := nx dom * ny dom * nz dom) in *.
  destruct SC as (u & HI & VX).
  destruct (copy_to3 d c (new_array (nint 0) n) u W HI) as (x' & E1 & HX').
  { apply zlen_new_array. exact (proj2 (cells_pos3 d W HN)). }
  assert (x' = x) as -> by (apply (vec_unique3 dom x' x u HV HX' VX)).
  set (w0 := {| pw_sc := sc; pw_sol := [c]; pw_res := [r]; pw_jac := A; pw_obs := o |}).
  set (i0 := {| iw_sol := x; iw_res := y; iw_obs := o |}).
  pose proof (run_refines DD (scratch_fits (cells3 dom)) n (zlen (m_vals A)) (same_cells3 dom) (filled3 d) (mats3 A) (jac3 d A)
    (F3 d variant p) (G3 d variant p A) notify'
    (Hrhs3 d variant p W HT HN VR) (HF3 d variant p W HT HN VR) (fun x => HG3 d variant p W HT HN VR A x)
    (Hjac3 d variant p W HT HN VR A) RC (ts x) None w0 i0 FT) as RR.
  assert (W0 : winv (scratch_fits (cells3 dom)) (same_cells3 dom) (mats3 A) w0 i0).
  { split; [exact OK|]. split; [reflexivity|]. split; [repeat split|]. exists c, r. split; [reflexivity|]. split; [reflexivity|].
    split; [exists u; auto|exact SR]. }
  specialize (RR W0). assert (L0 : wlast n (filled3 d) None w0) by (intros q Q; discriminate).
  specialize (RR L0). clear L0 W0.
  unfold petsc_run. change (pd_idx DD) with (d3_interior d). unfold copy_to_vec_state. cbn [w0 pw_sol nth_error of_opt rbind].
  rewrite E1. cbn [rbind]. fold w0. change (pd_abs_tol DD) with ta in RR. change (pd_rel_tol DD) with tr in RR.
  change (pd_monitor DD) with mon in RR.
  destruct (ideal_ts (F3 d variant p) (G3 d variant p A) notify' (fun o0 => petsc_post_step ta tr (mon o0)) (ts x) i0) as [(i', z)| | |];
    destruct (run_ts DD (ts x) w0) as [(w', z')| | |]; cbn [same_outcome rbind] in *; try contradiction; auto.
  cbn [fst snd] in RR. destruct RR as ((OK' & EO & MJ & c' & r' & ES & ER & C1 & C2) & EZ & LZ). subst z'.
  rewrite ES. unfold copy_from_vec_state. cbn [nth_error of_opt rbind].
  destruct C1 as (u1 & (LC & _) & _).
  destruct (copy_from3 d c' z (vfun3 dom z) W LC (vec_fun3 dom z HV LZ)) as (c2 & E2 & HI2 & _). rewrite E2. cbn [rbind same_outcome].
  change (upd [c'] 0 c2) with [c2]. cbn [pw_sol pw_res pw_obs fst snd]. split.
  - exists c2. split; [reflexivity|]. exists (vfun3 dom z). split; [exact HI2|apply vec_fun3; auto].
  - split; [|exact EO]. exists r'. auto.
Qed.

Lemma like2 {V} `{N : Num V} (dom : domain V) (d : disc2 V) p :
  valid_domain2 dom -> 2 <= nhalo dom -> nhalo dom <= nx dom -> make2 dom = Ok d ->
  solves_like2 dom d p (F2 d p).
Proof.
  intros HV HN HT HM O notify notify' mon ta tr sc c r x y A o ts RC OK SC SR FT.
  destruct (make2_inv dom d HV HM) as (W & D). subst dom.
  set (DD := deps2 d p notify mon ta tr). set (dom := d2_domain d) in *. set (n := nx dom * nx dom) in *.
  destruct SC as (u & HI & VX).
  destruct (copy_to2 d c (new_array (nint 0) n) u W HI) as (x' & E1 & HX').
  { apply zlen_new_array. unfold n. nia. }
  assert (x' = x) as -> by (apply (vec_unique2 dom x' x u ltac:(lia) HX' VX)).
  set (w0 := {| pw_sc := sc; pw_sol := [c]; pw_res := [r]; pw_jac := A; pw_obs := o |}).
  set (i0 := {| iw_sol := x; iw_res := y; iw_obs := o |}).
  pose proof (run_refines DD (scratch_fits (cells2 dom)) n 0 (same_cells2 dom) (fun _ _ => True) (fun _ => True) False
    (F2 d p) (fun x => x) notify'
    (Hrhs2 d p W HT HN) (HF2 d p W HT HN) (fun x (f : False) => match f with end)
    (fun c t x J vals (f : False) => match f with end) RC (ts x) None w0 i0 FT) as RR.
  assert (W0 : winv (scratch_fits (cells2 dom)) (same_cells2 dom) (fun _ => True) w0 i0).
  { split; [exact OK|]. split; [reflexivity|]. split; [exact I|]. exists c, r. split; [reflexivity|]. split; [reflexivity|].
    split; [exists u; auto|exact SR]. }
  specialize (RR W0). assert (L0 : wlast n (fun _ _ => True) None w0) by (intros q Q; discriminate).
  specialize (RR L0). clear L0 W0.
  unfold petsc_run. change (pd_idx DD) with (d2_interior d). unfold copy_to_vec_state. cbn [w0 pw_sol nth_error of_opt rbind].
  rewrite E1. cbn [rbind]. fold w0. change (pd_abs_tol DD) with ta in RR. change (pd_rel_tol DD) with tr in RR.
  change (pd_monitor DD) with mon in RR.
  destruct (ideal_ts (F2 d p) (fun x => x) notify' (fun o0 => petsc_post_step ta tr (mon o0)) (ts x) i0) as [(i', z)| | |];
    destruct (run_ts DD (ts x) w0) as [(w', z')| | |]; cbn [same_outcome rbind] in *; try contradiction; auto.
  cbn [fst snd] in RR. destruct RR as ((OK' & EO & MJ & c' & r' & ES & ER & C1 & C2) & EZ & LZ). subst z'.
  rewrite ES. unfold copy_from_vec_state. cbn [nth_error of_opt rbind].
  destruct C1 as (u1 & (LC & _) & _).
  destruct (copy_from2 d c' z (vfun2 dom z) W LC (vec_fun2 dom z LZ)) as (c2 & E2 & HI2 & _). rewrite E2. cbn [rbind same_outcome].
  change (upd [c'] 0 c2) with [c2]. cbn [pw_sol pw_res pw_obs fst snd]. split.
  - exists c2. split; [reflexivity|]. exists (vfun2 dom z). split; [exact HI2|apply vec_fun2; auto].
  - split; [|exact EO]. exists r'. auto.
Qed.

(** ** An example

    A time stepper that does one step of Euler's method with step tau after having asked for
    the Jacobian, reports the step and then asks whether to stop. *)
Definition ex_axpy (tau : R) (x y : list R) : list R := map (fun t => (fst t + tau * snd t)%R) (combine x y).
Definition ex_ts3 (dom : domain R) (A : csr R) (tau : R) (x : list R) : ts_prog R :=
  TsPre (TsRhs 0%R x x (fun y => TsJac 0%R x (m_vals A) (fun _ =>
    TsMon 1 tau tau x (TsPost (fun _ => TsDone (ex_axpy tau x y)))))).
Definition ex_ts2 (tau : R) (x : list R) : ts_prog R :=
  TsPre (TsRhs 0%R x x (fun y => TsMon 1 tau tau x (TsPost (fun _ => TsDone (ex_axpy tau x y))))).

(** An observer that records one cell. *)
Definition ex_obs3 (dom : domain R) (e : event) (step : Z) (time dt : R) (c r : state R) (o : list (option R)) : res (list (option R)) :=
  match c with [l] => Ok (zget l (slot3 dom 1 2 3) :: o) | _ => UB end.
Definition ex_obs3' (dom : domain R) (e : event) (step : Z) (time dt : R) (x r : list R) (o : list (option R)) : res (list (option R)) :=
  Ok (zget x ((1 * ny dom + 2) * nz dom + 3) :: o).
Definition ex_obs2 (dom : domain R) (e : event) (step : Z) (time dt : R) (c r : state R) (o : list (option R)) : res (list (option R)) :=
  match c with [l] => Ok (zget l (slot2 dom 1 2) :: o) | _ => UB end.
Definition ex_obs2' (dom : domain R) (e : event) (step : Z) (time dt : R) (x r : list R) (o : list (option R)) : res (list (option R)) :=
  Ok (zget x (1 * nx dom + 2) :: o).

Lemma zlen_axpy tau x y : zlen x = zlen y -> zlen (ex_axpy tau x y) = zlen x.
Proof. intros E. unfold ex_axpy, zlen in *. rewrite map_length, combine_length. lia. Qed.

Lemma axpy_entry tau : forall x y q, length x = length y -> 0 <= q < zlen x ->
  entry (ex_axpy tau x y) q = (entry x q + tau * entry y q)%R.
Proof.
  intros x y q L Hq. assert (Hy : 0 <= q < zlen y) by (unfold zlen in *; lia).
  unfold entry, ex_axpy. rewrite zget_map.
  destruct (zget_some x q Hq) as (a & Ea), (zget_some y q Hy) as (b & Eb). rewrite Ea, Eb.
  assert (E : zget (combine x y) q = Some (a, b)).
  { clear Hy. unfold zget in *. destruct (q <? 0); [discriminate|]. generalize dependent (Z.to_nat q). clear Hq q.
    revert y L. induction x as [|x0 x IH]; intros y L n Ea Eb; [destruct n; discriminate|].
    destruct y as [|y0 y]; [destruct n; discriminate|]. destruct n as [|n]; cbn in *; [congruence|]. apply IH; auto. }
  rewrite E. reflexivity.
Qed.

Lemma axpy_linear tau x y : zlen y = zlen x -> combination x [y] (ex_axpy tau x y).
Proof.
  intros L. exists [tau]. split; [reflexivity|]. intros q Hq. rewrite axpy_entry; [|unfold zlen in L; lia|exact Hq].
  cbn [combine map Rsum fold_right fst snd]. ring.
Qed.

Definition ex_square5 : domain R := ex_dom 0%R 1%R 5 5 5 2 Periodic Periodic Periodic.

Lemma ex_petsc3 : exists d A c r x y (sc : scratch R), let dom := ex_box0 Periodic in
  make3 dom = Ok d /\ create_matrix d = Ok A /\ same_cells3 dom c x /\ same_cells3 dom r y /\ scratch_fits (cells3 dom) sc /\
  holds_inside3 dom c (fun i j k => IZR (i + 2 * j + 3 * k)) /\
  reads_cells3 dom (ex_obs3 dom) (ex_obs3' dom) /\
  ts_fits (nx dom * ny dom * nz dom) (zlen (m_vals A)) (create_matrix d = Ok A) None (ex_ts3 dom A (1 / 1000) x) /\
  linear_method x [] (ex_ts3 dom A (1 / 1000) x).
Proof.
  destruct (ex_box_facts Periodic) as (HV & _ & HN & _ & _ & _ & _ & d & sc & A & f & HM & _ & EA & Hf).
  set (dom := ex_box0 Periodic) in *. destruct (make3_inv dom d HV HM) as (W & D).
  assert (HI : holds_inside3 dom f (fun i j k => IZR (i + 2 * j + 3 * k))) by (apply holds3_inside; auto; lia).
  destruct (copy_to3 d f (repeat 0%R 210) (fun i j k => IZR (i + 2 * j + 3 * k)) W) as (x & _ & HX).
  { rewrite D. exact HI. }
  { rewrite D. reflexivity. }
  rewrite D in HX. exists d, A, f, f, x, x, {| sc_lap := f; sc_arg := f; sc_bih := f; sc_lin := f |}.
  assert (SC : same_cells3 dom f x) by (eexists; split; [exact HI|exact HX]).
  pose proof (proj1 Hf) as LF. pose proof (proj1 HX) as LX.
  split; [exact HM|]. split; [exact EA|]. split; [exact SC|]. split; [exact SC|]. split; [repeat split; exact LF|]. split; [exact HI|].
  split; [|split].
  - intros e step time dt c r a b o (u & Hc & Ha) _. unfold ex_obs3, ex_obs3'. do 2 f_equal.
    assert (I : inside3 dom 1 2 3) by (unfold inside3, dom; cbn; lia). rewrite (proj2 Hc _ _ _ I), (proj2 Ha _ _ _ I). reflexivity.
  - cbn [ex_ts3 ts_fits]. split; [exact LX|]. split; [exact LX|]. intros y Ly. split; [exact EA|]. split; [reflexivity|].
    split; [reflexivity|]. intros _ _ _. rewrite zlen_axpy; [exact LX|congruence].
  - cbn [ex_ts3 linear_method]. intros y Ly _ _. apply axpy_linear. exact Ly.
Qed.

Lemma ex_petsc2 : exists d c r x y (sc : scratch R), let dom := ex_square5 in
  valid_domain2 dom /\ 2 <= nhalo dom /\ nhalo dom <= nx dom /\
  make2 dom = Ok d /\ same_cells2 dom c x /\ same_cells2 dom r y /\ scratch_fits (cells2 dom) sc /\
  holds_inside2 dom c (fun i j => IZR (i - 3 * j)) /\
  reads_cells2 dom (ex_obs2 dom) (ex_obs2' dom) /\
  ts_fits (nx dom * nx dom) 0 False None (ex_ts2 (1 / 1000) x) /\
  linear_method x [] (ex_ts2 (1 / 1000) x).
Proof.
  set (dom := ex_square5). assert (HV : valid_domain2 dom) by (unfold valid_domain2, dom; cbn; lia).
  destruct (make2_ok dom HV) as (d & HM & _). destruct (make2_inv dom d HV HM) as (W & D).
  destruct (array2 dom (fun i j => IZR (i - 3 * j)) HV) as (f & Hf).
  assert (HI : holds_inside2 dom f (fun i j => IZR (i - 3 * j))) by (apply holds2_inside; auto; unfold dom; cbn; lia).
  destruct (copy_to2 d f (repeat 0%R 25) (fun i j => IZR (i - 3 * j)) W) as (x & _ & HX).
  { rewrite D. exact HI. }
  { rewrite D. reflexivity. }
  rewrite D in HX. exists d, f, f, x, x, {| sc_lap := f; sc_arg := f; sc_bih := f; sc_lin := f |}.
  assert (SC : same_cells2 dom f x) by (eexists; split; [exact HI|exact HX]).
  pose proof (proj1 Hf) as LF. pose proof (proj1 HX) as LX.
  split; [exact HV|]. split; [unfold dom; cbn; lia|]. split; [unfold dom; cbn; lia|].
  split; [exact HM|]. split; [exact SC|]. split; [exact SC|]. split; [repeat split; exact LF|]. split; [exact HI|].
  split; [|split].
  - intros e step time dt c r a b o (u & Hc & Ha) _. unfold ex_obs2, ex_obs2'. do 2 f_equal.
    assert (I : inside2 dom 1 2) by (unfold inside2, dom; cbn; lia). rewrite (proj2 Hc _ _ I), (proj2 Ha _ _ I). reflexivity.
  - cbn [ex_ts2 ts_fits]. split; [exact LX|]. split; [exact LX|]. intros y Ly.
    intros _. rewrite zlen_axpy; [exact LX|congruence].
  - cbn [ex_ts2 linear_method]. intros y Ly _. apply axpy_linear. exact Ly.
Qed.

Lemma pf_C71_solver_3d :
  forall (V : Type) (N : Num V) (dom : domain V) (d : disc3 V) (variant : Z) (p : ch_params V) (A : csr V),
  valid_domain3 dom -> 2 <= nhalo dom -> nhalo dom <= nx dom /\ nhalo dom <= ny dom /\ nhalo dom <= nz dom ->
  make3 dom = Ok d -> 0 <= variant <= 2 ->
  exists F G, solves_like3 dom d variant p A F G.
Proof. intros V N dom d variant p A HV HN HT HM VR. exists (F3 d variant p), (G3 d variant p A). apply like3; auto. Qed.

Lemma pf_C71_solver_2d :
  forall (V : Type) (N : Num V) (dom : domain V) (d : disc2 V) (p : ch_params V),
  valid_domain2 dom -> 2 <= nhalo dom -> nhalo dom <= nx dom -> make2 dom = Ok d ->
  exists F, solves_like2 dom d p F.
Proof. intros V N dom d p HV HN HT HM. exists (F2 d p). apply like2; auto. Qed.

Lemma jac2_fatal {V} `{N : Num V} (dom : domain V) (d : disc2 V) (p : ch_params V) {O : Type}
    (notify : event -> Z -> V -> V -> state V -> state V -> O -> res O) mon ta tr :
  valid_domain2 dom -> 2 <= nhalo dom -> nhalo dom <= nx dom -> make2 dom = Ok d ->
  forall prog sc c r y z A o, asks_jacobian (nx dom * nx dom) prog ->
  scratch_fits (cells2 dom) sc -> same_cells2 dom c y -> same_cells2 dom r z ->
  run_ts (deps2 d p notify mon ta tr) prog {| pw_sc := sc; pw_sol := [c]; pw_res := [r]; pw_jac := A; pw_obs := o |} = Fatal.
Proof.
  intros HV HN HT HM. destruct (make2_inv dom d HV HM) as (W & D). subst dom.
  induction prog as [x|t x out k IH|t x vals k IH|k IH|k IH|step time dt v k IH]; intros sc c r y z A o AJ OK SC SR; cbn [asks_jacobian] in AJ; try contradiction.
  - destruct AJ as (LX & LO & AJ). cbn [run_ts]. unfold call_rhs.
    destruct (Hrhs2 d p W HT HN sc c r t x y z out OK SC SR LX LO) as (sc' & c' & r' & E & OK' & C1 & _ & C2).
    cbn [pw_sc pw_sol pw_res pw_jac pw_obs]. change (pd_eval (deps2 d p notify mon ta tr)) with (ch_rhs2 d p).
    change (pd_idx (deps2 d p notify mon ta tr)) with (d2_interior d). rewrite E. cbn [rbind].
    apply (IH (F2 d p t x) sc' c' r' x (F2 d p t x) A o); auto. apply AJ. apply (HF2 d p W HT HN); auto.
  - cbn [run_ts]. unfold call_jac. cbn [pw_sol]. change (pd_idx (deps2 d p notify mon ta tr)) with (d2_interior d).
    destruct SC as (u & (LC & _) & _). unfold copy_from_vec_state. cbn [nth_error of_opt rbind].
    destruct (copy_from2 d c x (vfun2 (d2_domain d) x) W LC (vec_fun2 (d2_domain d) x AJ)) as (c2 & E2 & _). rewrite E2. reflexivity.
  - cbn [run_ts]. eapply IH; eauto.
Qed.

Lemma pf_C71_jacobian_2d :
  forall (V : Type) (N : Num V) (dom : domain V) (d : disc2 V) (p : ch_params V) (O : Type)
    (notify : event -> Z -> V -> V -> state V -> state V -> O -> res O) (mon : O -> list (string * V)) (abs_tol rel_tol : V)
    (sc : scratch V) (c r x y : list V) (A : csr V) (o : O) (ts : list V -> ts_prog V),
  valid_domain2 dom -> 2 <= nhalo dom -> nhalo dom <= nx dom -> make2 dom = Ok d ->
  scratch_fits (cells2 dom) sc -> same_cells2 dom c x -> same_cells2 dom r y -> asks_jacobian (nx dom * nx dom) (ts x) ->
  petsc_run (deps2 d p notify mon abs_tol rel_tol) (nx dom * nx dom) ts
    {| pw_sc := sc; pw_sol := [c]; pw_res := [r]; pw_jac := A; pw_obs := o |} = Fatal.
Proof.
  intros V N dom d p O notify mon ta tr sc c r x y A o ts HV HN HT HM OK SC SR AJ.
  pose proof (jac2_fatal dom d p notify mon ta tr HV HN HT HM (ts x) sc c r x y A o AJ OK SC SR) as E.
  destruct (make2_inv dom d HV HM) as (W & D). subst dom.
  destruct SC as (u & HI & VX).
  destruct (copy_to2 d c (new_array (nint 0) (nx (d2_domain d) * nx (d2_domain d))) u W HI) as (x' & E1 & HX').
  { apply zlen_new_array. nia. }
  assert (x' = x) as -> by (apply (vec_unique2 (d2_domain d) x' x u ltac:(lia) HX' VX)).
  unfold petsc_run. change (pd_idx (deps2 d p notify mon ta tr)) with (d2_interior d). unfold copy_to_vec_state.
  cbn [pw_sol nth_error of_opt rbind]. rewrite E1. cbn [rbind]. rewrite E. reflexivity.
Qed.

Lemma ex_asks2 : exists d c x (sc : scratch R), let dom := ex_square5 in
  make2 dom = Ok d /\ scratch_fits (cells2 dom) sc /\ same_cells2 dom c x /\ holds_inside2 dom c (fun i j => IZR (i - 3 * j)) /\
  asks_jacobian (nx dom * nx dom) (TsPre (TsRhs 0%R x x (fun y => TsJac 0%R x [] (fun _ => TsDone y)))).
Proof.
  destruct ex_petsc2 as (d & c & r & x & y & sc & _ & _ & _ & HM & SC & _ & OK & HI & _ & FT & _).
  cbn [ex_ts2 ts_fits] in FT. destruct FT as (LX & _).
  exists d, c, x, sc. cbn [asks_jacobian]. split; [exact HM|]. split; [exact OK|]. split; [exact SC|]. split; [exact HI|].
  split; [exact LX|]. split; [exact LX|]. intros _ _. exact LX.
Qed.

Lemma F3_CH (dom : domain R) (d : disc3 R) variant p t x v :
  valid_domain3 dom -> 2 <= nhalo dom -> nhalo dom <= nx dom /\ nhalo dom <= ny dom /\ nhalo dom <= nz dom ->
  make3 dom = Ok d -> 0 <= variant <= 2 -> vec_holds3 dom x v ->
  vec_holds3 dom (F3 d variant p t x) (CH3 (d3_dx d) (ch_m p) (ch_sigma p) (ch_eps2 p) (extend3 dom v)).
Proof.
  intros HV HN HT HM VR HX. destruct (make3_inv dom d HV HM) as (W & D). subst dom.
  pose proof (F3_spec d variant p W HT HN VR t x (proj1 HX)) as HF. split; [apply HF|]. intros i j k I.
  rewrite (proj2 HF i j k I). f_equal. rewrite ch_expr3_R. apply CH3_ext'. intros a b e.
  apply extend3_inside_ext; [exact HV|]. intros i' j' k' I'.
  apply (vec_same3 (d3_domain d) x); auto. apply vec_fun3; [exact HV|apply HX].
Qed.

Lemma F2_CH (dom : domain R) (d : disc2 R) p t x v :
  valid_domain2 dom -> 2 <= nhalo dom -> nhalo dom <= nx dom -> make2 dom = Ok d -> vec_holds2 dom x v ->
  vec_holds2 dom (F2 d p t x) (CH2 (d2_dx d) (ch_m p) (ch_sigma p) (ch_eps2 p) (periodic2 dom v)).
Proof.
  intros HV HN HT HM HX. destruct (make2_inv dom d HV HM) as (W & D). subst dom.
  pose proof (F2_spec d p W HT HN t x (proj1 HX)) as HF. split; [apply HF|]. intros i j I.
  rewrite (proj2 HF i j I). f_equal. rewrite <- ch_expr2_R. apply ch_expr2_ext. intros a b. unfold periodic2.
  assert (I' : inside2 (d2_domain d) (a mod nx (d2_domain d)) (b mod nx (d2_domain d))) by (split; apply Z.mod_pos_bound; lia).
  pose proof (proj2 (vec_fun2 (d2_domain d) x (proj1 HX)) _ _ I') as Q. rewrite (proj2 HX _ _ I') in Q. congruence.
Qed.

(** ** The Jacobian *)

Lemma zset_replaced (dom : domain R) x v a b e s x' : vec_holds3 dom x v -> inside3 dom a b e ->
  zset x (cellno dom a b e) s = Some x' -> vec_holds3 dom x' (replaced v a b e s).
Proof.
  intros (L & H) I E. split.
  - apply zset_inv in E as (_ & ->). rewrite zlen_upd. exact L.
  - intros i j k I'. fold (cellno dom i j k). unfold replaced.
    destruct ((i =? a) && (j =? b) && (k =? e)) eqn:Q.
    + apply andb_prop in Q as (Q & Q3). apply andb_prop in Q as (Q1 & Q2). apply Z.eqb_eq in Q1, Q2, Q3. subst.
      apply (zget_zset_same _ _ _ _ E).
    + rewrite (zget_zset_other _ _ _ _ _ E).
      * apply H; auto.
      * intros C. apply cellno_inj in C as (-> & -> & ->); auto. rewrite !Z.eqb_refl in Q. discriminate.
Qed.

Lemma G3_derivative (dom : domain R) (d : disc3 R) variant p A t x row col y :
  valid_domain3 dom -> 2 <= nhalo dom -> nhalo dom <= nx dom /\ nhalo dom <= ny dom /\ nhalo dom <= nz dom ->
  make3 dom = Ok d -> 0 <= variant <= 2 -> xbc dom = Periodic -> ybc dom = Periodic -> zbc dom = Periodic ->
  create_matrix d = Ok A -> zlen x = nx dom * ny dom * nz dom -> 0 <= row < nx dom * ny dom * nz dom -> zget x col = Some y ->
  exists f : R -> R, (forall s x', zset x col s = Some x' -> zget (F3 d variant p t x') row = Some (f s)) /\
    derivable_pt_lim f y (dense (set_values A (G3 d variant p A x)) row col).
Proof.
  intros HV HN HT HM VR B1 B2 B3 EA LX RR GC.
  destruct (make3_inv dom d HV HM) as (W & D).
  assert (HN' : 2 <= nhalo (d3_domain d)) by (rewrite D; exact HN).
  assert (HT' : thick (d3_domain d)) by (rewrite D; exact HT).
  destruct (jac3_five d W A EA) as (FC & SH). rewrite D in FC, SH.
  assert (RC : 0 <= col < nx dom * ny dom * nz dom) by (rewrite <- LX; apply (zget_range x col y GC)).
  destruct (cell_of_row dom row HV RR) as (i & j & k & I & -> & _).
  destruct (cell_of_row dom col HV RC) as (a & b & e & I' & -> & _).
  pose proof (vec_fun3 dom x HV LX) as HX. set (v := vfun3 dom x) in *.
  assert (EY : v a b e = y).
  { pose proof (proj2 HX a b e I') as Q. fold (cellno dom a b e) in Q. congruence. }
  exists (fun s => CH3 (d3_dx d) (ch_m p) (ch_sigma p) (ch_eps2 p) (extend3 dom (replaced v a b e s)) i j k). split.
  - intros s x' E. pose proof (zset_replaced dom x v a b e s x' HX I' E) as HX'.
    apply (F3_CH dom d variant p t x' _ HV HN HT HM VR HX'). exact I.
  - assert (LX' : zlen x = nx (d3_domain d) * ny (d3_domain d) * nz (d3_domain d)) by (rewrite D; exact LX).
    destruct (fill3_spec d variant p W HT' HN' VR x LX') as (u & VX & HC). rewrite D in VX, HC.
    destruct (jac_dense dom d p A (fill3 d variant p x) (extend3 dom u) HV FC ltac:(lia) HM EA HC) as (J & EJ & _ & _ & _ & DE).
    pose proof (shape_wf dom A FC HV SH) as WF.
    destruct (eval_jacobian_spec d dom p A _ _ W D ltac:(lia) WF (proj1 SH) HC) as (vv & EJ' & _).
    assert (EV : set_values A (G3 d variant p A x) = J).
    { unfold G3. rewrite EJ'. rewrite EJ' in EJ. injection EJ as <-. reflexivity. }
    rewrite EV, (DE i j k a b e I I'), (jac_value_R dom d p W D FC _ a b e i j k I I').
    rewrite <- EY.
    replace (Lap3 (d3_dx d) (fun x0 y0 z => (3 * extend3 dom u x0 y0 z ^ 2 - 1) * hit dom a b e x0 y0 z)%R i j k)
      with (Lap3 (d3_dx d) (fun x0 y0 z => (3 * periodic3 dom v x0 y0 z ^ 2 - 1) * hit dom a b e x0 y0 z)%R i j k).
    + apply CH3_derive_periodic; auto.
    + apply Lap3_ext. intros x0 y0 z0. f_equal. f_equal. f_equal. f_equal.
      rewrite (extend3_inside_ext dom u v HV (vec_same3 dom x u v VX HX)).
      unfold extend3, periodic3. rewrite B1, B2, B3. reflexivity.
Qed.

Lemma pf_C71_equation_3d :
  forall (dom : domain R) (d : disc3 R) (variant : Z) (p : ch_params R) (A : csr R),
  valid_domain3 dom -> 2 <= nhalo dom -> nhalo dom <= nx dom /\ nhalo dom <= ny dom /\ nhalo dom <= nz dom ->
  make3 dom = Ok d -> 0 <= variant <= 2 ->
  exists F G, solves_like3 dom d variant p A F G /\
    (forall t x v, vec_holds3 dom x v ->
       vec_holds3 dom (F t x) (CH3 (d3_dx d) (ch_m p) (ch_sigma p) (ch_eps2 p) (extend3 dom v))) /\
    (xbc dom = Periodic -> ybc dom = Periodic -> zbc dom = Periodic -> create_matrix d = Ok A ->
     forall t x row col y, zlen x = nx dom * ny dom * nz dom -> 0 <= row < zlen x -> zget x col = Some y ->
     exists f : R -> R, (forall s x', zset x col s = Some x' -> zget (F t x') row = Some (f s)) /\
       derivable_pt_lim f y (dense (set_values A (G x)) row col)).
Proof.
  intros dom d variant p A HV HN HT HM VR. exists (F3 d variant p), (G3 d variant p A).
  split; [apply like3; auto|]. split; [intros t x v HX; apply F3_CH; auto|].
  intros B1 B2 B3 EA t x row col y LX RR GC. apply (G3_derivative dom d variant p A t x row col y); auto. rewrite <- LX. exact RR.
Qed.

Lemma pf_C71_equation_2d :
  forall (dom : domain R) (d : disc2 R) (p : ch_params R),
  valid_domain2 dom -> 2 <= nhalo dom -> nhalo dom <= nx dom -> make2 dom = Ok d ->
  exists F, solves_like2 dom d p F /\
    (forall t x v, vec_holds2 dom x v ->
       vec_holds2 dom (F t x) (CH2 (d2_dx d) (ch_m p) (ch_sigma p) (ch_eps2 p) (periodic2 dom v))).
Proof.
  intros dom d p HV HN HT HM. exists (F2 d p). split; [apply like2; auto|]. intros t x v HX. apply F2_CH; auto.
Qed.

(** ** A Jacobian elsewhere *)

Lemma vec3 {V} `{N : Num V} (dom : domain V) (u : Z -> Z -> Z -> V) : valid_domain3 dom -> exists x, vec_holds3 dom x u.
Proof.
  intros HV. destruct (make3_ok dom HV) as (d & M & W & D & _). destruct (exists_holds3 dom u HV) as (f & Hf).
  assert (NH : 0 <= nhalo dom) by apply HV.
  subst dom.
  destruct (copy_to3 d f (new_array (nint 0) (nx (d3_domain d) * ny (d3_domain d) * nz (d3_domain d))) u W) as (x & _ & HX).
  - apply holds3_inside; auto.
  - apply zlen_new_array. destruct HV as (A & B & C & _). apply Z.mul_nonneg_nonneg; [apply Z.mul_nonneg_nonneg|]; lia.
  - exists x. exact HX.
Qed.

Lemma stale_entry (dom : domain R) (d : disc3 R) p w : wf3 d -> d3_domain d = dom -> five_cells dom -> xbeg dom <> xend dom ->
  w (-1) 0 0 = 1%R ->
  jac_value d p w (cellno dom 0 0 0) (cellno dom (nx dom - 1) 0 0) 0 0 0
  <> jac_deriv dom (fun _ _ _ => 0%R) (nx dom - 1) 0 0 (d3_dx d) (ch_sigma p) (ch_eps2 p) 0 0 0.
Proof.
  intros W D FC HX W1.
  assert (I : inside3 dom 0 0 0) by (unfold five_cells in FC; unfold inside3; lia).
  assert (I' : inside3 dom (nx dom - 1) 0 0) by (unfold five_cells in FC; unfold inside3; lia).
  rewrite (jac_value_R dom d p W D FC _ _ _ _ _ _ _ I I').
  unfold jac_deriv. set (LL := Lap3 (d3_dx d) (Lap3 (d3_dx d) (hit dom (nx dom - 1) 0 0)) 0 0 0).
  assert (H1 : hit dom (nx dom - 1) 0 0 (0 - 1) 0 0 = 1%R).
  { unfold hit. replace ((0 - 1) mod nx dom) with (nx dom - 1).
    - rewrite !Z.mod_0_l by (unfold five_cells in FC; lia). rewrite !Z.eqb_refl. reflexivity.
    - replace (0 - 1) with ((nx dom - 1) + (-1) * nx dom) by lia. rewrite Z_mod_plus_full.
      symmetry. apply Z.mod_small. unfold five_cells in FC. lia. }
  assert (H0 : forall y z, hit dom (nx dom - 1) 0 0 0 y z = 0%R).
  { intros y z. unfold hit. rewrite Z.mod_0_l by (unfold five_cells in FC; lia).
    replace (0 =? nx dom - 1) with false by (symmetry; apply Z.eqb_neq; unfold five_cells in FC; lia). reflexivity. }
  assert (H2 : hit dom (nx dom - 1) 0 0 (0 + 1) 0 0 = 0%R).
  { unfold hit. rewrite (Z.mod_small (0 + 1)) by (unfold five_cells in FC; lia).
    replace (0 + 1 =? nx dom - 1) with false by (symmetry; apply Z.eqb_neq; unfold five_cells in FC; lia). reflexivity. }
  change (0 - 1) with (-1) in H1. change (0 + 1) with 1 in H2.
  unfold Lap3, dxx3, dyy3, dzz3. change (0 - 1) with (-1). change (0 + 1) with 1.
  rewrite !H0, H1, H2, W1. unfold periodic3.
  assert (HD : (d3_dx d <> 0)%R).
  { rewrite (wf_dx _ W), D. simpl. unfold Rdiv. intros C. apply Rmult_integral in C as [C|C]; [lra|].
    apply Rinv_neq_0_compat in C; auto. apply not_0_IZR. unfold five_cells in FC. lia. }
  assert (H4 : (0 < d3_dx d ^ 2)%R) by (replace (d3_dx d ^ 2)%R with (Rsqr (d3_dx d)) by (unfold Rsqr; ring); apply Rsqr_pos_lt; exact HD).
  assert (H5 : (0 < / d3_dx d ^ 2)%R) by (apply Rinv_0_lt_compat; exact H4).
  unfold Rdiv. intros C. nra.
Qed.

Lemma pf_C71_jacobian_elsewhere_refuted :
  forall (dom : domain R) (d : disc3 R) (variant : Z) (p : ch_params R) (A : csr R) (F : R -> list R -> list R),
  valid_domain3 dom -> 2 <= nhalo dom -> nhalo dom <= nx dom /\ nhalo dom <= ny dom /\ nhalo dom <= nz dom ->
  make3 dom = Ok d -> 0 <= variant <= 2 -> xbc dom = Periodic -> ybc dom = Periodic -> zbc dom = Periodic ->
  xbeg dom <> xend dom -> create_matrix d = Ok A ->
  (forall t x v, vec_holds3 dom x v ->
     vec_holds3 dom (F t x) (CH3 (d3_dx d) (ch_m p) (ch_sigma p) (ch_eps2 p) (extend3 dom v))) ->
  exists x1 x2 row col, zlen x1 = nx dom * ny dom * nz dom /\ zlen x2 = nx dom * ny dom * nz dom /\
  forall (O : Type) notify mon abs_tol rel_tol sc c r x y (o : O) t out vals,
  scratch_fits (cells3 dom) sc -> same_cells3 dom c x -> same_cells3 dom r y ->
  zlen out = nx dom * ny dom * nz dom -> zlen vals = zlen (m_vals A) ->
  exists w a f l,
    run_ts (deps3 d variant p notify mon abs_tol rel_tol)
      (TsRhs t x1 out (fun _ => TsJac t x2 vals (fun a => TsDone a)))
      {| pw_sc := sc; pw_sol := [c]; pw_res := [r]; pw_jac := A; pw_obs := o |} = Ok (w, a) /\
    (forall s x', zset x2 col s = Some x' -> zget (F t x') row = Some (f s)) /\
    zget x2 col = Some 0%R /\ derivable_pt_lim f 0 l /\ dense (set_values A a) row col <> l.
Proof.
  intros dom d variant p A F HV HN HT HM VR B1 B2 B3 HX EA HF.
  destruct (make3_inv dom d HV HM) as (W & D). subst dom. set (dom := d3_domain d) in *.
  destruct (jac3_five d W A EA) as (FC & SH). fold dom in FC, SH.
  assert (I : inside3 dom 0 0 0) by (unfold five_cells in FC; unfold inside3; lia).
  assert (I' : inside3 dom (nx dom - 1) 0 0) by (unfold five_cells in FC; unfold inside3; lia).
  set (v0 := fun _ _ _ : Z => 0%R). set (v1 := replaced v0 (nx dom - 1) 0 0 1%R).
  destruct (vec3 dom v1 HV) as (x1 & V1). destruct (vec3 dom v0 HV) as (x2 & V2).
  exists x1, x2, (cellno dom 0 0 0), (cellno dom (nx dom - 1) 0 0).
  split; [apply V1|]. split; [apply V2|]. intros O notify mon ta tr sc c r x y o t out vals OK SC SR LO LV.
  destruct (Hrhs3 d variant p W HT HN VR sc c r t x1 x y out OK SC SR (proj1 V1) LO) as (sc' & c1 & r1 & E1 & _ & _ & (u & VU & HC) & _).
  fold dom in VU, HC.
  destruct (copy_from3 d c1 x2 v0 W (proj1 HC) V2) as (c2 & E2 & HI2 & SH2). fold dom in HI2, SH2.
  set (w := fun i j k => if (0 <=? i) && (i <? nx dom) && (0 <=? j) && (j <? ny dom) && (0 <=? k) && (k <? nz dom)
                         then 0%R else extend3 dom u i j k).
  assert (HW : holds3 dom c2 w).
  { split; [apply HI2|]. intros i j k P. unfold w.
    destruct ((0 <=? i) && (i <? nx dom) && (0 <=? j) && (j <? ny dom) && (0 <=? k) && (k <? nz dom)) eqn:Q.
    - apply (proj2 HI2). unfold inside3. lia.
    - rewrite <- (proj2 SH2); [apply HC; exact P|exact P|]. unfold inside3. lia. }
  pose proof (shape_wf dom A FC HV SH) as WF.
  set (J0 := set_values_kept_ref A vals).
  assert (M0 : mats3 A J0) by (unfold J0, mats3; cbn; auto).
  pose proof (jac_same d p A c2 J0 M0) as JS.
  destruct (jac_dense dom d p A c2 w HV FC ltac:(lia) HM EA HW) as (J & EJ & _ & _ & _ & DE).
  destruct (eval_jacobian_spec d dom p A c2 w W eq_refl ltac:(lia) WF (proj1 SH) HW) as (vv & EJ' & _).
  assert (J = set_values A vv) as -> by congruence. rewrite EJ' in JS.
  destruct (eval_jacobian d p c2 J0) as [J1| | |] eqn:E3; try contradiction. destruct JS as (EV & EJ1).
  cbn [set_values m_vals] in EV.
  eexists _, vv, (fun s => CH3 (d3_dx d) (ch_m p) (ch_sigma p) (ch_eps2 p) (extend3 dom (replaced v0 (nx dom - 1) 0 0 s)) 0 0 0),
    (jac_deriv dom v0 (nx dom - 1) 0 0 (d3_dx d) (ch_sigma p) (ch_eps2 p) 0 0 0).
  split; [|split; [|split; [|split]]].
  - cbn [run_ts]. unfold call_rhs. cbn [pw_sc pw_sol pw_res deps3 pd_eval pd_idx]. rewrite E1. cbn [rbind pw_jac pw_obs].
    unfold call_jac. cbn [pw_sc pw_sol pw_res pw_jac pw_obs]. unfold copy_from_vec_state. cbn [nth_error of_opt rbind deps3 pd_idx pd_jac].
    rewrite E2. cbn [rbind]. change (upd [c1] 0 c2) with [c2]. unfold ch_jac3. cbn [nth_error of_opt rbind].
    fold J0. rewrite E3. cbn [rbind]. rewrite EV. reflexivity.
  - intros s x' E. apply (HF t x' (replaced v0 (nx dom - 1) 0 0 s)); [|exact I]. apply (zset_replaced dom x2); auto.
  - apply (proj2 V2 (nx dom - 1) 0 0 I').
  - apply (CH3_derive_periodic dom v0); auto.
  - rewrite (DE 0 0 0 (nx dom - 1) 0 0 I I'). apply stale_entry; auto.
    unfold w. change (0 <=? -1) with false. cbn [andb]. unfold extend3. rewrite B1, B2, B3. cbn [extend1].
    rewrite (vec_same3 dom x1 u v1 VU V1).
    + unfold v1, replaced. replace ((-1) mod nx dom) with (nx dom - 1).
      * rewrite !Z.mod_0_l by (unfold five_cells in FC; lia). rewrite !Z.eqb_refl. reflexivity.
      * replace (-1) with ((nx dom - 1) + (-1) * nx dom) by lia. rewrite Z_mod_plus_full.
        symmetry. apply Z.mod_small. unfold five_cells in FC. lia.
    + unfold inside3. repeat split; apply Z.mod_pos_bound; unfold five_cells in FC; lia.
Qed.

Lemma pf_C71_monitored_vector_refuted :
  forall (V : Type) (N : Num V) (dom : domain V) (d : disc3 V) (variant : Z) (p : ch_params V) (A : csr V) mon abs_tol rel_tol
    sc c r x y t x1 out v step time dt,
  valid_domain3 dom -> 2 <= nhalo dom -> nhalo dom <= nx dom /\ nhalo dom <= ny dom /\ nhalo dom <= nz dom ->
  make3 dom = Ok d -> 0 <= variant <= 2 -> scratch_fits (cells3 dom) sc -> same_cells3 dom c x -> same_cells3 dom r y ->
  zlen x1 = nx dom * ny dom * nz dom -> zlen out = zlen x1 -> v <> x1 ->
  let record := fun (e : event) (_ : Z) (_ _ : V) (sol _ : state V) (o : list (event * state V)) => Ok (o ++ [(e, sol)]) in
  exists w c', run_ts (deps3 d variant p record mon abs_tol rel_tol)
      (TsRhs t x1 out (fun _ => TsMon step time dt v (TsDone v)))
      {| pw_sc := sc; pw_sol := [c]; pw_res := [r]; pw_jac := A; pw_obs := [] |} = Ok (w, v) /\
    pw_obs w = [(TimeStepComplete, [c']); (SolutionUpdate, [c'])] /\
    same_cells3 dom c' x1 /\ ~ same_cells3 dom c' v.
Proof.
  intros V N dom d variant p A mon ta tr sc c r x y t x1 out v step time dt HV HN HT HM VR OK SC SR L1 LO NE record.
  destruct (make3_inv dom d HV HM) as (W & D). subst dom. rewrite L1 in LO.
  destruct (Hrhs3 d variant p W HT HN VR sc c r t x1 x y out OK SC SR L1 LO) as (sc' & c1 & r1 & E1 & _ & S1 & _).
  eexists _, c1. split; [|split; [|split; [exact S1|]]].
  - cbn [run_ts]. unfold call_rhs. cbn [pw_sc pw_sol pw_res deps3 pd_eval pd_idx]. rewrite E1. cbn [rbind pw_jac pw_obs].
    unfold call_mon. cbn [pw_sc pw_sol pw_res pw_jac pw_obs deps3 pd_notify rbind record app]. reflexivity.
  - reflexivity.
  - intros (u & HI & VX). destruct S1 as (u1 & HI1 & VX1). apply NE.
    apply (vec_unique3 (d3_domain d) v x1 u HV VX). split; [apply VX1|]. intros i j k' I.
    rewrite (proj2 VX1 i j k' I). f_equal. pose proof (proj2 HI i j k' I) as Q1. rewrite (proj2 HI1 i j k' I) in Q1. congruence.
Qed.

(** ** When the steppers are told to stop *)

Lemma find_report (l : list (string * R)) A B :
  find_stat "abs_res" (map (fun e => (append "res_" (fst e), snd e)) l ++ [("abs_res"%string, A); ("rel_res"%string, B)]) = Ok A /\
  find_stat "rel_res" (map (fun e => (append "res_" (fst e), snd e)) l ++ [("abs_res"%string, A); ("rel_res"%string, B)]) = Ok B.
Proof.
  induction l as [|(n, v) l IH]; [split; reflexivity|]. cbn [map app fst snd find_stat].
  cbn. exact IH.
Qed.

Lemma Rneqb0 (t : R) : neqb t (nint 0) = true <-> t = 0%R.
Proof. cbn. unfold Reqb. destruct (Req_EM_T t 0); split; intros; congruence. Qed.

Lemma tol_spec name (t a : R) mon : find_stat name mon = Ok a ->
  exists b, tolerance_met name t mon = Ok b /\ (b = true <-> t <> 0%R /\ (a <= t)%R).
Proof.
  intros E. unfold tolerance_met. destruct (neqb t (nint 0)) eqn:Q.
  - exists false. split; [reflexivity|]. apply Rneqb0 in Q. split; [discriminate|]. intros (C & _). contradiction.
  - assert (NZ : t <> 0%R) by (intros C; apply Rneqb0 in C; congruence).
    rewrite E. cbn [rbind]. eexists. split; [reflexivity|]. rewrite Bool.orb_true_iff. split.
    + intros [C|C]; split; auto.
      * change (Rltb a t = true) in C. unfold Rltb in C. destruct (Rlt_dec a t); [lra|discriminate].
      * change (Reqb a t = true) in C. unfold Reqb in C. destruct (Req_EM_T a t); [lra|discriminate].
    + intros (_ & C). destruct (Req_EM_T a t) as [E0|NE].
      * right. change (Reqb a t = true). unfold Reqb. destruct (Req_EM_T a t); [reflexivity|contradiction].
      * left. change (Rltb a t = true). unfold Rltb. destruct (Rlt_dec a t); [reflexivity|lra].
Qed.

Lemma pf_C71_stop_rule :
  forall (l : list (string * R)) (A B abs_tol rel_tol : R),
  (exists b, petsc_post_step abs_tol rel_tol
       (map (fun e => (append "res_" (fst e), snd e)) l ++ [("abs_res"%string, A); ("rel_res"%string, B)]) = Ok b /\
     (b = true <-> (abs_tol <> 0 /\ A <= abs_tol)%R \/ (rel_tol <> 0 /\ B <= rel_tol)%R)) /\
  ((abs_tol <> 0 \/ rel_tol <> 0)%R -> petsc_post_step abs_tol rel_tol [] = Fatal) /\
  petsc_post_step 0%R 0%R [] = Ok false.
Proof.
  intros l A B ta tr. destruct (find_report l A B) as (F1 & F2). split; [|split].
  - destruct (tol_spec _ ta A _ F1) as (b1 & E1 & H1). destruct (tol_spec _ tr B _ F2) as (b2 & E2 & H2).
    unfold petsc_post_step. rewrite E1. cbn [rbind]. rewrite E2. cbn [rbind]. exists (b1 || b2). split; [reflexivity|].
    rewrite Bool.orb_true_iff. tauto.
  - intros H. unfold petsc_post_step, tolerance_met. cbn [find_stat rbind].
    destruct (neqb ta (nint 0)) eqn:Q1; [|reflexivity]. destruct (neqb tr (nint 0)) eqn:Q2; [|reflexivity].
    apply Rneqb0 in Q1, Q2. destruct H; contradiction.
  - unfold petsc_post_step, tolerance_met. rewrite !(proj2 (Rneqb0 0%R) eq_refl). reflexivity.
Qed.

Lemma C71_stop_rule_aux l A B ta tr : exists b, petsc_post_step ta tr
       (map (fun e => (append "res_" (fst e), snd e)) l ++ [("abs_res"%string, A); ("rel_res"%string, B)]) = Ok b /\
     (b = true <-> (ta <> 0 /\ A <= ta)%R \/ (tr <> 0 /\ B <= tr)%R).
Proof. apply (pf_C71_stop_rule l A B ta tr). Qed.

Lemma pf_C71_same_rule_refuted :
  forall (o : time_options R) (tol : R), (0 < tol < 1)%R -> t_abs_tol o = tol ->
  (abs_converged o [("res_c"%string, 0%R); ("abs_res"%string, 1%R); ("rel_res"%string, 1%R)] = Ok true /\
   petsc_post_step tol 0%R [("res_c"%string, 0%R); ("abs_res"%string, 1%R); ("rel_res"%string, 1%R)] = Ok false) /\
  (abs_converged o [("res_c"%string, tol); ("abs_res"%string, tol); ("rel_res"%string, 1%R)] = Ok false /\
   petsc_post_step tol 0%R [("res_c"%string, tol); ("abs_res"%string, tol); ("rel_res"%string, 1%R)] = Ok true).
Proof.
  intros o tol H E. assert (NZ : ModelTime.nonzero (t_abs_tol o) = true).
  { unfold ModelTime.nonzero. rewrite E. destruct (neqb tol (nint 0)) eqn:Q; [|reflexivity]. apply Rneqb0 in Q. lra. }
  unfold abs_converged. rewrite NZ, E.
  assert (LT : forall a b : R, nltb a b = true <-> (a < b)%R).
  { intros a b. change (nltb a b) with (Rltb a b). unfold Rltb. destruct (Rlt_dec a b); split; intros; auto; try discriminate; lra. }
  destruct (C71_stop_rule_aux [("c"%string, 0%R)] 1%R 1%R tol 0%R) as (b1 & E1 & H1).
  destruct (C71_stop_rule_aux [("c"%string, tol)] tol 1%R tol 0%R) as (b2 & E2 & H2).
  cbn [map app fst snd append] in E1, E2. rewrite E1, E2. split; split.
  - f_equal. apply LT. lra.
  - f_equal. destruct b1; [|reflexivity]. destruct (proj1 H1 eq_refl) as [(_ & C)|(C & _)]; [lra|congruence].
  - f_equal. destruct (nltb tol tol) eqn:Q; [|reflexivity]. apply LT in Q. lra.
  - f_equal. apply H2. left. lra.
Qed.

(** ** Conservation *)

Definition vtotal3 (dom : domain R) (x : list R) : R := total3 dom (fun i j k => entry x (cellno dom i j k)).

Lemma vtotal_holds3 (dom : domain R) x u : vec_holds3 dom x u -> vtotal3 dom x = total3 dom u.
Proof.
  intros (_ & H). apply sum3_ext. intros i j k Hi Hj Hk. unfold entry. unfold cellno. rewrite H; [reflexivity|]. split; auto.
Qed.

Lemma vtotal_comb3 (dom : domain R) x0 ys x : zlen x0 = nx dom * ny dom * nz dom ->
  (forall y, In y ys -> vtotal3 dom y = 0%R) -> combination x0 ys x -> vtotal3 dom x = vtotal3 dom x0.
Proof.
  intros L0 HY (cs & LC & H). unfold vtotal3, total3.
  rewrite (sum3_ext (nx dom) (ny dom) (nz dom) _ (fun i j k => entry x0 (cellno dom i j k)
     + Rsum (map (fun t => fst t * entry (snd t) (cellno dom i j k)) (combine cs ys)))%R).
  2:{ intros i j k Hi Hj Hk. apply H. rewrite L0. apply cellno_range. split; auto. }
  rewrite sum3_plus.
  assert (Z0 : sum3 (nx dom) (ny dom) (nz dom) (fun i j k => Rsum (map (fun t => fst t * entry (snd t) (cellno dom i j k))%R (combine cs ys))) = 0%R).
  { clear H. revert cs LC. induction ys as [|y ys IH]; intros cs LC.
    - destruct cs; [|discriminate]. cbn [combine map Rsum fold_right].
      rewrite (sum3_ext _ _ _ _ (fun i j k => 0 * 0)%R) by (intros; ring). rewrite sum3_scal. ring.
    - destruct cs as [|c0 cs]; [discriminate|]. cbn [combine map Rsum fold_right fst snd].
      rewrite sum3_plus, sum3_scal. change (sum3 (nx dom) (ny dom) (nz dom) (fun i j k => entry y (cellno dom i j k))) with (vtotal3 dom y).
      rewrite (HY y (or_introl eq_refl)). 
      etransitivity; [apply (f_equal2 Rplus); [reflexivity|apply (IH (fun z Hz => HY z (or_intror Hz)) cs)]|]; [cbn in LC; congruence|ring]. }
  rewrite Z0. ring.
Qed.

Lemma ideal_linear {O} (n : Z) (T : list R -> R) F G notify post x0 p : zlen x0 = n ->
  (forall ys x, (forall y, In y ys -> T y = 0%R) -> combination x0 ys x -> T x = T x0) ->
  (forall t x, zlen x = n -> T (F t x) = 0%R /\ zlen (F t x) = n) ->
  forall m (jac : Prop) last ys i i' z, (jac -> forall x, zlen x = n -> zlen (G x) = m) ->
  ts_fits n m jac last p -> (forall x, last = Some x -> zlen x = n) ->
  (forall y, In y ys -> T y = 0%R) -> linear_method x0 ys p ->
  ideal_ts (V:=R) (O:=O) F G notify post p i = Ok (i', z) -> T z = T x0.
Proof.
  intros L0 HT HF. induction p as [x|t x out k IH|t x vals k IH|k IH|k IH|step time dt v k IH];
    intros m jac last ys i i' z HG FT LL HY LM E; cbn [ts_fits linear_method ideal_ts] in *.
  - injection E as <- <-. apply (HT ys); auto.
  - destruct FT as (LX & LO & FT). destruct (HF t x LX) as (F0 & LF).
    refine (IH (F t x) m jac (Some x) (F t x :: ys) _ i' z HG (FT _ LF) _ _ (LM _ (eq_trans LF (eq_sym L0))) E).
    + intros x' Q. injection Q as <-. exact LX.
    + intros y [<-|Hy]; auto.
  - destruct FT as (Hj & LS & LV & FT).
    exact (IH (G x) m jac last ys _ i' z HG (FT _ (HG Hj x (LL x LS))) LL HY (LM _) E).
  - apply (IH m jac last ys i i' z); auto.
  - destruct (post (iw_obs i)) as [b| | |]; cbn [rbind] in E; try discriminate.
    apply (IH b m jac last ys i i' z); auto.
  - destruct (notify TimeStepComplete step time dt (iw_sol i) (iw_res i) (iw_obs i)) as [o| | |]; cbn [rbind] in E; try discriminate.
    destruct (notify SolutionUpdate step time dt (iw_sol i) (iw_res i) o) as [o'| | |]; cbn [rbind] in E; try discriminate.
    eapply (IH m jac last ys _ i' z); eauto.
Qed.

Lemma pf_C71_mass_3d :
  forall (dom : domain R) (d : disc3 R) (variant : Z) (p : ch_params R) (A : csr R),
  valid_domain3 dom -> 2 <= nhalo dom -> nhalo dom <= nx dom /\ nhalo dom <= ny dom /\ nhalo dom <= nz dom ->
  make3 dom = Ok d -> 0 <= variant <= 2 -> xbc dom = Periodic -> ybc dom = Periodic -> zbc dom = Periodic ->
  ch_sigma p = 0%R ->
  forall (O : Type) notify notify' mon abs_tol rel_tol sc c r x y (o : O) ts u w,
  reads_cells3 dom notify notify' -> scratch_fits (cells3 dom) sc -> same_cells3 dom c x -> same_cells3 dom r y ->
  ts_fits (nx dom * ny dom * nz dom) (zlen (m_vals A)) (create_matrix d = Ok A) None (ts x) ->
  linear_method x [] (ts x) -> holds_inside3 dom c u ->
  petsc_run (deps3 d variant p notify mon abs_tol rel_tol) (nx dom * ny dom * nz dom) ts
    {| pw_sc := sc; pw_sol := [c]; pw_res := [r]; pw_jac := A; pw_obs := o |} = Ok w ->
  exists c' u', pw_sol w = [c'] /\ holds_inside3 dom c' u' /\ total3 dom u' = total3 dom u.
Proof.
  intros dom d variant p A HV HN HT HM VR B1 B2 B3 SG O notify notify' mon ta tr sc c r x y o ts u w RC OK SC SR FT LM HU E.
  pose proof (like3 dom d variant p A HV HN HT HM VR O notify notify' mon ta tr sc c r x y o ts RC OK SC SR FT) as SL.
  rewrite E in SL.
  destruct (ideal_ts (F3 d variant p) (G3 d variant p A) notify' (fun o0 => petsc_post_step ta tr (mon o0)) (ts x) {| iw_sol := x; iw_res := y; iw_obs := o |})
    as [(i', z)| | |] eqn:EI; cbn [same_outcome] in SL; try contradiction. cbn [fst snd] in SL.
  destruct SL as ((c' & ES & (u' & HU' & VZ)) & _). exists c', u'. split; [exact ES|]. split; [exact HU'|].
  destruct SC as (u0 & HU0 & VX).
  destruct (make3_inv dom d HV HM) as (W & D). subst dom. set (dom := d3_domain d) in *.
  assert (VT : vtotal3 dom z = vtotal3 dom x).
  { apply (ideal_linear (O:=O) (nx dom * ny dom * nz dom) (vtotal3 dom) (F3 d variant p) (G3 d variant p A) notify' (fun o0 => petsc_post_step ta tr (mon o0)) x (ts x) (proj1 VX))
      with (m := zlen (m_vals A)) (jac := create_matrix d = Ok A) (last := None) (ys := []) (i := {| iw_sol := x; iw_res := y; iw_obs := o |}) (i' := i'); auto.
    - intros ys x1 HY HC. apply (vtotal_comb3 dom x ys); auto. apply VX.
    - intros t x1 L1. pose proof (F3_CH dom d variant p t x1 _ HV HN HT HM VR (vec_fun3 dom x1 HV L1)) as HF.
      split; [|apply HF]. rewrite (vtotal_holds3 dom _ _ HF). rewrite total3_CH; [rewrite SG; ring|exact HV|repeat split; congruence].
    - intros EA x1 L1. apply (HG3 d variant p W HT HN VR A x1 EA L1).
    - intros x' Q. discriminate.
    - intros y' []. }
  rewrite (vtotal_holds3 dom z u' VZ), (vtotal_holds3 dom x u0 VX) in VT. rewrite VT.
  apply sum3_ext. intros i j k Hi Hj Hk. assert (I : inside3 dom i j k) by (repeat split; auto; lia).
  pose proof (proj2 HU i j k I) as Q. rewrite (proj2 HU0 i j k I) in Q. congruence.
Qed.

Definition vtotal2 (dom : domain R) (x : list R) : R := total2 dom (fun i j => entry x (i * nx dom + j)).

Lemma vtotal_holds2 (dom : domain R) x u : vec_holds2 dom x u -> vtotal2 dom x = total2 dom u.
Proof.
  intros (_ & H). apply sum2_ext. intros i j Hi Hj. unfold entry. rewrite H; [reflexivity|]. split; auto.
Qed.

Lemma vtotal_comb2 (dom : domain R) x0 ys x : zlen x0 = nx dom * nx dom ->
  (forall y, In y ys -> vtotal2 dom y = 0%R) -> combination x0 ys x -> vtotal2 dom x = vtotal2 dom x0.
Proof.
  intros L0 HY (cs & LC & H). unfold vtotal2, total2.
  rewrite (sum2_ext (nx dom) (nx dom) _ (fun i j => entry x0 (i * nx dom + j)
     + Rsum (map (fun t => fst t * entry (snd t) (i * nx dom + j)%Z) (combine cs ys)))%R).
  2:{ intros i j Hi Hj. apply H. rewrite L0. clear - Hi Hj. nia. }
  rewrite sum2_plus.
  assert (Z0 : sum2 (nx dom) (nx dom) (fun i j => Rsum (map (fun t => fst t * entry (snd t) (i * nx dom + j)%Z)%R (combine cs ys))) = 0%R).
  { clear H. revert cs LC. induction ys as [|y ys IH]; intros cs LC.
    - destruct cs; [|discriminate]. cbn [combine map Rsum fold_right].
      rewrite (sum2_ext _ _ _ (fun i j => 0 * 0)%R) by (intros; ring). rewrite sum2_scal. ring.
    - destruct cs as [|c0 cs]; [discriminate|]. cbn [combine map Rsum fold_right fst snd].
      rewrite sum2_plus, sum2_scal. change (sum2 (nx dom) (nx dom) (fun i j => entry y (i * nx dom + j))) with (vtotal2 dom y).
      rewrite (HY y (or_introl eq_refl)).
      etransitivity; [apply (f_equal2 Rplus); [reflexivity|apply (IH (fun z Hz => HY z (or_intror Hz)) cs)]|]; [cbn in LC; congruence|ring]. }
  rewrite Z0. ring.
Qed.

Lemma pf_C71_mass_2d :
  forall (dom : domain R) (d : disc2 R) (p : ch_params R),
  valid_domain2 dom -> 2 <= nhalo dom -> nhalo dom <= nx dom -> make2 dom = Ok d -> ch_sigma p = 0%R ->
  forall (O : Type) notify notify' mon abs_tol rel_tol sc c r x y A (o : O) ts u w,
  reads_cells2 dom notify notify' -> scratch_fits (cells2 dom) sc -> same_cells2 dom c x -> same_cells2 dom r y ->
  ts_fits (nx dom * nx dom) 0 False None (ts x) -> linear_method x [] (ts x) -> holds_inside2 dom c u ->
  petsc_run (deps2 d p notify mon abs_tol rel_tol) (nx dom * nx dom) ts
    {| pw_sc := sc; pw_sol := [c]; pw_res := [r]; pw_jac := A; pw_obs := o |} = Ok w ->
  exists c' u', pw_sol w = [c'] /\ holds_inside2 dom c' u' /\ total2 dom u' = total2 dom u.
Proof.
  intros dom d p HV HN HT HM SG O notify notify' mon ta tr sc c r x y A o ts u w RC OK SC SR FT LM HU E.
  pose proof (like2 dom d p HV HN HT HM O notify notify' mon ta tr sc c r x y A o ts RC OK SC SR FT) as SL.
  rewrite E in SL.
  destruct (ideal_ts (F2 d p) (fun x => x) notify' (fun o0 => petsc_post_step ta tr (mon o0)) (ts x) {| iw_sol := x; iw_res := y; iw_obs := o |})
    as [(i', z)| | |] eqn:EI; cbn [same_outcome] in SL; try contradiction. cbn [fst snd] in SL.
  destruct SL as ((c' & ES & (u' & HU' & VZ)) & _). exists c', u'. split; [exact ES|]. split; [exact HU'|].
  destruct SC as (u0 & HU0 & VX).
  destruct (make2_inv dom d HV HM) as (W & D). subst dom. set (dom := d2_domain d) in *.
  assert (VT : vtotal2 dom z = vtotal2 dom x).
  { apply (ideal_linear (O:=O) (nx dom * nx dom) (vtotal2 dom) (F2 d p) (fun x => x) notify' (fun o0 => petsc_post_step ta tr (mon o0)) x (ts x) (proj1 VX))
      with (m := 0) (jac := False) (last := None) (ys := []) (i := {| iw_sol := x; iw_res := y; iw_obs := o |}) (i' := i'); auto.
    - intros ys x1 HY HC. apply (vtotal_comb2 dom x ys); auto. apply VX.
    - intros t x1 L1. pose proof (F2_CH dom d p t x1 _ HV HN HT HM (vec_fun2 dom x1 L1)) as HF.
      split; [|apply HF]. rewrite (vtotal_holds2 dom _ _ HF). rewrite total2_CH; [rewrite SG; ring|exact HV].
    - intros [].
    - intros x' Q. discriminate.
    - intros y' []. }
  rewrite (vtotal_holds2 dom z u' VZ), (vtotal_holds2 dom x u0 VX) in VT. rewrite VT.
  apply sum2_ext. intros i j Hi Hj. assert (I : inside2 dom i j) by (split; auto; lia).
  pose proof (proj2 HU i j I) as Q. rewrite (proj2 HU0 i j I) in Q. congruence.
Qed.
