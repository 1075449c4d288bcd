(** A time stepper running against the callbacks of the program behaves as against the ideal
    program. *)
From Verif Require Import Outcome ZList ZListProofs Num Kernel KernelProofs Gather Loop
  ModelIndex IndexProofs ModelDisc3D ModelDisc2D ModelCH SpecGrid Disc3DProofs Stencil3Proofs Make3Proofs
  BC3Proofs Disc2DProofs Make2Proofs CHProofs SpecField SumProofs ModelReduce ReduceProofs ModelObs ModelTime Step1Proofs
  ModelCSR SpecMatrix ModelJac SpecJac Jac1Proofs Jac2Proofs Jac3Proofs Jac4Proofs SpecTime ModelRun
  ModelMon SpecMon Mon1Proofs Mon2Proofs Mon3Proofs Mon4Proofs ModelPetsc SpecPetsc.
From Coq Require Import Reals String Lra ZifyBool ZifyNat List.
Local Open Scope list_scope.
Local Open Scope Z_scope.

Section Abstract.
  Context {V : Type} `{N : Num V} {S O : Type} (D : pdeps (V:=V) S O).
  Variables (ok : S -> Prop) (n m : Z) (cells filled : list V -> list V -> Prop) (mats : csr V -> Prop) (jac : Prop)
    (F : V -> list V -> list V) (G : list V -> list V)
    (notify : event -> Z -> V -> V -> list V -> list V -> O -> res O).
  Hypothesis Hrhs : forall sc c r t x y z out, ok sc -> cells c y -> cells r z -> zlen x = n -> zlen out = n ->
    exists sc' c' r', petsc_rhs (pd_eval D) (pd_idx D) sc [c] [r] t x out = Ok (sc', [c'], [r'], F t x) /\
      ok sc' /\ cells c' x /\ filled c' x /\ cells r' (F t x).
  Hypothesis HF : forall t x, zlen x = n -> zlen (F t x) = n.
  Hypothesis HG : forall x, jac -> zlen x = n -> zlen (G x) = m.
  Hypothesis Hjac : forall c t x J vals, jac -> zlen x = n -> filled c x -> mats J -> zlen vals = m ->
    exists c' J', copy_from_vec_state (pd_idx D) [c] x = Ok [c'] /\ cells c' x /\ filled c' x /\
      pd_jac D [c'] t (set_values_kept_ref J vals) = Ok J' /\ m_vals J' = G x /\ mats J'.
  Hypothesis Hnot : forall e step time dt c r x y o, cells c x -> cells r y ->
    pd_notify D e step time dt [c] [r] o = notify e step time dt x y o.

  Definition winv (w : pworld (V:=V) S O) (i : iworld V O) : Prop :=
    ok (pw_sc w) /\ pw_obs w = iw_obs i /\ mats (pw_jac w) /\
    exists c r, pw_sol w = [c] /\ pw_res w = [r] /\ cells c (iw_sol i) /\ cells r (iw_res i).

  Definition wlast (last : option (list V)) (w : pworld (V:=V) S O) : Prop :=
    forall x, last = Some x -> zlen x = n /\ exists c, pw_sol w = [c] /\ filled c x.

  Lemma run_refines p : forall last w i, ts_fits n m jac last p -> winv w i -> wlast last w ->
    same_outcome (fun a b => winv (fst a) (fst b) /\ snd a = snd b /\ zlen (snd a) = n) (run_ts D p w)
      (ideal_ts F G notify (fun o => petsc_post_step (pd_abs_tol D) (pd_rel_tol D) (pd_monitor D o)) p i).
  Proof.
    induction p as [x|t x out k IH|t x vals k IH|k IH|k IH|step time dt v k IH]; intros last w i FT W L.
    - cbn. split; [exact W|]. split; [reflexivity|exact FT].
    - destruct FT as (LX & LO & FT). destruct W as (OKs & EO & MJ & c & r & ES & ER & C1 & C2).
      destruct (Hrhs (pw_sc w) c r t x _ _ out OKs C1 C2 LX LO) as (sc' & c' & r' & E & OK' & C1' & FL & C2').
      cbn [run_ts ideal_ts]. unfold call_rhs. rewrite ES, ER, E. cbn [rbind].
      apply (IH (F t x) (Some x)).
      + apply FT, HF, LX.
      + split; [exact OK'|]. cbn. split; [exact EO|]. split; [exact MJ|]. exists c', r'. auto.
      + intros x' Q. injection Q as <-. split; [exact LX|]. exists c'. auto.
    - destruct FT as (Hj & LS & LV & FT). destruct (L x LS) as (LX & c & ES & FL).
      destruct W as (OKs & EO & MJ & c0 & r & ES' & ER & C1 & C2).
      destruct (Hjac c t x (pw_jac w) vals Hj LX FL MJ LV) as (c' & J' & E1 & C1' & FL' & E2 & EG & MJ').
      cbn [run_ts ideal_ts]. unfold call_jac. rewrite ES, E1. cbn [rbind]. rewrite E2. cbn [rbind]. rewrite EG.
      apply (IH (G x) last).
      + apply FT, HG; auto.
      + split; [exact OKs|]. cbn. split; [exact EO|]. split; [exact MJ'|]. exists c', r. auto.
      + intros x' Q. assert (x' = x) as -> by congruence. split; [exact LX|]. exists c'. auto.
    - cbn [run_ts ideal_ts]. apply (IH last); auto.
    - cbn [run_ts ideal_ts]. destruct W as (OKs & EO & REST). rewrite EO.
      destruct (petsc_post_step (pd_abs_tol D) (pd_rel_tol D) (pd_monitor D (iw_obs i))) as [b| | |]; cbn; auto.
      apply (IH b last); auto. split; auto.
    - cbn [run_ts ideal_ts]. pose proof W as (OKs & EO & MJ & c & r & ES & ER & C1 & C2). unfold call_mon.
      rewrite ES, ER, EO. rewrite (Hnot TimeStepComplete step time dt c r _ _ (iw_obs i) C1 C2).
      destruct (notify TimeStepComplete step time dt (iw_sol i) (iw_res i) (iw_obs i)) as [o| | |]; cbn [rbind same_outcome]; auto.
      rewrite (Hnot SolutionUpdate step time dt c r _ _ o C1 C2).
      destruct (notify SolutionUpdate step time dt (iw_sol i) (iw_res i) o) as [o'| | |]; cbn [rbind same_outcome]; auto.
      apply (IH last).
      + exact FT.
      + split; [exact OKs|]. cbn. split; [reflexivity|]. split; [exact MJ|]. exists c, r. auto.
      + intros x' Q. destruct (L x' Q) as (LX & c' & ES' & FL). split; [exact LX|]. exists c'. split; auto. cbn. congruence.
  Qed.
End Abstract.

(** ** Three dimensions *)
Section Three.
  Context {V : Type} `{N : Num V}.

  Definition vfun3 (dom : domain V) (x : list V) (i j k : Z) : V :=
    match zget x ((i * ny dom + j) * nz dom + k) with Some v => v | None => nint 0 end.

  Lemma pos_range3 (dom : domain V) i j k : valid_domain3 dom -> inside3 dom i j k ->
    0 <= (i * ny dom + j) * nz dom + k < nx dom * ny dom * nz dom.
  Proof. intros _ I. exact (cellno_range dom i j k I). Qed.

  Lemma vec_fun3 (dom : domain V) x : valid_domain3 dom -> zlen x = nx dom * ny dom * nz dom -> vec_holds3 dom x (vfun3 dom x).
  Proof.
    intros HV L. split; [exact L|]. intros i j k I. unfold vfun3.
    destruct (zget x ((i * ny dom + j) * nz dom + k)) eqn:E; [reflexivity|].
    exfalso. destruct (zget_some x ((i * ny dom + j) * nz dom + k)) as (v & Q); [rewrite L; apply pos_range3; auto|]. congruence.
  Qed.

  Lemma vec_unique3 (dom : domain V) x y u : valid_domain3 dom -> vec_holds3 dom x u -> vec_holds3 dom y u -> x = y.
  Proof.
    intros HV (L1 & H1) (L2 & H2). apply zget_ext; [congruence|]. intros q Hq. rewrite L1 in Hq.
    destruct HV as (A & B & C & _).
    set (k := q mod nz dom). set (ij := q / nz dom). set (j := ij mod ny dom). set (i := ij / ny dom).
    assert (EQ : q = (i * ny dom + j) * nz dom + k).
    { unfold k, j, i. pose proof (Z.div_mod q (nz dom) ltac:(lia)) as E1. fold ij in E1.
      pose proof (Z.div_mod ij (ny dom) ltac:(lia)) as E2. nia. }
    assert (I : inside3 dom i j k).
    { pose proof (Z.mod_pos_bound q (nz dom) ltac:(lia)) as K. pose proof (Z.mod_pos_bound ij (ny dom) ltac:(lia)) as J.
      fold k in K. fold j in J.
      assert (0 <= ij < nx dom * ny dom).
      { unfold ij. split; [apply Z.div_pos; lia|]. apply Z.div_lt_upper_bound; nia. }
      assert (0 <= i < nx dom).
      { unfold i. split; [apply Z.div_pos; lia|]. apply Z.div_lt_upper_bound; nia. }
      unfold inside3. auto. }
    rewrite EQ, (H1 i j k I), (H2 i j k I). reflexivity.
  Qed.

  Lemma vec_same3 (dom : domain V) x u w : vec_holds3 dom x u -> vec_holds3 dom x w ->
    forall i j k, inside3 dom i j k -> u i j k = w i j k.
  Proof. intros (_ & A) (_ & B) i j k I. specialize (A i j k I). specialize (B i j k I). congruence. Qed.

  Variables (d : disc3 V) (variant : Z) (p : ch_params V).
  Let dom := d3_domain d.
  Let n := nx dom * ny dom * nz dom.
  Hypothesis (W : wf3 d) (HT : thick dom) (HN : 2 <= nhalo dom) (VR : 0 <= variant <= 2).

  Definition filled3 (c x : list V) : Prop := exists u, vec_holds3 dom x u /\ holds3 dom c (extend3 dom u).

  Lemma filled_unique3 c c' x : filled3 c x -> filled3 c' x -> c = c'.
  Proof.
    intros (u & V1 & H1) (u' & V2 & H2). assert (HV : valid_domain3 dom) by apply (wf_valid d W).
    apply (holds3_unique dom c c' (extend3 dom u) HV H1).
    destruct H2 as (L & H2). split; [exact L|]. intros i j k P. rewrite (H2 i j k P). f_equal.
    apply extend3_inside_ext; [exact HV|]. intros. apply (vec_same3 dom x); auto.
  Qed.

  Lemma rhs3_calls sc c r t x out : scratch_fits (cells3 dom) sc -> zlen c = cells3 dom -> zlen r = cells3 dom ->
    zlen x = n -> zlen out = n ->
    exists sc' c' r' y, petsc_rhs (ch_rhs3 d variant p) (d3_interior d) sc [c] [r] t x out = Ok (sc', [c'], [r'], y) /\
      scratch_fits (cells3 dom) sc' /\ holds_inside3 dom c' (vfun3 dom x) /\ holds3 dom c' (extend3 dom (vfun3 dom x)) /\
      holds_inside3 dom r' (ch_expr3 p (d3_dx d) (dx4_of variant (d3_dx d)) (extend3 dom (vfun3 dom x))) /\
      vec_holds3 dom y (ch_expr3 p (d3_dx d) (dx4_of variant (d3_dx d)) (extend3 dom (vfun3 dom x))).
  Proof.
    intros OK LC LR LX LO. assert (HV : valid_domain3 dom) by apply (wf_valid d W). assert (NH : 0 <= nhalo dom) by lia.
    set (v := vfun3 dom x). pose proof (vec_fun3 dom x HV LX) as HX. fold v in HX.
    destruct (copy_from3 d c x v W LC HX) as (c1 & E1 & HI1 & _).
    destruct (holds3_exists dom c1 HV (proj1 HI1)) as (w & HW).
    destruct (eval_rhs3_full d variant p sc c1 r w W HT HN VR HW LR OK) as (sc' & c' & r' & E2 & OK' & HC & HR & _).
    fold dom in OK', HC, HR.
    assert (AG : forall i j k, inside3 dom i j k -> w i j k = v i j k).
    { intros i j k I. destruct HW as (_ & HW). destruct HI1 as (_ & HI1). specialize (HI1 i j k I).
      rewrite HW in HI1 by (apply inside_padded3; auto). congruence. }
    assert (EX : forall i j k, extend3 dom w i j k = extend3 dom v i j k) by (apply extend3_inside_ext; auto).
    assert (HR' : holds_inside3 dom r' (ch_expr3 p (d3_dx d) (dx4_of variant (d3_dx d)) (extend3 dom v))).
    { apply (holds_inside3_ext dom r' _ _ HR). intros i j k _. apply ch_expr3_ext, EX. }
    destruct (copy_to3 d r' out _ W HR' LO) as (y & E3 & HY).
    exists sc', c', r', y. split; [|split; [exact OK'|split; [|split; [|split; [exact HR'|exact HY]]]]].
    - unfold petsc_rhs, copy_from_vec_state, copy_to_vec_state. cbn [nth_error of_opt rbind]. rewrite E1. cbn [rbind].
      change (upd [c] 0 c1) with [c1]. unfold ch_rhs3. cbn [nth_error of_opt rbind]. rewrite E2. cbn [rbind].
      change (upd [c1] 0 c') with [c']. change (upd [r] 0 r') with [r']. cbn [nth_error of_opt rbind]. rewrite E3. reflexivity.
    - split; [apply HC|]. intros i j k I. rewrite (proj2 HC) by (apply inside_padded3; auto). f_equal. rewrite EX.
      unfold extend3. destruct I as (I1 & I2 & I3). rewrite !extend1_inside by auto. reflexivity.
    - split; [apply HC|]. intros i j k P. rewrite (proj2 HC) by auto. f_equal. apply EX.
  Qed.

  (** The right-hand side as a function of the vector. *)
  Definition zero3 : list V := new_array (nint 0) (cells3 dom).
  Definition sc03 : scratch V := {| sc_lap := zero3; sc_arg := zero3; sc_bih := zero3; sc_lin := zero3 |}.
  Definition F3 (t : V) (x : list V) : list V :=
    match petsc_rhs (ch_rhs3 d variant p) (d3_interior d) sc03 [zero3] [zero3] t x (new_array (nint 0) n) with
    | Ok (_, _, _, y) => y
    | _ => []
    end.

  Lemma cells_pos3 : 0 <= cells3 dom /\ 0 <= n.
  Proof. destruct (wf_valid d W) as (A & B & C & E). fold dom in A, B, C, E. unfold cells3, n. split; repeat apply Z.mul_nonneg_nonneg; lia. Qed.

  Lemma F3_spec t x : zlen x = n ->
    vec_holds3 dom (F3 t x) (ch_expr3 p (d3_dx d) (dx4_of variant (d3_dx d)) (extend3 dom (vfun3 dom x))).
  Proof.
    intros LX. destruct cells_pos3 as (P1 & P2).
    assert (LZ : zlen zero3 = cells3 dom) by (apply zlen_new_array; exact P1).
    destruct (rhs3_calls sc03 zero3 zero3 t x (new_array (nint 0) n)) as (sc' & c' & r' & y & E & _ & _ & _ & _ & HY); auto.
    - repeat split; exact LZ.
    - apply zlen_new_array; exact P2.
    - unfold F3. rewrite E. exact HY.
  Qed.

  Lemma Hrhs3 sc c r t x y z out : scratch_fits (cells3 dom) sc -> same_cells3 dom c y -> same_cells3 dom r z ->
    zlen x = n -> zlen out = n ->
    exists sc' c' r', petsc_rhs (ch_rhs3 d variant p) (d3_interior d) sc [c] [r] t x out = Ok (sc', [c'], [r'], F3 t x) /\
      scratch_fits (cells3 dom) sc' /\ same_cells3 dom c' x /\ filled3 c' x /\ same_cells3 dom r' (F3 t x).
  Proof.
    intros OK (u1 & (LC & _) & _) (u2 & (LR & _) & _) LX LO. assert (HV : valid_domain3 dom) by apply (wf_valid d W).
    destruct (rhs3_calls sc c r t x out OK LC LR LX LO) as (sc' & c' & r' & y' & E & OK' & HI & HC & HR & HY).
    assert (y' = F3 t x) as -> by (apply (vec_unique3 dom _ _ _ HV HY); apply F3_spec; exact LX).
    exists sc', c', r'. split; [exact E|]. split; [exact OK'|]. pose proof (vec_fun3 dom x HV LX) as HX.
    split; [exists (vfun3 dom x); auto|]. split; [exists (vfun3 dom x); auto|]. eexists. split; [exact HR|exact HY].
  Qed.

  Lemma HF3 t x : zlen x = n -> zlen (F3 t x) = n.
  Proof. intros L. apply (F3_spec t x L). Qed.

  (** The Jacobian's values as a function of the vector. *)
  Variable A : csr V.
  Definition jac3 : Prop := create_matrix d = Ok A.
  Definition mats3 (J : csr V) : Prop :=
    m_rows J = m_rows A /\ m_cols J = m_cols A /\ m_row J = m_row A /\ m_col J = m_col A /\ zlen (m_vals J) = zlen (m_vals A).

  Definition fill3 (x : list V) : list V :=
    match petsc_rhs (ch_rhs3 d variant p) (d3_interior d) sc03 [zero3] [zero3] (nint 0) x (new_array (nint 0) n) with
    | Ok (_, [c], _, _) => c
    | _ => []
    end.
  Definition G3 (x : list V) : list V := match eval_jacobian d p (fill3 x) A with Ok J => m_vals J | _ => [] end.

  Lemma fill3_spec x : zlen x = n -> filled3 (fill3 x) x.
  Proof.
    intros LX. destruct cells_pos3 as (P1 & P2). assert (HV : valid_domain3 dom) by apply (wf_valid d W).
    assert (LZ : zlen zero3 = cells3 dom) by (apply zlen_new_array; exact P1).
    destruct (rhs3_calls sc03 zero3 zero3 (nint 0) x (new_array (nint 0) n)) as (sc' & c' & r' & y & E & _ & _ & HC & _); auto.
    - repeat split; exact LZ.
    - apply zlen_new_array; exact P2.
    - unfold fill3. rewrite E. exists (vfun3 dom x). split; [apply vec_fun3; auto|exact HC].
  Qed.

  Lemma five_cells_dec (dm : domain V) : five_cells dm \/ ~ five_cells dm.
  Proof. unfold five_cells. lia. Qed.

  Lemma jac3_five : jac3 -> five_cells dom /\ jac_shape dom A.
  Proof.
    intros EA. destruct (create_spec d W) as (A' & E' & SH).
    - destruct (five_cells_dec dom) as [Y|NO]; [exact Y|]. exfalso. unfold jac3 in EA.
      rewrite (create_short d W NO) in EA. discriminate.
    - destruct (five_cells_dec dom) as [Y|NO]; [|exfalso; unfold jac3 in EA; rewrite (create_short d W NO) in EA; discriminate].
      assert (A' = A) as -> by (unfold jac3 in EA; congruence). auto.
  Qed.

  Lemma jac_same f (J : csr V) : mats3 J -> 
    match eval_jacobian d p f J, eval_jacobian d p f A with
    | Ok J1, Ok A1 => m_vals J1 = m_vals A1 /\ J1 = set_values J (m_vals A1)
    | UB, UB => True | Fatal, Fatal => True | Throw, Throw => True
    | _, _ => False
    end.
  Proof.
    intros (E1 & E2 & E3 & E4 & E5). unfold eval_jacobian.
    destruct (zero_loop_spec (m_vals J)) as (v & Ev & Lv & Gv & _). destruct (zero_loop_spec (m_vals A)) as (v' & Ev' & Lv' & Gv' & _).
    assert (v' = v) as ->.
    { apply zget_ext; [congruence|]. intros q Hq. rewrite Lv' in Hq. rewrite Gv' by auto. rewrite Gv by congruence. reflexivity. }
    rewrite Ev, Ev'. cbn [rbind].
    assert (EB : jac_body d p J = jac_body d p A).
    { destruct J, A. cbn in E3, E4. subst. reflexivity. }
    rewrite E3, EB. destruct (forall_loop 0 (zlen (m_row A) - 1) (jac_body d p A) [f; v]) as [m'| | |]; cbn [rbind]; auto.
    destruct (nth_error m' 1); cbn [of_opt rbind]; auto.
  Qed.

  Lemma Hjac3 c t x J vals : jac3 -> zlen x = n -> filled3 c x -> mats3 J -> zlen vals = zlen (m_vals A) ->
    exists c' J', copy_from_vec_state (d3_interior d) [c] x = Ok [c'] /\ same_cells3 dom c' x /\ filled3 c' x /\
      ch_jac3 d p [c'] t (set_values_kept_ref J vals) = Ok J' /\ m_vals J' = G3 x /\ mats3 J'.
  Proof.
    intros EA LX FL MJ LV. assert (HV : valid_domain3 dom) by apply (wf_valid d W). assert (NH : 0 <= nhalo dom) by lia.
    destruct (jac3_five EA) as (FC & SH).
    destruct FL as (u & VX & HC).
    destruct (copy_from3 d c x u W (proj1 HC) VX) as (c' & E1 & HI & SH').
    assert (HC' : holds3 dom c' (extend3 dom u)).
    { split; [apply HI|]. intros i j k P. fold dom in SH', HI. destruct (inside3_dec dom i j k) as [I|O].
      - rewrite (proj2 HI i j k I). f_equal. unfold extend3. destruct I as (I1 & I2 & I3). rewrite !extend1_inside by auto. reflexivity.
      - destruct SH' as (_ & SH'). rewrite <- SH' by auto. apply HC. exact P. }
    assert (c' = c) as ->.
    { apply (holds3_unique dom c' c (extend3 dom u) HV HC' HC). }
    assert (c = fill3 x) as EC by (apply (filled_unique3 c (fill3 x) x); [exists u; auto|apply fill3_spec; exact LX]).
    pose proof (shape_wf dom A FC HV SH) as WF.
    destruct (eval_jacobian_spec d dom p A c (extend3 dom u) W eq_refl ltac:(lia) WF (proj1 SH) HC) as (v & EJ & Lv & _).
    set (J0 := set_values_kept_ref J vals).
    assert (M0 : mats3 J0). { destruct MJ as (X1 & X2 & X3 & X4 & X5). unfold J0, mats3. cbn. auto. }
    pose proof (jac_same c J0 M0) as JS. rewrite EJ in JS.
    destruct (eval_jacobian d p c J0) as [J1| | |] eqn:E2; try contradiction. destruct JS as (EV & EJ1).
    exists c, J1. split; [|split; [|split; [|split; [|split]]]].
    - unfold copy_from_vec_state. cbn [nth_error of_opt rbind]. rewrite E1. reflexivity.
    - exists u. split; auto.
    - exists u. auto.
    - unfold ch_jac3. cbn [nth_error of_opt rbind]. exact E2.
    - rewrite EV. unfold G3. rewrite <- EC, EJ. reflexivity.
    - rewrite EJ1. destruct M0 as (X1 & X2 & X3 & X4 & X5). unfold mats3. cbn [set_values m_rows m_cols m_row m_col m_vals]. auto.
  Qed.

  Lemma HG3 x : jac3 -> zlen x = n -> zlen (G3 x) = zlen (m_vals A).
  Proof.
    intros EA LX. assert (HV : valid_domain3 dom) by apply (wf_valid d W). destruct (jac3_five EA) as (FC & SH).
    destruct (fill3_spec x LX) as (u & VX & HC). pose proof (shape_wf dom A FC HV SH) as WF.
    destruct (eval_jacobian_spec d dom p A (fill3 x) (extend3 dom u) W eq_refl ltac:(lia) WF (proj1 SH) HC) as (v & EJ & Lv & _).
    unfold G3. rewrite EJ. exact Lv.
  Qed.
End Three.

(** ** Two dimensions *)
Section Two.
  Context {V : Type} `{N : Num V}.

  Definition vfun2 (dom : domain V) (x : list V) (i j : Z) : V :=
    match zget x (i * nx dom + j) with Some v => v | None => nint 0 end.

  Lemma vec_fun2 (dom : domain V) x : zlen x = nx dom * nx dom -> vec_holds2 dom x (vfun2 dom x).
  Proof.
    intros L. split; [exact L|]. intros i j I. unfold vfun2.
    destruct (zget x (i * nx dom + j)) eqn:E; [reflexivity|].
    exfalso. destruct (zget_some x (i * nx dom + j)) as (v & Q); [rewrite L; destruct I; nia|]. congruence.
  Qed.

  Lemma vec_unique2 (dom : domain V) x y u : 0 < nx dom -> vec_holds2 dom x u -> vec_holds2 dom y u -> x = y.
  Proof.
    intros A (L1 & H1) (L2 & H2). apply zget_ext; [congruence|]. intros q Hq. rewrite L1 in Hq.
    set (j := q mod nx dom). set (i := q / nx dom).
    assert (EQ : q = i * nx dom + j).
    { unfold j, i. pose proof (Z.div_mod q (nx dom) ltac:(lia)) as E1. nia. }
    assert (I : inside2 dom i j).
    { pose proof (Z.mod_pos_bound q (nx dom) ltac:(lia)) as K. fold j in K.
      assert (0 <= i < nx dom).
      { unfold i. split; [apply Z.div_pos; lia|]. apply Z.div_lt_upper_bound; nia. }
      unfold inside2. auto. }
    rewrite EQ, (H1 i j I), (H2 i j I). reflexivity.
  Qed.

  Variables (d : disc2 V) (p : ch_params V).
  Let dom := d2_domain d.
  Let n := nx dom * nx dom.
  Hypothesis (W : wf2 d) (HT : nhalo dom <= nx dom) (HN : 2 <= nhalo dom).

  Lemma rhs2_calls sc c r t x out : scratch_fits (cells2 dom) sc -> zlen c = cells2 dom -> zlen r = cells2 dom ->
    zlen x = n -> zlen out = n ->
    exists sc' c' r' y, petsc_rhs (ch_rhs2 d p) (d2_interior d) sc [c] [r] t x out = Ok (sc', [c'], [r'], y) /\
      scratch_fits (cells2 dom) sc' /\ holds_inside2 dom c' (vfun2 dom x) /\
      holds_inside2 dom r' (ch_expr2 p (d2_dx d) (periodic2 dom (vfun2 dom x))) /\
      vec_holds2 dom y (ch_expr2 p (d2_dx d) (periodic2 dom (vfun2 dom x))).
  Proof.
    intros OK LC LR LX LO. pose proof (wf2_valid d W) as HV. fold dom in HV. assert (NH : 0 <= nhalo dom) by lia.
    set (v := vfun2 dom x). pose proof (vec_fun2 dom x LX) as HX. fold v in HX.
    destruct (copy_from2 d c x v W LC HX) as (c1 & E1 & HI1 & _).
    destruct (holds2_exists dom c1 HV (proj1 HI1)) as (w & HW).
    destruct (eval_rhs2_full d p sc c1 r w W HT HN HW LR OK) as (sc' & c' & r' & E2 & OK' & HC & HR & _).
    fold dom in OK', HC, HR.
    assert (AG : forall i j, inside2 dom i j -> w i j = v i j).
    { intros i j I. destruct HW as (_ & HW). destruct HI1 as (_ & HI1). specialize (HI1 i j I).
      rewrite HW in HI1 by (apply inside_padded2; auto). congruence. }
    assert (EX : forall i j, periodic2 dom w i j = periodic2 dom v i j).
    { intros i j. unfold periodic2. apply AG. split; apply Z.mod_pos_bound; lia. }
    assert (HR' : holds_inside2 dom r' (ch_expr2 p (d2_dx d) (periodic2 dom v))).
    { split; [apply HR|]. intros i j I. rewrite (proj2 HR i j I). f_equal. apply ch_expr2_ext, EX. }
    destruct (copy_to2 d r' out _ W HR' LO) as (y & E3 & HY).
    exists sc', c', r', y. split; [|split; [exact OK'|split; [|split; [exact HR'|exact HY]]]].
    - unfold petsc_rhs, copy_from_vec_state, copy_to_vec_state. cbn [nth_error of_opt rbind]. rewrite E1. cbn [rbind].
      change (upd [c] 0 c1) with [c1]. unfold ch_rhs2. cbn [nth_error of_opt rbind]. rewrite E2. cbn [rbind].
      change (upd [c1] 0 c') with [c']. change (upd [r] 0 r') with [r']. cbn [nth_error of_opt rbind]. rewrite E3. reflexivity.
    - split; [apply HC|]. intros i j I. rewrite (proj2 HC) by (apply inside_padded2; auto). f_equal. rewrite EX.
      unfold periodic2. destruct I as (I1 & I2). rewrite !Z.mod_small by auto. reflexivity.
  Qed.

  (** The right-hand side as a function of the vector. *)
  Definition zero2 : list V := new_array (nint 0) (cells2 dom).
  Definition sc02 : scratch V := {| sc_lap := zero2; sc_arg := zero2; sc_bih := zero2; sc_lin := zero2 |}.
  Definition F2 (t : V) (x : list V) : list V :=
    match petsc_rhs (ch_rhs2 d p) (d2_interior d) sc02 [zero2] [zero2] t x (new_array (nint 0) n) with
    | Ok (_, _, _, y) => y
    | _ => []
    end.

  Lemma F2_spec t x : zlen x = n -> vec_holds2 dom (F2 t x) (ch_expr2 p (d2_dx d) (periodic2 dom (vfun2 dom x))).
  Proof.
    intros LX.
    assert (LZ : zlen zero2 = cells2 dom).
    { apply zlen_new_array. unfold cells2. apply Z.mul_nonneg_nonneg; lia. }
    destruct (rhs2_calls sc02 zero2 zero2 t x (new_array (nint 0) n)) as (sc' & c' & r' & y & E & _ & _ & _ & HY); auto.
    - repeat split; exact LZ.
    - apply zlen_new_array. unfold n. nia.
    - unfold F2. rewrite E. exact HY.
  Qed.

  Lemma HF2 t x : zlen x = n -> zlen (F2 t x) = n.
  Proof. intros L. apply (F2_spec t x L). Qed.

  Lemma Hrhs2 sc c r t x y z out : scratch_fits (cells2 dom) sc -> same_cells2 dom c y -> same_cells2 dom r z ->
    zlen x = n -> zlen out = n ->
    exists sc' c' r', petsc_rhs (ch_rhs2 d p) (d2_interior d) sc [c] [r] t x out = Ok (sc', [c'], [r'], F2 t x) /\
      scratch_fits (cells2 dom) sc' /\ same_cells2 dom c' x /\ True /\ same_cells2 dom r' (F2 t x).
  Proof.
    intros OK (u1 & (LC & _) & _) (u2 & (LR & _) & _) LX LO.
    destruct (rhs2_calls sc c r t x out OK LC LR LX LO) as (sc' & c' & r' & y' & E & OK' & HI & HR & HY).
    assert (y' = F2 t x) as -> by (apply (vec_unique2 dom _ _ _ ltac:(lia) HY); apply F2_spec; exact LX).
    exists sc', c', r'. split; [exact E|]. split; [exact OK'|]. pose proof (vec_fun2 dom x LX) as HX.
    split; [exists (vfun2 dom x); auto|]. split; [exact I|]. eexists. split; [exact HR|exact HY].
  Qed.
End Two.
