(** Runs whose options have no sensible meaning: no step limit, no log frequency. *)
From Coq Require Import String.
From Verif Require Import ModelLogger ModelOptions Outcome ZList ZListProofs Num ModelInt32 ModelDisc3D ModelDisc2D ModelCH ModelObs
  ModelTime ModelRun ModelMon ModelVTK ModelMain ModelProgram ModelMG ModelMGCH ModelImplicit SpecGrid SpecField SpecTime SpecRestart SpecProgram
  Disc3DProofs Make3Proofs Disc2DProofs Make2Proofs VTK2Proofs Time1Proofs Time2Proofs Step1Proofs RestartProofs RestartFinal ProgramProofs Program2Proofs Program3Proofs Program4Proofs Program5Proofs Program8Proofs SpecLimits.
From Coq Require Import Lia ZifyBool ZifyNat List.
Local Open Scope string_scope.
Local Open Scope list_scope.
Local Open Scope Z_scope.

(** ** Results that are neither fatal nor an exception *)
Definition mild {A} (r : res A) (P : A -> Prop) : Prop :=
  match r with Ok a => P a | UB => True | _ => False end.

Section Loop.
  Context {V : Type} `{N : Num V} {X L : Type} (do_step : X -> V -> V -> res X) (next_dt : X -> V -> res (X * V))
    (monitor : X -> list (string * V)) (call : L -> Z -> V -> V -> X -> res X) (I : X -> Prop).
  Hypothesis Hstep : forall x t dt, I x -> mild (do_step x t dt) I.
  Hypothesis Hcall : forall l i t dt x, I x -> mild (call l i t dt x) I.
  Hypothesis Hnext : forall x dt, I x -> mild (next_dt x dt) (fun y => I (fst y)).

  Lemma calls_mild ls i t dt : forall x, I x -> mild (run_calls call ls i t dt x) I.
  Proof.
    induction ls as [|l ls IH]; intros x Hx; [exact Hx|]. cbn [run_calls].
    pose proof (Hcall l i t dt x Hx) as H. destruct (call l i t dt x); cbn [mild rbind] in *; auto.
  Qed.
  Lemma notify_mild g e : I (g_world g) -> mild (notify call g e) (fun y => I (g_world (fst y))).
  Proof.
    intros H. unfold notify. destruct (notify_observers (g_obs g) e) as [(ls, o)| | |] eqn:E; cbn [rbind mild]; auto.
    - pose proof (calls_mild ls (g_iter g) (g_time g) (g_dt g) _ H) as K. destruct (run_calls call ls _ _ _ _); cbn [rbind mild] in *; auto.
    - unfold notify_observers in E. destruct (o_observers (g_obs g) e); [|discriminate]. destruct (_ =? 0); [discriminate|]. destruct (INT_MAX <=? _); discriminate.
    - unfold notify_observers in E. destruct (o_observers (g_obs g) e); [|discriminate]. destruct (_ =? 0); [discriminate|]. destruct (INT_MAX <=? _); discriminate.
  Qed.
  Lemma advance_mild g : I (g_world g) -> mild (advance do_step call g) (fun y => I (g_world (fst y))).
  Proof.
    intros H. unfold advance. pose proof (Hstep (g_world g) (g_time g) (g_dt g) H) as K.
    destruct (do_step (g_world g) (g_time g) (g_dt g)) as [x| | |]; cbn [rbind mild] in *; auto.
    destruct (INT_MAX <=? g_iter g); [exact Logic.I|].
    match goal with |- context [notify call ?g1 TimeStepComplete] => pose proof (notify_mild g1 TimeStepComplete K) as K1;
      destruct (notify call g1 TimeStepComplete) as [(g2, l1)| | |] end; cbn [rbind mild fst] in *; auto.
    pose proof (notify_mild g2 SolutionUpdate K1) as K2.
    destruct (notify call g2 SolutionUpdate) as [(g3, l2)| | |]; cbn [rbind mild fst] in *; auto.
  Qed.
  Lemma loop_mild o : t_use_cfl o = false -> forall fuel g last, I (g_world g) ->
    match solve_loop do_step next_dt monitor call fuel o g last with
    | None => True
    | Some r => mild r (fun y => I (g_world (snd y)))
    end.
  Proof.
    intros NC. induction fuel as [|fuel IH]; intros g last H; [exact Logic.I|]. cbn [solve_loop].
    pose proof (advance_mild g H) as K. destruct (advance do_step call g) as [(g1, ls)| | |]; cbn [mild fst] in *; auto.
    destruct last; [exact K|].
    unfold compute_next. pose proof (Hnext (g_world g1) (g_dt g1) K) as K1.
    destruct (next_dt (g_world g1) (g_dt g1)) as [(x, dt)| | |]; cbn [rbind mild fst] in *; auto.
    rewrite NC. destruct (abs_converged o (monitor x)) as [ab| | |] eqn:EA; cbn [rbind mild]; auto.
    2,3: unfold abs_converged in EA; destruct (ModelTime.nonzero (t_abs_tol o)); [destruct (monitor x) as [|(?, ?)]|]; discriminate.
    match goal with |- context [if ?b then Some _ else _] => destruct b end; [exact K1|].
    match goal with |- context [solve_loop _ _ _ _ fuel o ?g2 ?l2] => specialize (IH g2 l2 K1);
      destruct (solve_loop do_step next_dt monitor call fuel o g2 l2) as [[(rs, gf)| | |]|] end; cbn [mild snd] in *; auto.
  Qed.
  Lemma solve_mild o fuel obs x : t_use_cfl o = false -> I x ->
    match solve do_step next_dt monitor call fuel o obs x with
    | None => True
    | Some r => mild r (fun y => I (g_world (snd y)))
    end.
  Proof. intros NC H. unfold solve. rewrite NC. apply loop_mild; auto. Qed.
End Loop.

Section Ends.
  Context {V : Type} `{N : Num V} {X : Type} (do_step : X -> V -> V -> res X) (next_dt : X -> V -> res (X * V))
    (monitor : X -> list (string * V)) (call : driver_call -> Z -> V -> V -> X -> res X).
  Variable o : time_options V.

  Lemma solve_first fuel obs x : (forall r, advance do_step call {| g_world := x; g_obs := obs; g_iter := t_initial_step o; g_time := t_t0 o; g_dt := t_dt_initial o |} <> Ok r) ->
    forall r, solve do_step next_dt monitor call fuel o obs x <> Some (Ok r).
  Proof.
    intros H r. unfold solve. destruct (t_use_cfl o); [discriminate|]. destruct fuel as [|fuel]; [discriminate|].
    cbn [solve_loop]. destruct (advance do_step call _) as [(g1, ls)| | |] eqn:E; try discriminate. exfalso. exact (H _ eq_refl).
  Qed.

  (** With a log frequency of zero the first step is never completed. *)
  Lemma no_log S x : forall r, advance do_step call {| g_world := x; g_obs := driver_observers 0 S; g_iter := t_initial_step o; g_time := t_t0 o; g_dt := t_dt_initial o |} <> Ok r.
  Proof.
    intros r. unfold advance. cbn [g_world g_obs g_iter g_time g_dt]. destruct (do_step x (t_t0 o) (t_dt_initial o)); try discriminate. cbn [rbind].
    destruct (INT_MAX <=? t_initial_step o); [discriminate|]. unfold notify, driver_observers. cbn [g_obs].
    destruct (S =? 0); discriminate.
  Qed.

  (** With solution files that cannot be named it is not completed either. *)
  Lemma no_file L S x : S <> 0 -> (forall i t dt y, call WriteSolution i t dt y = UB) ->
    forall r, advance do_step call {| g_world := x; g_obs := driver_observers L S; g_iter := t_initial_step o; g_time := t_t0 o; g_dt := t_dt_initial o |} <> Ok r.
  Proof.
    intros HS HW r. unfold advance. cbn [g_world g_obs g_iter g_time g_dt]. destruct (do_step x (t_t0 o) (t_dt_initial o)) as [y| | |]; try discriminate. cbn [rbind].
    destruct (INT_MAX <=? t_initial_step o); [discriminate|]. unfold notify at 1. cbn [g_obs].
    unfold driver_observers. apply Z.eqb_neq in HS. rewrite HS.
    match goal with |- context [notify_observers ?ob TimeStepComplete] => set (ob1 := ob) end.
    unfold notify_observers.
    destruct (o_observers ob1 TimeStepComplete) eqn:EO; [|discriminate EO].
    destruct (o_freq ob1 TimeStepComplete =? 0); [discriminate|]. destruct (INT_MAX <=? o_count ob1 TimeStepComplete); [discriminate|]. cbn [rbind].
    match goal with |- context [run_calls ?a ?b ?c ?d ?e ?f] => destruct (run_calls a b c d e f) as [y1| | |] end; try discriminate. cbn [rbind].
    unfold notify, notify_observers. cbn [g_obs o_observers o_freq o_count g_iter g_time g_dt g_world].
    change (o_observers ob1 SolutionUpdate) with (Some [WriteSolution]).
    change (o_freq ob1 SolutionUpdate) with S. rewrite HS.
    match goal with |- context [set_at (o_count ob1) TimeStepComplete ?v SolutionUpdate] => change (set_at (o_count ob1) TimeStepComplete v SolutionUpdate) with 0 end.
    change (INT_MAX <=? 0) with false. cbv iota. rewrite (Z.rem_0_l S) by (apply Z.eqb_neq; exact HS). cbn [Z.eqb rbind run_calls]. rewrite HW. discriminate.
  Qed.
End Ends.

Section Lost.
  Context {V : Type} `{N : Num V} (pl : platform V) (sn : scene V) (base : string) (size : Z) (P : Z -> Prop).
  Variables (L S : Z).
  Hypothesis Hname : forall b i, sn_name sn b i = UB \/ exists n, sn_name sn b i = Ok n.
  Hypothesis Hmon : forall c, zlen c = size -> exists m, sn_monitor sn c = Ok m.
  Hypothesis Hdoc : forall st c, zlen c = size -> exists doc, sn_write sn st c = Ok doc.
  Hypothesis Hidx : forall q, In q (sn_idx sn) -> 0 <= q < size.
  Variable o : time_options V.
  Hypothesis NC : t_use_cfl o = false.
  Variables (rhs : rhs_fun V (scratch V)) (f : V -> (nat -> Z -> V) -> nat -> Z -> V).
  Hypothesis C : computes rhs (scratch_fits size) 1 size P f.
  Hypothesis steady : forall t t' u e i, f t u e i = f t' u e i.
  (** What is wrong: no log frequency, or no limit on the steps. *)
  Hypothesis Wrong : L = 0 \/ forall b i, sn_name sn b i = UB.

  Lemma write_mild b i t dt c w : zlen c = size -> mild (write_file sn b i t dt [c] w) (fun _ => True).
  Proof.
    intros LC. unfold write_file. destruct (Hname b i) as [->|(n & ->)]; [exact I|]. cbn [rbind nth_error of_opt].
    destruct (Hdoc {| fs_iter := i; fs_time := t; fs_dt := dt |} c LC) as (doc & ->). exact I.
  Qed.
  Lemma callback_mild l i t dt ex c r w : zlen c = size -> zlen r = size -> mild (driver_callback pl sn base l i t dt ex [c] [r] w) (fun _ => True).
  Proof.
    intros LC LR. destruct l; cbn [driver_callback nth_error of_opt rbind].
    - destruct (residual_total pl {| sn_idx := sn_idx sn; sn_monitor := sn_monitor sn; sn_write := sn_write sn; sn_name := fun _ _ => Ok "" |} base size (fun _ _ => "")
        (fun _ _ => eq_refl) Hmon Hdoc Hidx (w_stats w) r LR) as (st' & m & ER). cbn [sn_idx] in ER. rewrite ER. exact I.
    - destruct (Hmon c LC) as (m & ->). exact I.
    - exact I.
    - unfold update_log. destruct (_ && _); exact I.
    - apply write_mild; auto.
  Qed.
  (** Undefined behaviour, or a run that is longer than [fuel] steps, which the first step excludes if it logs or saves. *)
  Definition lost_outcome {A} (fuel : nat) (r : option (res A)) : Prop :=
    (r = None \/ r = Some UB) /\ ((0 < fuel)%nat -> L = 0 \/ S <> 0 -> r = Some UB).

  Lemma info_ok l w : exists w', info pl l w = Ok w'.
  Proof. unfold info. destruct (infos_ok pl l (w_logger w)) as (g' & out & ->). eauto. Qed.

  Lemma run_lost {X} (do_step : X -> V -> V -> res X) next_dt monitor call (I : X -> Prop) (xu : X -> state V) (xw : X -> pworld V) x fuel :
    (forall x t dt, I x -> mild (do_step x t dt) I) -> (forall l i t dt x, I x -> mild (call l i t dt x) I) ->
    (forall x dt, I x -> mild (next_dt x dt) (fun y => I (fst y))) -> (forall x, I x -> exists c, xu x = [c] /\ zlen c = size) ->
    ((forall b i, sn_name sn b i = UB) -> forall i t dt y, call WriteSolution i t dt y = UB) -> I x ->
    let r := after (solve do_step next_dt monitor call fuel o (driver_observers L S) x)
      (fun '(_, gf) => write_file sn (base ++ "_final")%string (g_iter gf) (g_time gf) (g_dt gf) (xu (g_world gf)) (xw (g_world gf))) in
    lost_outcome fuel r.
  Proof.
    intros H1 H2 H3 H4 HW H r. unfold r, lost_outcome.
    pose proof (solve_mild do_step next_dt monitor call I H1 H2 H3 o fuel (driver_observers L S) x NC H) as K.
    destruct (solve do_step next_dt monitor call fuel o (driver_observers L S) x) as [[(rs, gf)| | |]|] eqn:E; cbn [mild after rbind snd] in *; try contradiction; auto.
    - destruct Wrong as [EL|W].
      + exfalso. revert E. rewrite EL. apply solve_first. apply no_log.
      + destruct (H4 _ K) as (c & -> & LC). unfold write_file. rewrite W. cbn [rbind]. auto.
    - split; [auto|]. intros HF HS. exfalso. revert E. unfold solve. rewrite NC. destruct fuel as [|fuel]; [lia|]. cbn [solve_loop].
      match goal with |- context [advance do_step call ?g] => assert (KA : forall r, advance do_step call g <> Ok r) end.
      { destruct Wrong as [EL|W]; [rewrite EL; apply no_log|]. destruct HS as [EL|HS]; [rewrite EL; apply no_log|]. apply no_file; auto. }
      match goal with |- context [advance do_step call ?g] => destruct (advance do_step call g) as [(g1, ls)| | |]; try discriminate end.
      exfalso. exact (KA _ eq_refl).
  Qed.

  Lemma rk3_lost fuel a set c w0 w : zlen a = size -> set a = Ok c -> state_holds 1 size P [c] w0 ->
    let r := run_rk3 pl fuel sn a rhs set o base (driver_observers L S) w in lost_outcome fuel r.
  Proof.
    intros LA E HC r. unfold r, run_rk3. rewrite E. cbn [lift].
    apply (run_lost (rk3_do rhs) (rk3_choose pl o) (fun x => l_residual (w_logger (k_rest x))) (rk3_callback pl sn base)
             (fun y => exists b, fit (scratch_fits size) 1 size P y b) k_u k_rest).
    - intros y t dt (b & H1 & H2 & H3 & H4).
      destruct (rk3_step_spec rhs (scratch_fits size) 1 size P f C (k_int y) (k_sc y) (k_u y) (k_du y) t dt b H1 H2 H4 H3)
        as (o' & sc' & u' & du' & E' & A1 & A2 & A3 & A4).
      unfold rk3_do. rewrite E'. cbn [rbind mild]. eexists. split; [exact A1|split; [exact A2|split; [exact (proj1 A4)|exact A3]]].
    - intros l i t dt y (b & H1 & H2 & H3 & H4). unfold rk3_callback.
      destruct (shaped_one size _ (proj1 H4)) as (c1 & E1). destruct (shaped_one size _ H3) as (r1 & E2).
      assert (L1 : zlen c1 = size). { rewrite E1 in H4. exact (proj2 (proj1 H4) O c1 eq_refl). }
      assert (L2 : zlen r1 = size). { rewrite E2 in H3. exact (proj2 H3 O r1 eq_refl). }
      rewrite E1, E2. pose proof (callback_mild l i t dt [] c1 r1 (k_rest y) L1 L2) as K.
      destruct (driver_callback pl sn base l i t dt [] [c1] [r1] (k_rest y)); cbn [rbind mild] in *; auto.
      exists b. rewrite E1 in H4. rewrite E2 in H3. split; [exact H1|split; [exact H2|split; [exact H3|exact H4]]].
    - intros y dt (b & H). unfold rk3_choose, rk3_next_dt. cbn [rbind].
      match goal with |- context [info pl ?l ?w1] => destruct (info_ok l w1) as (w' & ->) end. cbn [rbind mild fst]. exists b. exact H.
    - intros y (b & H1 & H2 & H3 & H4). destruct (shaped_one size _ (proj1 H4)) as (c1 & E1). exists c1. split; [exact E1|].
      rewrite E1 in H4. exact (proj2 (proj1 H4) O c1 eq_refl).
    - intros W i t dt y. unfold rk3_callback, driver_callback, write_file. rewrite W. reflexivity.
    - exists w0. split. { cbn [k_int]. unfold new_rk3. repeat split; cbn [r_k1 r_k2 r_k3 r_stage]; apply one_shaped; exact LA. }
      split; [repeat split; exact LA|]. split; [apply one_shaped; exact LA|exact HC].
  Qed.

  Lemma ode23_lost fuel a set c w0 w tol lo hi : zlen a = size -> set a = Ok c -> state_holds 1 size P [c] w0 ->
    let r := run_ode23 pl fuel sn a rhs set tol lo hi o base (driver_observers L S) w in lost_outcome fuel r.
  Proof.
    intros LA E HC r. unfold r, run_ode23. rewrite E. cbn [lift].
    apply (run_lost (ode23_do (pl_rmax pl) rhs) (ode23_choose pl o) (fun x => l_residual (w_logger (e_rest x))) (ode23_callback pl sn base)
             (fun y => exists b, fit23 size P f lo hi y b) e_u e_rest).
    - intros y t dt (b & H1 & H2 & H3 & H4 & H5 & H6).
      destruct (ode23_step_spec rhs (scratch_fits size) 1 size P f C (pl_rmax pl) (e_int y) (e_sc y) (e_u y) (e_du y) t dt b (f t b) H1 H2 H4 H3)
        as (o' & sc' & u' & du' & E' & A1 & A2 & A3 & A4 & A5 & A6 & A7 & A8 & A9 & _); auto.
      { intros F. eapply Time1Proofs.state_holds_ext; [|exact (H5 F)]. intros. apply steady. }
      unfold ode23_do. rewrite E'. cbn [rbind mild]. eexists.
      split; [exact A1|split; [exact A2|split; [exact (proj1 A5)|split; [exact A4|split; [|exact H6]]]]].
      intros _. eapply Time1Proofs.state_holds_ext; [|exact A9]. intros. apply steady.
    - intros l i t dt y (b & H1 & H2 & H3 & H4 & H5 & H6). unfold ode23_callback.
      destruct (shaped_one size _ (proj1 H4)) as (c1 & E1). destruct (shaped_one size _ H3) as (r1 & E2).
      assert (L1 : zlen c1 = size). { rewrite E1 in H4. exact (proj2 (proj1 H4) O c1 eq_refl). }
      assert (L2 : zlen r1 = size). { rewrite E2 in H3. exact (proj2 H3 O r1 eq_refl). }
      rewrite E1, E2. pose proof (callback_mild l i t dt [("time_err"%string, o_err (e_int y))] c1 r1 (e_rest y) L1 L2) as K.
      destruct (driver_callback pl sn base l i t dt [("time_err"%string, o_err (e_int y))] [c1] [r1] (e_rest y)); cbn [rbind mild] in *; auto.
      exists b. rewrite E1 in H4. rewrite E2 in H3. split; [exact H1|split; [exact H2|split; [exact H3|split; [exact H4|split; [exact H5|exact H6]]]]].
    - intros y dt (b & H1 & H2 & H3 & H4 & H5 & H6). unfold ode23_choose, ode23_next_dt.
      destruct (adapt_ok {| sn_idx := sn_idx sn; sn_monitor := sn_monitor sn; sn_write := sn_write sn; sn_name := fun _ _ => Ok "" |} base size (fun _ _ => "") S
        (fun _ _ => eq_refl) Hmon Hdoc Hidx o NC f steady lo hi (pl_pow pl) (e_pid y) (o_err (e_int y)) dt H6) as (p' & s' & EA & PF & CL). rewrite EA. cbn [rbind].
      match goal with |- context [info pl ?l ?w1] => destruct (info_ok l w1) as (w' & ->) end. cbn [rbind mild fst].
      exists b. split; [exact H1|split; [exact H2|split; [exact H3|split; [exact H4|split; [exact H5|exact PF]]]]].
    - intros y (b & H1 & H2 & H3 & H4 & _). destruct (shaped_one size _ (proj1 H4)) as (c1 & E1). exists c1. split; [exact E1|].
      rewrite E1 in H4. exact (proj2 (proj1 H4) O c1 eq_refl).
    - intros W i t dt y. unfold ode23_callback, driver_callback, write_file. rewrite W. reflexivity.
    - exists w0. split. { cbn [e_int]. unfold new_ode23. repeat split; cbn [o_k1 o_k2 o_k3 o_k4 o_stage]; apply one_shaped; exact LA. }
      split; [repeat split; exact LA|]. split; [apply one_shaped; exact LA|]. split; [exact HC|].
      split; [cbn; discriminate|]. unfold pid_fits. cbn. repeat split; auto; lia.
  Qed.

  Lemma lost m fuel a set c w0 w i other : zlen a = size -> set a = Ok c -> state_holds 1 size P [c] w0 -> i <> Elsewhere ->
    let r := run_with pl m fuel sn a rhs set o i base (driver_observers L S) w other in lost_outcome fuel r.
  Proof.
    intros LA E HC NI r. unfold r, run_with. destruct i; [eapply rk3_lost; eauto| |congruence].
    assert (UBL : lost_outcome fuel (Some (@UB (pworld V)))) by (split; auto).
    unfold get_double. destruct (m "time_rel_err_tol"); cbn [lift]; auto. destruct (m "min_time_step_size"); cbn [lift]; auto.
    destruct (m "max_time_step_size"); cbn [lift]; auto. eapply ode23_lost; eauto.
  Qed.
End Lost.

(** ** Whole programs *)
Local Ltac reads H := unfold asks_with, asked_with, given in H; repeat (apply Forall_cons_iff in H; let E := fresh "O" in destruct H as (E & H); cbn [fst snd] in E); clear H.
Section Program.
  Context {V : Type} `{N : Num V} (pl : platform V) (fuel : nat) (fs : string -> option string) (vts : string -> list xml)
    (other : members V -> option (res (pworld V))) (args : list string) (opts m : members V) (vm : vmap V).
  Hypothesis PO : parse_options (pl_read pl) (pl_lit pl) (pl_eps100 pl) (pl_max100 pl) fs args opts = Ok (Running m vm).
  Variables (s : settings V) (bx by_ bz : bctype) (rel abs : V).
  Hypothesis US : usable s.
  Hypothesis BX : bc_named (s_bc_x s) bx.
  Hypothesis BY : bc_named (s_bc_y s) by_.
  Hypothesis BZ : bc_named (s_bc_z s) bz.
  Hypothesis Wrong : s_log_every s = 0 \/ s_max_steps s = 0.
  Variables (ti : string) (f : integrator).
  Hypothesis HI : reg_lookup integrators ti = Ok f.
  Hypothesis HE : f <> Elsewhere.
  Local Notation dom := (grid_of s bx by_ bz).

  Lemma after_lost {A B} (r : option (res A)) (g : A -> res B) : lost_outcome (s_log_every s) (s_save_every s) fuel r -> lost_outcome (s_log_every s) (s_save_every s) fuel (after r g).
  Proof. intros ([->| ->] & H); cbn [after rbind]; split; auto. intros H1 H2. specialize (H H1 H2). discriminate. Qed.

  Lemma lost3 : asks_with m 3 ti "none" s rel abs -> lost_outcome (s_log_every s) (s_save_every s) fuel (madgicart pl fuel fs vts other args opts).
  Proof.
    intros A. destruct US as (SX & SY & SZ & VR).
    destruct (build3_ok pl m s bx by_ bz ltac:(lia) ltac:(lia) ltac:(lia) BX BY BZ ti f HI A VR) as (d & E & B).
    assert (HV : valid_domain3 dom) by (unfold valid_domain3; cbn; lia).
    pose proof (new_array3_len dom d HV ltac:(cbn; lia) E) as LA.
    destruct (random_initial_total (pl_draw pl) (s_m s) (d3_interior d) (create_real_array3 d)) as (c & EC & LC).
    { intros q Hq. rewrite LA. apply (scene3_idx pl dom d 1 HV ltac:(cbn; lia) E). exact Hq. }
    rewrite LA in LC. destruct (slots3 dom c ltac:(cbn; lia) LC) as (a & HA).
    destruct (start_ok pl (s_log_file s) (start_messages (config_template (pl_showg pl) (pl_lit pl) (pl_eps100 pl) (pl_max100 pl) vm) "none")) as (w0 & E0 & _).
    unfold madgicart. rewrite PO. cbn [lift]. reads A.
    unfold get_string, get_int, get_unsigned.
    repeat match goal with H : m ?n = _ |- context [m ?n] => rewrite H; clear H end. cbn [lift].
    rewrite E0. cbn [lift String.eqb Ascii.eqb Bool.eqb]. rewrite B. cbn [lift].
    apply after_lost.
    apply (lost pl (scene3 pl (s_max_steps s) d)) with (size := cells3 dom) (P := P3 dom) (f := ch_f3 dom (s_variant s) (params_in s) (d3_dx d)) (c := c) (w0 := a).
    - intros b i. cbn. unfold iter_width3. destruct (s_max_steps s <=? 0); cbn [rbind]; eauto.
    - apply scene3_monitor; [exact HV|cbn; lia|exact E].
    - apply scene3_write; [exact HV|cbn; lia|exact E].
    - apply scene3_idx; [exact HV|cbn; lia|exact E].
    - reflexivity.
    - apply ch3_computes; [exact HV|cbn; lia|cbn [grid_of nhalo nx ny nz]; lia|exact E|exact VR].
    - reflexivity.
    - destruct Wrong as [W|W]; [left; exact W|right]. intros b i. cbn. rewrite W. reflexivity.
    - exact LA.
    - exact EC.
    - exact HA.
    - exact HE.
  Qed.
  Lemma lost2 : asks_with m 2 ti "none" s rel abs -> lost_outcome (s_log_every s) (s_save_every s) fuel (madgicart pl fuel fs vts other args opts).
  Proof.
    intros A. destruct US as (SX & SY & SZ & VR).
    destruct (build2_ok pl m s bx by_ bz ltac:(lia) ltac:(lia) ltac:(lia) BX BY BZ ti f HI A) as (d & E & B).
    assert (HV : valid_domain2 dom) by (unfold valid_domain2; cbn; lia).
    pose proof (new_array2_len dom d HV ltac:(cbn; lia) E) as LA.
    destruct (random_initial_total (pl_draw pl) (s_m s) (d2_interior d) (create_real_array2 d)) as (c & EC & LC).
    { intros q Hq. rewrite LA. apply (scene2_idx pl dom d 1 HV ltac:(cbn; lia) E). exact Hq. }
    rewrite LA in LC. destruct (slots2 dom c ltac:(cbn; lia) LC) as (a & HA).
    destruct (start_ok pl (s_log_file s) (start_messages (config_template (pl_showg pl) (pl_lit pl) (pl_eps100 pl) (pl_max100 pl) vm) "none")) as (w0 & E0 & _).
    unfold madgicart. rewrite PO. cbn [lift]. reads A.
    unfold get_string, get_int, get_unsigned.
    repeat match goal with H : m ?n = _ |- context [m ?n] => rewrite H; clear H end. cbn [lift].
    rewrite E0. cbn [lift String.eqb Ascii.eqb Bool.eqb]. rewrite B. cbn [lift].
    apply after_lost.
    apply (lost pl (scene2 pl (s_max_steps s) d)) with (size := cells2 dom) (P := P2 dom) (f := ch_f2 dom (params_in s) (d2_dx d)) (c := c) (w0 := a).
    - intros b i. cbn. unfold iter_width2. destruct (s_max_steps s <=? 0); cbn [rbind]; eauto.
    - apply scene2_monitor; [exact HV|cbn; lia|exact E].
    - apply scene2_write; [exact HV|cbn; lia|exact E].
    - apply scene2_idx; [exact HV|cbn; lia|exact E].
    - reflexivity.
    - apply ch2_computes; [exact HV|cbn; lia|cbn [grid_of nhalo nx ny nz]; lia|exact E].
    - reflexivity.
    - destruct Wrong as [W|W]; [left; exact W|right]. intros b i. cbn. rewrite W. reflexivity.
    - exact LA.
    - exact EC.
    - exact HA.
    - exact HE.
  Qed.
End Program.

(** ** No run finishes *)
Section Never.
  Context {V : Type} `{N : Num V} (pl : platform V) (nsin ncos : V -> V).

  Lemma after_never {A B} (r : option (res A)) (g : A -> res B) : (forall x, r = Some (Ok x) -> forall y, g x <> Ok y) -> forall y, after r g <> Some (Ok y).
  Proof. destruct r as [[x| | |]|]; cbn; intros H y K; try discriminate. injection K as K. exact (H x eq_refl y K). Qed.
  Lemma lift_never {A B} (r : res A) (g : A -> option (res B)) y : (forall x, r = Ok x -> g x <> Some (Ok y)) -> lift r g <> Some (Ok y).
  Proof. destruct r; cbn; intros H; try discriminate. apply H. reflexivity. Qed.

  (** What is wrong with the run: its log frequency is zero, or its files have no names. *)
  Definition hopeless (sn : scene V) (obs : observable driver_call) : Prop :=
    (exists S, obs = driver_observers 0 S) \/ forall b i, sn_name sn b i = UB.

  Lemma never {X} (do_step : X -> V -> V -> res X) next_dt monitor call fuel o sn obs x base (xu : X -> state V) (xw : X -> pworld V) : hopeless sn obs ->
    forall y, after (solve do_step next_dt monitor call fuel o obs x)
      (fun '(_, gf) => write_file sn base (g_iter gf) (g_time gf) (g_dt gf) (xu (g_world gf)) (xw (g_world gf))) <> Some (Ok y).
  Proof.
    intros H. apply after_never. intros (rs, gf) E y.
    destruct H as [(S & ->)|H].
    - exfalso. revert E. apply solve_first. apply no_log.
    - unfold write_file. rewrite H. discriminate.
  Qed.
  Lemma bind_inv {A B} (r : res A) (g : A -> res B) y : rbind r g = Ok y -> exists x, r = Ok x /\ g x = Ok y.
  Proof. destruct r; cbn; intros H; try discriminate. eauto. Qed.
  Lemma config_integrator m b cfg ti : m "time_integrator" = VString ti -> config_of m b = Ok cfg -> c_integrator cfg = ti.
  Proof.
    intros T H. unfold config_of in H.
    repeat (apply bind_inv in H as (? & ?E & H)). injection H as <-. cbn [c_integrator].
    match goal with E : get_string m "time_integrator" = Ok ?x |- _ => unfold get_string in E; rewrite T in E; injection E as <- end. reflexivity.
  Qed.
  Lemma build_integrator m file e i v p o f ti : m "time_integrator" = VString ti -> build pl m file = Ok (e, i, v, p, o, f) ->
    reg_lookup integrators ti = Ok f.
  Proof.
    intros T H. unfold build in H. apply bind_inv in H as (from & _ & H). apply bind_inv in H as (cfg & EC & H).
    apply bind_inv in H as (g & _ & H). apply bind_inv in H as (e1 & _ & H). apply bind_inv in H as (v1 & _ & H).
    apply bind_inv in H as (p1 & _ & H). apply bind_inv in H as (i1 & _ & H). apply bind_inv in H as (o1 & _ & H).
    apply bind_inv in H as (o2 & _ & H). apply bind_inv in H as (f1 & EF & H). injection H as _ _ _ _ _ <-.
    unfold integrator_factory in EF. rewrite (config_integrator _ _ _ _ T EC) in EF. exact EF.
  Qed.

  Lemma run_with_never m fuel sn a rhs set o f base obs w other : hopeless sn obs -> f <> Elsewhere ->
    forall y, run_with pl m fuel sn a rhs set o f base obs w other <> Some (Ok y).
  Proof.
    intros H NF y. unfold run_with. destruct f; [| |congruence].
    - unfold run_rk3. apply lift_never. intros c _. apply (never _ _ _ _ _ _ _ _ _ _ k_u k_rest H).
    - apply lift_never. intros tol _. apply lift_never. intros lo _. apply lift_never. intros hi _.
      unfold run_ode23. apply lift_never. intros c _. apply (never _ _ _ _ _ _ _ _ _ _ e_u e_rest H).
  Qed.
  Lemma run_bdf_never m fuel sn d v p set o base obs w : hopeless sn obs -> forall y, run_bdf pl m fuel sn d v p set o base obs w <> Some (Ok y).
  Proof.
    intros H y. unfold run_bdf. apply lift_never. intros q _. apply lift_never. intros (g, b) _. apply lift_never. intros b' _.
    apply (never _ _ _ _ _ _ _ _ _ _ (fun x => bdf_state (i_mg x)) i_rest H).
  Qed.
  Lemma run_bdf_poisson_never m fuel sn d set o base obs w : hopeless sn obs -> forall y, run_bdf_poisson pl nsin ncos m fuel sn d set o base obs w <> Some (Ok y).
  Proof.
    intros H y. unfold run_bdf_poisson. apply lift_never. intros q _. apply lift_never. intros (g, b) _. apply lift_never. intros b' _.
    apply (never _ _ _ _ _ _ _ _ _ _ (fun x => bdf_state (i_mg x)) i_rest H).
  Qed.

  Lemma never_all fuel fs vts other args opts m vm ti :
    parse_options (pl_read pl) (pl_lit pl) (pl_eps100 pl) (pl_max100 pl) fs args opts = Ok (Running m vm) ->
    m "time_integrator" = VString ti -> In ti ["rk3ssp"; "ode23"; "bdf1"; "steady"] ->
    m "log_frequency" = VInt 0 \/ m "max_time_steps" = VUnsigned 0 ->
    forall e, madgicart_all pl nsin ncos fuel fs vts other args opts <> Some (Ok e).
  Proof.
    intros PO T HI W e. unfold madgicart_all. rewrite PO. cbn [lift].
    apply lift_never. intros log_file _. apply lift_never. intros restart _. apply lift_never. intros w _.
    apply lift_never. intros out _. apply lift_never. intros (((((eq, i), v), p), o), f) EB.
    apply lift_never. intros lf EL. apply lift_never. intros se _. apply lift_never. intros ms EM.
    unfold get_string. rewrite T. cbn [lift].
    pose proof (build_integrator _ _ _ _ _ _ _ _ _ T EB) as EF.
    assert (H3 : forall d, hopeless (scene3 pl ms d) (driver_observers lf se)).
    { intros d. destruct W as [W|W].
      - left. unfold get_int in EL. rewrite W in EL. injection EL as <-. eexists. reflexivity.
      - right. unfold get_unsigned in EM. rewrite W in EM. injection EM as <-. reflexivity. }
    assert (H2 : forall d, hopeless (scene2 pl ms d) (driver_observers lf se)).
    { intros d. destruct W as [W|W].
      - left. unfold get_int in EL. rewrite W in EL. injection EL as <-. eexists. reflexivity.
      - right. unfold get_unsigned in EM. rewrite W in EM. injection EM as <-. reflexivity. }
    apply after_never. intros x E. exfalso. revert x E.
    assert (C : f <> Elsewhere \/ (String.eqb ti "bdf1" || String.eqb ti "steady")%bool = true).
    { destruct HI as [<-|[<-|[<-|[<-|[]]]]]; cbn in EF; try (right; reflexivity); left; congruence. }
    destruct eq as [d|d|d].
    all: destruct (String.eqb ti "bdf1" || String.eqb ti "steady")%bool; [|destruct C as [C|C]; [|discriminate]].
    all: try (intros x; apply run_with_never; auto).
    - intros x. unfold run_bdf_flat. apply lift_never. intros q _. apply lift_never. discriminate.
    - intros x. apply run_bdf_never. auto.
    - intros x. apply run_bdf_poisson_never. auto.
  Qed.
End Never.
