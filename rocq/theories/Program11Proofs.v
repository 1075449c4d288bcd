(** Runs of the whole program that may end early, because the residual is within a tolerance. *)
From Coq Require Import String Reals Lra.
From Verif Require Import ModelLogger ModelOptions Outcome ZList ZListProofs Num Gather ModelIndex ModelInt32 ModelDisc3D ModelDisc2D ModelCH ModelObs
  ModelTime ModelRun ModelMon ModelVTK ModelMain ModelProgram SpecGrid SpecField SpecTime SpecRestart SpecMon SpecProgram Disc3DProofs Make3Proofs
  Disc2DProofs Make2Proofs BC3Proofs CHProofs VTK2Proofs SumProofs FieldProofs Time2Proofs Step1Proofs Mon1Proofs Mon3Proofs Mon4Proofs MonFinal
  RestartProofs RestartFinal ProgramProofs Program2Proofs Program3Proofs Program4Proofs Program5Proofs Program6Proofs Program7Proofs.
From Coq Require Import Lia ZifyBool ZifyNat List.
Local Open Scope string_scope.
Local Open Scope list_scope.
Local Open Scope Z_scope.

Lemma forall2_firstn {A B} (P : A -> B -> Prop) n : forall l l', Forall2 P l l' -> Forall2 P (firstn n l) (firstn n l').
Proof. induction n as [|n IH]; intros l l' H; [constructor|]. inversion H; subst; cbn [firstn]; [constructor|]. constructor; auto. Qed.

Lemma reached_length {V A} `{N : Num V} (next : V -> V -> A -> A) steps : forall k u, length (reached next k u steps) = length steps.
Proof. induction steps as [|(t, dt) l IH]; intros k u; [reflexivity|]. cbn [reached length]. rewrite IH. reflexivity. Qed.

Lemma greatest_unique l a b : greatest_of l a -> greatest_of l b -> a = b.
Proof. intros (A1 & A2) (B1 & B2). apply Rle_antisym; auto. Qed.

(** The test on the residuals in a row of the log. *)
Lemma stops_row (o : time_options R) (size a rel : R) b :
  stops o [("res_c", size); ("abs_res", a); ("rel_res", rel)] b ->
  (b = true <-> (t_rel_tol o <> 0%R /\ (rel < t_rel_tol o)%R) \/ (t_abs_tol o <> 0%R /\ (size < t_abs_tol o)%R)).
Proof.
  intros (ab & E & H). unfold abs_converged, rel_converged, ModelTime.nonzero in *.
  cbn [find_rel String.eqb Ascii.eqb Bool.eqb] in H. cbn [neqb nltb nint Num_R] in *. unfold Reqb, Rltb in *.
  destruct (Req_EM_T (t_rel_tol o) (IZR 0)) as [Z1|Z1], (Req_EM_T (t_abs_tol o) (IZR 0)) as [Z2|Z2]; cbn [negb andb orb] in *;
    injection E as <-; repeat destruct (Rlt_dec _ _); cbn [orb] in H; subst b; split; intros K; try discriminate; try reflexivity; try tauto; lra.
Qed.

Lemma exit_row (o : time_options R) (size a rel : R) :
  exists r b, exit_messages o [("res_c", size); ("abs_res", a); ("rel_res", rel)] = says r b /\
    (r = true <-> t_rel_tol o <> 0%R /\ (rel < t_rel_tol o)%R) /\ (b = true <-> t_abs_tol o <> 0%R /\ (size < t_abs_tol o)%R).
Proof.
  exists (if Req_EM_T (t_rel_tol o) 0 then false else if Rlt_dec rel (t_rel_tol o) then true else false),
         (if Req_EM_T (t_abs_tol o) 0 then false else if Rlt_dec size (t_abs_tol o) then true else false).
  split.
  - unfold exit_messages, says, abs_converged, rel_converged, ModelTime.nonzero. cbn [find_rel String.eqb Ascii.eqb Bool.eqb].
    cbn [neqb nltb nint Num_R]. unfold Reqb, Rltb. f_equal.
    + destruct (Req_EM_T (t_rel_tol o) 0); cbn [negb andb]; [reflexivity|]. destruct (Rlt_dec rel (t_rel_tol o)); reflexivity.
    + destruct (Req_EM_T (t_abs_tol o) 0); cbn [negb]; [reflexivity|]. destruct (Rlt_dec size (t_abs_tol o)); reflexivity.
  - split; (destruct (Req_EM_T _ _) as [Z|Z]; [|destruct (Rlt_dec _ _) as [Y|Y]]); split; intros K; try discriminate; try reflexivity; try tauto.
Qed.

(** How a run ends, from its steps. *)
Lemma ended_timed {A} (s : settings R) (o : time_options R) (next : R -> R -> A -> A) i u steps by_time lim said (tested : Prop) :
  t_tfinal o = s_tfinal s -> timed o false steps by_time ->
  (if by_time then said = [] /\ lim = s_max_steps s else tested) ->
  ended s lim (reached next i u steps) said tested.
Proof.
  intros OF (before & t & dt & E & H) HB. subst steps.
  assert (RA : forall k v, exists l v', reached next k v (before ++ [(t, dt)]) = (l ++ [(k + Z.of_nat (length before) + 1, (t + dt)%R, dt, next t dt v')])%list /\ length l = length before).
  { clear. induction before as [|(t1, d1) l IH]; intros k v.
    - exists [], v. split; [|reflexivity]. cbn [app reached length]. replace (k + Z.of_nat 0 + 1) with (k + 1) by lia. reflexivity.
    - cbn [app reached]. destruct (IH (k + 1) (next t1 d1 v)) as (l' & v' & E' & L'). rewrite E'. eexists (_ :: l'), v'. cbn [app length].
      split; [|lia]. do 2 f_equal. replace (k + Z.of_nat (S (length l)) + 1) with (k + 1 + Z.of_nat (length l) + 1) by lia. reflexivity. }
  destruct (RA i u) as (l & v' & E & L). exists l. rewrite E. do 4 eexists. split; [reflexivity|].
  destruct by_time.
  - left. destruct H as [(_ & H)|(NB & p & _ & H)]; [discriminate|]. split; [intros ->; destruct before; [congruence|discriminate]|].
    split; [cbn [nsub Num_R] in H; rewrite H, OF; ring|]. destruct HB. auto.
  - right. split; [|exact HB]. destruct H as [(-> & _)|(_ & H)]; [left; destruct l; [reflexivity|discriminate]|right].
    unfold ngeb in H. apply Bool.orb_false_iff in H as (H1 & H2). cbn [nltb neqb nadd Num_R] in H1, H2. unfold Rltb, Reqb in *. rewrite OF in *.
    destruct (Rlt_dec _ _) as [|Q1]; [discriminate|]. destruct (Req_EM_T _ _) as [|Q2]; [discriminate|]. lra.
Qed.

Section Settled3.
  Variables (pl : platform R) (s : settings R) (dom : domain R) (d : disc3 R) (vm : vmap R) (restart_file : string) (o : time_options R).
  Hypothesis OF : t_tfinal o = s_tfinal s.
  Hypothesis OM : t_max_steps o = int_of_unsigned (s_max_steps s).
  Hypothesis HN : 1 <= nhalo dom.
  Hypothesis HV : valid_domain3 dom.
  Hypothesis HM : make3 dom = Ok d.

  Lemma report_row3 names w0 tr rated st' rms m : Forall2 (traced_field3 dom names) tr rated -> sum_reducer (red_sum (pl_red pl)) -> w_stats w0 = res_stats0 ->
    residual_history (red_sum (pl_red pl)) ["c"] 1 (sn_idx (scene3 pl (s_max_steps s) d)) (w_stats w0) (map residual_of (every (s_log_every s) tr)) = Ok (st', rms ++ [m]) ->
    exists bef x a rl top, every (s_log_every s) rated = bef ++ [x] /\
      m = [("res_c", rms3 dom (snd (snd x))); ("abs_res", a); ("rel_res", rl)] /\
      greatest_of (map (fun x => rms3 dom (snd (snd x))) (every (s_log_every s) rated)) top /\
      (top <> 0%R -> rl = (rms3 dom (snd (snd x)) / top)%R) /\ (top = 0%R -> rl = 1%R).
  Proof.
    intros TF RS S0 RH.
    assert (TE : Forall2 (traced_field3 dom names) (every (s_log_every s) tr) (every (s_log_every s) rated)) by (apply every_forall2; auto).
    set (lg := every (s_log_every s) rated) in *. set (ltr := every (s_log_every s) tr) in *.
    destruct (pf_C58_residual_report_3d dom d ["c"] (red_sum (pl_red pl)) (map residual_of ltr)
       (map (fun z (_ : nat) => snd (snd z)) lg) HV HM RS ltac:(discriminate)) as (st & ms & E58 & L58 & K58).
    { clear - TE. induction TE as [|y z l l' H HF IH]; [constructor|]. cbn [map]. constructor; auto.
      destruct y as (((((i, t), dt), c), r), ex). destruct z as (((i', t'), dt'), (u, v)). destruct H as (_ & _ & _ & _ & H & _).
      intros [|q] Hq; cbn in Hq; [|lia]. exists r. split; [reflexivity|exact H]. }
    rewrite S0 in RH. change (length ["c"]) with 1%nat in E58. change (sn_idx (scene3 pl (s_max_steps s) d)) with (d3_interior d) in RH.
    rewrite E58 in RH. injection RH as _ ERM. subst ms.
    assert (LG : length ltr = length lg) by (eapply forall2_len; eauto).
    rewrite map_length, app_length in L58. cbn [length] in L58.
    assert (NE : lg <> []) by (intros E0; rewrite E0 in LG; cbn in LG; lia).
    destruct (exists_last NE) as (bef & x & EL).
    assert (LB : length bef = length rms) by (rewrite EL, app_length in LG; cbn in LG; lia).
    destruct x as (((i, t), dt), (u, v)).
    destruct (K58 (length rms) (fun _ => v) m) as (A & Rel & top & Em & GT & T1 & T2 & _).
    { rewrite nth_error_map, EL, <- LB, nth_error_app2, Nat.sub_diag by lia. reflexivity. }
    { rewrite nth_error_app2, Nat.sub_diag by lia. reflexivity. }
    rewrite firstn_all2 in GT by (rewrite map_length, EL, app_length; cbn; lia). rewrite map_map in GT.
    change (map _ (combine _ _)) with [("res_c", rms3 dom v)] in Em. cbn [app] in Em.
    exists bef, (i, t, dt, (u, v)), A, Rel, top. rewrite EL in *. split; [reflexivity|]. split; [exact Em|]. split; [exact GT|].
    split; intros H; [apply (T1 H)|apply (T2 H)].
  Qed.
  Lemma met_rel3 (rel size rl top : R) : (top <> 0%R -> rl = (size / top)%R) -> (top = 0%R -> rl = 1%R) ->
    ((rel <> 0%R /\ (rl < rel)%R) <-> rel_met rel size top).
  Proof.
    intros T1 T2. unfold rel_met. destruct (Req_dec top 0) as [H2|H2].
    - rewrite (T2 H2). tauto.
    - rewrite (T1 H2). tauto.
  Qed.

  Lemma reports_settled3 names w0 tr rated b : Forall2 (traced_field3 dom names) tr rated -> sum_reducer (red_sum (pl_red pl)) -> w_stats w0 = res_stats0 ->
    reports pl (scene3 pl (s_max_steps s) d) (s_log_every s) o w0 tr b ->
    (settled3 dom (s_log_every s) (t_rel_tol o) (t_abs_tol o) rated <-> b = true).
  Proof.
    intros TF RS S0 (st' & rms & m & RH & SP).
    destruct (report_row3 names w0 tr rated st' rms m TF RS S0 RH) as (bef & x & a & rl & top & EL & -> & GT & T1 & T2).
    apply stops_row in SP. rewrite SP. rewrite (met_rel3 _ _ _ _ T1 T2). unfold settled3. split.
    - intros (bef' & x' & top' & E' & GT' & H). rewrite EL in E'. apply app_inj_tail in E' as (<- & <-).
      rewrite (greatest_unique _ _ _ GT' GT) in H. exact H.
    - intros H. exists bef, x, top. auto.
  Qed.
  Lemma farewell_leaves3 names w0 tr rated said : Forall2 (traced_field3 dom names) tr rated -> sum_reducer (red_sum (pl_red pl)) -> w_stats w0 = res_stats0 ->
    farewell pl (scene3 pl (s_max_steps s) d) (s_log_every s) o w0 tr said ->
    leaves3 dom (s_log_every s) (t_rel_tol o) (t_abs_tol o) rated said.
  Proof.
    intros TF RS S0 (st' & rms & m & RH & ->).
    destruct (report_row3 names w0 tr rated st' rms m TF RS S0 RH) as (bef & x & a & rl & top & EL & -> & GT & T1 & T2).
    destruct (exit_row o (rms3 dom (snd (snd x))) a rl) as (r & b & E & H1 & H2). exists bef, x, top, r, b.
    split; [exact EL|]. split; [exact GT|]. split; [rewrite H1; apply met_rel3; assumption|]. split; [exact H2|exact E].
  Qed.

  Lemma outcome3_with names nextf ratef (proposes proposes' : R -> R -> Prop) next slope a u0 w0 w :
    (forall t dt a u, agree3 dom a u -> agree3 dom (next t dt a) (nextf dt u) /\ agree3 dom (slope t dt a) (ratef dt u)) ->
    agree3 dom a u0 -> (forall x y, proposes x y -> proposes' x y) ->
    started pl vm s restart_file w0 ->
    ran3_with pl s dom d names proposes next slope o a w0 w -> 0 < s_max_steps s <= 2147483647 ->
    story3_with pl s (t_rel_tol o) (t_abs_tol o) dom names (start_messages (template pl vm) restart_file)
      (t_initial_step o, t_t0 o, t_dt_initial o) proposes' nextf ratef u0 w.
  Proof.
    intros HS HA HP ST (steps & e & tr & docs & fin & lim & MA & TR & SF & WF & LA & rows & rms & lg & out & said & out' & by_time & RW & RH & PA & PS & WO & TM & HB & NS & LS) LM.
    rewrite OF in MA. rewrite OM in LS. replace (int_of_unsigned (s_max_steps s)) with (s_max_steps s) in LS by (unfold int_of_unsigned, int_max; replace (s_max_steps s <=? 2147483647) with true by lia; reflexivity).
    set (w1 := {| w_logger := lg; w_out := w_out w0 ++ out; w_stats := w_stats w; w_files := w_files w |}).
    destruct (told3 pl s dom d vm restart_file o HN HV HM names nextf ratef proposes proposes' next slope a u0 w0 w1 lim steps e tr docs fin HS HA HP ST MA TR SF WF LA
                ltac:(exists rows, rms, out; auto)) as (TF & T1 & T2 & T3 & T4 & T5).
    assert (LT : length tr = length steps). { rewrite (forall2_len _ _ _ TF). apply reached_length. }
    exists steps, e, docs, fin, lim. split; [exact T1|].
    split. { destruct LS as [->|(L1 & L2 & _)]; [left; reflexivity|right; split; [exact L1|]]. rewrite <- LT. exact L2. }
    split; [exact T2|]. split; [exact T3|]. split; [exact T4|].
    split.
    { intros RD. specialize (T5 RD). cbv zeta in T5 |- *. destruct T5 as (rws & P1 & P2 & P3). exists rws, said.
      split; [rewrite WO, app_assoc; eapply perform_app; [exact P1|exact PS]|]. split; [exact P2|]. split; [exact P3|].
      apply (ended_timed s o _ _ _ steps by_time); [exact OF|exact TM|]. destruct by_time.
      - destruct HB as (HB1 & HB2). split; [exact HB1|]. rewrite HB2, OM. unfold int_of_unsigned, int_max. replace (s_max_steps s <=? 2147483647) with true by lia. reflexivity.
      - apply (farewell_leaves3 names w0 tr); auto; [exact (proj1 RD)|exact (proj1 (proj2 ST))]. }
    intros (RS & _). cbv zeta. split.
    - intros k Hk K. destruct ST as (_ & S0 & _).
      pose proof (reports_settled3 names w0 (firstn k tr) _ false (forall2_firstn _ k _ _ TF) RS S0 (NS k ltac:(lia))) as Q.
      apply Q in K. discriminate.
    - intros Hl. destruct ST as (_ & S0 & _). destruct LS as [->|(_ & _ & L3)]; [lia|].
      apply (reports_settled3 names w0 tr _ true); auto.
  Qed.
End Settled3.

Section Settled2.
  Variables (pl : platform R) (s : settings R) (dom : domain R) (d : disc2 R) (vm : vmap R) (restart_file : string) (o : time_options R).
  Hypothesis OF : t_tfinal o = s_tfinal s.
  Hypothesis OM : t_max_steps o = int_of_unsigned (s_max_steps s).
  Hypothesis HN : 1 <= nhalo dom.
  Hypothesis HV : valid_domain2 dom.
  Hypothesis HM : make2 dom = Ok d.
  Hypothesis HX : 2 <= nx dom.

  Lemma report_row2 names w0 tr rated st' rms m : Forall2 (traced_field2 dom names) tr rated -> sum_reducer (red_sum (pl_red pl)) -> w_stats w0 = res_stats0 ->
    residual_history (red_sum (pl_red pl)) ["c"] 1 (sn_idx (scene2 pl (s_max_steps s) d)) (w_stats w0) (map residual_of (every (s_log_every s) tr)) = Ok (st', rms ++ [m]) ->
    exists bef x a rl top, every (s_log_every s) rated = bef ++ [x] /\
      m = [("res_c", rms2 dom (snd (snd x))); ("abs_res", a); ("rel_res", rl)] /\
      greatest_of (map (fun x => rms2 dom (snd (snd x))) (every (s_log_every s) rated)) top /\
      (top <> 0%R -> rl = (rms2 dom (snd (snd x)) / top)%R) /\ (top = 0%R -> rl = 1%R).
  Proof.
    intros TF RS S0 RH.
    assert (TE : Forall2 (traced_field2 dom names) (every (s_log_every s) tr) (every (s_log_every s) rated)) by (apply every_forall2; auto).
    set (lg := every (s_log_every s) rated) in *. set (ltr := every (s_log_every s) tr) in *.
    destruct (pf_C58_residual_report_2d dom d ["c"] (red_sum (pl_red pl)) (map residual_of ltr)
       (map (fun z (_ : nat) => snd (snd z)) lg) HV HM RS ltac:(discriminate)) as (st & ms & E58 & L58 & K58).
    { clear - TE. induction TE as [|y z l l' H HF IH]; [constructor|]. cbn [map]. constructor; auto.
      destruct y as (((((i, t), dt), c), r), ex). destruct z as (((i', t'), dt'), (u, v)). destruct H as (_ & _ & _ & _ & H & _).
      intros [|q] Hq; cbn in Hq; [|lia]. exists r. split; [reflexivity|exact H]. }
    rewrite S0 in RH. change (length ["c"]) with 1%nat in E58. change (sn_idx (scene2 pl (s_max_steps s) d)) with (d2_interior d) in RH.
    rewrite E58 in RH. injection RH as _ ERM. subst ms.
    assert (LG : length ltr = length lg) by (eapply forall2_len; eauto).
    rewrite map_length, app_length in L58. cbn [length] in L58.
    assert (NE : lg <> []) by (intros E0; rewrite E0 in LG; cbn in LG; lia).
    destruct (exists_last NE) as (bef & x & EL).
    assert (LB : length bef = length rms) by (rewrite EL, app_length in LG; cbn in LG; lia).
    destruct x as (((i, t), dt), (u, v)).
    destruct (K58 (length rms) (fun _ => v) m) as (A & Rel & top & Em & GT & T1 & T2 & _).
    { rewrite nth_error_map, EL, <- LB, nth_error_app2, Nat.sub_diag by lia. reflexivity. }
    { rewrite nth_error_app2, Nat.sub_diag by lia. reflexivity. }
    rewrite firstn_all2 in GT by (rewrite map_length, EL, app_length; cbn; lia). rewrite map_map in GT.
    change (map _ (combine _ _)) with [("res_c", rms2 dom v)] in Em. cbn [app] in Em.
    exists bef, (i, t, dt, (u, v)), A, Rel, top. rewrite EL in *. split; [reflexivity|]. split; [exact Em|]. split; [exact GT|].
    split; intros H; [apply (T1 H)|apply (T2 H)].
  Qed.
  Lemma met_rel2 (rel size rl top : R) : (top <> 0%R -> rl = (size / top)%R) -> (top = 0%R -> rl = 1%R) ->
    ((rel <> 0%R /\ (rl < rel)%R) <-> rel_met rel size top).
  Proof.
    intros T1 T2. unfold rel_met. destruct (Req_dec top 0) as [H2|H2].
    - rewrite (T2 H2). tauto.
    - rewrite (T1 H2). tauto.
  Qed.

  Lemma reports_settled2 names w0 tr rated b : Forall2 (traced_field2 dom names) tr rated -> sum_reducer (red_sum (pl_red pl)) -> w_stats w0 = res_stats0 ->
    reports pl (scene2 pl (s_max_steps s) d) (s_log_every s) o w0 tr b ->
    (settled2 dom (s_log_every s) (t_rel_tol o) (t_abs_tol o) rated <-> b = true).
  Proof.
    intros TF RS S0 (st' & rms & m & RH & SP).
    destruct (report_row2 names w0 tr rated st' rms m TF RS S0 RH) as (bef & x & a & rl & top & EL & -> & GT & T1 & T2).
    apply stops_row in SP. rewrite SP. rewrite (met_rel2 _ _ _ _ T1 T2). unfold settled2. split.
    - intros (bef' & x' & top' & E' & GT' & H). rewrite EL in E'. apply app_inj_tail in E' as (<- & <-).
      rewrite (greatest_unique _ _ _ GT' GT) in H. exact H.
    - intros H. exists bef, x, top. auto.
  Qed.
  Lemma farewell_leaves2 names w0 tr rated said : Forall2 (traced_field2 dom names) tr rated -> sum_reducer (red_sum (pl_red pl)) -> w_stats w0 = res_stats0 ->
    farewell pl (scene2 pl (s_max_steps s) d) (s_log_every s) o w0 tr said ->
    leaves2 dom (s_log_every s) (t_rel_tol o) (t_abs_tol o) rated said.
  Proof.
    intros TF RS S0 (st' & rms & m & RH & ->).
    destruct (report_row2 names w0 tr rated st' rms m TF RS S0 RH) as (bef & x & a & rl & top & EL & -> & GT & T1 & T2).
    destruct (exit_row o (rms2 dom (snd (snd x))) a rl) as (r & b & E & H1 & H2). exists bef, x, top, r, b.
    split; [exact EL|]. split; [exact GT|]. split; [rewrite H1; apply met_rel2; assumption|]. split; [exact H2|exact E].
  Qed.

  Lemma outcome2_with names nextf ratef (proposes proposes' : R -> R -> Prop) next slope a u0 w0 w :
    (forall t dt a u, agree2 dom a u -> agree2 dom (next t dt a) (nextf dt u) /\ agree2 dom (slope t dt a) (ratef dt u)) ->
    agree2 dom a u0 -> (forall x y, proposes x y -> proposes' x y) ->
    started pl vm s restart_file w0 ->
    ran2_with pl s dom d names proposes next slope o a w0 w -> 0 < s_max_steps s <= 2147483647 ->
    story2_with pl s (t_rel_tol o) (t_abs_tol o) dom names (start_messages (template pl vm) restart_file)
      (t_initial_step o, t_t0 o, t_dt_initial o) proposes' nextf ratef u0 w.
  Proof.
    intros HS HA HP ST (steps & e & tr & docs & fin & lim & MA & TR & SF & WF & LA & rows & rms & lg & out & said & out' & by_time & RW & RH & PA & PS & WO & TM & HB & NS & LS) LM.
    rewrite OF in MA. rewrite OM in LS. replace (int_of_unsigned (s_max_steps s)) with (s_max_steps s) in LS by (unfold int_of_unsigned, int_max; replace (s_max_steps s <=? 2147483647) with true by lia; reflexivity).
    set (w1 := {| w_logger := lg; w_out := w_out w0 ++ out; w_stats := w_stats w; w_files := w_files w |}).
    destruct (told2 pl s dom d vm restart_file o HN HV HM HX names nextf ratef proposes proposes' next slope a u0 w0 w1 lim steps e tr docs fin HS HA HP ST MA TR SF WF LA
                ltac:(exists rows, rms, out; auto)) as (TF & T1 & T2 & T3 & T4 & T5).
    assert (LT : length tr = length steps). { rewrite (forall2_len _ _ _ TF). apply reached_length. }
    exists steps, e, docs, fin, lim. split; [exact T1|].
    split. { destruct LS as [->|(L1 & L2 & _)]; [left; reflexivity|right; split; [exact L1|]]. rewrite <- LT. exact L2. }
    split; [exact T2|]. split; [exact T3|]. split; [exact T4|].
    split.
    { intros RD. specialize (T5 RD). cbv zeta in T5 |- *. destruct T5 as (rws & P1 & P2 & P3). exists rws, said.
      split; [rewrite WO, app_assoc; eapply perform_app; [exact P1|exact PS]|]. split; [exact P2|]. split; [exact P3|].
      apply (ended_timed s o _ _ _ steps by_time); [exact OF|exact TM|]. destruct by_time.
      - destruct HB as (HB1 & HB2). split; [exact HB1|]. rewrite HB2, OM. unfold int_of_unsigned, int_max. replace (s_max_steps s <=? 2147483647) with true by lia. reflexivity.
      - apply (farewell_leaves2 names w0 tr); auto; [exact (proj1 RD)|exact (proj1 (proj2 ST))]. }
    intros (RS & _). cbv zeta. split.
    - intros k Hk K. destruct ST as (_ & S0 & _).
      pose proof (reports_settled2 names w0 (firstn k tr) _ false (forall2_firstn _ k _ _ TF) RS S0 (NS k ltac:(lia))) as Q.
      apply Q in K. discriminate.
    - intros Hl. destruct ST as (_ & S0 & _). destruct LS as [->|(_ & _ & L3)]; [lia|].
      apply (reports_settled2 names w0 tr _ true); auto.
  Qed.
End Settled2.

Lemma run3_rk3_with (pl : platform R) fuel fs vts other args opts m vm s rel abs bx by_ bz :
  parse_options (pl_read pl) (pl_lit pl) (pl_eps100 pl) (pl_max100 pl) fs args opts = Ok (Running m vm) ->
  asks_with m 3 "rk3ssp" "none" s rel abs ->
  sound s fuel -> bc_named (s_bc_x s) bx -> bc_named (s_bc_y s) by_ -> bc_named (s_bc_z s) bz ->
  let dom := grid_of s bx by_ bz in
  exists w, madgicart pl fuel fs vts other args opts = Some (Ok (Finished w)) /\
    story3_with pl s rel abs dom [] [config_template (pl_showg pl) (pl_lit pl) (pl_eps100 pl) (pl_max100 pl) vm] (0, s_t0 s, s_dt s) (fun dt p => p = dt) (ssp3_3 (ch_rate3 dom s)) (ssp3_rate3 (ch_rate3 dom s))
      (random3 dom (pl_draw pl) (s_m s)) w.
Proof.
  intros PO A (SX & SY & SZ & SV & SM & SL & SF) BX BY BZ dom.
  assert (HV : valid_domain3 dom) by (unfold valid_domain3; cbn; lia).
  destruct (program3_rk3_with pl fuel fs vts other args opts m vm PO s bx by_ bz SX SY SZ BX BY BZ ltac:(lia) SL ltac:(rewrite limit_int; lia) zero_eq A SV)
    as (d & c & EM & EC & K).
  fold dom in EM. pose proof (random_field3 dom d (pl_draw pl) (s_m s) c HV ltac:(cbn; lia) EM EC) as HC.
  destruct (K (of3 dom (random3 dom (pl_draw pl) (s_m s)))) as (w0 & w & ST & EW & RN).
  { apply state3; [cbn; lia|]. eapply holds_inside3_ext; [exact HC|]. intros i j k I. unfold at3. rewrite of3_slot; [reflexivity|].
    apply inside_padded3; [cbn; lia|exact I]. }
  exists w. split; [exact EW|].
  destruct (make3_inv dom d HV EM) as (W & ED).
  assert (EX : d3_dx d = spacing dom) by (rewrite (wf_dx _ W), ED; reflexivity).
  eapply (outcome3_with pl s dom d vm "none" (options_with s rel abs) eq_refl eq_refl ltac:(cbn; lia) HV EM _ (ssp3_3 (ch_rate3 dom s)) (ssp3_rate3 (ch_rate3 dom s))); [| | |exact ST|exact RN|exact SM].
  - intros t dt a u HA. rewrite EX. apply rk3_agree3; auto.
  - intros i j k I. unfold at3. rewrite of3_slot; [reflexivity|]. apply inside_padded3; [cbn; lia|exact I].
  - auto.
Qed.

Lemma run3_ode23_with (pl : platform R) fuel fs vts other args opts m vm s rel abs bx by_ bz (tol lo hi : R) :
  parse_options (pl_read pl) (pl_lit pl) (pl_eps100 pl) (pl_max100 pl) fs args opts = Ok (Running m vm) ->
  asks_with m 3 "ode23" "none" s rel abs ->
    given m [("time_rel_err_tol", VDouble tol); ("min_time_step_size", VDouble lo); ("max_time_step_size", VDouble hi)] ->
  sound s fuel -> bc_named (s_bc_x s) bx -> bc_named (s_bc_y s) by_ -> bc_named (s_bc_z s) bz ->
  let dom := grid_of s bx by_ bz in
  exists w, madgicart pl fuel fs vts other args opts = Some (Ok (Finished w)) /\
    story3_with pl s rel abs dom ["time_err"%string] [config_template (pl_showg pl) (pl_lit pl) (pl_eps100 pl) (pl_max100 pl) vm] (0, s_t0 s, s_dt s) (within lo hi) (bs_step3 (ch_rate3 dom s)) (bs_rate3 (ch_rate3 dom s))
      (random3 dom (pl_draw pl) (s_m s)) w.
Proof.
  intros PO A G (SX & SY & SZ & SV & SM & SL & SF) BX BY BZ dom.
  assert (HV : valid_domain3 dom) by (unfold valid_domain3; cbn; lia).
  destruct (program3_ode23_with pl fuel fs vts other args opts m vm PO s bx by_ bz SX SY SZ BX BY BZ ltac:(lia) SL ltac:(rewrite limit_int; lia) zero_eq tol lo hi A SV G)
    as (d & c & EM & EC & K).
  fold dom in EM. pose proof (random_field3 dom d (pl_draw pl) (s_m s) c HV ltac:(cbn; lia) EM EC) as HC.
  destruct (K (of3 dom (random3 dom (pl_draw pl) (s_m s)))) as (w0 & w & ST & EW & RN).
  { apply state3; [cbn; lia|]. eapply holds_inside3_ext; [exact HC|]. intros i j k I. unfold at3. rewrite of3_slot; [reflexivity|].
    apply inside_padded3; [cbn; lia|exact I]. }
  exists w. split; [exact EW|].
  destruct (make3_inv dom d HV EM) as (W & ED).
  assert (EX : d3_dx d = spacing dom) by (rewrite (wf_dx _ W), ED; reflexivity).
  eapply (outcome3_with pl s dom d vm "none" (options_with s rel abs) eq_refl eq_refl ltac:(cbn; lia) HV EM _ (bs_step3 (ch_rate3 dom s)) (bs_rate3 (ch_rate3 dom s))); [| | |exact ST|exact RN|exact SM].
  - intros t dt a u HA. rewrite EX. apply bs_agree3; auto.
  - intros i j k I. unfold at3. rewrite of3_slot; [reflexivity|]. apply inside_padded3; [cbn; lia|exact I].
  - apply clamped_within.
Qed.

Lemma run2_rk3_with (pl : platform R) fuel fs vts other args opts m vm s rel abs bx by_ bz :
  parse_options (pl_read pl) (pl_lit pl) (pl_eps100 pl) (pl_max100 pl) fs args opts = Ok (Running m vm) ->
  asks_with m 2 "rk3ssp" "none" s rel abs ->
  sound s fuel -> bc_named (s_bc_x s) bx -> bc_named (s_bc_y s) by_ -> bc_named (s_bc_z s) bz ->
  let dom := grid_of s bx by_ bz in
  exists w, madgicart pl fuel fs vts other args opts = Some (Ok (Finished w)) /\
    story2_with pl s rel abs dom [] [config_template (pl_showg pl) (pl_lit pl) (pl_eps100 pl) (pl_max100 pl) vm] (0, s_t0 s, s_dt s) (fun dt p => p = dt) (ssp3_2 (ch_rate2 dom s)) (ssp3_rate2 (ch_rate2 dom s))
      (random2 dom (pl_draw pl) (s_m s)) w.
Proof.
  intros PO A (SX & SY & SZ & SV & SM & SL & SF) BX BY BZ dom.
  assert (HV : valid_domain2 dom) by (unfold valid_domain2; cbn; lia).
  destruct (program2_rk3_with pl fuel fs vts other args opts m vm PO s bx by_ bz SX SY SZ BX BY BZ ltac:(lia) SL ltac:(rewrite limit_int; lia) zero_eq A)
    as (d & c & EM & EC & K).
  fold dom in EM. pose proof (random_field2 dom d (pl_draw pl) (s_m s) c HV ltac:(cbn; lia) EM EC) as HC.
  destruct (K (of2 dom (random2 dom (pl_draw pl) (s_m s)))) as (w0 & w & ST & EW & RN).
  { apply state2; [cbn; lia|]. eapply holds_inside2_ext; [exact HC|]. intros i j I. unfold at2. rewrite of2_slot; [reflexivity|].
    apply inside_padded2; [cbn; lia|exact I]. }
  exists w. split; [exact EW|].
  destruct (make2_inv dom d HV EM) as (W & ED).
  assert (EX : d2_dx d = spacing dom) by (rewrite (wf2_dx _ W), ED; reflexivity).
  eapply (outcome2_with pl s dom d vm "none" (options_with s rel abs) eq_refl eq_refl ltac:(cbn; lia) HV EM SX _ (ssp3_2 (ch_rate2 dom s)) (ssp3_rate2 (ch_rate2 dom s))); [| | |exact ST|exact RN|exact SM].
  - intros t dt a u HA. rewrite EX. apply rk3_agree2; auto.
  - intros i j I. unfold at2. rewrite of2_slot; [reflexivity|]. apply inside_padded2; [cbn; lia|exact I].
  - auto.
Qed.

Lemma run2_ode23_with (pl : platform R) fuel fs vts other args opts m vm s rel abs bx by_ bz (tol lo hi : R) :
  parse_options (pl_read pl) (pl_lit pl) (pl_eps100 pl) (pl_max100 pl) fs args opts = Ok (Running m vm) ->
  asks_with m 2 "ode23" "none" s rel abs ->
    given m [("time_rel_err_tol", VDouble tol); ("min_time_step_size", VDouble lo); ("max_time_step_size", VDouble hi)] ->
  sound s fuel -> bc_named (s_bc_x s) bx -> bc_named (s_bc_y s) by_ -> bc_named (s_bc_z s) bz ->
  let dom := grid_of s bx by_ bz in
  exists w, madgicart pl fuel fs vts other args opts = Some (Ok (Finished w)) /\
    story2_with pl s rel abs dom ["time_err"%string] [config_template (pl_showg pl) (pl_lit pl) (pl_eps100 pl) (pl_max100 pl) vm] (0, s_t0 s, s_dt s) (within lo hi) (bs_step2 (ch_rate2 dom s)) (bs_rate2 (ch_rate2 dom s))
      (random2 dom (pl_draw pl) (s_m s)) w.
Proof.
  intros PO A G (SX & SY & SZ & SV & SM & SL & SF) BX BY BZ dom.
  assert (HV : valid_domain2 dom) by (unfold valid_domain2; cbn; lia).
  destruct (program2_ode23_with pl fuel fs vts other args opts m vm PO s bx by_ bz SX SY SZ BX BY BZ ltac:(lia) SL ltac:(rewrite limit_int; lia) zero_eq tol lo hi A G)
    as (d & c & EM & EC & K).
  fold dom in EM. pose proof (random_field2 dom d (pl_draw pl) (s_m s) c HV ltac:(cbn; lia) EM EC) as HC.
  destruct (K (of2 dom (random2 dom (pl_draw pl) (s_m s)))) as (w0 & w & ST & EW & RN).
  { apply state2; [cbn; lia|]. eapply holds_inside2_ext; [exact HC|]. intros i j I. unfold at2. rewrite of2_slot; [reflexivity|].
    apply inside_padded2; [cbn; lia|exact I]. }
  exists w. split; [exact EW|].
  destruct (make2_inv dom d HV EM) as (W & ED).
  assert (EX : d2_dx d = spacing dom) by (rewrite (wf2_dx _ W), ED; reflexivity).
  eapply (outcome2_with pl s dom d vm "none" (options_with s rel abs) eq_refl eq_refl ltac:(cbn; lia) HV EM SX _ (bs_step2 (ch_rate2 dom s)) (bs_rate2 (ch_rate2 dom s))); [| | |exact ST|exact RN|exact SM].
  - intros t dt a u HA. rewrite EX. apply bs_agree2; auto.
  - intros i j I. unfold at2. rewrite of2_slot; [reflexivity|]. apply inside_padded2; [cbn; lia|exact I].
  - apply clamped_within.
Qed.
