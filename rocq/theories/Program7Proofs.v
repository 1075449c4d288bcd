(** Whole runs: the theorems about fields, the mean value, the wrapped step limit, and what the log does not change. *)
From Coq Require Import String Reals Lra.
From Verif Require Import ModelLogger ModelOptions Outcome ZList ZListProofs Num Gather ModelIndex ModelInt32 ModelDisc3D ModelDisc2D ModelCH ModelObs
  ModelTime ModelRun ModelMon ModelVTK ModelMain ModelProgram SpecGrid SpecField SpecTime SpecRestart SpecMon SpecProgram Disc3DProofs Make3Proofs
  Disc2DProofs Make2Proofs BC3Proofs CHProofs VTK2Proofs SumProofs FieldProofs Time2Proofs Step1Proofs Mon1Proofs Mon3Proofs Mon4Proofs MonFinal
  RestartProofs RestartFinal ProgramProofs Program2Proofs Program3Proofs Program4Proofs Program5Proofs Program6Proofs.
From Coq Require Import Lia ZifyBool ZifyNat List.
Local Open Scope string_scope.
Local Open Scope list_scope.
Local Open Scope Z_scope.

Lemma limit_int n : 0 < n <= 2147483647 -> Z.max 1 (int_of_unsigned n) = n.
Proof. intros H. unfold int_of_unsigned, int_max. replace (n <=? 2147483647) with true by lia. lia. Qed.

Lemma zero_eq : neqb (nint 0 : R) (nint 0) = true.
Proof. cbn. unfold Reqb. destruct (Req_EM_T 0 0); auto. Qed.

Lemma marches_fixed {V} `{N : Num V} (tf : V) lim k t dt b l e : marches (fun dt p => p = dt) tf lim k t dt b l e ->
  forall l' e', marches (fun dt p => p = dt) tf lim k t dt b l' e' -> l' = l /\ e' = e.
Proof.
  induction 1 as [k t dt|k t dt p Hp Hl|k t dt p l e Hp Hl HM IH]; intros l' e' H'; inversion H'; subst; try lia; auto.
  destruct (IH _ _ ltac:(eassumption)) as (-> & ->). auto.
Qed.

Lemma marches_one {V} `{N : Num V} (p : V -> V -> Prop) (tf : V) lim t dt l e : lim <= 1 -> marches p tf lim 0 t dt false l e -> l = [(t, dt)].
Proof. intros H M. inversion M; subst; auto; lia. Qed.

(** ** Dimension 3 *)
Section Mean3.
  Variables (s : settings R) (dom : domain R).
  Hypothesis HV : valid_domain3 dom.
  Hypothesis HP : all_periodic dom.
  Local Notation F := (ch_rate3 dom s).
  Local Open Scope R_scope.
  Definition off3 (u : Z -> Z -> Z -> R) : R := total3 dom (fun i j k => u i j k - s_m s).
  Lemma off3_lin u q a : off3 (fun i j k => u i j k + a * q i j k) = off3 u + a * total3 dom q.
  Proof.
    unfold off3, total3. rewrite <- sum3_scal, <- sum3_plus. apply sum3_ext. intros. ring.
  Qed.
  Lemma off3_ext u v : (forall i j k, u i j k = v i j k) -> off3 u = off3 v.
  Proof. intros H. unfold off3, total3. apply sum3_ext. intros. rewrite H. reflexivity. Qed.
  Lemma total_rate3 u : total3 dom (F u) = - s_sigma s * off3 u.
  Proof. unfold ch_rate3. rewrite total3_CH by auto. reflexivity. Qed.
  Lemma total3_comb (k1 k2 k3 : Z -> Z -> Z -> R) a b c : total3 dom (fun i j k => a * k1 i j k + b * k2 i j k + c * k3 i j k) =
    a * total3 dom k1 + b * total3 dom k2 + c * total3 dom k3.
  Proof. unfold total3. rewrite !sum3_plus, !sum3_scal. reflexivity. Qed.
  Lemma ssp_off3 dt u : off3 u = 0 -> off3 (ssp3_3 F dt u) = 0.
  Proof.
    intros H.
    assert (H1 : off3 (fun i j k => u i j k + dt * F u i j k) = 0) by (rewrite off3_lin, total_rate3, H; ring).
    assert (H2 : off3 (fun i j k => 3 / 4 * u i j k + 1 / 4 * (u i j k + dt * F u i j k + dt * F (fun i j k => u i j k + dt * F u i j k) i j k)) = 0).
    { rewrite (off3_ext _ (fun i j k => u i j k + dt * (1 / 4 * F u i j k + 1 / 4 * F (fun i j k => u i j k + dt * F u i j k) i j k + 0 * F u i j k)))
        by (intros; field).
      rewrite off3_lin, total3_comb, !total_rate3, H, H1. ring. }
    rewrite (off3_ext _ (fun i j k => u i j k + dt * ssp3_rate3 F dt u i j k)) by (intros; unfold ssp3_3, ssp3_rate3; field).
    rewrite off3_lin. unfold ssp3_rate3. rewrite total3_comb, !total_rate3, H, H1, H2. ring.
  Qed.
  Lemma bs_off3 dt u : off3 u = 0 -> off3 (bs_step3 F dt u) = 0.
  Proof.
    intros H.
    assert (H1 : off3 (fun i j k => u i j k + dt / 2 * F u i j k) = 0) by (rewrite off3_lin, total_rate3, H; ring).
    assert (H2 : off3 (fun i j k => u i j k + 3 / 4 * dt * F (fun i j k => u i j k + dt / 2 * F u i j k) i j k) = 0)
      by (rewrite off3_lin, total_rate3, H, H1; ring).
    unfold bs_step3. rewrite off3_lin. unfold bs_rate3. rewrite total3_comb, !total_rate3, H, H1, H2. ring.
  Qed.
  Lemma mean_off3 u : off3 u = 0 <-> mean3 dom u = s_m s.
  Proof.
    assert (E : off3 u = total3 dom u - (IZR (nx dom) * IZR (ny dom) * IZR (nz dom)) * s_m s).
    { unfold off3, total3. rewrite sum3_minus. destruct HV as (A & B & C & D). rewrite sum3_const by lia. ring. }
    assert (NZ : 0 < IZR (nx dom) /\ 0 < IZR (ny dom) /\ 0 < IZR (nz dom)) by (destruct HV as (A & B & C & D); repeat split; apply IZR_lt; lia).
    unfold mean3. rewrite E. split; intros H.
    - replace (total3 dom u) with ((IZR (nx dom) * IZR (ny dom) * IZR (nz dom)) * s_m s) by lra. field. lra.
    - rewrite <- H. field. lra.
  Qed.
  Lemma random_off3 draw : off3 (random3 dom draw (s_m s)) = 0.
  Proof.
    assert (NZ : 0 < IZR (nx dom) /\ 0 < IZR (ny dom) /\ 0 < IZR (nz dom)) by (destruct HV as (A & B & C & D); repeat split; apply IZR_lt; lia).
    unfold random3. match goal with |- off3 (fun i j k => s_m s + (draw (@?f i j k) - ?mm)) = 0 => set (M := mm) end.
    unfold off3, total3.
    transitivity (total3 dom (fun i j k => draw (Z.to_nat ((i * ny dom + j) * nz dom + k)) - M)).
    - unfold total3. apply sum3_ext. intros. ring.
    - unfold total3. rewrite sum3_minus. destruct HV as (A & B & C & D). rewrite sum3_const by lia. unfold M, mean3, total3. field. lra.
  Qed.
  Lemma reached_off3 next u0 : (forall dt u, off3 u = 0 -> off3 (next dt u) = 0) -> off3 u0 = 0 -> forall steps k,
    Forall (fun x => mean3 dom (snd x) = s_m s) (reached (V:=R) (fun _ => next) k u0 steps).
  Proof.
    intros H H0 steps. revert u0 H0. induction steps as [|(t, dt) l IH]; intros u0 H0 k; cbn [reached]; constructor; auto.
    cbn [snd]. apply mean_off3. auto.
  Qed.

  (** Every file of a story then holds a field with this mean. *)
  Lemma story_mean3 pl names messages i0 t0 dt0 proposes next rate u0 w : (forall dt u, off3 u = 0 -> off3 (next dt u) = 0) -> off3 u0 = 0 ->
    story3 pl s dom names messages (i0, t0, dt0) proposes next rate u0 w ->
    Forall (fun f => exists i t dt u, is_file3 pl dom i t dt u (snd f) /\ mean3 dom u = s_m s) (w_files w).
  Proof.
    intros H H0 (steps & e & files & fin & _ & SV & WF & LA & _).
    pose proof (reached_off3 next u0 H H0 steps i0) as RO.
    rewrite WF. apply Forall_app. split.
    - rewrite every_pick. apply pick_forall. clear - SV RO. induction SV as [|(((i, t), dt), u) f l l' H HF IH]; [constructor|].
      inversion RO as [|? ? R1 R2]; subst. constructor; auto. exists i, t, dt, u. split; [apply H|exact R1].
    - constructor; [|constructor]. destruct LA as (bef & i & t & dt & u & ER & SF). rewrite ER in RO.
      apply Forall_app in RO as (_ & RO). inversion RO as [|? ? R1 _]; subst. exists i, t, e, u. split; [apply SF|exact R1].
  Qed.
End Mean3.

Lemma run3_rk3 (pl : platform R) fuel fs vts other args opts m vm s bx by_ bz :
  parse_options (pl_read pl) (pl_lit pl) (pl_eps100 pl) (pl_max100 pl) fs args opts = Ok (Running m vm) ->
  asks m 3 "rk3ssp" "none" s ->
  sound s fuel -> bc_named (s_bc_x s) bx -> bc_named (s_bc_y s) by_ -> bc_named (s_bc_z s) bz ->
  let dom := grid_of s bx by_ bz in
  exists w, madgicart pl fuel fs vts other args opts = Some (Ok (Finished w)) /\
    story3 pl s dom [] [config_template (pl_showg pl) (pl_lit pl) (pl_eps100 pl) (pl_max100 pl) vm] (0, s_t0 s, s_dt s) (fun dt p => p = dt) (ssp3_3 (ch_rate3 dom s)) (ssp3_rate3 (ch_rate3 dom s))
      (random3 dom (pl_draw pl) (s_m s)) w.
Proof.
  intros PO A (SX & SY & SZ & SV & SM & SL & SF) BX BY BZ dom.
  assert (HV : valid_domain3 dom) by (unfold valid_domain3; cbn; lia).
  destruct (program3_rk3 pl fuel fs vts other args opts m vm PO s bx by_ bz SX SY SZ BX BY BZ ltac:(lia) SL ltac:(rewrite limit_int; lia) zero_eq A SV)
    as (d & c & EM & EC & K).
  fold dom in EM. pose proof (random_field3 dom d (pl_draw pl) (s_m s) c HV ltac:(cbn; lia) EM EC) as HC.
  destruct (K (of3 dom (random3 dom (pl_draw pl) (s_m s)))) as (w0 & w & ST & EW & RN).
  { apply state3; [cbn; lia|]. eapply holds_inside3_ext; [exact HC|]. intros i j k I. unfold at3. rewrite of3_slot; [reflexivity|].
    apply inside_padded3; [cbn; lia|exact I]. }
  exists w. split; [exact EW|].
  destruct (make3_inv dom d HV EM) as (W & ED).
  assert (EX : d3_dx d = spacing dom) by (rewrite (wf_dx _ W), ED; reflexivity).
  eapply (outcome3 pl s dom d vm "none" (options_of s) eq_refl eq_refl ltac:(cbn; lia) HV EM _ (ssp3_3 (ch_rate3 dom s)) (ssp3_rate3 (ch_rate3 dom s))); [| | |exact ST|exact RN|exact SM].
  - intros t dt a u HA. rewrite EX. apply rk3_agree3; auto.
  - intros i j k I. unfold at3. rewrite of3_slot; [reflexivity|]. apply inside_padded3; [cbn; lia|exact I].
  - auto.
Qed.

Lemma run3_ode23 (pl : platform R) fuel fs vts other args opts m vm s bx by_ bz (tol lo hi : R) :
  parse_options (pl_read pl) (pl_lit pl) (pl_eps100 pl) (pl_max100 pl) fs args opts = Ok (Running m vm) ->
  asks m 3 "ode23" "none" s ->
    given m [("time_rel_err_tol", VDouble tol); ("min_time_step_size", VDouble lo); ("max_time_step_size", VDouble hi)] ->
  sound s fuel -> bc_named (s_bc_x s) bx -> bc_named (s_bc_y s) by_ -> bc_named (s_bc_z s) bz ->
  let dom := grid_of s bx by_ bz in
  exists w, madgicart pl fuel fs vts other args opts = Some (Ok (Finished w)) /\
    story3 pl s dom ["time_err"%string] [config_template (pl_showg pl) (pl_lit pl) (pl_eps100 pl) (pl_max100 pl) vm] (0, s_t0 s, s_dt s) (within lo hi) (bs_step3 (ch_rate3 dom s)) (bs_rate3 (ch_rate3 dom s))
      (random3 dom (pl_draw pl) (s_m s)) w.
Proof.
  intros PO A G (SX & SY & SZ & SV & SM & SL & SF) BX BY BZ dom.
  assert (HV : valid_domain3 dom) by (unfold valid_domain3; cbn; lia).
  destruct (program3_ode23 pl fuel fs vts other args opts m vm PO s bx by_ bz SX SY SZ BX BY BZ ltac:(lia) SL ltac:(rewrite limit_int; lia) zero_eq tol lo hi A SV G)
    as (d & c & EM & EC & K).
  fold dom in EM. pose proof (random_field3 dom d (pl_draw pl) (s_m s) c HV ltac:(cbn; lia) EM EC) as HC.
  destruct (K (of3 dom (random3 dom (pl_draw pl) (s_m s)))) as (w0 & w & ST & EW & RN).
  { apply state3; [cbn; lia|]. eapply holds_inside3_ext; [exact HC|]. intros i j k I. unfold at3. rewrite of3_slot; [reflexivity|].
    apply inside_padded3; [cbn; lia|exact I]. }
  exists w. split; [exact EW|].
  destruct (make3_inv dom d HV EM) as (W & ED).
  assert (EX : d3_dx d = spacing dom) by (rewrite (wf_dx _ W), ED; reflexivity).
  eapply (outcome3 pl s dom d vm "none" (options_of s) eq_refl eq_refl ltac:(cbn; lia) HV EM _ (bs_step3 (ch_rate3 dom s)) (bs_rate3 (ch_rate3 dom s))); [| | |exact ST|exact RN|exact SM].
  - intros t dt a u HA. rewrite EX. apply bs_agree3; auto.
  - intros i j k I. unfold at3. rewrite of3_slot; [reflexivity|]. apply inside_padded3; [cbn; lia|exact I].
  - apply clamped_within.
Qed.

(** ** Dimension 2 *)
Section Mean2.
  Variables (s : settings R) (dom : domain R).
  Hypothesis HV : valid_domain2 dom.
  Local Notation F := (ch_rate2 dom s).
  Local Open Scope R_scope.
  Definition off2 (u : Z -> Z -> R) : R := total2 dom (fun i j => u i j - s_m s).
  Lemma off2_lin u q a : off2 (fun i j => u i j + a * q i j) = off2 u + a * total2 dom q.
  Proof.
    unfold off2, total2. rewrite <- sum2_scal, <- sum2_plus. apply sum2_ext. intros. ring.
  Qed.
  Lemma off2_ext u v : (forall i j, u i j = v i j) -> off2 u = off2 v.
  Proof. intros H. unfold off2, total2. apply sum2_ext. intros. rewrite H. reflexivity. Qed.
  Lemma total_rate2 u : total2 dom (F u) = - s_sigma s * off2 u.
  Proof. unfold ch_rate2. rewrite total2_CH by auto. reflexivity. Qed.
  Lemma total2_comb (k1 k2 k3 : Z -> Z -> R) a b c : total2 dom (fun i j => a * k1 i j + b * k2 i j + c * k3 i j) =
    a * total2 dom k1 + b * total2 dom k2 + c * total2 dom k3.
  Proof. unfold total2. rewrite !sum2_plus, !sum2_scal. reflexivity. Qed.
  Lemma ssp_off2 dt u : off2 u = 0 -> off2 (ssp3_2 F dt u) = 0.
  Proof.
    intros H.
    assert (H1 : off2 (fun i j => u i j + dt * F u i j) = 0) by (rewrite off2_lin, total_rate2, H; ring).
    assert (H2 : off2 (fun i j => 3 / 4 * u i j + 1 / 4 * (u i j + dt * F u i j + dt * F (fun i j => u i j + dt * F u i j) i j)) = 0).
    { rewrite (off2_ext _ (fun i j => u i j + dt * (1 / 4 * F u i j + 1 / 4 * F (fun i j => u i j + dt * F u i j) i j + 0 * F u i j)))
        by (intros; field).
      rewrite off2_lin, total2_comb, !total_rate2, H, H1. ring. }
    rewrite (off2_ext _ (fun i j => u i j + dt * ssp3_rate2 F dt u i j)) by (intros; unfold ssp3_2, ssp3_rate2; field).
    rewrite off2_lin. unfold ssp3_rate2. rewrite total2_comb, !total_rate2, H, H1, H2. ring.
  Qed.
  Lemma bs_off2 dt u : off2 u = 0 -> off2 (bs_step2 F dt u) = 0.
  Proof.
    intros H.
    assert (H1 : off2 (fun i j => u i j + dt / 2 * F u i j) = 0) by (rewrite off2_lin, total_rate2, H; ring).
    assert (H2 : off2 (fun i j => u i j + 3 / 4 * dt * F (fun i j => u i j + dt / 2 * F u i j) i j) = 0)
      by (rewrite off2_lin, total_rate2, H, H1; ring).
    unfold bs_step2. rewrite off2_lin. unfold bs_rate2. rewrite total2_comb, !total_rate2, H, H1, H2. ring.
  Qed.
  Lemma mean_off2 u : off2 u = 0 <-> mean2 dom u = s_m s.
  Proof.
    assert (E : off2 u = total2 dom u - (IZR (nx dom) * IZR (nx dom)) * s_m s).
    { unfold off2, total2. rewrite sum2_minus. destruct HV as (A & D). rewrite sum2_const by lia. ring. }
    assert (NZ : 0 < IZR (nx dom) /\ 0 < IZR (nx dom)) by (destruct HV as (A & D); repeat split; apply IZR_lt; lia).
    unfold mean2. rewrite E. split; intros H.
    - replace (total2 dom u) with ((IZR (nx dom) * IZR (nx dom)) * s_m s) by lra. field. lra.
    - rewrite <- H. field. lra.
  Qed.
  Lemma random_off2 draw : off2 (random2 dom draw (s_m s)) = 0.
  Proof.
    assert (NZ : 0 < IZR (nx dom) /\ 0 < IZR (nx dom)) by (destruct HV as (A & D); repeat split; apply IZR_lt; lia).
    unfold random2. match goal with |- off2 (fun i j => s_m s + (draw (@?f i j) - ?mm)) = 0 => set (M := mm) end.
    unfold off2, total2.
    transitivity (total2 dom (fun i j => draw (Z.to_nat (i * nx dom + j)) - M)).
    - unfold total2. apply sum2_ext. intros. ring.
    - unfold total2. rewrite sum2_minus. destruct HV as (A & D). rewrite sum2_const by lia. unfold M, mean2, total2. field. lra.
  Qed.
  Lemma reached_off2 next u0 : (forall dt u, off2 u = 0 -> off2 (next dt u) = 0) -> off2 u0 = 0 -> forall steps k,
    Forall (fun x => mean2 dom (snd x) = s_m s) (reached (V:=R) (fun _ => next) k u0 steps).
  Proof.
    intros H H0 steps. revert u0 H0. induction steps as [|(t, dt) l IH]; intros u0 H0 k; cbn [reached]; constructor; auto.
    cbn [snd]. apply mean_off2. auto.
  Qed.

  (** Every file of a story then holds a field with this mean. *)
  Lemma story_mean2 pl names messages i0 t0 dt0 proposes next rate u0 w : (forall dt u, off2 u = 0 -> off2 (next dt u) = 0) -> off2 u0 = 0 ->
    story2 pl s dom names messages (i0, t0, dt0) proposes next rate u0 w ->
    Forall (fun f => exists i t dt u, is_file2 pl dom i t dt u (snd f) /\ mean2 dom u = s_m s) (w_files w).
  Proof.
    intros H H0 (steps & e & files & fin & _ & SV & WF & LA & _).
    pose proof (reached_off2 next u0 H H0 steps i0) as RO.
    rewrite WF. apply Forall_app. split.
    - rewrite every_pick. apply pick_forall. clear - SV RO. induction SV as [|(((i, t), dt), u) f l l' H HF IH]; [constructor|].
      inversion RO as [|? ? R1 R2]; subst. constructor; auto. exists i, t, dt, u. split; [apply H|exact R1].
    - constructor; [|constructor]. destruct LA as (bef & i & t & dt & u & ER & SF). rewrite ER in RO.
      apply Forall_app in RO as (_ & RO). inversion RO as [|? ? R1 _]; subst. exists i, t, e, u. split; [apply SF|exact R1].
  Qed.
End Mean2.

Lemma run2_rk3 (pl : platform R) fuel fs vts other args opts m vm s bx by_ bz :
  parse_options (pl_read pl) (pl_lit pl) (pl_eps100 pl) (pl_max100 pl) fs args opts = Ok (Running m vm) ->
  asks m 2 "rk3ssp" "none" s ->
  sound s fuel -> bc_named (s_bc_x s) bx -> bc_named (s_bc_y s) by_ -> bc_named (s_bc_z s) bz ->
  let dom := grid_of s bx by_ bz in
  exists w, madgicart pl fuel fs vts other args opts = Some (Ok (Finished w)) /\
    story2 pl s dom [] [config_template (pl_showg pl) (pl_lit pl) (pl_eps100 pl) (pl_max100 pl) vm] (0, s_t0 s, s_dt s) (fun dt p => p = dt) (ssp3_2 (ch_rate2 dom s)) (ssp3_rate2 (ch_rate2 dom s))
      (random2 dom (pl_draw pl) (s_m s)) w.
Proof.
  intros PO A (SX & SY & SZ & SV & SM & SL & SF) BX BY BZ dom.
  assert (HV : valid_domain2 dom) by (unfold valid_domain2; cbn; lia).
  destruct (program2_rk3 pl fuel fs vts other args opts m vm PO s bx by_ bz SX SY SZ BX BY BZ ltac:(lia) SL ltac:(rewrite limit_int; lia) zero_eq A)
    as (d & c & EM & EC & K).
  fold dom in EM. pose proof (random_field2 dom d (pl_draw pl) (s_m s) c HV ltac:(cbn; lia) EM EC) as HC.
  destruct (K (of2 dom (random2 dom (pl_draw pl) (s_m s)))) as (w0 & w & ST & EW & RN).
  { apply state2; [cbn; lia|]. eapply holds_inside2_ext; [exact HC|]. intros i j I. unfold at2. rewrite of2_slot; [reflexivity|].
    apply inside_padded2; [cbn; lia|exact I]. }
  exists w. split; [exact EW|].
  destruct (make2_inv dom d HV EM) as (W & ED).
  assert (EX : d2_dx d = spacing dom) by (rewrite (wf2_dx _ W), ED; reflexivity).
  eapply (outcome2 pl s dom d vm "none" (options_of s) eq_refl eq_refl ltac:(cbn; lia) HV EM SX _ (ssp3_2 (ch_rate2 dom s)) (ssp3_rate2 (ch_rate2 dom s))); [| | |exact ST|exact RN|exact SM].
  - intros t dt a u HA. rewrite EX. apply rk3_agree2; auto.
  - intros i j I. unfold at2. rewrite of2_slot; [reflexivity|]. apply inside_padded2; [cbn; lia|exact I].
  - auto.
Qed.

Lemma run2_ode23 (pl : platform R) fuel fs vts other args opts m vm s bx by_ bz (tol lo hi : R) :
  parse_options (pl_read pl) (pl_lit pl) (pl_eps100 pl) (pl_max100 pl) fs args opts = Ok (Running m vm) ->
  asks m 2 "ode23" "none" s ->
    given m [("time_rel_err_tol", VDouble tol); ("min_time_step_size", VDouble lo); ("max_time_step_size", VDouble hi)] ->
  sound s fuel -> bc_named (s_bc_x s) bx -> bc_named (s_bc_y s) by_ -> bc_named (s_bc_z s) bz ->
  let dom := grid_of s bx by_ bz in
  exists w, madgicart pl fuel fs vts other args opts = Some (Ok (Finished w)) /\
    story2 pl s dom ["time_err"%string] [config_template (pl_showg pl) (pl_lit pl) (pl_eps100 pl) (pl_max100 pl) vm] (0, s_t0 s, s_dt s) (within lo hi) (bs_step2 (ch_rate2 dom s)) (bs_rate2 (ch_rate2 dom s))
      (random2 dom (pl_draw pl) (s_m s)) w.
Proof.
  intros PO A G (SX & SY & SZ & SV & SM & SL & SF) BX BY BZ dom.
  assert (HV : valid_domain2 dom) by (unfold valid_domain2; cbn; lia).
  destruct (program2_ode23 pl fuel fs vts other args opts m vm PO s bx by_ bz SX SY SZ BX BY BZ ltac:(lia) SL ltac:(rewrite limit_int; lia) zero_eq tol lo hi A G)
    as (d & c & EM & EC & K).
  fold dom in EM. pose proof (random_field2 dom d (pl_draw pl) (s_m s) c HV ltac:(cbn; lia) EM EC) as HC.
  destruct (K (of2 dom (random2 dom (pl_draw pl) (s_m s)))) as (w0 & w & ST & EW & RN).
  { apply state2; [cbn; lia|]. eapply holds_inside2_ext; [exact HC|]. intros i j I. unfold at2. rewrite of2_slot; [reflexivity|].
    apply inside_padded2; [cbn; lia|exact I]. }
  exists w. split; [exact EW|].
  destruct (make2_inv dom d HV EM) as (W & ED).
  assert (EX : d2_dx d = spacing dom) by (rewrite (wf2_dx _ W), ED; reflexivity).
  eapply (outcome2 pl s dom d vm "none" (options_of s) eq_refl eq_refl ltac:(cbn; lia) HV EM SX _ (bs_step2 (ch_rate2 dom s)) (bs_rate2 (ch_rate2 dom s))); [| | |exact ST|exact RN|exact SM].
  - intros t dt a u HA. rewrite EX. apply bs_agree2; auto.
  - intros i j I. unfold at2. rewrite of2_slot; [reflexivity|]. apply inside_padded2; [cbn; lia|exact I].
  - apply clamped_within.
Qed.
