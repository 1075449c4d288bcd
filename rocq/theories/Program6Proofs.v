(** Runs of the whole program in exact arithmetic: from the values in memory to fields. *)
From Coq Require Import String Reals Lra.
From Verif Require Import ModelLogger ModelOptions Outcome ZList ZListProofs Num Gather ModelIndex ModelInt32 ModelDisc3D ModelDisc2D ModelCH ModelObs
  ModelTime ModelRun ModelMon ModelVTK ModelMain ModelProgram SpecGrid SpecField SpecTime SpecRestart SpecMon SpecProgram Disc3DProofs Make3Proofs
  Disc2DProofs Make2Proofs BC3Proofs CHProofs VTK2Proofs SumProofs FieldProofs Time2Proofs Step1Proofs Mon1Proofs Mon3Proofs Mon4Proofs MonFinal
  RestartProofs RestartFinal ProgramProofs Program2Proofs Program3Proofs Program4Proofs Program5Proofs.
From Coq Require Import Lia ZifyBool ZifyNat List.
Local Open Scope string_scope.
Local Open Scope list_scope.
Local Open Scope Z_scope.

Section Relate.
  Context {V A B : Type} `{N : Num V} (Rel : A -> B -> Prop) (next : V -> V -> A -> A) (next' : V -> V -> B -> B).
  Definition same_step (x : Z * V * V * A) (y : Z * V * V * B) : Prop :=
    let '(i, t, dt, a) := x in let '(i', t', dt', b) := y in i = i' /\ t = t' /\ dt = dt' /\ Rel a b.
  Lemma reached_rel steps : (forall t dt a b, Rel a b -> Rel (next t dt a) (next' t dt b)) ->
    forall k a b, Rel a b -> Forall2 same_step (reached next k a steps) (reached next' k b steps).
  Proof.
    intros H. induction steps as [|(t, dt) l IH]; intros k a b HR; cbn [reached]; [constructor|]. constructor; auto. repeat split; auto.
  Qed.
End Relate.

Lemma marches_weaken {V} `{N : Num V} (p q : V -> V -> Prop) tf lim : (forall a b, p a b -> q a b) ->
  forall k t dt b l e, marches p tf lim k t dt b l e -> marches q tf lim k t dt b l e.
Proof. intros H k t dt b l e M. induction M; econstructor; eauto. Qed.

Lemma clamped_within lo hi dt p : clamped lo hi dt p -> within lo hi dt p.
Proof.
  intros [E|(x & E)]; [left; auto|]. right. subst p. unfold nmax, nmin, nltb. cbn [Num_R]. 
  unfold Rltb. repeat destruct (Rlt_dec _ _); lra.
Qed.

Lemma every_forall2 {A B} (Q : A -> B -> Prop) n l l' : Forall2 Q l l' -> Forall2 Q (every n l) (every n l').
Proof. intros H. rewrite !every_pick. apply pick_forall2; auto. Qed.
Lemma every_map {A B} (f : A -> B) n l : every n (map f l) = map f (every n l).
Proof. rewrite !every_pick. apply pick_map. Qed.

Lemma forall2_trans {A B C} (P : A -> B -> Prop) (Q : A -> C -> Prop) (S : B -> C -> Prop) : forall l l' l'',
  (forall a b c, P a b -> Q a c -> S b c) -> Forall2 P l l' -> Forall2 Q l l'' -> Forall2 S l' l''.
Proof.
  intros l l' l'' H H1. revert l''. induction H1; intros l'' H2; inversion H2; subst; constructor; eauto.
Qed.
Lemma forall2_comp {A B C} (P : A -> B -> Prop) (Q : B -> C -> Prop) (S : A -> C -> Prop) : forall l l' l'',
  (forall a b c, P a b -> Q b c -> S a c) -> Forall2 P l l' -> Forall2 Q l' l'' -> Forall2 S l l''.
Proof.
  intros l l' l'' H H1. revert l''. induction H1; intros l'' H2; inversion H2; subst; constructor; eauto.
Qed.
Lemma forall2_snoc_l {A B} (P : A -> B -> Prop) l a l' : Forall2 P (l ++ [a]) l' -> exists m b, l' = m ++ [b] /\ Forall2 P l m /\ P a b.
Proof.
  intros H. apply Forall2_app_inv_l in H as (m & n & H1 & H2 & ->). inversion H2 as [|x y ? ? H3 H4]; subst. inversion H4; subst. eauto 6.
Qed.

Lemma forall2_map_l {A B C} (P : C -> B -> Prop) (f : A -> C) l l' : Forall2 (fun a b => P (f a) b) l l' -> Forall2 P (map f l) l'.
Proof. induction 1; constructor; auto. Qed.
Lemma forall2_nth {A B} (P : A -> B -> Prop) l l' : Forall2 P l l' -> forall n b, nth_error l' n = Some b -> exists a, nth_error l n = Some a /\ P a b.
Proof.
  induction 1; intros [|n] c E; cbn in E; try discriminate.
  - injection E as <-. eexists. split; [reflexivity|auto].
  - apply IHForall2; auto.
Qed.
Lemma forall2_len {A B} (P : A -> B -> Prop) l l' : Forall2 P l l' -> length l = length l'.
Proof. induction 1; cbn; congruence. Qed.
Lemma nth_error_combine {A B} (l : list A) (l' : list B) n a b : nth_error (combine l l') n = Some (a, b) -> nth_error l n = Some a /\ nth_error l' n = Some b.
Proof.
  revert l' n. induction l as [|x l IH]; intros l' [|n] E; cbn in E; try discriminate.
  - destruct l'; [discriminate|]. cbn in E. injection E as <- <-. auto.
  - destruct l'; [discriminate|]. cbn in E. cbn. apply IH; auto.
Qed.

Section Field3.
  Variables (s : settings R) (dom : domain R).
  Hypothesis HV : valid_domain3 dom.
  Local Notation F := (ch_rate3 dom s).
  Local Notation f := (ch_f3 dom (s_variant s) (params_in s) (spacing dom)).
  Local Open Scope R_scope.

  Definition agree3 (a : nat -> Z -> R) (u : Z -> Z -> Z -> R) : Prop := forall i j k, inside3 dom i j k -> at3 dom a i j k = u i j k.

  Lemma rate3 t a u : agree3 a u -> agree3 (f t a) (F u).
  Proof.
    intros H i j k I. unfold at3, ch_f3. rewrite of3_slot by (apply inside_padded3; [destruct HV; lia|auto]).
    unfold ch_rate3. rewrite (ch_expr3_ext _ _ _ _ (extend3 dom u)) by (apply extend3_inside_ext; auto). apply ch_expr3_R.
  Qed.

  Lemma rk3_agree3 t dt a u : agree3 a u ->
    agree3 (rk3_next f t dt a) (ssp3_3 F dt u) /\ agree3 (rk3_slope f t dt a) (ssp3_rate3 F dt u).
  Proof.
    intros H. pose proof (rate3 t a u H) as H1.
    assert (A1 : agree3 (fun e i => nadd (a e i) (nmul (nmul dt (nint 1)) (rk3_k1 f t a e i))) (fun i j k => u i j k + dt * F u i j k)).
    { intros i j k I. unfold at3. cbn [nadd nmul nint Num_R]. unfold rk3_k1. specialize (H1 i j k I). specialize (H i j k I). unfold at3 in H1, H. rewrite H, H1. ring. }
    pose proof (rate3 (nadd t (nmul (nint 1) dt)) _ _ A1) as H2. fold (rk3_k2 f t dt a) in H2.
    assert (A2 : agree3 (fun e i => nadd (a e i) (nmul dt (nadd (nmul (nrat 1 4) (rk3_k1 f t a e i)) (nmul (nrat 1 4) (rk3_k2 f t dt a e i)))))
      (fun i j k => 3 / 4 * u i j k + 1 / 4 * (u i j k + dt * F u i j k + dt * F (fun i j k => u i j k + dt * F u i j k) i j k))).
    { intros i j k I. unfold at3. cbn [nadd nmul nint nrat Num_R]. unfold rk3_k1. specialize (H2 i j k I). specialize (H1 i j k I). specialize (H i j k I).
      unfold at3 in H2, H1, H. rewrite H2, H, H1. field. }
    pose proof (rate3 (nadd t (nmul (nrat 1 2) dt)) _ _ A2) as H3. fold (rk3_k3 f t dt a) in H3.
    assert (S : agree3 (rk3_slope f t dt a) (ssp3_rate3 F dt u)).
    { intros i j k I. unfold at3, rk3_slope, ssp3_rate3. cbn [nadd nmul nint nrat Num_R]. unfold rk3_k1 at 1.
      specialize (H3 i j k I). specialize (H2 i j k I). specialize (H1 i j k I).
      unfold at3 in H3, H2, H1. rewrite H3, H2, H1. field. }
    split; [|exact S]. intros i j k I. specialize (S i j k I). specialize (H i j k I). unfold at3 in S, H.
    unfold at3, rk3_next. cbn [nadd nmul Num_R]. rewrite S, H. unfold ssp3_3, ssp3_rate3. field.
  Qed.

  Lemma bs_agree3 t dt a u : agree3 a u ->
    agree3 (bs23 f t dt a) (bs_step3 F dt u) /\ agree3 (slope23 f t dt a) (bs_rate3 F dt u).
  Proof.
    intros H. pose proof (rate3 t a u H) as H1.
    assert (A1 : agree3 (fun e i => nadd (a e i) (nmul (nmul dt (nrat 1 2)) (f t a e i))) (fun i j k => u i j k + dt / 2 * F u i j k)).
    { intros i j k I. unfold at3. cbn [nadd nmul nint nrat Num_R]. specialize (H1 i j k I). specialize (H i j k I). unfold at3 in H1, H. rewrite H, H1. field. }
    pose proof (rate3 (nadd t (nmul (nrat 1 2) dt)) _ _ A1) as H2. fold (bs2 f t dt a (f t a)) in H2.
    assert (A2 : agree3 (fun e i => nadd (a e i) (nmul dt (nadd (nmul (nint 0) (f t a e i)) (nmul (nrat 3 4) (bs2 f t dt a (f t a) e i)))))
      (fun i j k => u i j k + 3 / 4 * dt * F (fun i j k => u i j k + dt / 2 * F u i j k) i j k)).
    { intros i j k I. unfold at3. cbn [nadd nmul nint nrat Num_R]. specialize (H2 i j k I). specialize (H1 i j k I). specialize (H i j k I).
      unfold at3 in H2, H1, H. rewrite H2, H, H1. field. }
    pose proof (rate3 (nadd t (nmul (nrat 3 4) dt)) _ _ A2) as H3. fold (bs3 f t dt a (f t a)) in H3.
    assert (S : agree3 (slope23 f t dt a) (bs_rate3 F dt u)).
    { intros i j k I. unfold at3, slope23, bs_slope, bs_rate3. cbn [nadd nmul nint nrat Num_R].
      specialize (H3 i j k I). specialize (H2 i j k I). specialize (H1 i j k I).
      unfold at3 in H3, H2, H1. rewrite H3, H2, H1. field. }
    split; [|exact S]. intros i j k I. specialize (S i j k I). specialize (H i j k I). unfold at3 in S, H.
    unfold at3, bs23, bs_next. cbn [nadd nmul Num_R]. unfold slope23 in S. rewrite S, H. reflexivity.
  Qed.
End Field3.

Lemma random_field3 (dom : domain R) d draw m c : valid_domain3 dom -> 1 <= nhalo dom -> make3 dom = Ok d ->
  random_initial draw m (d3_interior d) (create_real_array3 d) = Ok c -> holds_inside3 dom c (random3 dom draw m).
Proof.
  intros HV HN HM HR. pose proof (new_array3_len dom d HV HN HM) as LA.
  destruct (make3_inv dom d HV HM) as (W & D). subst dom.
  set (idx := d3_interior d) in *. pose proof (zlen_interior_3 d W) as LI. fold idx in LI.
  assert (NE : idx <> []). { intros E. rewrite E in LI. destruct HV as (A & B). change (zlen (@nil Z)) with 0 in LI. nia. }
  destruct (random_initial_spec draw m idx (create_real_array3 d) (interior_nodup d W)) as (c' & E & L & IN & _); auto.
  { intros q Hq. rewrite LA. apply (interior_range d q W Hq). }
  fold idx in HR. rewrite E in HR. injection HR as <-.
  set (avg := (Rsum (map draw (seq 0 (length idx))) / INR (length idx))%R) in *.
  assert (AV : avg = mean3 (d3_domain d) (fun i j k => draw (pos3 (d3_domain d) i j k))).
  { set (g := fun q => match zget c' q with Some v => (v - m + avg)%R | None => 0%R end).
    assert (T : Rsum (map draw (seq 0 (length idx))) = total3 (d3_domain d) (fun i j k => draw (pos3 (d3_domain d) i j k))).
    { rewrite <- (map_by_pos g draw idx 0).
      - unfold idx. rewrite (Rsum_interior3 d g W). apply sum3_ext. intros i j k I J K. unfold g.
        rewrite (IN _ _ (interior_at3 d i j k W ltac:(repeat split; lia))). ring.
      - intros p q Hp. unfold g. rewrite (IN p q Hp). cbn [Nat.add]. ring. }
    unfold avg, mean3. rewrite T. f_equal. rewrite INR_IZR_INZ. change (Z.of_nat (length idx)) with (zlen idx). rewrite LI, !mult_IZR. ring. }
  split; [congruence|]. intros i j k I. rewrite (IN _ _ (interior_at3 d i j k W I)). unfold random3. rewrite AV. reflexivity.
Qed.


Section Outcome3.
  Variables (pl : platform R) (s : settings R) (dom : domain R) (d : disc3 R) (vm : vmap R) (restart_file : string) (o : time_options R).
  Hypothesis OF : t_tfinal o = s_tfinal s.
  Hypothesis OM : t_max_steps o = int_of_unsigned (s_max_steps s).
  Hypothesis HN : 1 <= nhalo dom.
  Hypothesis HV : valid_domain3 dom.
  Hypothesis HM : make3 dom = Ok d.

  Local Notation X := (Z -> Z -> Z -> R).
  Variables (names : list string) (nextf ratef : R -> X -> X).

  Definition traced_field3 (y : Z * R * R * list R * list R * list (string * R)) (z : Z * R * R * (X * X)) : Prop :=
    let '(i, t, dt, c, r, ex) := y in let '(i', t', dt', (u, v)) := z in
    i = i' /\ t = t' /\ dt = dt' /\ holds_inside3 dom c u /\ holds_inside3 dom r v /\ map fst ex = names.

  Lemma reached_fst3 k (uv : X * X) steps : map (fun z => let '(i, t, dt, p) := z in (i, t, dt, fst p))
     (reached (V:=R) (fun _ dt x => (nextf dt (fst x), ratef dt (fst x))) k uv steps) = reached (fun _ => nextf) k (fst uv) steps.
  Proof.
    revert k uv. induction steps as [|(t, dt) l IH]; intros k uv; [reflexivity|]. cbn [reached map]. rewrite IH. reflexivity.
  Qed.

  Local Notation rated_steps i u steps := (reached (V:=R) (fun _ dt x => (nextf dt (fst x), ratef dt (fst x))) i (u, u) steps).

  (** Files and log in terms of fields, from the run in terms of arrays, whatever the fields are. *)
  Lemma told_list3 w0 w e tr docs fin rated :
    started pl vm s restart_file w0 ->
    Forall2 traced_field3 tr rated ->
    Forall2 (step_file (scene3 pl (s_max_steps s) d) (name3 s) (base_of s)) tr docs ->
    w_files w = w_files w0 ++ every (s_save_every s) docs ++ [fin] ->
    (exists i t dt c r ex tr', tr = tr' ++ [(i, t, dt, c, r, ex)] /\ step_file (scene3 pl (s_max_steps s) d) (name3 s) (base_of s ++ "_final")%string (i, t, e, c, r, ex) fin) ->
    (exists rows rms out, Forall2 (step_row (scene3 pl (s_max_steps s) d)) (every (s_log_every s) tr) rows /\
      residual_history (red_sum (pl_red pl)) ["c"] 1 (sn_idx (scene3 pl (s_max_steps s) d)) (w_stats w0) (map residual_of (every (s_log_every s) tr)) = Ok (w_stats w, rms) /\
      perform_all (pl_showe pl) (pl_table pl) (pl_banner pl) (w_logger w0) (log_calls rows rms) = Next (w_logger w) out /\
      w_out w = w_out w0 ++ out) ->
    Forall2 (saved3 pl s dom (base_of s)) (map (fun z => let '(i, t, dt, p) := z in (i, t, dt, fst p)) rated) docs /\
    w_files w = every (s_save_every s) docs ++ [fin] /\
    (exists before i t dt u, map (fun z => let '(i, t, dt, p) := z in (i, t, dt, fst p)) rated = before ++ [(i, t, dt, u)] /\
       saved3 pl s dom (base_of s ++ "_final")%string (i, t, e, u) fin) /\
    (reduces pl ->
     exists rows, perform_all (pl_showe pl) (pl_table pl) (pl_banner pl) new_logger (log_requests (s_log_file s) (start_messages (template pl vm) restart_file) rows)
         = Next (w_logger w) (w_out w) /\
       length rows = length (every (s_log_every s) rated) /\
       forall n x row, nth_error (every (s_log_every s) rated) n = Some x -> nth_error rows n = Some row ->
         logged3 dom names (firstn (S n) (every (s_log_every s) rated)) x row).
  Proof.
    intros (F0 & S0 & P0) TF SF WF LA (rows & rms & out & RW & RH & PA & WO).
    assert (SV : forall b y z f, traced_field3 y z -> step_file (scene3 pl (s_max_steps s) d) (name3 s) b y f ->
      saved3 pl s dom b (let '(i, t, dt, p) := z in (i, t, dt, fst p)) f).
    { intros b (((((i, t), dt), c), r), ex) (((i', t'), dt'), (u, v)) f (E1 & E2 & E3 & H1 & H2 & H9) (G1 & G2). subst i' t' dt'.
      split; [exact G1|]. exists d, c. split; [exact HM|]. split; [exact H1|exact G2]. }
    split.
    { apply forall2_map_l. eapply forall2_trans; [|exact TF|exact SF]. intros y z f. apply SV. }
    split. { rewrite WF, F0. reflexivity. }
    split.
    { destruct LA as (i & t & dt & c & r & ex & tr' & ET & FF). rewrite ET in TF. apply forall2_snoc_l in TF as (bef & (((i', t'), dt'), (u, v)) & EB & _ & T1).
      rewrite EB, map_app. exists (map (fun z => let '(i, t, dt, p) := z in (i, t, dt, fst p)) bef), i', t', dt', u. split; [reflexivity|].
      destruct T1 as (E1 & E2 & E3 & H1 & H2 & H9). subst i' t' dt'.
      apply (SV _ (i, t, e, c, r, ex) (i, t, e, (u, v))); [repeat split; auto; try apply H1; apply H2|exact FF]. }
    intros (RS & RP & RH1 & RL). 
    assert (TE : Forall2 traced_field3 (every (s_log_every s) tr) (every (s_log_every s) rated)) by (apply every_forall2; auto).
    set (lg := every (s_log_every s) rated) in *. set (ltr := every (s_log_every s) tr) in *.
    destruct (pf_C58_residual_report_3d dom d ["c"] (red_sum (pl_red pl)) (map residual_of ltr)
       (map (fun z (_ : nat) => snd (snd z)) lg) HV HM RS ltac:(discriminate)) as (st & ms & E58 & L58 & K58).
    { clear - TE. induction TE as [|y z l l' H HF IH]; [constructor|]. cbn [map]. constructor; auto.
      destruct y as (((((i, t), dt), c), r), ex). destruct z as (((i', t'), dt'), (u, v)). destruct H as (_ & _ & _ & _ & H & _).
      intros [|q] Hq; cbn in Hq; [|lia]. exists r. split; [reflexivity|exact H]. }
    rewrite S0 in RH. change (length ["c"]) with 1%nat in E58. change (sn_idx (scene3 pl (s_max_steps s) d)) with (d3_interior d) in RH.
    rewrite E58 in RH. injection RH as _ ERM. subst rms.
    assert (LR : length rows = length ltr) by (symmetry; eapply forall2_len; eauto).
    assert (LG : length ltr = length lg) by (eapply forall2_len; eauto).
    rewrite map_length in L58.
    exists (map (fun x => (fst (fst x), snd x, snd (fst x))) (combine rows ms)). split; [|split].
    - unfold log_requests. rewrite app_comm_cons.
      rewrite WO. eapply perform_app; [exact P0|]. rewrite <- PA. f_equal. unfold log_calls.
      clear. induction (combine rows ms) as [|x l IH]; [reflexivity|]. cbn [map flat_map]. rewrite IH. reflexivity.
    - rewrite map_length, combine_length. lia.
    - intros n x row Hx Hr. rewrite nth_error_map in Hr.
      destruct (nth_error (combine rows ms) n) as [(rw, mm)|] eqn:EC; [|discriminate]. cbn in Hr. injection Hr as <-.
      destruct (nth_error_combine _ _ _ _ _ EC) as (N1 & N2).
      destruct (forall2_nth _ _ _ TE n x Hx) as (y & NY & TY).
      destruct (forall2_nth _ _ _ RW n rw N1) as (y' & NY' & RY). rewrite NY in NY'. injection NY' as <-.
      destruct x as (((i', t'), dt'), (u, v)). destruct y as (((((i, t), dt), c), r), ex). destruct TY as (E1 & E2 & E3 & H1 & H2 & H9). subst i' t' dt'.
      destruct RY as (G1 & G2). cbn [fst snd]. unfold logged3. split; [exists ex; split; [exact H9|exact G1]|]. split.
      + destruct (K58 n (fun _ => v) mm) as (A & Rel & top & Em & GT & T1 & T2 & _).
        * rewrite nth_error_map, Hx. reflexivity.
        * exact N2.
        * exists A, Rel, top. split; [exact Em|]. rewrite firstn_map, map_map in GT. split; [exact GT|]. split; auto.
      + cbn [sn_monitor scene3] in G2. rewrite RH1, RL in G2.
        assert (MN : exists lo hi g, snd rw = [("min_c", lo); ("max_c", hi); ("grad_c_mag", g)]%string).
        { clear - G2. unfold solution_monitor3 in G2. match type of G2 with rbind ?x _ = _ => destruct x; try discriminate end.
          cbn [rbind] in G2. injection G2 as G2. unfold monitor_values in G2. eauto. }
        destruct MN as (lo & hi & g & MN). exists lo, hi, g. split; [exact MN|].
        intros FD. destruct (pf_C59_minmax_3d dom d (pl_red pl) c u HV HN HM RP H1 FD) as (lo' & hi' & g' & EM & HL & HH).
        rewrite EM in G2. injection G2 as G2. rewrite <- G2 in MN. injection MN as <- <- <-. split; auto.
  Qed.

  (** The run in terms of fields, from that in terms of arrays. *)
  Lemma told3 (proposes proposes' : R -> R -> Prop) next slope a u0 w0 w lim steps e tr docs fin :
    (forall t dt a u, agree3 dom a u -> agree3 dom (next t dt a) (nextf dt u) /\ agree3 dom (slope t dt a) (ratef dt u)) ->
    agree3 dom a u0 -> (forall x y, proposes x y -> proposes' x y) ->
    started pl vm s restart_file w0 ->
    marches proposes (s_tfinal s) lim (t_initial_step o) (t_t0 o) (t_dt_initial o) false steps e ->
    Forall2 (traced (cells3 dom) (P3 dom) names) tr (reached (both next slope) (t_initial_step o) (a, a) steps) ->
    Forall2 (step_file (scene3 pl (s_max_steps s) d) (name3 s) (base_of s)) tr docs ->
    w_files w = w_files w0 ++ every (s_save_every s) docs ++ [fin] ->
    (exists i t dt c r ex tr', tr = tr' ++ [(i, t, dt, c, r, ex)] /\ step_file (scene3 pl (s_max_steps s) d) (name3 s) (base_of s ++ "_final")%string (i, t, e, c, r, ex) fin) ->
    (exists rows rms out, Forall2 (step_row (scene3 pl (s_max_steps s) d)) (every (s_log_every s) tr) rows /\
      residual_history (red_sum (pl_red pl)) ["c"] 1 (sn_idx (scene3 pl (s_max_steps s) d)) (w_stats w0) (map residual_of (every (s_log_every s) tr)) = Ok (w_stats w, rms) /\
      perform_all (pl_showe pl) (pl_table pl) (pl_banner pl) (w_logger w0) (log_calls rows rms) = Next (w_logger w) out /\
      w_out w = w_out w0 ++ out) ->
    Forall2 traced_field3 tr (rated_steps (t_initial_step o) u0 steps) /\
    marches proposes' (s_tfinal s) lim (t_initial_step o) (t_t0 o) (t_dt_initial o) false steps e /\
    Forall2 (saved3 pl s dom (base_of s)) (reached (fun _ => nextf) (t_initial_step o) u0 steps) docs /\
    w_files w = every (s_save_every s) docs ++ [fin] /\
    (exists before i t dt u, reached (fun _ => nextf) (t_initial_step o) u0 steps = before ++ [(i, t, dt, u)] /\
       saved3 pl s dom (base_of s ++ "_final")%string (i, t, e, u) fin) /\
    (reduces pl ->
     let rated := rated_steps (t_initial_step o) u0 steps in
     exists rows, perform_all (pl_showe pl) (pl_table pl) (pl_banner pl) new_logger (log_requests (s_log_file s) (start_messages (template pl vm) restart_file) rows)
         = Next (w_logger w) (w_out w) /\
       length rows = length (every (s_log_every s) rated) /\
       forall n x row, nth_error (every (s_log_every s) rated) n = Some x -> nth_error rows n = Some row ->
         logged3 dom names (firstn (S n) (every (s_log_every s) rated)) x row).
  Proof.
    intros HS HA HP ST MA TR SF WF LA LG.
    set (rated := reached (fun _ dt x => (nextf dt (fst x), ratef dt (fst x))) (t_initial_step o) (u0, u0) steps).
    assert (TF : Forall2 traced_field3 tr rated).
    { eapply forall2_comp; [|exact TR|apply (reached_rel (fun x y => agree3 dom (fst x) (fst y) /\ agree3 dom (snd x) (snd y))
          (both next slope) (fun _ dt x => (nextf dt (fst x), ratef dt (fst x))) steps)].
      - intros (((((i, t), dt), c), r), ex) (((i', t'), dt'), (u, v)) (((i'', t''), dt''), (u', v')) (E1 & E2 & E3 & H1 & H2 & H9) (E4 & E5 & E6 & H3 & H4).
        cbn [fst snd] in H3, H4. repeat split; try congruence.
        + apply state3 in H1; [|lia]. eapply holds_inside3_ext in H1; [exact (proj1 H1)|exact H3].
        + apply state3 in H1; [|lia]. eapply holds_inside3_ext in H1; [exact (proj2 H1)|exact H3].
        + apply state3 in H2; [|lia]. eapply holds_inside3_ext in H2; [exact (proj1 H2)|exact H4].
        + apply state3 in H2; [|lia]. eapply holds_inside3_ext in H2; [exact (proj2 H2)|exact H4].
      - intros t dt (a1, a2) (b1, b2) (G1 & G2). cbn [fst snd both] in *. apply HS; auto.
      - cbn. split; auto. }
    assert (RF : map (fun z => let '(i, t, dt, p) := z in (i, t, dt, fst p)) rated = reached (fun _ => nextf) (t_initial_step o) u0 steps).
    { exact (reached_fst3 (t_initial_step o) (u0, u0) steps). }
    split; [exact TF|]. split; [eapply marches_weaken; eauto|]. rewrite <- RF.
    exact (told_list3 w0 w e tr docs fin rated ST TF SF WF LA LG).
  Qed.

  Lemma outcome3 (proposes proposes' : R -> R -> Prop) next slope a u0 w0 w :
    (forall t dt a u, agree3 dom a u -> agree3 dom (next t dt a) (nextf dt u) /\ agree3 dom (slope t dt a) (ratef dt u)) ->
    agree3 dom a u0 -> (forall x y, proposes x y -> proposes' x y) ->
    started pl vm s restart_file w0 ->
    ran3 pl s dom d names proposes next slope o a w0 w -> 0 < s_max_steps s <= 2147483647 ->
    story3 pl s dom names (start_messages (template pl vm) restart_file) (t_initial_step o, t_t0 o, t_dt_initial o) proposes' nextf ratef u0 w.
  Proof.
    intros HS HA HP ST (steps & e & tr & docs & fin & MA & TR & SF & WF & LA & RR) LM.
    rewrite OF, OM in MA. replace (int_of_unsigned (s_max_steps s)) with (s_max_steps s) in MA by (unfold int_of_unsigned, int_max; replace (s_max_steps s <=? 2147483647) with true by lia; reflexivity).
    destruct (told3 proposes proposes' next slope a u0 w0 w _ steps e tr docs fin HS HA HP ST MA TR SF WF LA RR) as (_ & T).
    exists steps, e, docs, fin. exact T.
  Qed.
End Outcome3.

Section Field2.
  Variables (s : settings R) (dom : domain R).
  Hypothesis HV : valid_domain2 dom.
  Local Notation F := (ch_rate2 dom s).
  Local Notation f := (ch_f2 dom (params_in s) (spacing dom)).
  Local Open Scope R_scope.

  Definition agree2 (a : nat -> Z -> R) (u : Z -> Z -> R) : Prop := forall i j, inside2 dom i j -> at2 dom a i j = u i j.

  Lemma rate2 t a u : agree2 a u -> agree2 (f t a) (F u).
  Proof.
    intros H i j I. unfold at2, ch_f2. rewrite of2_slot by (apply inside_padded2; [destruct HV; lia|auto]).
    unfold ch_rate2. rewrite (ch_expr2_ext _ _ _ (periodic2 dom u)) by (apply periodic2_inside_ext; auto). apply ch_expr2_R.
  Qed.

  Lemma rk3_agree2 t dt a u : agree2 a u ->
    agree2 (rk3_next f t dt a) (ssp3_2 F dt u) /\ agree2 (rk3_slope f t dt a) (ssp3_rate2 F dt u).
  Proof.
    intros H. pose proof (rate2 t a u H) as H1.
    assert (A1 : agree2 (fun e i => nadd (a e i) (nmul (nmul dt (nint 1)) (rk3_k1 f t a e i))) (fun i j => u i j + dt * F u i j)).
    { intros i j I. unfold at2. cbn [nadd nmul nint Num_R]. unfold rk3_k1. specialize (H1 i j I). specialize (H i j I). unfold at2 in H1, H. rewrite H, H1. ring. }
    pose proof (rate2 (nadd t (nmul (nint 1) dt)) _ _ A1) as H2. fold (rk3_k2 f t dt a) in H2.
    assert (A2 : agree2 (fun e i => nadd (a e i) (nmul dt (nadd (nmul (nrat 1 4) (rk3_k1 f t a e i)) (nmul (nrat 1 4) (rk3_k2 f t dt a e i)))))
      (fun i j => 3 / 4 * u i j + 1 / 4 * (u i j + dt * F u i j + dt * F (fun i j => u i j + dt * F u i j) i j))).
    { intros i j I. unfold at2. cbn [nadd nmul nint nrat Num_R]. unfold rk3_k1. specialize (H2 i j I). specialize (H1 i j I). specialize (H i j I).
      unfold at2 in H2, H1, H. rewrite H2, H, H1. field. }
    pose proof (rate2 (nadd t (nmul (nrat 1 2) dt)) _ _ A2) as H3. fold (rk3_k3 f t dt a) in H3.
    assert (S : agree2 (rk3_slope f t dt a) (ssp3_rate2 F dt u)).
    { intros i j I. unfold at2, rk3_slope, ssp3_rate2. cbn [nadd nmul nint nrat Num_R]. unfold rk3_k1 at 1.
      specialize (H3 i j I). specialize (H2 i j I). specialize (H1 i j I).
      unfold at2 in H3, H2, H1. rewrite H3, H2, H1. field. }
    split; [|exact S]. intros i j I. specialize (S i j I). specialize (H i j I). unfold at2 in S, H.
    unfold at2, rk3_next. cbn [nadd nmul Num_R]. rewrite S, H. unfold ssp3_2, ssp3_rate2. field.
  Qed.

  Lemma bs_agree2 t dt a u : agree2 a u ->
    agree2 (bs23 f t dt a) (bs_step2 F dt u) /\ agree2 (slope23 f t dt a) (bs_rate2 F dt u).
  Proof.
    intros H. pose proof (rate2 t a u H) as H1.
    assert (A1 : agree2 (fun e i => nadd (a e i) (nmul (nmul dt (nrat 1 2)) (f t a e i))) (fun i j => u i j + dt / 2 * F u i j)).
    { intros i j I. unfold at2. cbn [nadd nmul nint nrat Num_R]. specialize (H1 i j I). specialize (H i j I). unfold at2 in H1, H. rewrite H, H1. field. }
    pose proof (rate2 (nadd t (nmul (nrat 1 2) dt)) _ _ A1) as H2. fold (bs2 f t dt a (f t a)) in H2.
    assert (A2 : agree2 (fun e i => nadd (a e i) (nmul dt (nadd (nmul (nint 0) (f t a e i)) (nmul (nrat 3 4) (bs2 f t dt a (f t a) e i)))))
      (fun i j => u i j + 3 / 4 * dt * F (fun i j => u i j + dt / 2 * F u i j) i j)).
    { intros i j I. unfold at2. cbn [nadd nmul nint nrat Num_R]. specialize (H2 i j I). specialize (H1 i j I). specialize (H i j I).
      unfold at2 in H2, H1, H. rewrite H2, H, H1. field. }
    pose proof (rate2 (nadd t (nmul (nrat 3 4) dt)) _ _ A2) as H3. fold (bs3 f t dt a (f t a)) in H3.
    assert (S : agree2 (slope23 f t dt a) (bs_rate2 F dt u)).
    { intros i j I. unfold at2, slope23, bs_slope, bs_rate2. cbn [nadd nmul nint nrat Num_R].
      specialize (H3 i j I). specialize (H2 i j I). specialize (H1 i j I).
      unfold at2 in H3, H2, H1. rewrite H3, H2, H1. field. }
    split; [|exact S]. intros i j I. specialize (S i j I). specialize (H i j I). unfold at2 in S, H.
    unfold at2, bs23, bs_next. cbn [nadd nmul Num_R]. unfold slope23 in S. rewrite S, H. reflexivity.
  Qed.
End Field2.

Lemma random_field2 (dom : domain R) d draw m c : valid_domain2 dom -> 1 <= nhalo dom -> make2 dom = Ok d ->
  random_initial draw m (d2_interior d) (create_real_array2 d) = Ok c -> holds_inside2 dom c (random2 dom draw m).
Proof.
  intros HV HN HM HR. pose proof (new_array2_len dom d HV HN HM) as LA.
  destruct (make2_inv dom d HV HM) as (W & D). subst dom.
  set (idx := d2_interior d) in *. pose proof (zlen_interior_2 d W) as LI. fold idx in LI.
  assert (NE : idx <> []). { intros E. rewrite E in LI. destruct HV as (A & B). change (zlen (@nil Z)) with 0 in LI. nia. }
  destruct (random_initial_spec draw m idx (create_real_array2 d) (interior_nodup2 d W)) as (c' & E & L & IN & _); auto.
  { intros q Hq. rewrite LA. apply (interior_range2 d q W Hq). }
  fold idx in HR. rewrite E in HR. injection HR as <-.
  set (avg := (Rsum (map draw (seq 0 (length idx))) / INR (length idx))%R) in *.
  assert (AV : avg = mean2 (d2_domain d) (fun i j => draw (pos2 (d2_domain d) i j))).
  { set (g := fun q => match zget c' q with Some v => (v - m + avg)%R | None => 0%R end).
    assert (T : Rsum (map draw (seq 0 (length idx))) = total2 (d2_domain d) (fun i j => draw (pos2 (d2_domain d) i j))).
    { rewrite <- (map_by_pos g draw idx 0).
      - unfold idx. rewrite (Rsum_interior2 d g W). apply sum2_ext. intros i j I J . unfold g.
        rewrite (IN _ _ (interior_at2 d i j W ltac:(repeat split; lia))). ring.
      - intros p q Hp. unfold g. rewrite (IN p q Hp). cbn [Nat.add]. ring. }
    unfold avg, mean2. rewrite T. f_equal. rewrite INR_IZR_INZ. change (Z.of_nat (length idx)) with (zlen idx). rewrite LI, !mult_IZR. ring. }
  split; [congruence|]. intros i j I. rewrite (IN _ _ (interior_at2 d i j W I)). unfold random2. rewrite AV. reflexivity.
Qed.


Section Outcome2.
  Variables (pl : platform R) (s : settings R) (dom : domain R) (d : disc2 R) (vm : vmap R) (restart_file : string) (o : time_options R).
  Hypothesis OF : t_tfinal o = s_tfinal s.
  Hypothesis OM : t_max_steps o = int_of_unsigned (s_max_steps s).
  Hypothesis HN : 1 <= nhalo dom.
  Hypothesis HV : valid_domain2 dom.
  Hypothesis HM : make2 dom = Ok d.
  Hypothesis LX : 2 <= nx dom.
  Local Notation X := (Z -> Z -> R).
  Variables (names : list string) (nextf ratef : R -> X -> X).

  Definition traced_field2 (y : Z * R * R * list R * list R * list (string * R)) (z : Z * R * R * (X * X)) : Prop :=
    let '(i, t, dt, c, r, ex) := y in let '(i', t', dt', (u, v)) := z in
    i = i' /\ t = t' /\ dt = dt' /\ holds_inside2 dom c u /\ holds_inside2 dom r v /\ map fst ex = names.

  Lemma reached_fst2 k (uv : X * X) steps : map (fun z => let '(i, t, dt, p) := z in (i, t, dt, fst p))
     (reached (V:=R) (fun _ dt x => (nextf dt (fst x), ratef dt (fst x))) k uv steps) = reached (fun _ => nextf) k (fst uv) steps.
  Proof.
    revert k uv. induction steps as [|(t, dt) l IH]; intros k uv; [reflexivity|]. cbn [reached map]. rewrite IH. reflexivity.
  Qed.

  Local Notation rated_steps i u steps := (reached (V:=R) (fun _ dt x => (nextf dt (fst x), ratef dt (fst x))) i (u, u) steps).

  (** The run in terms of fields, from that in terms of arrays. *)
  Lemma told2 (proposes proposes' : R -> R -> Prop) next slope a u0 w0 w lim steps e tr docs fin :
    (forall t dt a u, agree2 dom a u -> agree2 dom (next t dt a) (nextf dt u) /\ agree2 dom (slope t dt a) (ratef dt u)) ->
    agree2 dom a u0 -> (forall x y, proposes x y -> proposes' x y) ->
    started pl vm s restart_file w0 ->
    marches proposes (s_tfinal s) lim (t_initial_step o) (t_t0 o) (t_dt_initial o) false steps e ->
    Forall2 (traced (cells2 dom) (P2 dom) names) tr (reached (both next slope) (t_initial_step o) (a, a) steps) ->
    Forall2 (step_file (scene2 pl (s_max_steps s) d) (name2 s) (base_of s)) tr docs ->
    w_files w = w_files w0 ++ every (s_save_every s) docs ++ [fin] ->
    (exists i t dt c r ex tr', tr = tr' ++ [(i, t, dt, c, r, ex)] /\ step_file (scene2 pl (s_max_steps s) d) (name2 s) (base_of s ++ "_final")%string (i, t, e, c, r, ex) fin) ->
    (exists rows rms out, Forall2 (step_row (scene2 pl (s_max_steps s) d)) (every (s_log_every s) tr) rows /\
      residual_history (red_sum (pl_red pl)) ["c"] 1 (sn_idx (scene2 pl (s_max_steps s) d)) (w_stats w0) (map residual_of (every (s_log_every s) tr)) = Ok (w_stats w, rms) /\
      perform_all (pl_showe pl) (pl_table pl) (pl_banner pl) (w_logger w0) (log_calls rows rms) = Next (w_logger w) out /\
      w_out w = w_out w0 ++ out) ->
    Forall2 traced_field2 tr (rated_steps (t_initial_step o) u0 steps) /\
    marches proposes' (s_tfinal s) lim (t_initial_step o) (t_t0 o) (t_dt_initial o) false steps e /\
    Forall2 (saved2 pl s dom (base_of s)) (reached (fun _ => nextf) (t_initial_step o) u0 steps) docs /\
    w_files w = every (s_save_every s) docs ++ [fin] /\
    (exists before i t dt u, reached (fun _ => nextf) (t_initial_step o) u0 steps = before ++ [(i, t, dt, u)] /\
       saved2 pl s dom (base_of s ++ "_final")%string (i, t, e, u) fin) /\
    (reduces pl ->
     let rated := rated_steps (t_initial_step o) u0 steps in
     exists rows, perform_all (pl_showe pl) (pl_table pl) (pl_banner pl) new_logger (log_requests (s_log_file s) (start_messages (template pl vm) restart_file) rows)
         = Next (w_logger w) (w_out w) /\
       length rows = length (every (s_log_every s) rated) /\
       forall n x row, nth_error (every (s_log_every s) rated) n = Some x -> nth_error rows n = Some row ->
         logged2 dom names (firstn (S n) (every (s_log_every s) rated)) x row).
  Proof.
    intros HS HA HP (F0 & S0 & P0) MA TR SF WF LA (rows & rms & out & RW & RH & PA & WO).
    set (rated := reached (fun _ dt x => (nextf dt (fst x), ratef dt (fst x))) (t_initial_step o) (u0, u0) steps).
    assert (TF : Forall2 traced_field2 tr rated).
    { eapply forall2_comp; [|exact TR|apply (reached_rel (fun x y => agree2 dom (fst x) (fst y) /\ agree2 dom (snd x) (snd y))
          (both next slope) (fun _ dt x => (nextf dt (fst x), ratef dt (fst x))) steps)].
      - intros (((((i, t), dt), c), r), ex) (((i', t'), dt'), (u, v)) (((i'', t''), dt''), (u', v')) (E1 & E2 & E3 & H1 & H2 & H9) (E4 & E5 & E6 & H3 & H4).
        cbn [fst snd] in H3, H4. repeat split; try congruence.
        + apply state2 in H1; [|lia]. eapply holds_inside2_ext in H1; [exact (proj1 H1)|exact H3].
        + apply state2 in H1; [|lia]. eapply holds_inside2_ext in H1; [exact (proj2 H1)|exact H3].
        + apply state2 in H2; [|lia]. eapply holds_inside2_ext in H2; [exact (proj1 H2)|exact H4].
        + apply state2 in H2; [|lia]. eapply holds_inside2_ext in H2; [exact (proj2 H2)|exact H4].
      - intros t dt (a1, a2) (b1, b2) (G1 & G2). cbn [fst snd both] in *. apply HS; auto.
      - cbn. split; auto. }
    assert (RF : map (fun z => let '(i, t, dt, p) := z in (i, t, dt, fst p)) rated = reached (fun _ => nextf) (t_initial_step o) u0 steps).
    { exact (reached_fst2 (t_initial_step o) (u0, u0) steps). }
    assert (SV : forall b y z f, traced_field2 y z -> step_file (scene2 pl (s_max_steps s) d) (name2 s) b y f ->
      saved2 pl s dom b (let '(i, t, dt, p) := z in (i, t, dt, fst p)) f).
    { intros b (((((i, t), dt), c), r), ex) (((i', t'), dt'), (u, v)) f (E1 & E2 & E3 & H1 & H2 & H9) (G1 & G2). subst i' t' dt'.
      split; [exact G1|]. exists d, c. split; [exact HM|]. split; [exact H1|exact G2]. }
    split; [exact TF|]. split; [eapply marches_weaken; eauto|]. split.
    { rewrite <- RF. apply forall2_map_l. eapply forall2_trans; [|exact TF|exact SF]. intros y z f. apply SV. }
    split. { rewrite WF, F0. reflexivity. }
    split.
    { destruct LA as (i & t & dt & c & r & ex & tr' & ET & FF). rewrite ET in TF. apply forall2_snoc_l in TF as (bef & (((i', t'), dt'), (u, v)) & EB & _ & T1).
      rewrite <- RF, EB, map_app. exists (map (fun z => let '(i, t, dt, p) := z in (i, t, dt, fst p)) bef), i', t', dt', u. split; [reflexivity|].
      destruct T1 as (E1 & E2 & E3 & H1 & H2 & H9). subst i' t' dt'.
      apply (SV _ (i, t, e, c, r, ex) (i, t, e, (u, v))); [repeat split; auto; try apply H1; apply H2|exact FF]. }
    intros (RS & RP & RH1 & RL). cbv zeta. fold rated.
    assert (TE : Forall2 traced_field2 (every (s_log_every s) tr) (every (s_log_every s) rated)) by (apply every_forall2; auto).
    set (lg := every (s_log_every s) rated) in *. set (ltr := every (s_log_every s) tr) in *.
    destruct (pf_C58_residual_report_2d dom d ["c"] (red_sum (pl_red pl)) (map residual_of ltr)
       (map (fun z (_ : nat) => snd (snd z)) lg) HV HM RS ltac:(discriminate)) as (st & ms & E58 & L58 & K58).
    { clear - TE. induction TE as [|y z l l' H HF IH]; [constructor|]. cbn [map]. constructor; auto.
      destruct y as (((((i, t), dt), c), r), ex). destruct z as (((i', t'), dt'), (u, v)). destruct H as (_ & _ & _ & _ & H & _).
      intros [|q] Hq; cbn in Hq; [|lia]. exists r. split; [reflexivity|exact H]. }
    rewrite S0 in RH. change (length ["c"]) with 1%nat in E58. change (sn_idx (scene2 pl (s_max_steps s) d)) with (d2_interior d) in RH.
    rewrite E58 in RH. injection RH as _ ERM. subst rms.
    assert (LR : length rows = length ltr) by (symmetry; eapply forall2_len; eauto).
    assert (LG : length ltr = length lg) by (eapply forall2_len; eauto).
    rewrite map_length in L58.
    exists (map (fun x => (fst (fst x), snd x, snd (fst x))) (combine rows ms)). split; [|split].
    - unfold log_requests. rewrite app_comm_cons.
      rewrite WO. eapply perform_app; [exact P0|]. rewrite <- PA. f_equal. unfold log_calls.
      clear. induction (combine rows ms) as [|x l IH]; [reflexivity|]. cbn [map flat_map]. rewrite IH. reflexivity.
    - rewrite map_length, combine_length. lia.
    - intros n x row Hx Hr. rewrite nth_error_map in Hr.
      destruct (nth_error (combine rows ms) n) as [(rw, mm)|] eqn:EC; [|discriminate]. cbn in Hr. injection Hr as <-.
      destruct (nth_error_combine _ _ _ _ _ EC) as (N1 & N2).
      destruct (forall2_nth _ _ _ TE n x Hx) as (y & NY & TY).
      destruct (forall2_nth _ _ _ RW n rw N1) as (y' & NY' & RY). rewrite NY in NY'. injection NY' as <-.
      destruct x as (((i', t'), dt'), (u, v)). destruct y as (((((i, t), dt), c), r), ex). destruct TY as (E1 & E2 & E3 & H1 & H2 & H9). subst i' t' dt'.
      destruct RY as (G1 & G2). cbn [fst snd]. unfold logged2. split; [exists ex; split; [exact H9|exact G1]|]. split.
      + destruct (K58 n (fun _ => v) mm) as (A & Rel & top & Em & GT & T1 & T2 & _).
        * rewrite nth_error_map, Hx. reflexivity.
        * exact N2.
        * exists A, Rel, top. split; [exact Em|]. rewrite firstn_map, map_map in GT. split; [exact GT|]. split; auto.
      + cbn [sn_monitor scene2] in G2. rewrite RH1, RL in G2.
        assert (MN : exists lo hi g, snd rw = [("min_c", lo); ("max_c", hi); ("grad_c_mag", g)]%string).
        { clear - G2. unfold solution_monitor2 in G2. match type of G2 with rbind ?x _ = _ => destruct x; try discriminate end.
          cbn [rbind] in G2. injection G2 as G2. unfold monitor_values in G2. eauto. }
        destruct MN as (lo & hi & g & MN). exists lo, hi, g. split; [exact MN|].
        intros FD. destruct (pf_C59_monitor_2d dom d (pl_red pl) c u HV LX HM RP H1 FD) as (lo' & hi' & g' & EM & HL & HH & _).
        rewrite EM in G2. injection G2 as G2. rewrite <- G2 in MN. injection MN as <- <- <-. split; auto.
  Qed.

  Lemma outcome2 (proposes proposes' : R -> R -> Prop) next slope a u0 w0 w :
    (forall t dt a u, agree2 dom a u -> agree2 dom (next t dt a) (nextf dt u) /\ agree2 dom (slope t dt a) (ratef dt u)) ->
    agree2 dom a u0 -> (forall x y, proposes x y -> proposes' x y) ->
    started pl vm s restart_file w0 ->
    ran2 pl s dom d names proposes next slope o a w0 w -> 0 < s_max_steps s <= 2147483647 ->
    story2 pl s dom names (start_messages (template pl vm) restart_file) (t_initial_step o, t_t0 o, t_dt_initial o) proposes' nextf ratef u0 w.
  Proof.
    intros HS HA HP ST (steps & e & tr & docs & fin & MA & TR & SF & WF & LA & RR) LM.
    rewrite OF, OM in MA. replace (int_of_unsigned (s_max_steps s)) with (s_max_steps s) in MA by (unfold int_of_unsigned, int_max; replace (s_max_steps s <=? 2147483647) with true by lia; reflexivity).
    destruct (told2 proposes proposes' next slope a u0 w0 w _ steps e tr docs fin HS HA HP ST MA TR SF WF LA RR) as (_ & T).
    exists steps, e, docs, fin. exact T.
  Qed.
End Outcome2.
