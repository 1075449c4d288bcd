(** Runs of the whole program: a run from its initial state to its last file, with either
    integrator. *)
From Coq Require Import String.
From Verif Require Import ModelLogger ModelOptions Outcome ZList ZListProofs Num ModelInt32 ModelDisc3D ModelDisc2D ModelCH ModelObs
  ModelTime ModelRun ModelMon ModelVTK ModelMain ModelProgram SpecGrid SpecField SpecTime SpecRestart SpecProgram Time2Proofs
  RestartProofs ProgramProofs Program2Proofs.
From Coq Require Import Lia ZifyBool ZifyNat List.
Local Open Scope string_scope.
Local Open Scope list_scope.
Local Open Scope Z_scope.

Section Outcome.
  Context {V : Type} `{N : Num V} (pl : platform V) (sn : scene V) (base : string) (size : Z) (P : Z -> Prop)
    (nm : string -> Z -> string).
  Variables (L S : Z) (names : list string).
  Let A := nat -> Z -> V.

  (** Whether the residuals last logged in the steps tr end the run. *)
  Definition reports (o : time_options V) (w : pworld V) (tr : list (Z * V * V * list V * list V * list (string * V))) (b : bool) : Prop :=
    exists st rms m, residual_history (red_sum (pl_red pl)) ["c"] 1 (sn_idx sn) (w_stats w) (map residual_of (every L tr)) = Ok (st, rms ++ [m]) /\
      stops o m b.

  (** The messages that the residuals last logged in the steps tr cause. *)
  Definition farewell (o : time_options V) (w : pworld V) (tr : list (Z * V * V * list V * list V * list (string * V))) (said : list string) : Prop :=
    exists st rms m, residual_history (red_sum (pl_red pl)) ["c"] 1 (sn_idx sn) (w_stats w) (map residual_of (every L tr)) = Ok (st, rms ++ [m]) /\
      said = exit_messages o m.

  (** What a run does: the steps it makes, its solution files and its log. *)
  Definition run_result (proposes : V -> V -> Prop) (next slope : V -> V -> A -> A) (o : time_options V) (a : A) (w w' : pworld V) : Prop :=
    exists steps e tr docs fin,
      marches proposes (t_tfinal o) (t_max_steps o) (t_initial_step o) (t_t0 o) (t_dt_initial o) false steps e /\
      Forall2 (traced size P names) tr (reached (both next slope) (t_initial_step o) (a, a) steps) /\
      Forall2 (step_file sn nm base) tr docs /\
      w_files w' = w_files w ++ every S docs ++ [fin] /\
      (exists i t dt c r ex tr', tr = tr' ++ [(i, t, dt, c, r, ex)] /\ step_file sn nm (base ++ "_final")%string (i, t, e, c, r, ex) fin) /\
      exists rows rms out, Forall2 (step_row sn) (every L tr) rows /\
        residual_history (red_sum (pl_red pl)) ["c"] 1 (sn_idx sn) (w_stats w) (map residual_of (every L tr)) = Ok (w_stats w', rms) /\
        perform_all (pl_showe pl) (pl_table pl) (pl_banner pl) (w_logger w) (log_calls rows rms) = Next (w_logger w') out /\
        w_out w' = w_out w ++ out.

  (** What a run that may end early does: the steps it makes, its solution files and its log. *)
  Definition run_result_with (proposes : V -> V -> Prop) (next slope : V -> V -> A -> A) (o : time_options V) (a : A) (w w' : pworld V) : Prop :=
    exists steps e tr docs fin lim,
      marches proposes (t_tfinal o) lim (t_initial_step o) (t_t0 o) (t_dt_initial o) false steps e /\
      Forall2 (traced size P names) tr (reached (both next slope) (t_initial_step o) (a, a) steps) /\
      Forall2 (step_file sn nm base) tr docs /\
      w_files w' = w_files w ++ every S docs ++ [fin] /\
      (exists i t dt c r ex tr', tr = tr' ++ [(i, t, dt, c, r, ex)] /\ step_file sn nm (base ++ "_final")%string (i, t, e, c, r, ex) fin) /\
      exists rows rms lg out said out' by_time, Forall2 (step_row sn) (every L tr) rows /\
        residual_history (red_sum (pl_red pl)) ["c"] 1 (sn_idx sn) (w_stats w) (map residual_of (every L tr)) = Ok (w_stats w', rms) /\
        perform_all (pl_showe pl) (pl_table pl) (pl_banner pl) (w_logger w) (log_calls rows rms) = Next lg out /\
        perform_all (pl_showe pl) (pl_table pl) (pl_banner pl) lg (map (Message LInfo) said) = Next (w_logger w') out' /\
        w_out w' = w_out w ++ out ++ out' /\
        timed o false steps by_time /\
        (if by_time then said = [] /\ lim = t_max_steps o else farewell o w tr said) /\
        (forall n, (0 < n < List.length tr)%nat -> reports o w (firstn n tr) false) /\
        (lim = t_max_steps o \/ (lim < t_max_steps o /\ lim = t_initial_step o + Z.of_nat (List.length tr) /\ reports o w tr true)).

  (** Without tolerances the limit is the one asked for. *)
  Lemma never_reports o w tr : no_tolerance o -> reports o w tr true -> False.
  Proof.
    intros (T1 & T2) (st & rms & m & _ & ab & E & H). unfold abs_converged, rel_converged, ModelTime.nonzero in *. rewrite T1, T2 in *.
    cbn [negb andb orb] in *. congruence.
  Qed.
  Lemma plain proposes next slope o a w w' : no_tolerance o -> run_result_with proposes next slope o a w w' -> run_result proposes next slope o a w w'.
  Proof.
    intros NT (steps & e & tr & docs & fin & lim & H1 & H2 & H3 & H4 & H5 & rows & rms & lg & out & said & out' & by_time & H6 & H7 & H8 & H8' & H9 & _ & HB & _ & [->|(_ & _ & HR)]);
      [|destruct (never_reports _ _ _ NT HR)].
    assert (said = []) as ->.
    { destruct by_time; [apply HB|]. destruct HB as (st & ms & m & _ & ->). destruct NT as (T1 & T2).
      unfold exit_messages, abs_converged, rel_converged, ModelTime.nonzero. rewrite T1, T2. reflexivity. }
    cbn [map perform_all] in H8'. injection H8' as E1 E2. subst lg out'. rewrite app_nil_r in H9.
    exists steps, e, tr, docs, fin. do 5 (split; [assumption|]). exists rows, rms, out. auto.
  Qed.
End Outcome.

Section Gen.
  Context {V : Type} `{N : Num V} (pl : platform V) (sn : scene V) (base : string) (size : Z) (P : Z -> Prop)
    (nm : string -> Z -> string).
  Context {X : Type} (do_step : X -> V -> V -> res X) (next_dt : X -> V -> res (X * V)).
  Variables (xu xdu : X -> state V) (xex : X -> list (string * V)) (names : list string) (xw : X -> pworld V) (put : X -> pworld V -> X).
  Let A := nat -> Z -> V.
  Variables (fits : V -> X -> A -> Prop) (next slope : V -> V -> A -> A) (proposes : V -> V -> Prop).
  Hypothesis put_u : forall x w, xu (put x w) = xu x.
  Hypothesis put_du : forall x w, xdu (put x w) = xdu x.
  Hypothesis put_ex : forall x w, xex (put x w) = xex x.
  Hypothesis put_w : forall x w, xw (put x w) = w.
  Hypothesis Hput : forall t x a w, fits t x a -> fits t (put x w) a.
  Hypothesis Hview : forall t x a, fits t x a -> exists c, xu x = [c] /\ state_holds 1 size P [c] a.
  Hypothesis Hstep : forall t dt x a, fits t x a -> exists x' r, do_step x t dt = Ok x' /\ fits (nadd t dt) x' (next t dt a) /\
    xw x' = xw x /\ xdu x' = [r] /\ state_holds 1 size P [r] (slope t dt a) /\ map fst (xex x') = names.
  Hypothesis Hnext : forall t dt x a, fits t x a -> exists x' p, next_dt x dt = Ok (x', p) /\ proposes dt p /\
    fits t x' a /\ xw x' = xw x /\ xu x' = xu x.
  Variables (L S : Z).
  Hypothesis HL : L <> 0.
  Hypothesis Hname : forall b i, sn_name sn b i = Ok (nm b i).
  Hypothesis Hmon : forall c, zlen c = size -> exists m, sn_monitor sn c = Ok m.
  Hypothesis Hdoc : forall st c, zlen c = size -> exists doc, sn_write sn st c = Ok doc.
  Hypothesis Hidx : forall q, In q (sn_idx sn) -> 0 <= q < size.
  Variable o : time_options V.
  Hypothesis NC : t_use_cfl o = false.
  Hypothesis HI : 0 <= t_initial_step o < INT_MAX.
  Hypothesis HM : t_max_steps o <> 0 /\ t_max_steps o <= INT_MAX.

  Lemma run_gen fuel x a : fits (t_t0 o) x a -> Z.max 1 (t_max_steps o - t_initial_step o) <= Z.of_nat fuel ->
    exists w', after (solve do_step (telling pl next_dt xw put o) (fun x => l_residual (w_logger (xw x))) (callback pl sn base xu xdu xex xw put) fuel o
        (driver_observers L S) x)
      (fun '(_, gf) => write_file sn (base ++ "_final")%string (g_iter gf) (g_time gf) (g_dt gf) (xu (g_world gf)) (xw (g_world gf)))
      = Some (Ok w') /\ run_result_with pl sn base size P nm L S names proposes next slope o a (xw x) w'.
  Proof.
    intros F LF.
    set (g0 := {| g_world := x; g_obs := driver_observers L S; g_iter := t_initial_step o; g_time := t_t0 o; g_dt := t_dt_initial o |}).
    destruct (loop_ok pl sn base size P do_step next_dt xu xdu xex names xw put fits next slope proposes put_u put_du put_ex put_w Hput Hview Hstep Hnext
                L S HL (group_total pl sn base size nm L S Hname Hmon Hdoc Hidx) o NC HM
                (fun k i t dt c r ex w w' LC LR => group_reports pl sn base size nm L S HL Hname Hmon Hdoc Hidx k (i, t, dt, c, r, ex) w w' (conj LC LR))
                fuel g0 0 (t_initial_step o) a a false)
      as (rs & gf & steps & e & tr & c & lim & w9 & said & by_time & ES & MS & FS & WS & DS & US & (r & ex & dt & tr' & ET) & (NS & LS) & IS & TS & BS);
      cbn [g0 g_world g_obs g_iter g_time g_dt]; auto; try lia.
    { apply driver_obs_is. }
    unfold solve. rewrite NC. fold g0. rewrite ES. cbn [after rbind].
    assert (SZ : Forall (sized size) tr).
    { clear - FS. induction FS as [|y z tr zs H HF IH]; constructor; auto.
      destruct y as [[[[[i t] d] cc] rr] xx], z as [[[i' t'] d'] (u, v)]. destruct H as (_ & _ & _ & H1 & H2 & _).
      split; [apply (proj1 H1) with (e := O)|apply (proj1 H2) with (e := O)]; reflexivity. }
    destruct (steps_ok pl sn base size nm L S HL Hname Hmon Hdoc Hidx tr SZ 0 (xw x))
      as (w1 & E1 & (docs & D1 & D2) & rows & rms & out & R1 & R2 & R3 & R4).
    cbn [g0 g_world] in WS. rewrite E1 in WS. assert (w9 = w1) as -> by congruence.
    destruct (info_ok pl said w1) as (out' & EI & EP). rewrite EI in IS. injection IS as IS.
    assert (LC : zlen c = size).
    { rewrite ET in SZ. apply Forall_app in SZ as (_ & SZ). apply Forall_inv in SZ. apply SZ. }
    destruct (Hdoc {| fs_iter := g_iter gf; fs_time := g_time gf; fs_dt := g_dt gf |} c LC) as (doc & ED).
    unfold write_file. rewrite Hname, US. cbn [rbind nth_error of_opt]. rewrite ED. cbn [rbind].
    rewrite <- IS. cbn [with_logger w_logger w_out w_stats w_files].
    eexists. split; [reflexivity|].
    exists steps, e, tr, docs, (nm (base ++ "_final")%string (g_iter gf), doc), lim. cbn [w_files w_stats w_logger w_out].
    split; [exact MS|]. split; [exact FS|]. split; [exact D1|]. split; [rewrite D2, every_pick, app_assoc; reflexivity|].
    split. { exists (g_iter gf), (g_time gf), dt, c, r, ex, tr'. split; [exact ET|]. split; [reflexivity|]. rewrite <- DS. exact ED. }
    exists rows, rms, (w_logger w1), out, said, out', by_time. split; [rewrite every_pick; exact R1|]. split; [rewrite every_pick; exact R2|].
    split; [exact R3|]. split; [exact EP|]. split; [rewrite R4, app_assoc; reflexivity|]. split; [exact TS|].
    assert (RM : forall tr1 wn, Forall (sized size) tr1 -> (0 < List.length tr1)%nat -> world_steps pl sn base L S 0 tr1 (xw x) = Ok wn ->
              exists st ms m, residual_history (red_sum (pl_red pl)) ["c"] 1 (sn_idx sn) (w_stats (xw x)) (map residual_of (every L tr1)) = Ok (st, ms ++ [m]) /\
                l_residual (w_logger wn) = m).
    { intros tr1 wn SZ1 L1 EN.
      destruct (history_last pl sn base size nm L S HL Hname Hmon Hdoc Hidx tr1 SZ1 0 (xw x) wn EN) as (st & ms & H1 & H2 & H3).
      assert (NE : ms <> []).
      { intros ->. destruct tr1 as [|y tr1]; [cbn in L1; lia|]. cbn [pick] in H3.
        rewrite Z.rem_0_l in H3 by lia. replace (negb (L =? 0)) with true in H3 by lia. discriminate. }
      destruct (exists_last NE) as (ms' & m & ->). rewrite last_last in H2. exists st, ms', m. rewrite every_pick. split; [exact H1|exact H2]. }
    assert (RP : forall tr1 wn b, Forall (sized size) tr1 -> (0 < List.length tr1)%nat -> world_steps pl sn base L S 0 tr1 (xw x) = Ok wn ->
              stops o (l_residual (w_logger wn)) b -> reports pl sn L o (xw x) tr1 b).
    { intros tr1 wn b SZ1 L1 EN SN. destruct (RM tr1 wn SZ1 L1 EN) as (st & ms & m & H1 & H2). exists st, ms, m. rewrite H2 in SN. auto. }
    assert (LT : (0 < List.length tr)%nat) by (rewrite ET, app_length; cbn; lia).
    split.
    { destruct by_time; [exact BS|]. destruct (RM tr w1 SZ LT E1) as (st & ms & m & H1 & H2). exists st, ms, m. split; [exact H1|]. rewrite <- H2. exact BS. }
    split.
    - intros n H. cbn [g0 g_world] in NS.
      assert (SN : Forall (sized size) (firstn n tr)).
      { rewrite <- (firstn_skipn n tr) in SZ. apply Forall_app in SZ. apply SZ. }
      destruct (steps_ok pl sn base size nm L S HL Hname Hmon Hdoc Hidx (firstn n tr) SN 0 (xw x)) as (wn & EN & _).
      apply (RP _ wn); auto; [rewrite firstn_length; lia|]. apply NS with (n := n); auto.
    - destruct LS as [LS|(L1 & L2 & L3)]; [left; exact LS|]. right. split; [exact L1|]. split; [exact L2|].
      apply (RP _ w1); auto.
  Qed.
End Gen.

Section Rk3.
  Context {V : Type} `{N : Num V} (pl : platform V) (sn : scene V) (base : string) (size : Z) (P : Z -> Prop)
    (nm : string -> Z -> string).
  Variables (L S : Z).
  Hypothesis HL : L <> 0.
  Hypothesis Hname : forall b i, sn_name sn b i = Ok (nm b i).
  Hypothesis Hmon : forall c, zlen c = size -> exists m, sn_monitor sn c = Ok m.
  Hypothesis Hdoc : forall st c, zlen c = size -> exists doc, sn_write sn st c = Ok doc.
  Hypothesis Hidx : forall q, In q (sn_idx sn) -> 0 <= q < size.
  Variable o : time_options V.
  Hypothesis NC : t_use_cfl o = false.
  Hypothesis HI : 0 <= t_initial_step o < INT_MAX.
  Hypothesis HM : t_max_steps o <> 0 /\ t_max_steps o <= INT_MAX.
  Variables (rhs : rhs_fun V (scratch V)) (f : V -> (nat -> Z -> V) -> nat -> Z -> V).
  Hypothesis C : computes rhs (scratch_fits size) 1 size P f.

  Definition put_rk3 (x : rk3_world V (scratch V) (pworld V)) (w : pworld V) : rk3_world V (scratch V) (pworld V) :=
    {| k_int := k_int x; k_sc := k_sc x; k_u := k_u x; k_du := k_du x; k_rest := w |}.

  Lemma one_shaped (a : list V) : zlen a = size -> shaped 1 size [a].
  Proof. intros H. split; [reflexivity|]. intros [|[|e]] b E; cbn in E; congruence. Qed.
  Lemma shaped_one (s : state V) : shaped 1 size s -> exists c, s = [c].
  Proof. intros (H & _). destruct s as [|c [|]]; try discriminate. eauto. Qed.

  Lemma run_rk3_ok fuel a set c w0 w : zlen a = size -> set a = Ok c -> state_holds 1 size P [c] w0 ->
    Z.max 1 (t_max_steps o - t_initial_step o) <= Z.of_nat fuel ->
    exists w', run_rk3 pl fuel sn a rhs set o base (driver_observers L S) w = Some (Ok w') /\
      run_result_with pl sn base size P nm L S [] (fun dt p => p = dt) (rk3_next f) (rk3_slope f) o w0 w w'.
  Proof.
    intros LA E HC LF. unfold run_rk3. rewrite E. cbn [lift].
    set (x := {| k_int := new_rk3 a; k_sc := new_scratch a; k_u := [c]; k_du := [a]; k_rest := w |}).
    apply (run_gen pl sn base size P nm (rk3_do rhs) rk3_next_dt k_u k_du (fun _ => []) [] k_rest put_rk3
             (fun _ y b => fit (scratch_fits size) 1 size P y b) (rk3_next f) (rk3_slope f) (fun dt p => p = dt)
             ltac:(reflexivity) ltac:(reflexivity) ltac:(reflexivity) ltac:(reflexivity)) with (x := x); auto.
    - intros t y b (H1 & H2 & H3 & H4). destruct (shaped_one _ (proj1 H4)) as (c' & E'). exists c'. rewrite <- E'. auto.
    - intros t dt y b (H1 & H2 & H3 & H4).
      destruct (rk3_step_spec rhs (scratch_fits size) 1 size P f C (k_int y) (k_sc y) (k_u y) (k_du y) t dt b H1 H2 H4 H3)
        as (o' & sc' & u' & du' & E' & A1 & A2 & A3 & A4).
      unfold rk3_do. rewrite E'. cbn [rbind].
      destruct (shaped_one _ (proj1 A4)) as (r & ->). eexists. exists r. split; [reflexivity|].
      split; [split; [exact A1|split; [exact A2|split; [exact (proj1 A4)|exact A3]]]|].
      split; [reflexivity|]. split; [reflexivity|]. split; [exact A4|reflexivity].
    - intros t dt y b H. exists y, dt. repeat split; auto; apply H.
    - cbn [x]. split. { cbn [k_int]. unfold new_rk3. repeat split; cbn [r_k1 r_k2 r_k3 r_stage]; apply one_shaped; exact LA. }
      split; [repeat split; exact LA|]. split; [apply one_shaped; exact LA|exact HC].
  Qed.
End Rk3.

Section Ode23.
  Context {V : Type} `{N : Num V} (pl : platform V) (sn : scene V) (base : string) (size : Z) (P : Z -> Prop)
    (nm : string -> Z -> string).
  Variables (L S : Z).
  Hypothesis HL : L <> 0.
  Hypothesis Hname : forall b i, sn_name sn b i = Ok (nm b i).
  Hypothesis Hmon : forall c, zlen c = size -> exists m, sn_monitor sn c = Ok m.
  Hypothesis Hdoc : forall st c, zlen c = size -> exists doc, sn_write sn st c = Ok doc.
  Hypothesis Hidx : forall q, In q (sn_idx sn) -> 0 <= q < size.
  Variable o : time_options V.
  Hypothesis NC : t_use_cfl o = false.
  Hypothesis HI : 0 <= t_initial_step o < INT_MAX.
  Hypothesis HM : t_max_steps o <> 0 /\ t_max_steps o <= INT_MAX.
  Variables (rhs : rhs_fun V (scratch V)) (f : V -> (nat -> Z -> V) -> nat -> Z -> V).
  Hypothesis C : computes rhs (scratch_fits size) 1 size P f.
  Hypothesis steady : forall t t' u e i, f t u e i = f t' u e i.
  Variables (tol lo hi : V).

  Definition put_ode23 (x : ode23_world V (scratch V) (pworld V)) (w : pworld V) : ode23_world V (scratch V) (pworld V) :=
    {| e_int := e_int x; e_pid := e_pid x; e_sc := e_sc x; e_u := e_u x; e_du := e_du x; e_rest := w |}.
  Definition pid_fits (p : pid V) : Prop :=
    length (p_steps p) = length (p_errs p) /\ (length (p_errs p) <= 3)%nat /\ p_minstep p = lo /\ p_maxstep p = hi.
  Definition fit23 (x : ode23_world V (scratch V) (pworld V)) (b : nat -> Z -> V) : Prop :=
    ode23_shaped 1 size (e_int x) /\ scratch_fits size (e_sc x) /\ shaped 1 size (e_du x) /\ state_holds 1 size P (e_u x) b /\
    (o_first (e_int x) = false -> state_holds 1 size P (o_k4 (e_int x)) (f (nint 0) b)) /\ pid_fits (e_pid x).
  Definition clamped (dt p : V) : Prop := p = dt \/ exists s, p = nmax (nmin s hi) lo.

  Lemma adapt_ok pow p err s : pid_fits p -> exists p' s', adapt_step pow p err s = Ok (p', s') /\ pid_fits p' /\ clamped s s'.
  Proof.
    intros (H1 & H2 & H3 & H4). unfold adapt_step.
    destruct (Nat.eqb_spec (length (p_errs p)) 3) as [E|E]; cbn [negb].
    - destruct (p_errs p) as [|e0 [|e1 [|e2 [|]]]]; cbn in E; try lia.
      destruct (p_steps p) as [|s0 [|s1 [|s2 [|]]]]; cbn in H1; try lia.
      cbn [tl app]. do 2 eexists. split; [reflexivity|]. split.
      + unfold pid_fits. cbn. auto.
      + right. eexists. rewrite H3, H4. reflexivity.
    - do 2 eexists. split; [reflexivity|]. split; [|left; reflexivity].
      unfold pid_fits. cbn [p_steps p_errs p_minstep p_maxstep]. rewrite !app_length. cbn. repeat split; auto; lia.
  Qed.

  Definition bs23 (t dt : V) (u : nat -> Z -> V) : nat -> Z -> V := bs_next f t dt u (f t u).
  Definition slope23 (t dt : V) (u : nat -> Z -> V) : nat -> Z -> V := bs_slope f t dt u (f t u).

  Lemma run_ode23_ok fuel a set c w0 w : zlen a = size -> set a = Ok c -> state_holds 1 size P [c] w0 ->
    Z.max 1 (t_max_steps o - t_initial_step o) <= Z.of_nat fuel ->
    exists w', run_ode23 pl fuel sn a rhs set tol lo hi o base (driver_observers L S) w = Some (Ok w') /\
      run_result_with pl sn base size P nm L S ["time_err"] clamped bs23 slope23 o w0 w w'.
  Proof.
    intros LA E HC LF. unfold run_ode23. rewrite E. cbn [lift].
    set (x := {| e_int := new_ode23 a; e_pid := new_pid tol lo hi; e_sc := new_scratch a; e_u := [c]; e_du := [a]; e_rest := w |}).
    apply (run_gen pl sn base size P nm (ode23_do (pl_rmax pl) rhs) (ode23_next_dt (pl_pow pl)) e_u e_du (fun y => [("time_err", o_err (e_int y))]) ["time_err"] e_rest put_ode23
             (fun _ y b => fit23 y b) bs23 slope23 clamped
             ltac:(reflexivity) ltac:(reflexivity) ltac:(reflexivity) ltac:(reflexivity)) with (x := x); auto.
    - intros t y b (H1 & H2 & H3 & H4 & _). destruct (shaped_one size _ (proj1 H4)) as (c' & E'). exists c'. rewrite <- E'. auto.
    - intros t dt y b (H1 & H2 & H3 & H4 & H5 & H6).
      destruct (ode23_step_spec rhs (scratch_fits size) 1 size P f C (pl_rmax pl) (e_int y) (e_sc y) (e_u y) (e_du y) t dt b (f t b) H1 H2 H4 H3)
        as (o' & sc' & u' & du' & E' & A1 & A2 & A3 & A4 & A5 & A6 & A7 & A8 & A9 & _); auto.
      { intros F. eapply Time1Proofs.state_holds_ext; [|exact (H5 F)]. intros. apply steady. }
      unfold ode23_do. rewrite E'. cbn [rbind].
      destruct (shaped_one size _ (proj1 A5)) as (r & ->). eexists. exists r. split; [reflexivity|].
      split; [split; [exact A1|split; [exact A2|split; [exact (proj1 A5)|split; [exact A4|split; [|exact H6]]]]]|].
      { intros _. eapply Time1Proofs.state_holds_ext; [|exact A9]. intros. apply steady. }
      split; [reflexivity|]. split; [reflexivity|]. split; [exact A5|reflexivity].
    - intros t dt y b (H1 & H2 & H3 & H4 & H5 & H6). unfold ode23_next_dt.
      destruct (adapt_ok (pl_pow pl) (e_pid y) (o_err (e_int y)) dt H6) as (p' & s' & EA & PF & CL). rewrite EA. cbn [rbind].
      do 2 eexists. split; [reflexivity|]. split; [exact CL|]. split; [|split; reflexivity].
      split; [exact H1|]. split; [exact H2|]. split; [exact H3|]. split; [exact H4|]. split; [exact H5|exact PF].
    - cbn [x]. split. { cbn [e_int]. unfold new_ode23. repeat split; cbn [o_k1 o_k2 o_k3 o_k4 o_stage]; apply one_shaped; exact LA. }
      split; [repeat split; exact LA|]. split; [apply one_shaped; exact LA|]. split; [exact HC|].
      split; [cbn; discriminate|]. unfold pid_fits. cbn. repeat split; auto; lia.
  Qed.
End Ode23.
