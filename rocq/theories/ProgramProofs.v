(** Runs of the whole program: the time loop with the driver's callbacks. *)
From Coq Require Import String.
From Verif Require Import ModelLogger ModelOptions Outcome ZList ZListProofs Num ModelInt32 ModelDisc3D ModelDisc2D ModelCH ModelObs
  ModelTime ModelRun ModelMon ModelVTK ModelMain ModelProgram SpecGrid SpecField SpecTime SpecRestart SpecProgram.
From Coq Require Import Lia ZifyBool ZifyNat List.
Local Open Scope string_scope.
Local Open Scope list_scope.
Local Open Scope Z_scope.

Definition log_group : list driver_call := [SetResidual; SetSolution; SetTime; UpdateLog].

(** The callbacks of the k-th step (from 0). *)
Definition calls_at (L S k : Z) : list driver_call :=
  (if Z.rem k L =? 0 then log_group else []) ++ (if negb (S =? 0) && (Z.rem k S =? 0) then [WriteSolution] else []).

Definition obs_is (L S k : Z) (o : observable driver_call) : Prop :=
  o_observers o TimeStepComplete = Some log_group /\
  o_observers o SolutionUpdate = (if S =? 0 then None else Some [WriteSolution]) /\
  o_freq o TimeStepComplete = L /\ o_freq o SolutionUpdate = S /\ o_count o TimeStepComplete = k /\
  (S <> 0 -> o_count o SolutionUpdate = k).

Lemma driver_obs_is L S : obs_is L S 0 (driver_observers L S).
Proof. unfold obs_is, driver_observers. destruct (S =? 0) eqn:E; cbn; rewrite ?E; repeat split; auto. Qed.

Section Loop.
  Context {V : Type} `{N : Num V} (pl : platform V) (sn : scene V) (base : string) (size : Z) (P : Z -> Prop).
  Context {X : Type} (do_step : X -> V -> V -> res X) (next_dt : X -> V -> res (X * V)).
  Variables (xu xdu : X -> state V) (xex : X -> list (string * V)) (names : list string) (xw : X -> pworld V) (put : X -> pworld V -> X).
  Let A := nat -> Z -> V.
  Variables (fits : V -> X -> A -> Prop) (next slope : V -> V -> A -> A) (proposes : V -> V -> Prop).
  Hypothesis put_u : forall x w, xu (put x w) = xu x.
  Hypothesis put_du : forall x w, xdu (put x w) = xdu x.
  Hypothesis put_ex : forall x w, xex (put x w) = xex x.
  Hypothesis put_w : forall x w, xw (put x w) = w.
  Hypothesis Hput : forall t x a w, fits t x a -> fits t (put x w) a.
  Hypothesis Hview : forall t x a, fits t x a -> exists c, xu x = [c] /\ state_holds 1 size P [c] a.
  Hypothesis Hstep : forall t dt x a, fits t x a -> exists x' r, do_step x t dt = Ok x' /\ fits (nadd t dt) x' (next t dt a) /\
    xw x' = xw x /\ xdu x' = [r] /\ state_holds 1 size P [r] (slope t dt a) /\ map fst (xex x') = names.
  Hypothesis Hnext : forall t dt x a, fits t x a -> exists x' p, next_dt x dt = Ok (x', p) /\ proposes dt p /\
    fits t x' a /\ xw x' = xw x /\ xu x' = xu x.

  Definition callback (l : driver_call) (i : Z) (t dt : V) (x : X) : res X :=
    rbind (driver_callback pl sn base l i t dt (xex x) (xu x) (xdu x) (xw x)) (fun w => Ok (put x w)).

  (** The callbacks as functions of the pworld. *)
  Fixpoint calls (ls : list driver_call) (i : Z) (t dt : V) (ex : list (string * V)) (u du : state V) (w : pworld V) : res (pworld V) :=
    match ls with
    | [] => Ok w
    | l :: ls' => rbind (driver_callback pl sn base l i t dt ex u du w) (calls ls' i t dt ex u du)
    end.

  Lemma calls_app l1 l2 i t dt ex u du w :
    calls (l1 ++ l2) i t dt ex u du w = rbind (calls l1 i t dt ex u du w) (calls l2 i t dt ex u du).
  Proof.
    revert w. induction l1 as [|l l1 IH]; intros w; [reflexivity|]. cbn [app calls].
    destruct (driver_callback pl sn base l i t dt ex u du w); cbn [rbind]; auto.
  Qed.

  Lemma run_calls_ok ls i t dt ex u du : forall x w, xu x = u -> xdu x = du -> xex x = ex -> calls ls i t dt ex u du (xw x) = Ok w ->
    exists x', run_calls callback ls i t dt x = Ok x' /\ xu x' = u /\ xdu x' = du /\ xex x' = ex /\ xw x' = w /\
      (forall s a, fits s x a -> fits s x' a).
  Proof.
    induction ls as [|l ls IH]; intros x w EU ED EX E; cbn [calls] in E.
    - exists x. cbn. repeat split; auto. congruence.
    - cbn [run_calls]. unfold callback at 1. rewrite EU, ED, EX.
      destruct (driver_callback pl sn base l i t dt ex u du (xw x)) as [w1| | |]; cbn [rbind] in *; try discriminate.
      destruct (IH (put x w1) w) as (x' & E' & A1 & A2 & AX & A3 & A4); rewrite ?put_u, ?put_du, ?put_ex, ?put_w; auto.
      exists x'. repeat split; auto.
  Qed.

  (** One step's callbacks and those of a list of steps. *)
  Variables (L S : Z).
  Definition group (k : Z) (y : Z * V * V * list V * list V * list (string * V)) (w : pworld V) : res (pworld V) :=
    let '(i, t, dt, c, r, ex) := y in calls (calls_at L S k) i t dt ex [c] [r] w.
  Fixpoint world_steps (k : Z) (tr : list (Z * V * V * list V * list V * list (string * V))) (w : pworld V) : res (pworld V) :=
    match tr with
    | [] => Ok w
    | y :: tr' => rbind (group k y w) (world_steps (k + 1) tr')
    end.

  Hypothesis HL : L <> 0.
  Hypothesis Hgroup : forall k i t dt c r ex w, zlen c = size -> zlen r = size -> exists w', group k (i, t, dt, c, r, ex) w = Ok w'.

  (** What the step's arrays contain. *)
  Definition traced (y : Z * V * V * list V * list V * list (string * V)) (z : Z * V * V * (A * A)) : Prop :=
    let '(i, t, dt, c, r, ex) := y in let '(i', t', dt', (u, v)) := z in
    i = i' /\ t = t' /\ dt = dt' /\ state_holds 1 size P [c] u /\ state_holds 1 size P [r] v /\ map fst ex = names.

  Lemma notify_ok (g : integ (V:=V) (X:=X) (L:=driver_call)) e o ls ex u du w :
    notify_observers (g_obs g) e = Ok (ls, o) -> xu (g_world g) = u -> xdu (g_world g) = du -> xex (g_world g) = ex ->
    calls ls (g_iter g) (g_time g) (g_dt g) ex u du (xw (g_world g)) = Ok w ->
    exists x', notify callback g e =
        Ok ({| g_world := x'; g_obs := o; g_iter := g_iter g; g_time := g_time g; g_dt := g_dt g |}, ls) /\
      xu x' = u /\ xdu x' = du /\ xex x' = ex /\ xw x' = w /\ (forall s a, fits s (g_world g) a -> fits s x' a).
  Proof.
    intros E EU ED EX EC. destruct (run_calls_ok ls _ _ _ ex u du (g_world g) w EU ED EX EC) as (x' & E' & A1 & A2 & AX & A3 & A4).
    exists x'. unfold notify. rewrite E. cbn [rbind]. rewrite E'. cbn [rbind]. auto 10.
  Qed.

  Lemma advance_ok g k a : fits (g_time g) (g_world g) a -> obs_is L S k (g_obs g) -> 0 <= k < INT_MAX -> g_iter g < INT_MAX ->
    exists g1 c r ex, advance do_step callback g = Ok (g1, calls_at L S k) /\
      g_iter g1 = g_iter g + 1 /\ g_time g1 = nadd (g_time g) (g_dt g) /\ g_dt g1 = g_dt g /\ obs_is L S (k + 1) (g_obs g1) /\
      fits (nadd (g_time g) (g_dt g)) (g_world g1) (next (g_time g) (g_dt g) a) /\
      xu (g_world g1) = [c] /\ state_holds 1 size P [c] (next (g_time g) (g_dt g) a) /\
      state_holds 1 size P [r] (slope (g_time g) (g_dt g) a) /\ map fst ex = names /\
      group k (g_iter g + 1, nadd (g_time g) (g_dt g), g_dt g, c, r, ex) (xw (g_world g)) = Ok (xw (g_world g1)).
  Proof.
    intros F (O1 & O2 & O3 & O4 & O5 & O6) Hk HI.
    destruct (Hstep _ (g_dt g) _ _ F) as (x1 & r & E1 & F1 & W1 & D1 & R1 & X1). set (ex := xex x1) in *.
    destruct (Hview _ _ _ F1) as (c & U1 & C1).
    assert (LC : zlen c = size) by (apply (proj1 C1) with (e := O); reflexivity).
    assert (LR : zlen r = size) by (apply (proj1 R1) with (e := O); reflexivity).
    destruct (Hgroup k (g_iter g + 1) (nadd (g_time g) (g_dt g)) (g_dt g) c r ex (xw (g_world g)) LC LR) as (w' & EG).
    pose proof EG as EG'. cbn [group] in EG'. unfold calls_at in EG'. rewrite calls_app in EG'.
    set (l1 := if Z.rem k L =? 0 then log_group else []) in *.
    set (l2 := if negb (S =? 0) && (Z.rem k S =? 0) then [WriteSolution] else []) in *.
    destruct (calls l1 (g_iter g + 1) (nadd (g_time g) (g_dt g)) (g_dt g) ex [c] [r] (xw (g_world g))) as [w1| | |] eqn:EC1;
      cbn [rbind] in EG'; try discriminate.
    unfold advance. rewrite E1. cbn [rbind]. replace (INT_MAX <=? g_iter g) with false by lia.
    set (g1 := {| g_world := x1; g_obs := g_obs g; g_iter := g_iter g + 1; g_time := nadd (g_time g) (g_dt g); g_dt := g_dt g |}).
    assert (N1 : exists o1, notify_observers (g_obs g1) TimeStepComplete = Ok (l1, o1) /\
       o_observers o1 = o_observers (g_obs g) /\ o_freq o1 = o_freq (g_obs g) /\
       o_count o1 TimeStepComplete = k + 1 /\ o_count o1 SolutionUpdate = o_count (g_obs g) SolutionUpdate).
    { unfold notify_observers. cbn [g_obs g1]. rewrite O1, O3, O5.
      replace (L =? 0) with false by lia. replace (INT_MAX <=? k) with false by lia.
      eexists. split; [reflexivity|]. cbn. auto. }
    destruct N1 as (o1 & N1 & N2 & N3 & N4 & N5).
    destruct (notify_ok g1 TimeStepComplete o1 l1 ex [c] [r] w1 N1 U1 D1 eq_refl) as (x2 & NE & U2 & D2 & EX2 & W2 & K2).
    { cbn [g1 g_iter g_time g_dt g_world]. rewrite W1. exact EC1. }
    rewrite NE. cbn [rbind].
    set (g2 := {| g_world := x2; g_obs := o1; g_iter := g_iter g1; g_time := g_time g1; g_dt := g_dt g1 |}).
    assert (M1 : exists o2, notify_observers (g_obs g2) SolutionUpdate = Ok (l2, o2) /\
       o_observers o2 = o_observers o1 /\ o_freq o2 = o_freq o1 /\
       o_count o2 TimeStepComplete = k + 1 /\ (S <> 0 -> o_count o2 SolutionUpdate = k + 1)).
    { unfold notify_observers. cbn [g_obs g2]. rewrite N2, N3, O2, O4, N5. unfold l2.
      destruct (S =? 0) eqn:ES.
      - eexists. split; [reflexivity|]. repeat split; auto. lia.
      - rewrite O6 by lia. rewrite ?ES. replace (INT_MAX <=? k) with false by lia. eexists. split; [reflexivity|].
        cbn [o_observers o_freq o_count negb andb]. repeat split; auto. }
    destruct M1 as (o2 & M1 & M2 & M3 & M4 & M5).
    destruct (notify_ok g2 SolutionUpdate o2 l2 ex [c] [r] w' M1 U2 D2 EX2) as (x3 & ME & U3 & D3 & EX3 & W3 & K3).
    { cbn [g2 g1 g_iter g_time g_dt g_world]. rewrite W2. exact EG'. }
    rewrite ME. cbn [rbind].
    eexists. exists c, r, ex. split; [reflexivity|]. cbn [g_iter g_time g_dt g_obs g_world g1 g2].
    split; [reflexivity|]. split; [reflexivity|]. split; [reflexivity|].
    split. { unfold obs_is. rewrite M2, M3, N2, N3. auto 10. }
    split. { apply K3, K2. exact F1. }
    split; [exact U3|]. split; [exact C1|]. split; [exact R1|]. split; [exact X1|]. rewrite W3. exact EG.
  Qed.

  Variable o : time_options V.
  Hypothesis NC : t_use_cfl o = false.
  Hypothesis HM : t_max_steps o <> 0 /\ t_max_steps o <= INT_MAX.
  Hypothesis Hrep : forall k i t dt c r ex w w', zlen c = size -> zlen r = size -> group k (i, t, dt, c, r, ex) w = Ok w' ->
     k = 0 \/ l_residual (w_logger w) <> [] -> l_residual (w_logger w') <> [].

  Definition both (t dt : V) (uv : A * A) : A * A := (next t dt (fst uv), slope t dt (fst uv)).

  Lemma reached_fst k uv steps : map (fun z => let '(i, t, dt, p) := z in (i, t, dt, fst p)) (reached both k uv steps) =
    reached next k (fst uv) steps.
  Proof.
    revert k uv. induction steps as [|(t, dt) l IH]; intros k uv; [reflexivity|]. cbn [reached map]. rewrite IH. reflexivity.
  Qed.

  (** Whether the residuals m end the run. *)
  Definition stops (m : list (string * V)) (b : bool) : Prop :=
    exists ab, abs_converged o m = Ok ab /\ (rel_converged o m || ab)%bool = b.

  Lemma stops_some m : m <> [] -> exists b, stops m b.
  Proof.
    intros H. unfold stops, abs_converged. destruct m as [|(n, v) m]; [congruence|].
    destruct (ModelTime.nonzero (t_abs_tol o)); do 2 eexists; split; reflexivity.
  Qed.

  (** The messages that the residuals cause, and the choice of the next step with them. *)
  Definition telling (x : X) (dt : V) : res (X * V) :=
    rbind (next_dt x dt) (fun '(x', p) =>
    rbind (info pl (exit_messages o (l_residual (w_logger (xw x')))) (xw x')) (fun w => Ok (put x' w, p))).

  Lemma info_ok ms w : exists out, info pl ms w = Ok (with_logger w (w_logger w) out) /\
    perform_all (pl_showe pl) (pl_table pl) (pl_banner pl) (w_logger w) (map (Message LInfo) ms) = Next (w_logger w) out.
  Proof.
    unfold info. assert (E : exists out, perform_all (pl_showe pl) (pl_table pl) (pl_banner pl) (w_logger w) (map (Message LInfo) ms) = Next (w_logger w) out).
    { induction ms as [|m ms (out & IH)]; [exists []; reflexivity|]. cbn [map perform_all perform]. rewrite IH. eauto. }
    destruct E as (out & E). exists out. rewrite E. auto.
  Qed.
  Lemma info_none w : info pl [] w = Ok w.
  Proof. unfold info. cbn [map perform_all]. unfold with_logger. rewrite app_nil_r. destruct w; reflexivity. Qed.

  Lemma stops_none m : stops m false -> exit_messages o m = [].
  Proof.
    intros (ab & E & H). apply Bool.orb_false_iff in H as (H & ->). unfold exit_messages. rewrite H, E. reflexivity.
  Qed.

  Definition ends_at (k i lim : Z) (tr : list (Z * V * V * list V * list V * list (string * V))) (w wf : pworld V) : Prop :=
    (forall n wn, (0 < n < List.length tr)%nat -> world_steps k (firstn n tr) w = Ok wn -> stops (l_residual (w_logger wn)) false) /\
    (lim = t_max_steps o \/
     (lim < t_max_steps o /\ lim = i + Z.of_nat (List.length tr) /\ stops (l_residual (w_logger wf)) true)).

  (** Whether the last step ends the run at the final time. *)
  Definition timed (last : bool) (steps : list (V * V)) (by_time : bool) : Prop :=
    exists before t dt, steps = before ++ [(t, dt)] /\
      ((before = [] /\ last = by_time) \/
       (before <> [] /\ if by_time then exists p, ngeb (nadd t p) (t_tfinal o) = true /\ dt = nsub (t_tfinal o) t
                        else ngeb (nadd t dt) (t_tfinal o) = false)).

  Lemma timed_on last t dt t' p steps by_time lim k e :
    marches proposes (t_tfinal o) lim k t' (shortened (t_tfinal o) t' p) (ngeb (nadd t' p) (t_tfinal o)) steps e ->
    timed (ngeb (nadd t' p) (t_tfinal o)) steps by_time -> timed last ((t, dt) :: steps) by_time.
  Proof.
    intros M (before & t1 & d1 & E & H). exists ((t, dt) :: before), t1, d1. split; [rewrite E; reflexivity|]. right. split; [discriminate|].
    destruct H as [(-> & HL1)|(_ & H)]; [|exact H]. cbn [app] in E. subst steps.
    assert (t1 = t' /\ d1 = shortened (t_tfinal o) t' p) as (-> & ->) by (inversion M; subst; auto).
    unfold shortened. rewrite HL1. destruct by_time; [exists p; auto|exact HL1].
  Qed.

  Lemma loop_ok fuel : forall g k i a b last, fits (g_time g) (g_world g) a -> obs_is L S k (g_obs g) -> g_iter g = i -> 0 <= k ->
    k = 0 \/ l_residual (w_logger (xw (g_world g))) <> [] ->
    i < INT_MAX -> k + Z.max 1 (t_max_steps o - i) <= INT_MAX -> Z.max 1 (t_max_steps o - i) <= Z.of_nat fuel ->
    exists rs gf steps e tr c lim w1 said by_time,
      solve_loop do_step telling (fun x => l_residual (w_logger (xw x))) callback fuel o g last = Some (Ok (rs, gf)) /\
      marches proposes (t_tfinal o) lim i (g_time g) (g_dt g) last steps e /\
      Forall2 traced tr (reached both i (a, b) steps) /\
      world_steps k tr (xw (g_world g)) = Ok w1 /\
      g_dt gf = e /\ xu (g_world gf) = [c] /\
      (exists r ex dt tr', tr = tr' ++ [(g_iter gf, g_time gf, dt, c, r, ex)]) /\
      ends_at k i lim tr (xw (g_world g)) w1 /\
      info pl said w1 = Ok (xw (g_world gf)) /\ timed last steps by_time /\
      (if by_time then said = [] /\ lim = t_max_steps o else said = exit_messages o (l_residual (w_logger w1))).
  Proof.
    assert (IM : 1 < INT_MAX) by reflexivity.
    induction fuel as [|fuel IH]; intros g k i a b last F O EI K0 RE K1 K2 LF; [lia|].
    destruct (advance_ok g k a F O) as (g1 & c & r & ex & EA & I1 & T1 & D1 & O1 & F1 & U1 & C1 & R1 & X1 & G1); try lia.
    cbn [solve_loop]. rewrite EA.
    assert (TR : traced (g_iter g + 1, nadd (g_time g) (g_dt g), g_dt g, c, r, ex)
        (i + 1, nadd (g_time g) (g_dt g), g_dt g, both (g_time g) (g_dt g) (a, b))).
    { cbn. rewrite EI. repeat (split; [reflexivity|]). split; [|split]; assumption. }
    pose proof (Hrep _ _ _ _ _ _ _ _ _ (proj2 (proj1 C1) Datatypes.O _ eq_refl) (proj2 (proj1 R1) Datatypes.O _ eq_refl) G1 RE) as RE1.
    destruct last.
    { do 2 eexists. exists [(g_time g, g_dt g)], (g_dt g), [(g_iter g + 1, nadd (g_time g) (g_dt g), g_dt g, c, r, ex)], c, (t_max_steps o), (xw (g_world g1)), [], true.
      split; [reflexivity|]. split; [constructor|]. split; [constructor; [exact TR|constructor]|].
      split; [cbn [world_steps]; rewrite G1; reflexivity|]. split; [exact D1|]. split; [exact U1|].
      split; [exists r, ex, (g_dt g), []; rewrite I1, T1; reflexivity|]. split.
      { split; [|left; reflexivity]. intros n wn H. cbn in H. lia. }
      split; [apply info_none|]. split; [|split; reflexivity]. exists [], (g_time g), (g_dt g). split; [reflexivity|]. left. split; reflexivity. }
    rewrite T1 in *. rewrite <- T1 in F1 at 1.
    destruct (Hnext _ (g_dt g1) _ _ F1) as (x2 & p & EN & PR & F2 & W2 & U2).
    destruct (info_ok (exit_messages o (l_residual (w_logger (xw (g_world g1))))) (xw (g_world g1))) as (out & EI1 & _).
    set (w2 := with_logger (xw (g_world g1)) (w_logger (xw (g_world g1))) out) in *.
    assert (ET : telling (g_world g1) (g_dt g1) = Ok (put x2 w2, p)).
    { unfold telling. rewrite EN. cbn [rbind]. rewrite W2, EI1. reflexivity. }
    unfold compute_next. rewrite ET. cbn [rbind]. rewrite NC. cbn [rbind].
    rewrite put_w. change (l_residual (w_logger w2)) with (l_residual (w_logger (xw (g_world g1)))).
    destruct (stops_some _ RE1) as (bb & ab & EAB & ST). rewrite EAB. cbn [rbind].
    replace (t_max_steps o =? 0) with false by lia. cbn [negb andb]. rewrite <- Bool.orb_assoc. rewrite ST.
    assert (SB : stops (l_residual (w_logger (xw (g_world g1)))) bb) by (exists ab; auto).
    rewrite T1, D1 in *. fold (shortened (t_tfinal o) (nadd (g_time g) (g_dt g)) p).
    destruct ((t_max_steps o <=? g_iter g1) || bb)%bool eqn:EL.
    - do 2 eexists. exists [(g_time g, g_dt g)]. eexists.
      exists [(g_iter g + 1, nadd (g_time g) (g_dt g), g_dt g, c, r, ex)], c, (Z.min (t_max_steps o) (i + 1)), (xw (g_world g1)).
      exists (exit_messages o (l_residual (w_logger (xw (g_world g1))))), false.
      split; [reflexivity|]. split; [apply march_limit; [exact PR|lia]|]. split; [constructor; [exact TR|constructor]|].
      cbn [g_world g_dt g_iter g_time]. split; [cbn [world_steps]; rewrite G1; reflexivity|]. split; [reflexivity|].
      split; [rewrite put_u; congruence|]. split; [exists r, ex, (g_dt g), []; rewrite I1; reflexivity|].
      split.
      { split; [intros n wn H; cbn in H; lia|].
        destruct (t_max_steps o <=? g_iter g1) eqn:EX; [left; lia|]. cbn [orb] in EL. rewrite EL in SB. right.
        cbn [List.length]. split; [lia|]. split; [lia|]. exact SB. }
      split; [rewrite put_w; exact EI1|]. split; [|reflexivity]. exists [], (g_time g), (g_dt g). split; [reflexivity|]. left. split; reflexivity.
    - apply Bool.orb_false_iff in EL as (EL & ->).
      rewrite (stops_none _ SB), info_none in EI1. injection EI1 as EI1.
      set (g2 := {| g_world := put x2 w2; g_obs := g_obs g1; g_iter := g_iter g1; g_time := nadd (g_time g) (g_dt g);
                    g_dt := shortened (t_tfinal o) (nadd (g_time g) (g_dt g)) p |}).
      assert (W3 : xw (g_world g2) = xw (g_world g1)) by (cbn [g2 g_world]; rewrite put_w; congruence).
      destruct (IH g2 (k + 1) (i + 1) (next (g_time g) (g_dt g) a) (slope (g_time g) (g_dt g) a)
                  (ngeb (nadd (nadd (g_time g) (g_dt g)) p) (t_tfinal o)))
        as (rs & gf & steps & e & tr & c' & lim & w1 & said & by_time & ES & MS & FS & WS & DS & US & (r' & ex' & dt' & tr' & ETR) & (NS & LS) & IS & TS & BS);
        cbn [g2 g_world g_obs g_iter g_time g_dt]; auto; try lia.
      { right. rewrite put_w, <- EI1. exact RE1. }
      unfold shortened in *. rewrite ES. do 2 eexists. exists ((g_time g, g_dt g) :: steps), e.
      exists ((g_iter g + 1, nadd (g_time g) (g_dt g), g_dt g, c, r, ex) :: tr), c', lim, w1, said, by_time.
      assert (LT : (0 < List.length tr)%nat) by (rewrite ETR, app_length; cbn; lia).
      split; [reflexivity|]. split; [apply (march_on _ _ _ _ _ _ p); [exact PR|lia|exact MS]|].
      split; [cbn [reached]; constructor; [exact TR|exact FS]|].
      split; [cbn [world_steps]; rewrite G1; cbn [rbind]; rewrite <- W3; exact WS|]. split; [exact DS|]. split; [exact US|].
      split; [exists r', ex', dt', ((g_iter g + 1, nadd (g_time g) (g_dt g), g_dt g, c, r, ex) :: tr'); rewrite ETR; reflexivity|].
      split.
      { split; [|destruct LS as [LS|(LS1 & LS2 & LS3)]; [left; exact LS|right; cbn [List.length]; split; [exact LS1|]; split; [lia|exact LS3]]].
        intros [|n] wn H E; [lia|]. cbn [firstn world_steps] in E. rewrite G1 in E. cbn [rbind] in E. cbn [List.length] in H.
        destruct n as [|n].
        + cbn in E. injection E as <-. exact SB.
        + apply (NS (Datatypes.S n) wn ltac:(lia)). rewrite W3. exact E. }
      split; [exact IS|]. split; [|exact BS]. eapply timed_on; [exact MS|exact TS].
  Qed.
End Loop.
