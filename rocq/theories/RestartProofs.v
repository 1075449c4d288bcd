From Coq Require Import List ZArith Lia.
From Coq Require String.
From Verif Require Import Outcome ZList Num SpecGrid ModelDisc3D ModelDisc2D ModelCH ModelObs ModelTime ModelRun SpecTime SpecRestart
  Time1Proofs Time2Proofs Time3Proofs Step1Proofs Step2Proofs.
Import ListNotations.
Local Open Scope Z_scope.

Section Bisim.
  Context {V : Type} `{N : Num V} {S W L : Type}.
  Variable eval eval' : rhs_fun V S.
  Variable ok : S -> Prop.
  Variable nv : nat.
  Variable size : Z.
  Variable P : Z -> Prop.
  Variable f : V -> (nat -> Z -> V) -> nat -> Z -> V.
  Hypothesis C : computes eval ok nv size P f.
  Hypothesis C' : computes eval' ok nv size P f.
  Variable monitor monitor' : rk3_world V S W -> list (String.string * V).
  Variable call call' : L -> Z -> V -> V -> rk3_world V S W -> res (rk3_world V S W).
  Hypothesis quiet : leaves_solver_alone call.
  Hypothesis quiet' : leaves_solver_alone call'.

  Definition fit (x : rk3_world V S W) (w : nat -> Z -> V) : Prop :=
    rk3_shaped nv size (k_int x) /\ ok (k_sc x) /\ shaped nv size (k_du x) /\ state_holds nv size P (k_u x) w.

  Lemma fit_step e x t d x' w : computes e ok nv size P f -> fit x w -> rk3_do e x t d = Ok x' -> fit x' (rk3_next f t d w).
  Proof.
    intros K (H1 & H2 & H3 & H4) E.
    destruct (rk3_step_spec e ok nv size P f K (k_int x) (k_sc x) (k_u x) (k_du x) t d w H1 H2 H4 H3)
      as (o' & sc' & u' & du' & E' & A1 & A2 & A3 & A4).
    unfold rk3_do in E. rewrite E' in E. cbn [rbind] in E.
    assert (x' = {| k_int := o'; k_sc := sc'; k_u := u'; k_du := du'; k_rest := k_rest x |}) as -> by congruence.
    unfold fit. cbn [k_int k_sc k_u k_du]. split; [exact A1|]. split; [exact A2|]. split; [exact (proj1 A4)|exact A3].
  Qed.

  Lemma fit_call (k : L -> Z -> V -> V -> rk3_world V S W -> res (rk3_world V S W)) l i t d x x' w : leaves_solver_alone k -> fit x w -> k l i t d x = Ok x' -> fit x' w.
  Proof.
    intros Q (H1 & H2 & H3 & H4) E. apply Q in E as (E1 & E2 & E3 & E4).
    unfold fit. rewrite E1, E2, E3, E4. auto.
  Qed.

  Lemma fit_advance e (k : L -> Z -> V -> V -> rk3_world V S W -> res (rk3_world V S W)) g g1 ls w : computes e ok nv size P f -> leaves_solver_alone k ->
    fit (g_world g) w -> advance (rk3_do e) k g = Ok (g1, ls) ->
    fit (g_world g1) (rk3_next f (g_time g) (g_dt g) w).
  Proof.
    intros K Q F E.
    apply (advance_keeps (rk3_do e) k (fun x => fit x (rk3_next f (g_time g) (g_dt g) w)) g g1 ls); auto.
    - intros x' E'. eapply fit_step; eauto.
    - intros. eapply fit_call; eauto.
  Qed.

  Definition alike (a b : step_record (V:=V) (X:=rk3_world V S W) (L:=L)) : Prop :=
    s_time a = s_time b /\ s_dt a = s_dt b /\
    g_iter (s_after a) = g_iter (s_after b) /\ g_time (s_after a) = g_time (s_after b) /\
    exists w, fit (g_world (s_after a)) w /\ fit (g_world (s_after b)) w.

  Lemma tol_stop o (m : list (String.string * V)) ab : no_tolerance o -> abs_converged o m = Ok ab ->
    rel_converged o m = false /\ ab = false.
  Proof.
    intros (A & B). unfold abs_converged, rel_converged, nonzero. rewrite A, B. cbn. intros E. split; congruence.
  Qed.

  Lemma rk3_next_inv (x x' : rk3_world V S W) (d d' : V) : rk3_next_dt x d = Ok (x', d') -> x' = x /\ d' = d.
  Proof. unfold rk3_next_dt. intros E. split; congruence. Qed.

  Lemma loops_agree o o' : t_tfinal o = t_tfinal o' -> t_max_steps o = t_max_steps o' ->
    no_tolerance o -> no_tolerance o' ->
    forall fuel fuel' g g' last rs gf rs' gf' w,
    fit (g_world g) w -> fit (g_world g') w ->
    g_iter g = g_iter g' -> g_time g = g_time g' -> g_dt g = g_dt g' ->
    solve_loop (rk3_do eval) rk3_next_dt monitor call fuel o g last = Some (Ok (rs, gf)) ->
    solve_loop (rk3_do eval') rk3_next_dt monitor' call' fuel' o' g' last = Some (Ok (rs', gf')) ->
    Forall2 alike rs rs'.
  Proof.
    intros T M NT NT'.
    induction fuel as [|fuel IH]; intros fuel' g g' last rs gf rs' gf' w F F' EI ET ED E E'; [discriminate|].
    destruct fuel' as [|fuel']; [discriminate|].
    apply loop_inv in E as (g1 & ls & EA & H). apply loop_inv in E' as (g1' & ls' & EA' & H').
    cbn zeta in H, H'.
    pose proof (fit_advance eval call g g1 ls w C quiet F EA) as F1.
    pose proof (fit_advance eval' call' g' g1' ls' w C' quiet' F' EA') as F1'.
    rewrite <- ET, <- ED in F1'.
    apply (advance_inv (rk3_do eval) rk3_next_dt monitor call) in EA as (_ & I1 & T1 & D1 & _). apply (advance_inv (rk3_do eval') rk3_next_dt monitor' call') in EA' as (_ & I1' & T1' & D1' & _).
    assert (AL : alike {| s_time := g_time g; s_dt := g_dt g; s_calls := ls; s_after := g1 |}
                       {| s_time := g_time g'; s_dt := g_dt g'; s_calls := ls'; s_after := g1' |}).
    { unfold alike. cbn [s_time s_dt s_after]. repeat split; try congruence. eauto. }
    destruct H as [(-> & -> & ->)|(-> & x & dt & last' & stop & EC & H)].
    { destruct H' as [(_ & -> & ->)|(X & _)]; [|discriminate]. constructor; auto. }
    destruct H' as [(X & _)|(_ & x' & dt' & last'' & stop' & EC' & H')]; [discriminate|].
    apply compute_inv in EC as (e & ab & EN & _ & EL & EDT & EAB & ES).
    apply compute_inv in EC' as (e' & ab' & EN' & _ & EL' & EDT' & EAB' & ES').
    apply rk3_next_inv in EN as (-> & ->). apply rk3_next_inv in EN' as (-> & ->).
    apply tol_stop in EAB as (R1 & ->); auto. apply tol_stop in EAB' as (R1' & ->); auto.
    rewrite R1 in ES. rewrite R1' in ES'.
    assert (TT : g_time g1 = g_time g1') by congruence.
    assert (DD : g_dt g1 = g_dt g1') by congruence.
    assert (II : g_iter g1 = g_iter g1') by congruence.
    rewrite <- T, <- TT, <- DD, <- EL in EL'. subst last''.
    rewrite <- T, <- TT, <- DD, <- EDT in EDT'. subst dt'.
    rewrite <- M, <- II, <- ES in ES'. subst stop'.
    cbn zeta in H, H'.
    destruct H as [(-> & -> & ->)|(-> & rs1 & ER & ->)].
    { destruct H' as [(_ & -> & ->)|(X & _)]; [|discriminate]. constructor; auto. }
    destruct H' as [(X & _)|(_ & rs1' & ER' & ->)]; [discriminate|].
    constructor; auto.
    eapply IH with (6 := ER) (7 := ER') (w := rk3_next f (g_time g) (g_dt g) w); cbn [g_world g_iter g_time g_dt]; auto.
  Qed.

  (** The rest of a run after any of its steps. *)
  Lemma loop_rest o fuel g last rs1 r r' rs2 gf :
    solve_loop (rk3_do eval) rk3_next_dt monitor call fuel o g last = Some (Ok (rs1 ++ r :: r' :: rs2, gf)) ->
    exists fuel2, let a := s_after r in
      let l2 := ngeb (nadd (g_time a) (g_dt a)) (t_tfinal o) in
      solve_loop (rk3_do eval) rk3_next_dt monitor call fuel2 o
        {| g_world := g_world a; g_obs := g_obs a; g_iter := g_iter a; g_time := g_time a;
           g_dt := if l2 then nsub (t_tfinal o) (g_time a) else g_dt a |} l2 = Some (Ok (r' :: rs2, gf)).
  Proof.
    revert g last rs1. induction fuel as [|fuel IH]; intros g last rs1 E; [discriminate|].
    apply loop_inv in E as (g1 & ls & EA & H). cbn zeta in H.
    destruct H as [(_ & E & _)|(_ & x & dt & last' & stop & EC & H)].
    { destruct rs1 as [|q [|q' rs1]]; discriminate. }
    destruct H as [(_ & E & _)|(_ & rs' & ER & E)].
    { destruct rs1 as [|q [|q' rs1]]; discriminate. }
    destruct rs1 as [|q rs1].
    - assert (E1 : rs' = r' :: rs2) by (cbn [app] in E; congruence).
      assert (E2 : r = {| s_time := g_time g; s_dt := g_dt g; s_calls := ls; s_after := g1 |}) by (cbn [app] in E; congruence).
      subst r rs'. cbn [s_after]. exists fuel.
      apply compute_inv in EC as (e & ab & EN & _ & EL & EDT & _).
      apply rk3_next_inv in EN as (-> & ->). cbn zeta. rewrite <- EL, <- EDT. exact ER.
    - assert (E1 : rs' = rs1 ++ r :: r' :: rs2) by (cbn [app] in E; congruence).
      subst rs'. eapply IH; eauto.
  Qed.

  (** A run that starts where another had arrived after a step, with the size of that step. *)
  Lemma resume_agrees o o' fuel fuel' obs obs' x y rs1 r r' rs2 gf rs' gf' w0 w :
    t_tfinal o = t_tfinal o' -> t_max_steps o = t_max_steps o' -> no_tolerance o -> no_tolerance o' ->
    fit x w0 ->
    solve (rk3_do eval) rk3_next_dt monitor call fuel o obs x = Some (Ok (rs1 ++ r :: r' :: rs2, gf)) ->
    ngeb (nadd (g_time (s_after r)) (g_dt (s_after r))) (t_tfinal o) = false ->
    t_t0 o' = g_time (s_after r) -> t_dt_initial o' = g_dt (s_after r) -> t_initial_step o' = g_iter (s_after r) ->
    fit y w -> state_holds nv size P (k_u (g_world (s_after r))) w ->
    solve (rk3_do eval') rk3_next_dt monitor' call' fuel' o' obs' y = Some (Ok (rs', gf')) ->
    Forall2 alike (r' :: rs2) rs'.
  Proof.
    intros T M NT NT' F0 E NL E0 E1 E2 FY HW E'. unfold solve in E, E'.
    destruct (t_use_cfl o); [discriminate|]. destruct (t_use_cfl o'); [discriminate|].
    assert (FR : exists w', fit (g_world (s_after r)) w').
    { destruct (loop_keeps (rk3_do eval) rk3_next_dt monitor call (fun x => exists w, fit x w)) with (4 := E) as (_ & K).
      - intros z t d z' (w1 & F1) ES. eexists. exact (fit_step eval z t d z' w1 C F1 ES).
      - intros l i t d z z' (w1 & F1) ES. eexists. exact (fit_call call l i t d z z' w1 quiet F1 ES).
      - intros z d z' d' (w1 & F1) ES. apply rk3_next_inv in ES as (-> & _). eauto.
      - exists w0. exact F0.
      - apply K. apply in_or_app. right. left. reflexivity. }
    destruct FR as (w' & R1 & R2 & R3 & R4).
    apply loop_rest in E as (fuel2 & E). cbn zeta in E. rewrite NL in E.
    eapply (loops_agree o o' T M NT NT'); [| | | | |exact E|exact E']; cbn [g_world g_iter g_time g_dt]; auto.
    - split; [exact R1|]. split; [exact R2|]. split; [exact R3|exact HW].
    - exact FY.
  Qed.
  Definition fitting (x : rk3_world V S W) : Prop := exists w, fit x w.

  Lemma step_total e x t d : computes e ok nv size P f -> fitting x -> exists x', rk3_do e x t d = Ok x' /\ fitting x'.
  Proof.
    intros K (w & F). pose proof F as (H1 & H2 & H3 & H4).
    destruct (rk3_step_spec e ok nv size P f K (k_int x) (k_sc x) (k_u x) (k_du x) t d w H1 H2 H4 H3)
      as (o' & sc' & u' & du' & E' & _).
    assert (E : rk3_do e x t d = Ok {| k_int := o'; k_sc := sc'; k_u := u'; k_du := du'; k_rest := k_rest x |}).
    { unfold rk3_do. rewrite E'. reflexivity. }
    eexists. split; [exact E|]. eexists. exact (fit_step e x t d _ w K F E).
  Qed.

  (** Where one of the two loops ends normally, so does the other, if its callbacks do. *)
  Lemma loop_completes o o' : t_tfinal o = t_tfinal o' -> t_max_steps o = t_max_steps o' -> t_use_cfl o' = false ->
    no_tolerance o -> no_tolerance o' ->
    (forall l i t d x, fitting x -> exists x', call' l i t d x = Ok x') ->
    forall fuel fuel' g g' last rs gf,
    fitting (g_world g') ->
    g_iter g = g_iter g' -> g_time g = g_time g' -> g_dt g = g_dt g' ->
    solve_loop (rk3_do eval) rk3_next_dt monitor call fuel o g last = Some (Ok (rs, gf)) ->
    (List.length rs <= fuel')%nat -> obs_ready (g_obs g') (Z.of_nat (List.length rs)) ->
    exists rs' gf', solve_loop (rk3_do eval') rk3_next_dt monitor' call' fuel' o' g' last = Some (Ok (rs', gf')).
  Proof.
    intros T M CF NT NT' TC.
    assert (TC' : forall l i t d x, fitting x -> exists x', call' l i t d x = Ok x' /\ fitting x').
    { intros l i t d x F. destruct (TC l i t d x F) as (x' & E). exists x'. split; auto. destruct F as (w & F).
      exists w. exact (fit_call call' l i t d x x' w quiet' F E). }
    induction fuel as [|fuel IH]; intros fuel' g g' last rs gf F EI ET ED E LF RD; [discriminate|].
    apply loop_inv in E as (g1 & ls & EA & H). cbn zeta in H.
    apply (advance_inv (rk3_do eval) rk3_next_dt monitor call) in EA as (I0 & I1 & T1 & D1 & _).
    assert (LP : (1 <= List.length rs)%nat).
    { destruct H as [(_ & -> & _)|(_ & x & dt & last' & stop & _ & H)]; [auto|].
      destruct H as [(_ & -> & _)|(_ & rs1 & _ & ->)]; cbn [List.length]; lia. }
    destruct fuel' as [|fuel']; [lia|].
    destruct (advance_total (rk3_do eval') rk3_next_dt monitor' call' fitting g' (Z.of_nat (List.length rs)))
      as (g1' & ls' & EA' & RD1 & F1); auto; try lia.
    { intros x t d FX. exact (step_total eval' x t d C' FX). }
    cbn [solve_loop]. rewrite EA'.
    apply (advance_inv (rk3_do eval') rk3_next_dt monitor' call') in EA' as (_ & I1' & T1' & D1' & _).
    destruct H as [(-> & _)|(-> & x & dt & last' & stop & EC & H)]; [eauto|].
    apply compute_inv in EC as (e & ab & EN & _ & EL & EDT & EAB & ES).
    apply rk3_next_inv in EN as (-> & ->). apply tol_stop in EAB as (R1 & ->); auto. rewrite R1 in ES.
    assert (TT : g_time g1 = g_time g1') by congruence.
    assert (DD : g_dt g1 = g_dt g1') by congruence.
    assert (II : g_iter g1 = g_iter g1') by congruence.
    assert (EC' : compute_next rk3_next_dt monitor' o' g1' = Ok (g_world g1', dt, last', stop)).
    { unfold compute_next, rk3_next_dt. cbn [rbind]. rewrite CF. cbn [rbind].
      destruct NT' as (A & B). unfold abs_converged, rel_converged, nonzero. rewrite A, B. cbn [negb andb rbind].
      rewrite <- T, <- M, <- TT, <- DD, <- II. rewrite EDT, EL, ES. reflexivity. }
    rewrite EC'. cbn zeta in H.
    destruct H as [(-> & _)|(-> & rs1 & ER & ->)]; [eauto|].
    edestruct IH with (5 := ER) as (rs2 & gf2 & E2); [| | | | | |rewrite E2; eauto]; cbn [g_world g_iter g_time g_dt g_obs]; auto.
    - cbn [List.length] in LF. lia.
    - replace (Z.of_nat (List.length rs1)) with (Z.of_nat (List.length ({| s_time := g_time g; s_dt := g_dt g; s_calls := ls; s_after := g1 |} :: rs1)) - 1)
        by (cbn [List.length]; lia). exact RD1.
  Qed.

  Lemma resume_completes o o' fuel fuel' obs obs' x y rs1 r r' rs2 gf :
    t_tfinal o = t_tfinal o' -> t_max_steps o = t_max_steps o' -> t_use_cfl o' = t_use_cfl o -> no_tolerance o -> no_tolerance o' ->
    solve (rk3_do eval) rk3_next_dt monitor call fuel o obs x = Some (Ok (rs1 ++ r :: r' :: rs2, gf)) ->
    ngeb (nadd (g_time (s_after r)) (g_dt (s_after r))) (t_tfinal o) = false ->
    t_t0 o' = g_time (s_after r) -> t_dt_initial o' = g_dt (s_after r) -> t_initial_step o' = g_iter (s_after r) ->
    fitting y ->
    (forall l i t d x, fitting x -> exists x', call' l i t d x = Ok x') ->
    (List.length (r' :: rs2) <= fuel')%nat -> obs_ready obs' (Z.of_nat (List.length (r' :: rs2))) ->
    exists rs' gf', solve (rk3_do eval') rk3_next_dt monitor' call' fuel' o' obs' y = Some (Ok (rs', gf')).
  Proof.
    intros T M CF NT NT' E NL E0 E1 E2 FY TC LF RD. unfold solve in *. rewrite CF.
    destruct (t_use_cfl o) eqn:CO; [discriminate|].
    apply loop_rest in E as (fuel2 & E). cbn zeta in E. rewrite NL in E.
    eapply (loop_completes o o' T M CF NT NT' TC); [| | | |exact E|exact LF|]; cbn [g_world g_iter g_time g_dt g_obs]; auto.
  Qed.
End Bisim.

  Lemma loop_iter {V} `{N : Num V} {S W L} (eval : rhs_fun V S) monitor
    (call : L -> Z -> V -> V -> rk3_world V S W -> res (rk3_world V S W)) o fuel : forall g last rs gf,
    solve_loop (rk3_do eval) rk3_next_dt monitor call fuel o g last = Some (Ok (rs, gf)) ->
    forall r, In r rs -> g_iter g < g_iter (s_after r) <= 2147483647.
  Proof.
    induction fuel as [|fuel IH]; intros g last rs gf E; [discriminate|].
    apply loop_inv in E as (g1 & ls & EA & H). cbn zeta in H.
    apply (advance_inv (rk3_do eval) rk3_next_dt monitor call) in EA as (I0 & I1 & _).
    unfold INT_MAX in I0.
    destruct H as [(_ & -> & _)|(_ & x & dt & last' & stop & EC & H)].
    { intros r [<-|[]]. cbn [s_after]. lia. }
    destruct H as [(_ & -> & _)|(_ & rs' & ER & ->)].
    { intros r [<-|[]]. cbn [s_after]. lia. }
    intros r [<-|Hr]; [cbn [s_after]; lia|].
    apply IH with (r := r) in ER; auto. cbn [g_iter] in ER. lia.
  Qed.


(** ** The step limit *)
Section Limit.
  Context {V : Type} `{N : Num V} {X L : Type}.
  Variable do_step : X -> V -> V -> res X.
  Variable next_dt : X -> V -> res (X * V).
  Variable monitor : X -> list (String.string * V).
  Variable call : L -> Z -> V -> V -> X -> res X.
  Let loop := solve_loop do_step next_dt monitor call.

  Lemma loop_iter_gen o fuel : forall g last rs gf,
    loop fuel o g last = Some (Ok (rs, gf)) ->
    forall r, In r rs -> g_iter g < g_iter (s_after r) <= 2147483647.
  Proof.
    induction fuel as [|fuel IH]; intros g last rs gf E; [discriminate|].
    apply loop_inv in E as (g1 & ls & EA & H). cbn zeta in H.
    apply (advance_inv do_step next_dt monitor call) in EA as (I0 & I1 & _).
    unfold INT_MAX in I0.
    destruct H as [(_ & -> & _)|(_ & x & dt & last' & stop & EC & H)].
    { intros r [<-|[]]. cbn [s_after]. lia. }
    destruct H as [(_ & -> & _)|(_ & rs' & ER & ->)].
    { intros r [<-|[]]. cbn [s_after]. lia. }
    intros r [<-|Hr]; [cbn [s_after]; lia|].
    apply IH with (r := r) in ER; auto. cbn [g_iter] in ER. lia.
  Qed.

  (** The choice of the next step does not look at the limit, apart from the flag to stop. *)
  Lemma compute_limit o n (g : integ (V:=V) (X:=X) (L:=L)) x dt last stop : compute_next next_dt monitor o g = Ok (x, dt, last, stop) ->
    exists soft, stop = (negb (t_max_steps o =? 0) && (t_max_steps o <=? g_iter g) || soft)%bool /\
      compute_next next_dt monitor (with_limit o n) g = Ok (x, dt, last, (negb (n =? 0) && (n <=? g_iter g) || soft)%bool).
  Proof.
    unfold compute_next. destruct (next_dt (g_world g) (g_dt g)) as [[x' d]| | |]; cbn [rbind]; try discriminate.
    cbn [with_limit t_use_cfl t_tfinal t_max_steps]. destruct (t_use_cfl o); try discriminate.
    change (abs_converged (with_limit o n) (monitor x')) with (abs_converged o (monitor x')).
    change (rel_converged (with_limit o n) (monitor x')) with (rel_converged o (monitor x')).
    destruct (abs_converged o (monitor x')) as [ab| | |]; cbn [rbind]; try discriminate.
    intros H; injection H as <- <- <- <-. exists (rel_converged o (monitor x') || ab)%bool.
    rewrite !Bool.orb_assoc. auto.
  Qed.

  (** A limit at the number of a step that another follows: the run ends with that step. *)
  Lemma loop_stops o fuel r r' rs2 gf : forall g last rs1,
    0 <= g_iter g ->
    loop fuel o g last = Some (Ok (rs1 ++ r :: r' :: rs2, gf)) ->
    exists x dt l s, compute_next next_dt monitor o (s_after r) = Ok (x, dt, l, s) /\
      loop fuel (with_limit o (g_iter (s_after r))) g last =
        Some (Ok (rs1 ++ [r], {| g_world := x; g_obs := g_obs (s_after r); g_iter := g_iter (s_after r);
                                 g_time := g_time (s_after r); g_dt := dt |})).
  Proof.
    induction fuel as [|fuel IH]; intros g last rs1 HI E; [discriminate|].
    pose proof E as E0. unfold loop in E. apply loop_inv in E as (g1 & ls & EA & H). cbn zeta in H.
    pose proof (advance_inv do_step next_dt monitor call g g1 ls EA) as (_ & I1 & _).
    destruct H as [(_ & E & _)|(-> & x & dt & last' & stop & EC & H)].
    { destruct rs1 as [|q [|q' rs1]]; discriminate. }
    destruct H as [(_ & E & _)|(-> & rs' & ER & E)].
    { destruct rs1 as [|q [|q' rs1]]; discriminate. }
    destruct rs1 as [|q rs1].
    - assert (E2 : r = {| s_time := g_time g; s_dt := g_dt g; s_calls := ls; s_after := g1 |}) by (cbn [app] in E; congruence).
      subst r. cbn [s_after]. exists x, dt, last', false. split; [exact EC|].
      destruct (compute_limit o (g_iter g1) g1 _ _ _ _ EC) as (soft & _ & EC').
      unfold loop. cbn [solve_loop]. rewrite EA, EC'.
      destruct (Z.eqb_spec (g_iter g1) 0); [lia|]. rewrite Z.leb_refl. reflexivity.
    - assert (E1 : rs' = rs1 ++ r :: r' :: rs2) by (cbn [app] in E; congruence).
      assert (E2 : q = {| s_time := g_time g; s_dt := g_dt g; s_calls := ls; s_after := g1 |}) by (cbn [app] in E; congruence).
      subst rs' q.
      destruct (compute_limit o (g_iter (s_after r)) g1 _ _ _ _ EC) as (soft & ES & EC').
      assert (LT : g_iter g1 < g_iter (s_after r)).
      { apply (loop_iter_gen o fuel _ _ _ _ ER r). apply in_or_app. right. left. reflexivity. }
      destruct (Z.leb_spec (g_iter (s_after r)) (g_iter g1)); [lia|].
      rewrite Bool.andb_false_r in EC'. cbn [orb] in EC'.
      symmetry in ES. apply Bool.orb_false_iff in ES as (_ & ->).
      edestruct IH with (2 := ER) as (x2 & dt2 & l2 & s2 & A & B); [cbn [g_iter]; lia|].
      exists x2, dt2, l2, s2. split; [exact A|]. unfold loop in *. cbn [solve_loop]. rewrite EA, EC', B. reflexivity.
  Qed.

  (** A limit that is not below any step's number, nor above the run's own limit, changes nothing. *)
  Lemma loop_unlimited o n fuel : 0 < n -> t_max_steps o = 0 \/ n <= t_max_steps o -> forall g last rs gf,
    0 <= g_iter g ->
    loop fuel o g last = Some (Ok (rs, gf)) -> (forall r, In r rs -> g_iter (s_after r) <= n) ->
    loop fuel (with_limit o n) g last = Some (Ok (rs, gf)).
  Proof.
    intros HN HO. induction fuel as [|fuel IH]; intros g last rs gf HI E LE; [discriminate|].
    unfold loop in *. apply loop_inv in E as (g1 & ls & EA & H). cbn zeta in H.
    pose proof (advance_inv do_step next_dt monitor call g g1 ls EA) as (_ & I1 & _).
    cbn [solve_loop]. rewrite EA.
    destruct H as [(-> & -> & ->)|(-> & x & dt & last' & stop & EC & H)]; [reflexivity|].
    destruct (compute_limit o n g1 _ _ _ _ EC) as (soft & ES & EC'). rewrite EC'.
    destruct (Z.eqb_spec n 0); [lia|]. cbn [negb andb].
    destruct H as [(-> & -> & ->)|(-> & rs' & ER & ->)].
    - destruct (Z.leb_spec n (g_iter g1)); [reflexivity|]. cbn [orb].
      destruct soft; [reflexivity|].
      destruct (Z.eqb_spec (t_max_steps o) 0); cbn [negb andb orb] in ES; [discriminate|].
      destruct (Z.leb_spec (t_max_steps o) (g_iter g1)); [lia|discriminate].
    - symmetry in ES. apply Bool.orb_false_iff in ES as (_ & ->).
      assert (LT : g_iter g1 < n).
      { destruct rs' as [|q rs']; [destruct fuel; [discriminate|]; apply loop_inv in ER as (g3 & l3 & _ & H);
          cbn zeta in H; destruct H as [(_ & H & _)|(_ & z1 & z2 & z3 & z4 & _ & [(_ & H & _)|(_ & z5 & _ & H)])]; discriminate|].
        pose proof (loop_iter_gen o fuel _ _ _ _ ER q (or_introl eq_refl)) as A. cbn [g_iter] in A.
        pose proof (LE q (or_intror (or_introl eq_refl))). lia. }
      destruct (Z.leb_spec n (g_iter g1)); [lia|]. cbn [orb].
      erewrite IH with (2 := ER); [reflexivity|cbn [g_iter]; lia|]. intros q Hq. apply LE. right. exact Hq.
  Qed.
End Limit.
