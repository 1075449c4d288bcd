(** Two solve loops with equal step sizes and possibly different times. *)
From Coq Require Import List ZArith Lia.
From Coq Require String.
From Verif Require Import Outcome ZList Num SpecGrid ModelDisc3D ModelDisc2D ModelCH ModelObs ModelTime ModelRun SpecTime SpecRestart SpecResume
  Time1Proofs Time2Proofs Time3Proofs Step1Proofs Step2Proofs RestartProofs.
Import ListNotations.
Local Open Scope Z_scope.

Section Lockstep.
  Context {V : Type} `{N : Num V} {S W L : Type}.
  Variable eval eval' : rhs_fun V S.
  Variable ok : S -> Prop.
  Variable nv : nat.
  Variable size : Z.
  Variable P : Z -> Prop.
  Variable f : (nat -> Z -> V) -> nat -> Z -> V.
  Hypothesis C : computes eval ok nv size P (fun _ => f).
  Hypothesis C' : computes eval' ok nv size P (fun _ => f).
  Variable monitor monitor' : rk3_world V S W -> list (String.string * V).
  Variable call call' : L -> Z -> V -> V -> rk3_world V S W -> res (rk3_world V S W).
  Hypothesis quiet : leaves_solver_alone call.
  Hypothesis quiet' : leaves_solver_alone call'.
  Local Notation fits := (fit ok nv size P).

  Definition valued (a b : step_record (V:=V) (X:=rk3_world V S W) (L:=L)) : Prop :=
    g_iter (s_after a) = g_iter (s_after b) /\
    exists w, fits (g_world (s_after a)) w /\ fits (g_world (s_after b)) w.

  Lemma next_timeless t t' d w : rk3_next (fun _ => f) t d w = rk3_next (fun _ => f) t' d w.
  Proof. reflexivity. Qed.

  Lemma loops_lockstep o o' : forall fuel fuel' g g' last last' rs gf rs' gf' w,
    fits (g_world g) w -> fits (g_world g') w -> g_iter g = g_iter g' ->
    solve_loop (rk3_do eval) rk3_next_dt monitor call fuel o g last = Some (Ok (rs, gf)) ->
    solve_loop (rk3_do eval') rk3_next_dt monitor' call' fuel' o' g' last' = Some (Ok (rs', gf')) ->
    in_lockstep valued rs rs'.
  Proof.
    induction fuel as [|fuel IH]; intros fuel' g g' last last' rs gf rs' gf' w F F' EI E E'; [discriminate|].
    destruct fuel' as [|fuel']; [discriminate|].
    apply loop_inv in E as (g1 & ls & EA & H). apply loop_inv in E' as (g1' & ls' & EA' & H').
    cbn zeta in H, H'.
    pose proof (fit_advance ok nv size P (fun _ => f) eval call g g1 ls w C quiet F EA) as F1.
    pose proof (fit_advance ok nv size P (fun _ => f) eval' call' g' g1' ls' w C' quiet' F' EA') as F1'.
    apply (advance_inv (rk3_do eval) rk3_next_dt monitor call) in EA as (_ & I1 & T1 & D1 & _).
    apply (advance_inv (rk3_do eval') rk3_next_dt monitor' call') in EA' as (_ & I1' & T1' & D1' & _).
    set (q := {| s_time := g_time g; s_dt := g_dt g; s_calls := ls; s_after := g1 |}) in *.
    set (q' := {| s_time := g_time g'; s_dt := g_dt g'; s_calls := ls'; s_after := g1' |}) in *.
    assert (HR : exists tl, rs = q :: tl /\ (tl = [] \/ exists dt last1, solve_loop (rk3_do eval) rk3_next_dt monitor call fuel o
      {| g_world := g_world g1; g_obs := g_obs g1; g_iter := g_iter g1; g_time := g_time g1; g_dt := dt |} last1 = Some (Ok (tl, gf)))).
    { destruct H as [(_ & -> & _)|(_ & x & dt & last1 & stop & EC & H)]; [eauto|].
      apply compute_inv in EC as (e & ab & EN & _). apply rk3_next_inv in EN as (-> & ->).
      destruct H as [(_ & -> & _)|(_ & rs1 & ER & ->)]; [eauto|]. exists rs1. split; eauto. }
    assert (HR' : exists tl, rs' = q' :: tl /\ (tl = [] \/ exists dt last1, solve_loop (rk3_do eval') rk3_next_dt monitor' call' fuel' o'
      {| g_world := g_world g1'; g_obs := g_obs g1'; g_iter := g_iter g1'; g_time := g_time g1'; g_dt := dt |} last1 = Some (Ok (tl, gf')))).
    { destruct H' as [(_ & -> & _)|(_ & x & dt & last1 & stop & EC & H')]; [eauto|].
      apply compute_inv in EC as (e & ab & EN & _). apply rk3_next_inv in EN as (-> & ->).
      destruct H' as [(_ & -> & _)|(_ & rs1 & ER & ->)]; [eauto|]. exists rs1. split; eauto. }
    destruct HR as (tl & -> & HT). destruct HR' as (tl' & -> & HT').
    intros n a b Qa Qb SZ.
    assert (DD : g_dt g = g_dt g') by (apply (SZ O q q'); [lia|reflexivity|reflexivity]).
    rewrite <- DD, (next_timeless (g_time g') (g_time g)) in F1'.
    destruct n as [|n]; cbn [nth_error] in Qa, Qb.
    { injection Qa as <-. injection Qb as <-. split; [cbn; congruence|]. eexists. split; [exact F1|exact F1']. }
    destruct HT as [->|(dt & last1 & HT)]; [destruct n; discriminate|].
    destruct HT' as [->|(dt' & last1' & HT')]; [destruct n; discriminate|].
    refine (IH fuel' _ _ _ _ tl gf tl' gf' _ _ _ _ HT HT' n a b Qa Qb _); cbn [g_world g_iter]; [exact F1|exact F1'|congruence|].
    intros m x y Hm X Y. apply (SZ (Datatypes.S m)); [lia|exact X|exact Y].
  Qed.

  Lemma resume_lockstep o o' fuel fuel' obs obs' x y rs1 r rs2 gf rs' gf' w0 w :
    fits x w0 ->
    solve (rk3_do eval) rk3_next_dt monitor call fuel o obs x = Some (Ok (rs1 ++ r :: rs2, gf)) ->
    t_initial_step o' = g_iter (s_after r) ->
    fits y w -> state_holds nv size P (k_u (g_world (s_after r))) w ->
    solve (rk3_do eval') rk3_next_dt monitor' call' fuel' o' obs' y = Some (Ok (rs', gf')) ->
    in_lockstep valued rs2 rs'.
  Proof.
    intros F0 E E2 FY HW E'. destruct rs2 as [|r' rs2]; [intros [|n]; discriminate|].
    unfold solve in E, E'.
    destruct (t_use_cfl o); [discriminate|]. destruct (t_use_cfl o'); [discriminate|].
    assert (FR : exists w', fits (g_world (s_after r)) w').
    { destruct (loop_keeps (rk3_do eval) rk3_next_dt monitor call (fun x => exists w, fits x w)) with (4 := E) as (_ & K).
      - intros z t d z' (w1 & F1) ES. eexists. exact (fit_step ok nv size P (fun _ => f) eval z t d z' w1 C F1 ES).
      - intros l i t d z z' (w1 & F1) ES. eexists. exact (fit_call ok nv size P call l i t d z z' w1 quiet F1 ES).
      - intros z d z' d' (w1 & F1) ES. apply rk3_next_inv in ES as (-> & _). eauto.
      - exists w0. exact F0.
      - apply K. apply in_or_app. right. left. reflexivity. }
    destruct FR as (w' & R1 & R2 & R3 & R4).
    apply loop_rest in E as (fuel2 & E). cbn zeta in E.
    eapply (loops_lockstep o o') with (4 := E) (5 := E'); cbn [g_world g_iter]; auto.
    - split; [exact R1|]. split; [exact R2|]. split; [exact R3|exact HW].
    - exact FY.
  Qed.
End Lockstep.
