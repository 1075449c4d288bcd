(** The solve loop. *)
From Verif Require Import Outcome ZList ZListProofs Num ModelObs ModelTime SpecTime.
From Coq Require Import Lia Reals Lra.
From Coq Require String.
Local Notation string := String.string.
Local Open Scope Z_scope.

Lemma nth_follows {A} (l : list A) x y :
  follows l x y <-> exists k, nth_error l k = Some x /\ nth_error l (S k) = Some y.
Proof.
  split.
  - intros (l1 & l2 & ->). exists (length l1). rewrite !nth_error_app2 by lia.
    rewrite Nat.sub_diag. replace (S (length l1) - length l1)%nat with 1%nat by lia. auto.
  - intros (k & H1 & H2). apply nth_error_split in H1 as (l1 & l2 & -> & <-).
    exists l1. rewrite nth_error_app2 in H2 by lia.
    replace (S (length l1) - length l1)%nat with 1%nat in H2 by lia. simpl in H2.
    destruct l2 as [|z l2]; simpl in H2; [discriminate|]. injection H2 as ->. eauto.
Qed.

Section Loop.
  Context {V : Type} `{N : Num V} {X L : Type}.
  Variable do_step : X -> V -> V -> res X.
  Variable next_dt : X -> V -> res (X * V).
  Variable monitor : X -> list (string * V).
  Variable call : L -> Z -> V -> V -> X -> res X.
  Local Notation advance := (advance do_step call).
  Local Notation compute_next := (compute_next next_dt monitor).
  Local Notation solve_loop := (solve_loop do_step next_dt monitor call).
  Local Notation solve := (solve do_step next_dt monitor call).

  Lemma run_calls_total (I : X -> Prop) ls iter t dt x :
    (forall l i t d x, I x -> exists x', call l i t d x = Ok x' /\ I x') -> I x ->
    exists x', run_calls call ls iter t dt x = Ok x' /\ I x'.
  Proof.
    intros T. revert x. induction ls as [|l ls IH]; intros x H; simpl; eauto.
    destruct (T l iter t dt x H) as (x' & -> & H'). simpl. auto.
  Qed.

  Lemma notify_inv g e g' ls :
    notify call g e = Ok (g', ls) ->
    g_iter g' = g_iter g /\ g_time g' = g_time g /\ g_dt g' = g_dt g /\
    notify_observers (g_obs g) e = Ok (ls, g_obs g').
  Proof.
    unfold notify. destruct (notify_observers (g_obs g) e) as [[l o]| | |] eqn:E; simpl; try discriminate.
    destruct (run_calls call l (g_iter g) (g_time g) (g_dt g) (g_world g)); simpl; try discriminate.
    intros H; injection H as <- <-. simpl. auto.
  Qed.

  Lemma advance_inv g g' ls :
    advance g = Ok (g', ls) ->
    g_iter g < INT_MAX /\ g_iter g' = g_iter g + 1 /\ g_time g' = nadd (g_time g) (g_dt g) /\ g_dt g' = g_dt g /\
    exists o1 l1 l2, notify_observers (g_obs g) TimeStepComplete = Ok (l1, o1) /\
      notify_observers o1 SolutionUpdate = Ok (l2, g_obs g') /\ ls = l1 ++ l2.
  Proof.
    unfold ModelTime.advance. destruct (do_step (g_world g) (g_time g) (g_dt g)) as [x| | |]; simpl; try discriminate.
    destruct (INT_MAX <=? g_iter g) eqn:EI; try discriminate.
    match goal with |- context [notify call ?g0 TimeStepComplete] => set (g1 := g0) end.
    destruct (notify call g1 TimeStepComplete) as [[g2 l1]| | |] eqn:E1; simpl; try discriminate.
    destruct (notify call g2 SolutionUpdate) as [[g3 l2]| | |] eqn:E2; simpl; try discriminate.
    intros H; injection H as <- <-.
    apply notify_inv in E1 as (A1 & A2 & A3 & A4). apply notify_inv in E2 as (B1 & B2 & B3 & B4).
    apply Z.leb_gt in EI. unfold g1 in *. cbn [g_iter g_time g_dt g_obs] in *.
    split; [lia|]. split; [lia|]. split; [congruence|]. split; [congruence|]. eauto 6.
  Qed.

  Lemma compute_inv o (g : integ (V:=V) (X:=X) (L:=L)) x dt last stop :
    compute_next o g = Ok (x, dt, last, stop) ->
    exists d ab, next_dt (g_world g) (g_dt g) = Ok (x, d) /\ t_use_cfl o = false /\
      last = ngeb (nadd (g_time g) d) (t_tfinal o) /\
      dt = (if last then nsub (t_tfinal o) (g_time g) else d) /\
      abs_converged o (monitor x) = Ok ab /\
      stop = (negb (t_max_steps o =? 0) && (t_max_steps o <=? g_iter g)
              || rel_converged o (monitor x) || ab)%bool.
  Proof.
    unfold ModelTime.compute_next.
    destruct (next_dt (g_world g) (g_dt g)) as [[x' d]| | |] eqn:E; simpl; try discriminate.
    destruct (t_use_cfl o) eqn:EC; simpl; try discriminate.
    destruct (abs_converged o (monitor x')) as [ab| | |] eqn:EA; simpl; try discriminate.
    intros H; injection H as <- <- <- <-. exists d, ab. auto 10.
  Qed.

  (** One pass: the possible ways solve_loop returns normally. *)
  Lemma loop_inv fuel o g last rs gf :
    solve_loop (S fuel) o g last = Some (Ok (rs, gf)) ->
    exists g1 ls, advance g = Ok (g1, ls) /\
      let r := {| s_time := g_time g; s_dt := g_dt g; s_calls := ls; s_after := g1 |} in
      (last = true /\ rs = [r] /\ gf = g1) \/
      (last = false /\ exists x dt last' stop, compute_next o g1 = Ok (x, dt, last', stop) /\
         let g2 := {| g_world := x; g_obs := g_obs g1; g_iter := g_iter g1; g_time := g_time g1; g_dt := dt |} in
         (stop = true /\ rs = [r] /\ gf = g2) \/
         (stop = false /\ exists rs', solve_loop fuel o g2 last' = Some (Ok (rs', gf)) /\ rs = r :: rs')).
  Proof.
    cbn [ModelTime.solve_loop]. destruct (advance g) as [[g1 ls]| | |] eqn:EA; try discriminate.
    intros H. exists g1, ls. split; auto. cbn zeta. destruct last.
    - left. injection H as <- <-. auto.
    - right. split; auto. destruct (compute_next o g1) as [[[[x dt] last'] stop]| | |] eqn:EC; try discriminate.
      exists x, dt, last', stop. split; auto. destruct stop.
      + left. injection H as <- <-. auto.
      + right. split; auto.
        destruct (solve_loop fuel o _ last') as [[[rs' gf']| | |]|] eqn:ES; try discriminate.
        injection H as <- <-. eauto.
  Qed.

  (** Times, counters and step sizes. *)
  Lemma loop_counts fuel : forall o g last rs gf,
    solve_loop fuel o g last = Some (Ok (rs, gf)) ->
    rs <> [] /\
    g_iter gf = g_iter g + Z.of_nat (List.length rs) /\
    g_time gf = fold_left nadd (map s_dt rs) (g_time g) /\
    (forall k r, nth_error rs k = Some r ->
       g_iter (s_after r) = g_iter g + Z.of_nat k + 1 /\
       g_time (s_after r) = fold_left nadd (map s_dt (firstn (S k) rs)) (g_time g) /\
       s_time r = fold_left nadd (map s_dt (firstn k rs)) (g_time g) /\
       g_dt (s_after r) = s_dt r).
  Proof.
    induction fuel as [|fuel IH]; intros o g last rs gf H; [discriminate|].
    apply loop_inv in H as (g1 & ls & EA & H). apply advance_inv in EA as (_ & A1 & A2 & A3 & _).
    cbn zeta in H. set (r := {| s_time := g_time g; s_dt := g_dt g; s_calls := ls; s_after := g1 |}) in *.
    assert (ONE : [r] <> [] /\ g_iter g1 = g_iter g + Z.of_nat (List.length [r]) /\
      g_time g1 = fold_left nadd (map s_dt [r]) (g_time g) /\
      (forall k r0, nth_error [r] k = Some r0 ->
       g_iter (s_after r0) = g_iter g + Z.of_nat k + 1 /\
       g_time (s_after r0) = fold_left nadd (map s_dt (firstn (S k) [r])) (g_time g) /\
       s_time r0 = fold_left nadd (map s_dt (firstn k [r])) (g_time g) /\
       g_dt (s_after r0) = s_dt r0)).
    { split; [discriminate|]. split; [exact A1|]. split; [exact A2|].
      intros [|[|k]] r0 E; try discriminate. injection E as <-. simpl. repeat split; auto. lia. }
    destruct H as [(-> & -> & ->)|(-> & x & dt & last' & stop & EC & H)]; auto.
    destruct H as [(-> & -> & ->)|(-> & rs' & ES & ->)].
    - destruct ONE as (O1 & O2 & O3 & O4). cbn [g_iter g_time]. auto.
    - apply IH in ES as (NE & I1 & I2 & I3). cbn [g_iter g_time] in *.
      split; [discriminate|]. split.
      { cbn [List.length]. rewrite I1, A1. lia. }
      split. { rewrite I2. cbn [map fold_left]. rewrite A2. reflexivity. }
      intros [|k] r0 E.
      + simpl in E. injection E as <-. simpl. repeat split; auto. lia.
      + simpl in E. destruct (I3 k r0 E) as (J1 & J2 & J3 & J4).
        split; [rewrite J1, A1; lia|]. split.
        { rewrite J2. change (firstn (S (S k)) (r :: rs')) with (r :: firstn (S k) rs').
          cbn [map fold_left]. rewrite A2. reflexivity. }
        split; auto. rewrite J3. cbn [firstn map fold_left]. rewrite A2. reflexivity.
  Qed.

  (** How consecutive steps are linked, and how the run ends. *)
  Lemma loop_links fuel : forall o g last rs gf,
    solve_loop fuel o g last = Some (Ok (rs, gf)) ->
    (last = true -> List.length rs = 1%nat) /\
    (exists r rest, rs = r :: rest /\ s_dt r = g_dt g /\ s_time r = g_time g) /\
    (forall r r', follows rs r r' ->
       exists x d last' , compute_next o (s_after r) = Ok (x, s_dt r', last', false) /\
         next_dt (g_world (s_after r)) (s_dt r) = Ok (x, d) /\
         last' = ngeb (nadd (g_time (s_after r)) d) (t_tfinal o) /\
         s_dt r' = (if last' then nsub (t_tfinal o) (g_time (s_after r)) else d) /\
         (last' = true -> exists l1, rs = l1 ++ [r; r'])) /\
    (exists rs0 r, rs = rs0 ++ [r] /\
       ((gf = s_after r /\ (last = true \/
          exists r0 x d, follows rs r0 r /\ next_dt (g_world (s_after r0)) (s_dt r0) = Ok (x, d) /\
             ngeb (nadd (g_time (s_after r0)) d) (t_tfinal o) = true)) \/
        (exists x dt l, compute_next o (s_after r) = Ok (x, dt, l, true) /\ g_world gf = x /\ g_dt gf = dt /\
            g_time gf = g_time (s_after r)))).
  Proof.
    induction fuel as [|fuel IH]; intros o g last rs gf H; [discriminate|].
    apply loop_inv in H as (g1 & ls & EA & H). apply advance_inv in EA as (_ & A1 & A2 & A3 & _).
    cbn zeta in H. set (r := {| s_time := g_time g; s_dt := g_dt g; s_calls := ls; s_after := g1 |}) in *.
    assert (NF : forall a b, ~ follows [r] a b).
    { intros a b (l1 & l2 & E). assert (List.length [r] = List.length (l1 ++ a :: b :: l2)) as Q by congruence.
      rewrite app_length in Q. simpl in Q. lia. }
    destruct H as [(-> & -> & ->)|(-> & x & dt & last' & stop & EC & H)].
    - split; auto. split; [exists r, []; auto|]. split; [intros a b F; destruct (NF a b F)|].
      exists [], r. split; auto.
    - destruct H as [(-> & -> & ->)|(-> & rs' & ES & ->)].
      + split; [discriminate|]. split; [exists r, []; auto|]. split; [intros a b F; destruct (NF a b F)|].
        exists [], r. split; auto. right. exists x, dt, last'. auto.
      + apply IH in ES as (LL & (r1 & rest & E1 & D1 & T1) & FO & (rs0 & rl & EL & FIN)).
        cbn [g_dt g_time] in *. destruct (compute_inv _ _ _ _ _ _ EC) as (d & ab & C1 & C2 & C3 & C4 & C5 & C6).
        assert (LK : exists x d last' , compute_next o (s_after r) = Ok (x, s_dt r1, last', false) /\
         next_dt (g_world (s_after r)) (s_dt r) = Ok (x, d) /\
         last' = ngeb (nadd (g_time (s_after r)) d) (t_tfinal o) /\
         s_dt r1 = (if last' then nsub (t_tfinal o) (g_time (s_after r)) else d) /\
         (last' = true -> exists l1, r :: rs' = l1 ++ [r; r1])).
        { exists x, d, last'. cbn [s_after s_dt r]. rewrite D1. split; [exact EC|].
          rewrite <- A3. split; [exact C1|]. split; [exact C3|]. split; [exact C4|].
          intros HL. specialize (LL HL). exists []. rewrite E1 in *. destruct rest; [reflexivity|simpl in LL; lia]. }
        split; [discriminate|]. split; [exists r, rs'; auto|]. split.
        * intros a b (l1 & l2 & E). destruct l1 as [|c l1].
          -- simpl in E. injection E as <- E. rewrite E in E1. injection E1 as <- <-. exact LK.
          -- simpl in E. injection E as <- E.
             destruct (FO a b) as (x' & d' & l' & G1 & G2 & G3 & G4 & G5). { exists l1, l2; auto. }
             exists x', d', l'. split; [exact G1|]. split; [exact G2|]. split; [exact G3|]. split; [exact G4|].
             intros HL. destruct (G5 HL) as (q & Q). exists (r :: q). rewrite Q. reflexivity.
        * exists (r :: rs0), rl. split; [rewrite EL; reflexivity|].
          destruct FIN as [(-> & FIN)|FIN]; [left|right; auto]. split; auto. right.
          destruct FIN as [HL|(r0 & x' & d' & F' & G2 & G3)].
          -- specialize (LL HL). rewrite E1 in LL, EL. destruct rest; [|simpl in LL; lia].
             destruct rs0 as [|? rs0]; [|destruct rs0; discriminate]. simpl in EL. injection EL as <-.
             exists r, x, d. split; [exists [], []; rewrite E1; reflexivity|]. cbn [s_after s_dt r].
             rewrite <- A3. split; [exact C1|]. congruence.
          -- exists r0, x', d'. split; [|auto]. destruct F' as (l1 & l2 & E). exists (r :: l1), l2. rewrite E. reflexivity.
  Qed.

  (** The step limit. *)
  Lemma loop_limit fuel : forall o g last rs gf,
    0 < t_max_steps o ->
    solve_loop fuel o g last = Some (Ok (rs, gf)) ->
    Z.of_nat (List.length rs) <= Z.max 1 (t_max_steps o - g_iter g).
  Proof.
    induction fuel as [|fuel IH]; intros o g last rs gf HM H; [discriminate|].
    apply loop_inv in H as (g1 & ls & EA & H). apply advance_inv in EA as (_ & A1 & A2 & A3 & _).
    cbn zeta in H.
    destruct H as [(-> & -> & ->)|(-> & x & dt & last' & stop & EC & H)]; [simpl; lia|].
    destruct H as [(-> & -> & ->)|(-> & rs' & ES & ->)]; [simpl; lia|].
    destruct (compute_inv _ _ _ _ _ _ EC) as (d & ab & C1 & C2 & C3 & C4 & C5 & C6).
    apply IH in ES; auto. cbn [g_iter] in ES. cbn [List.length].
    assert (g_iter g1 < t_max_steps o).
    { destruct (Z.leb_spec (t_max_steps o) (g_iter g1)); auto. exfalso.
      destruct (Z.eqb_spec (t_max_steps o) 0); [lia|]. simpl in C6. discriminate. }
    lia.
  Qed.

  (** Totality of one pass. *)
  Lemma notify_ready (o : observable L) e n :
    1 <= n -> obs_ready o n -> exists ls o', notify_observers o e = Ok (ls, o') /\ obs_ready o' (n - 1).
  Proof.
    intros Hn RD. unfold notify_observers. destruct (o_observers o e) as [l|] eqn:E.
    - destruct (RD e l E) as (F & C). apply Z.eqb_neq in F. rewrite F.
      destruct (Z.leb_spec INT_MAX (o_count o e)); [lia|]. do 2 eexists. split; [reflexivity|].
      intros e' l' E'. cbn [o_observers o_freq o_count] in *. destruct (RD e' l' E') as (F' & C').
      split; auto. unfold set_at. destruct (event_eqb e e') eqn:EE; [|lia].
      assert (e = e') by (destruct e, e'; simpl in EE; congruence). subst. lia.
    - exists [], o. split; auto. intros e' l' E'. destruct (RD e' l' E'). split; auto. lia.
  Qed.

  Lemma notify_ready_keep (o : observable L) e e0 n ls o' :
    e <> e0 -> notify_observers o e = Ok (ls, o') ->
    (forall l, o_observers o e0 = Some l -> o_freq o e0 <> 0 /\ o_count o e0 + n <= INT_MAX) ->
    (forall l, o_observers o' e0 = Some l -> o_freq o' e0 <> 0 /\ o_count o' e0 + n <= INT_MAX).
  Proof.
    intros NE. unfold notify_observers. destruct (o_observers o e) as [l|] eqn:E.
    - destruct (o_freq o e =? 0); try discriminate. destruct (INT_MAX <=? o_count o e); try discriminate.
      intros H; injection H as <- <-. simpl. unfold set_at.
      replace (event_eqb e e0) with false by (destruct e, e0; simpl; congruence). auto.
    - intros H; injection H as <- <-. auto.
  Qed.

  Lemma notify_keep (o : observable L) e ls o' :
    notify_observers o e = Ok (ls, o') -> o_observers o' = o_observers o /\ o_freq o' = o_freq o.
  Proof.
    unfold notify_observers. destruct (o_observers o e) as [l|] eqn:E.
    - destruct (o_freq o e =? 0); try discriminate. destruct (INT_MAX <=? o_count o e); try discriminate.
      intros H; injection H as <- <-. auto.
    - intros H; injection H as <- <-. auto.
  Qed.

  Lemma two_notifies (o : observable L) n :
    1 <= n -> obs_ready o n ->
    exists l1 o1 l2 o2, notify_observers o TimeStepComplete = Ok (l1, o1) /\
      notify_observers o1 SolutionUpdate = Ok (l2, o2) /\ obs_ready o2 (n - 1).
  Proof.
    intros Hn RD.
    destruct (notify_ready o TimeStepComplete n Hn RD) as (l1 & o1 & E1 & RD1).
    assert (K : forall l, o_observers o1 SolutionUpdate = Some l ->
                 o_freq o1 SolutionUpdate <> 0 /\ o_count o1 SolutionUpdate + n <= INT_MAX).
    { eapply notify_ready_keep; [|exact E1|]; [discriminate|]. intros l. apply RD. }
    unfold notify_observers at 2. destruct (o_observers o1 SolutionUpdate) as [l|] eqn:E.
    - destruct (K l eq_refl) as (F & C). pose proof F as F'. apply Z.eqb_neq in F'.
      destruct (Z.leb_spec INT_MAX (o_count o1 SolutionUpdate)) as [LE|GT]; [lia|].
      do 4 eexists. split; [exact E1|]. unfold notify_observers. rewrite E, F'.
      destruct (Z.leb_spec INT_MAX (o_count o1 SolutionUpdate)); [lia|]. split; [reflexivity|].
      intros e' l' Q. cbn [o_observers o_freq o_count] in *. destruct e'; unfold set_at; simpl.
      + destruct (RD1 TimeStepComplete l' Q). auto.
      + split; auto. lia.
    - exists l1, o1, [], o1. split; auto. unfold notify_observers. rewrite E. split; auto.
  Qed.

  Lemma advance_total (I : X -> Prop) g n :
    (forall x t d, I x -> exists x', do_step x t d = Ok x' /\ I x') ->
    (forall l i t d x, I x -> exists x', call l i t d x = Ok x' /\ I x') ->
    1 <= n -> obs_ready (g_obs g) n -> g_iter g < INT_MAX -> I (g_world g) ->
    exists g' ls, advance g = Ok (g', ls) /\ obs_ready (g_obs g') (n - 1) /\ I (g_world g').
  Proof.
    intros TS TC Hn RD HI HW. unfold ModelTime.advance.
    destruct (TS (g_world g) (g_time g) (g_dt g) HW) as (x & -> & H0). cbn [rbind].
    destruct (Z.leb_spec INT_MAX (g_iter g)); [lia|].
    destruct (two_notifies (g_obs g) n Hn RD) as (l1 & o1 & l2 & o2 & E1 & E2 & RD2).
    unfold notify at 1. cbn [g_obs g_iter g_time g_dt g_world]. rewrite E1. cbn [rbind].
    destruct (run_calls_total I l1 (g_iter g + 1) (nadd (g_time g) (g_dt g)) (g_dt g) x TC H0) as (x1 & -> & H1). cbn [rbind].
    unfold notify. cbn [g_obs g_iter g_time g_dt g_world]. rewrite E2. cbn [rbind].
    destruct (run_calls_total I l2 (g_iter g + 1) (nadd (g_time g) (g_dt g)) (g_dt g) x1 TC H1) as (x2 & -> & H2). cbn [rbind].
    do 2 eexists. split; [reflexivity|]. split; [exact RD2|exact H2].
  Qed.

  (** What every step that succeeds preserves holds along the run. *)
  Lemma run_calls_keeps (I : X -> Prop) ls : forall iter t dt x x',
    (forall l i t d x x', I x -> call l i t d x = Ok x' -> I x') -> I x ->
    run_calls call ls iter t dt x = Ok x' -> I x'.
  Proof.
    induction ls as [|l ls IH]; intros iter t dt x x' T H E; simpl in E; [congruence|].
    destruct (call l iter t dt x) as [x1| | |] eqn:E1; simpl in E; try discriminate. eauto.
  Qed.

  Lemma advance_keeps (I : X -> Prop) g g' ls :
    (forall x', do_step (g_world g) (g_time g) (g_dt g) = Ok x' -> I x') ->
    (forall l i t d x x', I x -> call l i t d x = Ok x' -> I x') ->
    advance g = Ok (g', ls) -> I (g_world g').
  Proof.
    intros TS TC. unfold ModelTime.advance.
    destruct (do_step (g_world g) (g_time g) (g_dt g)) as [x| | |]; simpl; try discriminate.
    specialize (TS x eq_refl). destruct (INT_MAX <=? g_iter g); try discriminate. unfold notify. simpl.
    destruct (notify_observers (g_obs g) TimeStepComplete) as [[l1 o1]| | |]; simpl; try discriminate.
    destruct (run_calls call l1 _ _ _ x) as [x1| | |] eqn:E1; simpl; try discriminate.
    destruct (notify_observers o1 SolutionUpdate) as [[l2 o2]| | |]; simpl; try discriminate.
    destruct (run_calls call l2 _ _ _ x1) as [x2| | |] eqn:E2; simpl; try discriminate.
    intros H; injection H as <- <-. simpl.
    eapply run_calls_keeps; [exact TC| |exact E2]. eapply run_calls_keeps; [exact TC|exact TS|exact E1].
  Qed.

  (** A run is a chain of steps: U describes worlds, phi says what a step does to U, and
      nothing but steps changes it. *)
  Lemma loop_chain {U} (J : X -> V -> U -> Prop) (Q : X -> V -> V -> U -> Prop) (phi : V -> V -> U -> U) :
    (forall x t d x' u, J x t u -> do_step x t d = Ok x' -> J x' (nadd t d) (phi t d u) /\ Q x' t d u) ->
    (forall l i t d x x' s u, call l i t d x = Ok x' -> J x s u -> J x' s u) ->
    (forall l i t d x x' s e u, call l i t d x = Ok x' -> Q x s e u -> Q x' s e u) ->
    (forall x d x' d' s u, next_dt x d = Ok (x', d') -> J x s u -> J x' s u) ->
    forall fuel o g last rs gf u,
      solve_loop fuel o g last = Some (Ok (rs, gf)) -> J (g_world g) (g_time g) u ->
      exists us, length us = S (length rs) /\ nth_error us 0 = Some u /\
        forall k r, nth_error rs k = Some r ->
          exists u1, nth_error us k = Some u1 /\ nth_error us (S k) = Some (phi (s_time r) (s_dt r) u1) /\
            J (g_world (s_after r)) (g_time (s_after r)) (phi (s_time r) (s_dt r) u1) /\ Q (g_world (s_after r)) (s_time r) (s_dt r) u1.
  Proof.
    intros HS HC HQ HN. induction fuel as [|fuel IH]; intros o g last rs gf u E H0; [discriminate|].
    cbn [ModelTime.solve_loop] in E.
    destruct (advance g) as [[g1 ls]| | |] eqn:EA; try discriminate.
    assert (H1 : J (g_world g1) (g_time g1) (phi (g_time g) (g_dt g) u) /\ Q (g_world g1) (g_time g) (g_dt g) u).
    { split.
      - rewrite (proj1 (proj2 (proj2 (advance_inv g g1 ls EA)))).
        apply (advance_keeps (fun x => J x (nadd (g_time g) (g_dt g)) (phi (g_time g) (g_dt g) u)) g g1 ls); auto.
        + intros x' E'. eapply HS; eauto.
        + intros l i t d x x' A B. eapply HC; eauto.
      - apply (advance_keeps (fun x => Q x (g_time g) (g_dt g) u) g g1 ls); auto.
        + intros x' E'. eapply HS; eauto.
        + intros l i t d x x' A B. eapply HQ; eauto. }
    cbn zeta in E. set (r := {| s_time := g_time g; s_dt := g_dt g; s_calls := ls; s_after := g1 |}) in *.
    assert (ONE : exists us, length us = S (length [r]) /\ nth_error us 0 = Some u /\
        forall k r', nth_error [r] k = Some r' ->
          exists u1, nth_error us k = Some u1 /\ nth_error us (S k) = Some (phi (s_time r') (s_dt r') u1) /\
            J (g_world (s_after r')) (g_time (s_after r')) (phi (s_time r') (s_dt r') u1) /\ Q (g_world (s_after r')) (s_time r') (s_dt r') u1).
    { exists [u; phi (g_time g) (g_dt g) u]. split; auto. split; auto. intros [|[|k]] r' E'; try discriminate.
      injection E' as <-. exists u. simpl. tauto. }
    destruct last; [injection E as <- <-; exact ONE|].
    destruct (compute_next o g1) as [[[[x dt] last'] stop]| | |] eqn:EC; try discriminate.
    destruct stop; [injection E as <- <-; exact ONE|].
    match type of E with context [solve_loop fuel o ?g0 last'] => set (g2 := g0) in * end.
    destruct (solve_loop fuel o g2 last') as [[[rs' gf']| | |]|] eqn:ER; try discriminate. injection E as <- <-.
    apply compute_inv in EC as (d & ab & EN & _).
    destruct (IH o g2 last' rs' gf' (phi (g_time g) (g_dt g) u) ER) as (us & LU & U0 & CH).
    { unfold g2. cbn [g_world g_time]. eapply HN; [exact EN|tauto]. }
    exists (u :: us). split; [simpl; congruence|]. split; auto.
    intros [|k] r' E'; simpl in E'.
    - injection E' as <-. exists u. simpl. tauto.
    - destruct (CH k r' E') as (u1 & A). exists u1. exact A.
  Qed.
End Loop.
