(** Proofs of the properties of runs: registry, observers, solve loop, controller. *)
From Coq Require Import ZArith QArith List Reals Lra Lia String.
From Verif Require Import Outcome ZList ZListProofs Num ModelObs ModelTime SpecTime SpecObs Time3Proofs ExampleNum.
Import ListNotations.
Local Open Scope Z_scope.
Local Open Scope list_scope.

(** ** Registry *)
Lemma reg_find_history {F} (h : list (string * F)) name : forall r,
  reg_find (fold_left (fun r nf => fst (reg_add r (fst nf) (snd nf))) h r) name =
  match reg_find r name with Some f => Some f | None => reg_find h name end.
Proof.
  induction h as [|[n f] h IH]; intros r; cbn [fold_left].
  - simpl. destruct (reg_find r name); auto.
  - rewrite IH. unfold reg_add. cbn [fst snd].
    destruct (reg_find r n) as [g|] eqn:E; simpl.
    + destruct (String.eqb_spec n name) as [->|NE]; simpl.
      * rewrite E. reflexivity.
      * reflexivity.
    + destruct (String.eqb_spec n name) as [->|NE]; simpl.
      * rewrite E. reflexivity.
      * reflexivity.
Qed.

Lemma reg_find_first {F} (h : list (string * F)) name f :
  reg_find h name = Some f <-> exists h1 h2, h = h1 ++ (name, f) :: h2 /\ ~ In name (map fst h1).
Proof.
  split.
  - induction h as [|[n g] h IH]; simpl; [discriminate|].
    destruct (String.eqb_spec n name) as [->|NE].
    + intros E; injection E as ->. exists [], h. auto.
    + intros E. destruct (IH E) as (h1 & h2 & -> & NI). exists ((n, g) :: h1), h2. split; auto.
      simpl. intros [C|C]; auto.
  - intros (h1 & h2 & -> & NI). induction h1 as [|[n g] h1 IH]; simpl in *.
    + rewrite String.eqb_refl. reflexivity.
    + destruct (String.eqb_spec n name) as [->|NE]; [tauto|]. apply IH. tauto.
Qed.

Lemma reg_find_none {F} (h : list (string * F)) name : reg_find h name = None <-> ~ In name (map fst h).
Proof.
  induction h as [|[n g] h IH]; simpl; [tauto|]. destruct (String.eqb_spec n name) as [->|NE].
  - split; [discriminate|tauto].
  - rewrite IH. tauto.
Qed.

Lemma pf_C41_registry :
  forall (F : Type) (h : list (string * F)) (name : string),
  (forall f, reg_lookup (reg_history h) name = Ok f <->
     exists h1 h2, h = h1 ++ (name, f) :: h2 /\ ~ In name (map fst h1)) /\
  (reg_lookup (reg_history h) name = Throw <-> ~ In name (map fst h)) /\
  (In name (map fst h) <-> exists f, reg_lookup (reg_history h) name = Ok f) /\
  (forall f, snd (reg_add (reg_history h) name f) = true).
Proof.
  intros F h name. cut ((forall f, reg_lookup (reg_history h) name = Ok f <->
     exists h1 h2, h = h1 ++ (name, f) :: h2 /\ ~ In name (map fst h1)) /\
    (reg_lookup (reg_history h) name = Throw <-> ~ In name (map fst h)) /\
    (In name (map fst h) <-> exists f, reg_lookup (reg_history h) name = Ok f));
    [intros (C1 & C2 & C3); repeat split; try apply C1; try apply C2; try apply C3; reflexivity|].
  unfold reg_lookup, reg_history. rewrite reg_find_history. cbn [reg_find].
  assert (FF := reg_find_first h name). assert (FN := reg_find_none h name).
  destruct (reg_find h name) as [g|] eqn:E.
  - split; [|split].
    + intros f. rewrite <- FF. split; congruence.
    + rewrite <- FN. split; discriminate.
    + split; [eauto|]. intros _. destruct (proj1 (FF g) eq_refl) as (h1 & h2 & -> & _).
      rewrite map_app, in_app_iff. simpl. auto.
  - split; [|split].
    + intros f. rewrite <- FF. split; discriminate.
    + split; auto. intros _. apply FN; auto.
    + split; [|intros (f & C); discriminate]. intros C. exfalso. apply (proj1 FN eq_refl C).
Qed.

(** ** Observers *)
Section Obs.
  Context {L : Type}.

  Definition obs_inv (h : list (obs_op L)) (o : observable L) : Prop :=
    forall e, o_observers o e = (match registered h e with [] => None | l => Some l end) /\
      o_freq o e = frequency h e /\ o_count o e = notified h e.

  Lemma event_eqb_eq a b : event_eqb a b = true <-> a = b.
  Proof. destruct a, b; simpl; split; congruence. Qed.

  Lemma registered_app h1 h2 e : registered (L:=L) (h1 ++ h2) e = registered h1 e ++ registered h2 e.
  Proof. unfold registered. apply flat_map_app. Qed.

  Lemma since_registered_snoc (h : list (obs_op L)) op e :
    registered h e <> [] -> since_registered (h ++ [op]) e = since_registered h e ++ [op].
  Proof.
    induction h as [|a h IH]; simpl; [tauto|]. destruct a as [e' f|e' n|e']; simpl; auto.
    destruct (event_eqb e e') eqn:E; simpl; auto.
  Qed.

  Lemma since_registered_none (h : list (obs_op L)) e :
    registered h e = [] -> since_registered h e = [].
  Proof.
    induction h as [|a h IH]; simpl; auto. destruct a as [e' f|e' n|e']; simpl; auto.
    destruct (event_eqb e e') eqn:E; simpl; auto. discriminate.
  Qed.

  Lemma notified_snoc_other (h : list (obs_op L)) op e :
    (forall e', op = Notify e' -> e <> e') -> notified (h ++ [op]) e = notified h e.
  Proof.
    intros NE. unfold notified. destruct (registered h e) as [|f l] eqn:ER.
    - rewrite (since_registered_none h e ER).
      assert (G : since_registered (h ++ [op]) e = []).
      { revert ER. clear NE. induction h as [|a h IH]; simpl.
        - intros _. destruct op; simpl; auto. destruct (event_eqb e e0); auto.
        - destruct a as [e' f|e' n|e']; simpl; auto. destruct (event_eqb e e') eqn:E; simpl; auto. discriminate. }
      rewrite G. reflexivity.
    - rewrite since_registered_snoc by congruence. rewrite filter_app. simpl.
      destruct op as [e' g|e' n|e']; simpl; try (rewrite app_nil_r; reflexivity).
      destruct (event_eqb e e') eqn:E; [|rewrite app_nil_r; reflexivity].
      apply event_eqb_eq in E. exfalso. apply (NE e'); auto.
  Qed.

  Lemma obs_step_inv h o op ls o' :
    obs_inv h o -> obs_step o op = Ok (ls, o') -> obs_inv (h ++ [op]) o'.
  Proof.
    intros I E e. destruct (I e) as (I1 & I2 & I3).
    assert (FR : frequency (h ++ [op]) e = match op with SetFrequency e' n' => if event_eqb e e' then n' else frequency h e | _ => frequency h e end).
    { unfold frequency. rewrite fold_left_app. reflexivity. }
    rewrite registered_app, FR. destruct op as [e' f|e' n|e']; simpl in E.
    - injection E as <- <-. unfold register_observer. cbn [o_observers o_freq o_count].
      rewrite notified_snoc_other by (intros; discriminate). split; [|auto].
      unfold set_at. simpl. destruct (event_eqb e' e) eqn:EE.
      + apply event_eqb_eq in EE. subst e'. rewrite I1.
        replace (event_eqb e e) with true by (destruct e; auto). simpl.
        destruct (registered h e) as [|g l]; simpl; auto.
      + replace (event_eqb e e') with false by (destruct e, e'; simpl in *; congruence).
        simpl. rewrite app_nil_r. auto.
    - injection E as <- <-. unfold set_notify_frequency. cbn [o_observers o_freq o_count].
      rewrite notified_snoc_other by (intros; discriminate). simpl. rewrite app_nil_r. split; auto. split; auto.
      unfold set_at. replace (event_eqb e e') with (event_eqb e' e) by (destruct e, e'; auto).
      destruct (event_eqb e' e); auto.
    - simpl. rewrite app_nil_r. unfold notify_observers in E.
      destruct (I e') as (J1 & J2 & J3).
      destruct (o_observers o e') as [l|] eqn:EO.
      + destruct (o_freq o e' =? 0); try discriminate. destruct (INT_MAX <=? o_count o e'); try discriminate.
        injection E as <- <-. cbn [o_observers o_freq o_count]. split; auto. split; auto.
        unfold set_at. destruct (event_eqb e' e) eqn:EE.
        * apply event_eqb_eq in EE. subst e'. rewrite I3. unfold notified.
          rewrite since_registered_snoc. 2:{ destruct (registered h e); congruence. }
          rewrite filter_app, zlen_app. simpl. replace (event_eqb e e) with true by (destruct e; auto). reflexivity.
        * rewrite notified_snoc_other; auto. intros e'' Q. injection Q as <-. intros ->.
          destruct e'; discriminate.
      + injection E as <- <-. split; auto. split; auto. rewrite I3.
        destruct (registered h e') as [|g l] eqn:ER; [|discriminate].
        destruct (event_eqb e e') eqn:EE.
        * apply event_eqb_eq in EE. subst e'. unfold notified.
          rewrite (since_registered_none h e ER).
          assert (registered (h ++ [Notify e]) e = []) as Q by (rewrite registered_app, ER; reflexivity).
          rewrite (since_registered_none _ e Q). reflexivity.
        * rewrite notified_snoc_other; auto. intros e'' Q. injection Q as <-. intros ->.
          destruct e'; discriminate.
  Qed.

  Lemma obs_run_at h2 : forall h o cs h1 op h3,
    obs_inv h o -> obs_run o h2 = Ok cs -> h2 = h1 ++ op :: h3 ->
    exists o1 ls o2, obs_inv (h ++ h1) o1 /\ obs_step o1 op = Ok (ls, o2) /\ nth_error cs (length h1) = Some ls.
  Proof.
    induction h2 as [|a h2 IH]; intros h o cs h1 op h3 I E EQ.
    - destruct h1; discriminate.
    - cbn [obs_run] in E. destruct (obs_step o a) as [[ls o']| | |] eqn:ES; try discriminate.
      destruct (obs_run o' h2) as [cs'| | |] eqn:ER; try discriminate. injection E as <-.
      destruct h1 as [|b h1].
      + simpl in EQ. injection EQ as -> ->. exists o, ls, o'. rewrite app_nil_r. auto.
      + simpl in EQ. injection EQ as -> ->.
        destruct (IH (h ++ [b]) o' cs' h1 op h3) as (o1 & l1 & o2 & A & B & C); auto.
        { eapply obs_step_inv; eauto. }
        exists o1, l1, o2. rewrite <- app_assoc in A. simpl. auto.
  Qed.

  Lemma obs_inv_new : obs_inv [] new_observable.
  Proof. intros e. simpl. auto. Qed.

  Lemma obs_run_ok h2 : forall h o,
    obs_inv h o ->
    (forall h1 e h3, h2 = h1 ++ Notify e :: h3 -> registered (h ++ h1) e <> [] ->
       frequency (h ++ h1) e <> 0 /\ notified (h ++ h1) e < INT_MAX) ->
    exists cs, obs_run o h2 = Ok cs /\ length cs = length h2.
  Proof.
    induction h2 as [|a h2 IH]; intros h o I G.
    - exists []. auto.
    - cbn [obs_run]. assert (S : exists ls o', obs_step o a = Ok (ls, o')).
      { destruct a as [e f|e n|e]; simpl; eauto. unfold notify_observers. destruct (I e) as (I1 & I2 & I3).
        rewrite I1, I2, I3. specialize (G [] e h2 eq_refl). rewrite app_nil_r in G.
        destruct (registered h e) as [|f l]; eauto. destruct (G ltac:(congruence)) as (F & C).
        apply Z.eqb_neq in F. rewrite F. destruct (Z.leb_spec INT_MAX (notified h e)); [lia|]. eauto. }
      destruct S as (ls & o' & ES). rewrite ES.
      destruct (IH (h ++ [a]) o') as (cs & E & LL).
      + eapply obs_step_inv; eauto.
      + intros h1 e h3 EQ NE. rewrite <- app_assoc in NE |- *. simpl in *. apply (G (a :: h1) e h3); auto.
        rewrite EQ. reflexivity.
      + rewrite E. exists (ls :: cs). simpl. auto.
  Qed.
End Obs.

Lemma pf_C42_observers :
  forall (L : Type) (h h1 h2 : list (obs_op L)) (op : obs_op L) (calls : list (list L)),
  obs_run new_observable h = Ok calls -> h = h1 ++ op :: h2 ->
  exists ls, nth_error calls (List.length h1) = Some ls /\
    match op with
    | Notify e =>
        ((frequency h1 e | notified h1 e) -> ls = registered h1 e) /\
        (~ (frequency h1 e | notified h1 e) -> ls = [])
    | _ => ls = []
    end.
Proof.
  intros L h h1 h2 op calls E EQ.
  destruct (obs_run_at h [] new_observable calls h1 op h2 obs_inv_new E EQ) as (o1 & ls & o2 & I & ES & NE).
  exists ls. split; auto. simpl in I. destruct op as [e f|e n|e]; simpl in ES.
  - congruence.
  - congruence.
  - destruct (I e) as (I1 & I2 & I3). unfold notify_observers in ES. rewrite I1 in ES.
    destruct (registered h1 e) as [|f l].
    + injection ES as <- <-. auto.
    + destruct (o_freq o1 e =? 0) eqn:EF; try discriminate. apply Z.eqb_neq in EF.
      destruct (INT_MAX <=? o_count o1 e); try discriminate. injection ES as <- <-.
      rewrite I2, I3 in *.
      assert (D : (Z.rem (notified h1 e) (frequency h1 e) =? 0) = true <-> (frequency h1 e | notified h1 e)).
      { rewrite Z.eqb_eq. apply Z.rem_divide. auto. }
      destruct (Z.rem (notified h1 e) (frequency h1 e) =? 0); split; intros Q; auto.
      * exfalso. apply Q. apply D. auto.
      * apply D in Q. discriminate.
Qed.

Lemma pf_C42_defined :
  forall (L : Type) (h : list (obs_op L)),
  (forall h1 e h2, h = h1 ++ Notify e :: h2 -> registered h1 e <> [] ->
     frequency h1 e <> 0 /\ notified h1 e < 2147483647) ->
  exists calls, obs_run new_observable h = Ok calls /\ List.length calls = List.length h.
Proof.
  intros L h H. apply (obs_run_ok h [] new_observable obs_inv_new). simpl. exact H.
Qed.

Lemma pf_C42_undefined :
  forall (L : Type) (h1 : list (obs_op L)) (e : event) (h2 : list (obs_op L)),
  registered h1 e <> [] -> frequency h1 e = 0 \/ 2147483647 <= notified h1 e ->
  obs_run new_observable (h1 ++ Notify e :: h2) = UB.
Proof.
  intros L h1 e h2 HR HF.
  assert (UBS : forall (h : list (obs_op L)) o, obs_run o h = UB \/ exists cs, obs_run o h = Ok cs).
  { induction h as [|op h IH]; intros o; [right; exists []; reflexivity|]. cbn [obs_run].
    assert (ST : obs_step o op = UB \/ exists r, obs_step o op = Ok r).
    { destruct op as [e' f|e' n|e']; cbn [obs_step]; [right; eexists; reflexivity|right; eexists; reflexivity|].
      unfold notify_observers. destruct (o_observers o e'); [|right; eexists; reflexivity].
      destruct (_ =? _); [left; reflexivity|]. destruct (_ <=? _); [left; reflexivity|right; eexists; reflexivity]. }
    destruct ST as [->|((ls & o') & ->)]; [left; reflexivity|].
    destruct (IH o') as [->|(cs & ->)]; [left; reflexivity|right; eexists; reflexivity]. }
  destruct (UBS (h1 ++ Notify e :: h2) new_observable) as [U|(cs & E)]; [exact U|]. exfalso.
  destruct (obs_run_at _ [] new_observable cs h1 (Notify e) h2 obs_inv_new E eq_refl) as (o1 & ls & o2 & I & ES & _).
  cbn [app] in I. destruct (I e) as (I1 & I2 & I3). cbn [obs_step] in ES. unfold notify_observers in ES. rewrite I1 in ES.
  destruct (registered h1 e) as [|f l]; [congruence|]. rewrite I2, I3 in ES. destruct HF as [HF|HF].
  - rewrite HF in ES. discriminate.
  - destruct (_ =? _) in ES; [discriminate|]. replace (INT_MAX <=? notified h1 e) with true in ES; [discriminate|].
    symmetry. apply Z.leb_le. exact HF.
Qed.

(** ** The loop *)

Lemma pf_C44_counts :
  forall (V : Type) (N : Num V) (X L : Type) (do_step : X -> V -> V -> res X) (next_dt : X -> V -> res (X * V))
    (monitor : X -> list (string * V)) (call : L -> Z -> V -> V -> X -> res X)
    (fuel : nat) (o : time_options V) (obs : observable L) (x : X) rs gf,
  solve do_step next_dt monitor call fuel o obs x = Some (Ok (rs, gf)) ->
  rs <> [] /\
  g_iter gf = t_initial_step o + Z.of_nat (List.length rs) /\
  g_time gf = fold_left nadd (map s_dt rs) (t_t0 o) /\
  (forall k r, nth_error rs k = Some r ->
     g_iter (s_after r) = t_initial_step o + Z.of_nat k + 1 /\
     s_time r = fold_left nadd (map s_dt (firstn k rs)) (t_t0 o) /\
     g_time (s_after r) = nadd (s_time r) (s_dt r) /\
     g_dt (s_after r) = s_dt r).
Proof.
  intros V N X L do_step next_dt monitor call fuel o obs x rs gf H.
  unfold solve in H. destruct (t_use_cfl o); try discriminate.
  apply loop_counts in H as (A & B & C & D). cbn [g_iter g_time] in *.
  split; auto. split; auto. split; auto. intros k r E. destruct (D k r E) as (D1 & D2 & D3 & D4).
  split; auto. split; auto. split; auto. rewrite D2, D3.
  assert (F : firstn (S k) rs = firstn k rs ++ [r]).
  { clear - E. revert k E. induction rs as [|a rs IH]; intros [|k] E; simpl in *; try discriminate.
    - injection E as ->. reflexivity.
    - f_equal. apply IH. auto. }
  rewrite F, map_app, fold_left_app. reflexivity.
Qed.

Lemma pf_C44_limit :
  forall (V : Type) (N : Num V) (X L : Type) (do_step : X -> V -> V -> res X) (next_dt : X -> V -> res (X * V))
    (monitor : X -> list (string * V)) (call : L -> Z -> V -> V -> X -> res X)
    (fuel : nat) (o : time_options V) (obs : observable L) (x : X) rs gf,
  solve do_step next_dt monitor call fuel o obs x = Some (Ok (rs, gf)) ->
  0 < t_max_steps o -> 0 <= t_initial_step o ->
  Z.of_nat (List.length rs) <= Z.max 1 (t_max_steps o - t_initial_step o) <= t_max_steps o.
Proof.
  intros V N X L do_step next_dt monitor call fuel o obs x rs gf H HM HI.
  unfold solve in H. destruct (t_use_cfl o); try discriminate.
  apply loop_limit in H; auto. cbn [g_iter] in H. lia.
Qed.

Lemma solve_loop_S {V} `{N : Num V} {X L} do_step next_dt monitor call fuel o (g : integ (V:=V) (X:=X) (L:=L)) last :
  solve_loop do_step next_dt monitor call (S fuel) o g last =
  match advance do_step call g with
  | Ok (g1, ls) =>
      let r := {| s_time := g_time g; s_dt := g_dt g; s_calls := ls; s_after := g1 |} in
      if last then Some (Ok ([r], g1)) else
      match compute_next next_dt monitor o g1 with
      | Ok (x, dt, last', stop) =>
          let g2 := {| g_world := x; g_obs := g_obs g1; g_iter := g_iter g1; g_time := g_time g1; g_dt := dt |} in
          if stop then Some (Ok ([r], g2)) else
          match solve_loop do_step next_dt monitor call fuel o g2 last' with
          | Some (Ok (rs, gf)) => Some (Ok (r :: rs, gf))
          | other => other
          end
      | UB => Some UB | Fatal => Some Fatal | Throw => Some Throw
      end
  | UB => Some UB | Fatal => Some Fatal | Throw => Some Throw
  end.
Proof. reflexivity. Qed.

Section Ends.
  Context {V : Type} `{N : Num V} {X L : Type}.
  Variable do_step : X -> V -> V -> res X.
  Variable next_dt : X -> V -> res (X * V).
  Variable monitor : X -> list (string * V).
  Variable call : L -> Z -> V -> V -> X -> res X.

  Lemma compute_next_total (I : X -> Prop) o (g : integ (V:=V) (X:=X) (L:=L)) :
    t_use_cfl o = false ->
    (forall x d, I x -> exists x' d', next_dt x d = Ok (x', d') /\ I x') ->
    (nonzero (t_abs_tol o) = false \/ forall x, I x -> monitor x <> []) -> I (g_world g) ->
    exists x dt l s, compute_next next_dt monitor o g = Ok (x, dt, l, s) /\ I x.
  Proof.
    intros C T A HW. unfold compute_next. destruct (T (g_world g) (g_dt g) HW) as (x & d & -> & HX). cbn [rbind].
    rewrite C. assert (E : exists b, abs_converged o (monitor x) = Ok b).
    { unfold abs_converged. destruct (nonzero (t_abs_tol o)) eqn:EZ; [|eauto].
      destruct A as [A|A]; [discriminate|]. specialize (A x HX). destruct (monitor x) as [|[k v] m]; [tauto|eauto]. }
    destruct E as (b & ->). cbn [rbind]. do 4 eexists. split; [reflexivity|exact HX].
  Qed.

  Lemma limit_ends (I : X -> Prop) o n :
    (forall x t d, I x -> exists x', do_step x t d = Ok x' /\ I x') ->
    (forall l i t d x, I x -> exists x', call l i t d x = Ok x' /\ I x') ->
    t_use_cfl o = false ->
    (forall x d, I x -> exists x' d', next_dt x d = Ok (x', d') /\ I x') ->
    (nonzero (t_abs_tol o) = false \/ forall x, I x -> monitor x <> []) ->
    0 < t_max_steps o <= INT_MAX ->
    forall g last, t_max_steps o - g_iter g <= Z.of_nat n -> g_iter g < INT_MAX ->
      obs_ready (g_obs g) (Z.of_nat n + 1) -> I (g_world g) ->
      exists rs gf, solve_loop do_step next_dt monitor call (S n) o g last = Some (Ok (rs, gf)) /\
        I (g_world gf) /\ forall r, In r rs -> I (g_world (s_after r)).
  Proof.
    intros TS TC CF TN AB HM. induction n as [|n IH]; intros g last HN HI RD HW;
      rewrite solve_loop_S.
    - destruct (advance_total do_step next_dt monitor call I g (Z.of_nat 0 + 1) TS TC) as (g1 & ls & EA & RD1 & HW1); auto; try lia.
      rewrite EA. destruct last.
      { do 2 eexists. split; [reflexivity|]. split; [exact HW1|]. intros r [<-|[]]; exact HW1. }
      destruct (compute_next_total I o g1 CF TN AB HW1) as (x & dt & l & s & EC & HX). rewrite EC.
      apply (advance_inv do_step next_dt monitor call) in EA as (_ & A1 & _).
      assert (s = true) as ->.
      { destruct (compute_inv _ _ _ _ _ _ _ _ EC) as (d & ab & _ & _ & _ & _ & _ & ->).
        destruct (Z.eqb_spec (t_max_steps o) 0); [lia|]. destruct (Z.leb_spec (t_max_steps o) (g_iter g1)); [reflexivity|lia]. }
      do 2 eexists. split; [reflexivity|]. split; [exact HX|]. intros r [<-|[]]; exact HW1.
    - destruct (advance_total do_step next_dt monitor call I g (Z.of_nat (S n) + 1) TS TC) as (g1 & ls & EA & RD1 & HW1); auto; try lia.
      rewrite EA. destruct last.
      { do 2 eexists. split; [reflexivity|]. split; [exact HW1|]. intros r [<-|[]]; exact HW1. }
      destruct (compute_next_total I o g1 CF TN AB HW1) as (x & dt & l & s & EC & HX). rewrite EC.
      apply (advance_inv do_step next_dt monitor call) in EA as (A0 & A1 & _).
      destruct s.
      { do 2 eexists. split; [reflexivity|]. split; [exact HX|]. intros r [<-|[]]; exact HW1. }
      assert (g_iter g1 < t_max_steps o).
      { destruct (compute_inv _ _ _ _ _ _ _ _ EC) as (d & ab & _ & _ & _ & _ & _ & Q).
        destruct (Z.leb_spec (t_max_steps o) (g_iter g1)); auto.
        destruct (Z.eqb_spec (t_max_steps o) 0); [lia|]. simpl in Q. discriminate. }
      cbn zeta. match goal with |- context [solve_loop _ _ _ _ (S n) o ?g2 l] =>
        destruct (IH g2 l) as (rs & gf & E & F1 & F2) end; cbn [g_iter g_obs g_world]; try lia; auto.
      + eapply (eq_ind _ (fun z => obs_ready (g_obs g1) z) RD1). lia.
      + rewrite E. do 2 eexists. split; [reflexivity|]. split; [exact F1|]. intros r [<-|Hr]; auto.
  Qed.
End Ends.

Lemma pf_C44_ends :
  forall (V : Type) (N : Num V) (X L : Type) (do_step : X -> V -> V -> res X) (next_dt : X -> V -> res (X * V))
    (monitor : X -> list (string * V)) (call : L -> Z -> V -> V -> X -> res X)
    (o : time_options V) (obs : observable L) (x : X) (I : X -> Prop),
  (forall x t d, I x -> exists x', do_step x t d = Ok x' /\ I x') ->
  (forall l i t d x, I x -> exists x', call l i t d x = Ok x' /\ I x') ->
  (forall x d, I x -> exists x' d', next_dt x d = Ok (x', d') /\ I x') -> I x ->
  t_use_cfl o = false ->
  (neqb (t_abs_tol o) (nint 0) = true \/ forall x, I x -> monitor x <> []) ->
  0 < t_max_steps o <= 2147483647 -> 0 <= t_initial_step o < 2147483647 ->
  obs_ready obs (t_max_steps o + 1) ->
  exists fuel rs gf, solve do_step next_dt monitor call fuel o obs x = Some (Ok (rs, gf)) /\
    I (g_world gf) /\ forall r, In r rs -> I (g_world (s_after r)).
Proof.
  intros V N X L do_step next_dt monitor call o obs x I TS TC TN HX CF AB HM HI RD.
  assert (AB' : nonzero (t_abs_tol o) = false \/ forall x, I x -> monitor x <> []).
  { destruct AB as [AB|AB]; auto. left. unfold nonzero. rewrite AB. reflexivity. }
  destruct (limit_ends do_step next_dt monitor call I o (Z.to_nat (t_max_steps o)) TS TC CF TN AB' HM
     {| g_world := x; g_obs := obs; g_iter := t_initial_step o; g_time := t_t0 o; g_dt := t_dt_initial o |} false)
    as (rs & gf & E & F); cbn [g_iter g_obs g_world]; try (unfold INT_MAX; lia); auto.
  - rewrite Z2Nat.id by lia. exact RD.
  - exists (S (Z.to_nat (t_max_steps o))), rs, gf. unfold solve. rewrite CF. split; [exact E|exact F].
Qed.

(** A world that counts steps, with a controller that keeps the step size. *)
Definition ex_solve (o : time_options Q) : option (res (list (Q * Q) * (Z * Q * Q))) :=
  match solve (N:=Num_Q) (L:=driver_call) (fun x _ _ => Ok (x + 1)) (fun x d => Ok (x, d))
          (fun x => [("res_c"%string, 1 # Z.to_pos x); ("rel_res"%string, 1 # Z.to_pos x)])
          (fun _ _ _ _ x => Ok x) 50 o (driver_observers 1 2) 0 with
  | Some (Ok (rs, g)) => Some (Ok (map (fun r => (s_time r, s_dt r)) rs, (g_iter g, g_time g, g_dt g)))
  | Some UB => Some UB | Some Fatal => Some Fatal | Some Throw => Some Throw
  | None => None
  end.
Definition ex_opts (tf dt : Q) (limit first : Z) (rel ab : Q) : time_options Q :=
  {| t_t0 := 0%Q; t_tfinal := tf; t_dt_initial := dt; t_use_cfl := false; t_max_steps := limit;
     t_initial_step := first; t_rel_tol := rel; t_abs_tol := ab |}.

(** ** Final time, exact arithmetic *)
Section Final.
  Local Open Scope R_scope.
  Context {X L : Type}.
  Variable do_step : X -> R -> R -> res X.
  Variable next_dt : X -> R -> res (X * R).
  Variable monitor : X -> list (string * R).
  Variable call : L -> Z -> R -> R -> X -> res X.
  Variable I : X -> Prop.
  Hypothesis TS : forall x t d, I x -> exists x', do_step x t d = Ok x' /\ I x'.
  Hypothesis TC : forall l i t d x, I x -> exists x', call l i t d x = Ok x' /\ I x'.

  Definition unlimited (o : time_options R) : Prop :=
    t_use_cfl o = false /\ t_max_steps o = 0%Z /\ t_rel_tol o = 0 /\ t_abs_tol o = 0.

  Lemma Rltb_true x y : Rltb x y = true <-> x < y.
  Proof. unfold Rltb. destruct (Rlt_dec x y); split; auto; discriminate. Qed.
  Lemma Reqb_true x y : Reqb x y = true <-> x = y.
  Proof. unfold Reqb. destruct (Req_EM_T x y); split; auto; discriminate. Qed.
  Lemma ngeb_R x y : ngeb x y = true <-> y <= x.
  Proof.
    unfold ngeb. cbn [nltb neqb Num_R]. rewrite orb_true_iff, Rltb_true, Reqb_true. split; [lra|].
    intros H. destruct (Req_EM_T x y); [auto|left; lra].
  Qed.
  Lemma nonzero_R : nonzero 0 = false.
  Proof. unfold nonzero. cbn [neqb nint Num_R]. rewrite (proj2 (Reqb_true 0 0) eq_refl). reflexivity. Qed.

  Lemma unlimited_next o (g : integ (V:=R) (X:=X) (L:=L)) x d :
    unlimited o -> next_dt (g_world g) (g_dt g) = Ok (x, d) ->
    compute_next next_dt monitor o g =
      Ok (x, (if ngeb (g_time g + d) (t_tfinal o) then t_tfinal o - g_time g else d),
          ngeb (g_time g + d) (t_tfinal o), false).
  Proof.
    intros (U1 & U2 & U3 & U4) E. unfold compute_next. rewrite E. cbn [rbind]. rewrite U1, U2.
    unfold abs_converged, rel_converged. rewrite U3, U4, nonzero_R. cbn [rbind]. reflexivity.
  Qed.

  Lemma final_loop (o : time_options R) (dmin : R) n :
    unlimited o -> 0 < dmin ->
    (forall x d, I x -> dmin <= d -> exists x' d', next_dt x d = Ok (x', d') /\ dmin <= d' /\ I x') ->
    forall g, I (g_world g) -> dmin <= g_dt g -> g_time g + g_dt g <= t_tfinal o ->
      t_tfinal o - g_time g <= INR n * dmin ->
      (g_iter g + Z.of_nat n + 1 <= INT_MAX)%Z -> obs_ready (g_obs g) (Z.of_nat n + 1) ->
      exists rs gf, solve_loop do_step next_dt monitor call (S n) o g false = Some (Ok (rs, gf)) /\
        g_time gf = t_tfinal o /\ I (g_world gf) /\
        (forall r, In r rs -> 0 <= s_dt r /\ g_time (s_after r) <= t_tfinal o /\ I (g_world (s_after r))).
  Proof.
    intros U DP CT. induction n as [|n IH]; intros g HW HD HT HN HI RD.
    - exfalso. simpl in HN. lra.
    - destruct (advance_total do_step next_dt monitor call I g (Z.of_nat (S n) + 1) TS TC) as (g1 & ls & EA & RD1 & HW1); auto; try lia.
      rewrite solve_loop_S, EA.
      destruct (advance_inv do_step next_dt monitor call _ _ _ EA) as (A0 & A1 & A2 & A3 & _). cbn [nadd Num_R] in A2.
      destruct (CT (g_world g1) (g_dt g1) HW1) as (x & d & EN & HD' & HX); [lra|].
      rewrite (unlimited_next o g1 x d U EN).
      assert (HN' : t_tfinal o - g_time g1 <= INR n * dmin).
      { rewrite A2. rewrite S_INR in HN. lra. }
      destruct (ngeb (g_time g1 + d) (t_tfinal o)) eqn:EG.
      + apply ngeb_R in EG. cbn zeta. rewrite solve_loop_S.
        match goal with |- context [advance do_step call ?g0] =>
          destruct (advance_total do_step next_dt monitor call I g0 (Z.of_nat n + 1) TS TC) as (g3 & ls3 & EA3 & RD3 & HW3) end;
          cbn [g_obs g_iter g_world]; try lia; auto.
        { eapply (eq_ind _ (fun z => obs_ready (g_obs g1) z) RD1). lia. }
        rewrite EA3. do 2 eexists. split; [reflexivity|].
        destruct (advance_inv do_step next_dt monitor call _ _ _ EA3) as (_ & _ & B2 & _). cbn [g_time g_dt nadd Num_R] in B2.
        split; [rewrite B2; lra|]. split; [exact HW3|].
        intros r [<-|[<-|[]]]; cbn [s_dt s_after g_dt g_time nsub Num_R]; rewrite ?B2; rewrite ?A2 in *;
          (split; [lra|split; [lra|]]); [exact HW1|exact HW3].
      + assert (NG : ~ (t_tfinal o <= g_time g1 + d)) by (rewrite <- ngeb_R; congruence).
        cbn zeta. match goal with |- context [solve_loop do_step next_dt monitor call (S n) o ?g0 false] => set (g2 := g0) end.
        destruct (IH g2) as (rs & gf & E & F1 & F2 & F3); unfold g2; cbn [g_dt g_time g_iter g_obs g_world]; try lra; try lia; auto.
        { eapply (eq_ind _ (fun z => obs_ready (g_obs g1) z) RD1). lia. }
        fold g2. rewrite E. do 2 eexists. split; [reflexivity|]. split; auto. split; auto.
        intros r [<-|Hr]; auto. cbn [s_dt s_after]. rewrite A2. split; [lra|]. split; [lra|exact HW1].
  Qed.
End Final.

Lemma pf_C43_final_time :
  forall (X L : Type) (do_step : X -> R -> R -> res X) (next_dt : X -> R -> res (X * R))
    (monitor : X -> list (string * R)) (call : L -> Z -> R -> R -> X -> res X)
    (o : time_options R) (obs : observable L) (x : X) (I : X -> Prop) (dmin : R) (K : Z),
  (forall x t d, I x -> exists x', do_step x t d = Ok x' /\ I x') ->
  (forall l i t d x, I x -> exists x', call l i t d x = Ok x' /\ I x') ->
  (0 < dmin)%R ->
  (forall x d, I x -> (dmin <= d)%R -> exists x' d', next_dt x d = Ok (x', d') /\ (dmin <= d')%R /\ I x') ->
  I x ->
  t_use_cfl o = false -> t_max_steps o = 0 -> t_rel_tol o = 0%R -> t_abs_tol o = 0%R ->
  (dmin <= t_dt_initial o)%R -> (t_t0 o + t_dt_initial o <= t_tfinal o)%R ->
  ((t_tfinal o - t_t0 o) / dmin + 2 <= IZR K)%R -> t_initial_step o + K <= 2147483647 -> obs_ready obs K ->
  exists fuel rs gf, solve do_step next_dt monitor call fuel o obs x = Some (Ok (rs, gf)) /\
    g_time gf = t_tfinal o /\ I (g_world gf) /\
    (forall r, In r rs -> (0 <= s_dt r)%R /\ (g_time (s_after r) <= t_tfinal o)%R /\ I (g_world (s_after r))) /\
    (exists r rest, rs = r :: rest /\ s_dt r = t_dt_initial o /\ s_time r = t_t0 o) /\
    (forall r r', follows rs r r' ->
       exists x' d, next_dt (g_world (s_after r)) (s_dt r) = Ok (x', d) /\
         (s_dt r' = d \/
          (s_dt r' = t_tfinal o - g_time (s_after r) /\ (s_dt r' <= d)%R /\ exists l, rs = l ++ [r; r'])%R)).
Proof.
  intros X L do_step next_dt monitor call o obs x I dmin K TS TC DP CT HX C1 C2 C3 C4 HD HT HK HI RD.
  assert (U : unlimited o) by (split; [exact C1|split; [exact C2|split; [exact C3|exact C4]]]).
  set (n := Z.to_nat (up ((t_tfinal o - t_t0 o) / dmin))).
  assert (PO : (0 <= (t_tfinal o - t_t0 o) / dmin)%R).
  { unfold Rdiv. apply Rmult_le_pos; [lra|]. left. apply Rinv_0_lt_compat. auto. }
  destruct (archimed ((t_tfinal o - t_t0 o) / dmin)) as (AR1 & AR2).
  assert (UP : (0 <= up ((t_tfinal o - t_t0 o) / dmin))%Z).
  { apply le_IZR. lra. }
  assert (UK : (up ((t_tfinal o - t_t0 o) / dmin) + 1 <= K)%Z).
  { apply le_IZR. rewrite plus_IZR. lra. }
  assert (NK : Z.of_nat n + 1 <= K) by (unfold n; rewrite Z2Nat.id; lia).
  destruct (final_loop do_step next_dt monitor call I TS TC o dmin n U DP CT
     {| g_world := x; g_obs := obs; g_iter := t_initial_step o; g_time := t_t0 o; g_dt := t_dt_initial o |})
    as (rs & gf & E & F1 & F2 & F3); cbn [g_dt g_time g_iter g_obs g_world]; auto.
  - unfold n. rewrite INR_IZR_INZ, Z2Nat.id by auto.
    apply Rle_trans with ((t_tfinal o - t_t0 o) / dmin * dmin)%R; [right; field; lra|].
    apply Rmult_le_compat_r; lra.
  - unfold INT_MAX. lia.
  - intros e l Q. destruct (RD e l Q). split; auto. lia.
  - exists (S n), rs, gf. split. { unfold solve. rewrite C1. exact E. }
    split; auto. split; auto. split; auto.
    apply loop_links in E as (_ & (r & rest & E1 & E2 & E3) & FO & _).
    split; [exists r, rest; auto|].
    intros a b F. destruct (FO a b F) as (x' & d & last' & G1 & G2 & G3 & G4 & G5).
    exists x', d. split; auto. destruct last'; [right|left; auto].
    split; [exact G4|]. split.
    + rewrite G4. cbn [nsub Num_R]. symmetry in G3. apply ngeb_R in G3. cbn [nadd Num_R] in G3. lra.
    + apply G5. reflexivity.
Qed.

Lemma pf_C45_overshoot :
  forall (X L : Type) (do_step : X -> R -> R -> res X) (next_dt : X -> R -> res (X * R))
    (monitor : X -> list (string * R)) (call : L -> Z -> R -> R -> X -> res X)
    (o : time_options R) (obs : observable L) (x : X) (I : X -> Prop),
  (forall x t d, I x -> exists x', do_step x t d = Ok x' /\ I x') ->
  (forall l i t d x, I x -> exists x', call l i t d x = Ok x' /\ I x') ->
  (forall x d, I x -> exists x' d', next_dt x d = Ok (x', d') /\ ((0 <= d)%R -> (0 <= d')%R) /\ I x') -> I x ->
  t_use_cfl o = false -> t_max_steps o = 0 -> t_rel_tol o = 0%R -> t_abs_tol o = 0%R ->
  (t_tfinal o < t_t0 o + t_dt_initial o)%R -> (0 <= t_dt_initial o)%R ->
  t_initial_step o + 2 <= 2147483647 -> obs_ready obs 2 ->
  exists r1 r2 gf, solve do_step next_dt monitor call 2 o obs x = Some (Ok ([r1; r2], gf)) /\
    s_dt r1 = t_dt_initial o /\ (t_tfinal o < g_time (s_after r1))%R /\
    (s_dt r2 < 0)%R /\ s_dt r2 = (t_tfinal o - (t_t0 o + t_dt_initial o))%R /\ g_time gf = t_tfinal o.
Proof.
  intros X L do_step next_dt monitor call o obs x I TS TC CT HX C1 C2 C3 C4 HT HP HI RD.
  assert (U : unlimited o) by (split; [exact C1|split; [exact C2|split; [exact C3|exact C4]]]).
  unfold solve. rewrite C1. cbn [solve_loop].
  match goal with |- context [advance do_step call ?g0] =>
    destruct (advance_total do_step next_dt monitor call I g0 2 TS TC) as (g1 & ls & EA & RD1 & HW1) end;
    cbn [g_obs g_iter g_world]; auto; try (unfold INT_MAX; lia).
  rewrite EA. destruct (advance_inv do_step next_dt monitor call _ _ _ EA) as (A0 & A1 & A2 & A3 & _).
  cbn [g_time g_dt nadd Num_R g_iter] in *.
  destruct (CT (g_world g1) (g_dt g1) HW1) as (x' & d & EN & HD & HX').
  rewrite (unlimited_next next_dt monitor o g1 x' d U EN).
  assert (0 <= d)%R by (apply HD; lra).
  assert (ngeb (g_time g1 + d) (t_tfinal o) = true)%R as EG by (apply ngeb_R; lra).
  rewrite EG.
  match goal with |- context [advance do_step call ?g0] =>
    destruct (advance_total do_step next_dt monitor call I g0 1 TS TC) as (g3 & ls3 & EA3 & RD3 & HW3) end;
    cbn [g_obs g_iter g_world]; auto; try (unfold INT_MAX in *; lia).
  rewrite EA3. destruct (advance_inv do_step next_dt monitor call _ _ _ EA3) as (_ & _ & B2 & _). cbn [g_time g_dt nadd Num_R] in B2.
  do 3 eexists. split; [reflexivity|]. cbn [s_dt s_after]. rewrite A2 in *.
  split; auto. split; [lra|]. split; [lra|]. split; [reflexivity|]. rewrite B2. ring.
Qed.

(** ** Convergence *)
Lemma find_rel_reported {V} (m : list (string * V)) v : find_rel m = Some v <-> reported "rel_res" m v.
Proof.
  unfold reported. split.
  - induction m as [|[k w] m IH]; simpl; [discriminate|]. destruct (String.eqb_spec k "rel_res") as [->|NE].
    + intros E; injection E as ->. exists [], m. auto.
    + intros E. destruct (IH E) as (l1 & l2 & -> & NI). exists ((k, w) :: l1), l2. split; auto.
      simpl. intros [C|C]; auto.
  - intros (l1 & l2 & -> & NI). induction l1 as [|[k w] l1 IH]; simpl in *; auto.
    destruct (String.eqb_spec k "rel_res") as [->|NE]; [tauto|]. apply IH. tauto.
Qed.

Lemma pf_C46_stops :
  forall (V : Type) (N : Num V) (X L : Type) (do_step : X -> V -> V -> res X) (next_dt : X -> V -> res (X * V))
    (monitor : X -> list (string * V)) (call : L -> Z -> V -> V -> X -> res X)
    (fuel : nat) (o : time_options V) (obs : observable L) (x : X) rs gf,
  (forall x d x' d', next_dt x d = Ok (x', d') -> monitor x' = monitor x) ->
  solve do_step next_dt monitor call fuel o obs x = Some (Ok (rs, gf)) ->
  forall r r', follows rs r r' ->
    (neqb (t_rel_tol o) (nint 0) = false ->
       forall v, reported "rel_res" (monitor (g_world (s_after r))) v -> nltb v (t_rel_tol o) = false) /\
    (neqb (t_abs_tol o) (nint 0) = false ->
       exists name v rest, monitor (g_world (s_after r)) = (name, v) :: rest /\ nltb v (t_abs_tol o) = false).
Proof.
  intros V N X L do_step next_dt monitor call fuel o obs x rs gf KM H r r' F.
  unfold solve in H. destruct (t_use_cfl o); try discriminate.
  apply loop_links in H as (_ & _ & FO & _).
  destruct (FO r r' F) as (x' & d & last' & G1 & G2 & _).
  destruct (compute_inv _ _ _ _ _ _ _ _ G1) as (d' & ab & E1 & _ & _ & _ & E5 & E6).
  rewrite (KM _ _ _ _ E1) in *. symmetry in E6. apply orb_false_iff in E6 as (E6 & ->).
  apply orb_false_iff in E6 as (_ & E6). split.
  - intros NZ v HR. apply find_rel_reported in HR. unfold rel_converged, nonzero in E6. rewrite NZ, HR in E6. exact E6.
  - intros NZ. unfold abs_converged, nonzero in E5. rewrite NZ in E5. cbn [negb] in E5.
    destruct (monitor (g_world (s_after r))) as [|[name v] rest]; [discriminate|].
    exists name, v, rest. split; auto. congruence.
Qed.

Lemma pf_C46_not_earlier :
  forall (V : Type) (N : Num V) (X L : Type) (do_step : X -> V -> V -> res X) (next_dt : X -> V -> res (X * V))
    (monitor : X -> list (string * V)) (call : L -> Z -> V -> V -> X -> res X)
    (fuel : nat) (o : time_options V) (obs : observable L) (x : X) rs gf,
  (forall x d x' d', next_dt x d = Ok (x', d') -> monitor x' = monitor x) ->
  solve do_step next_dt monitor call fuel o obs x = Some (Ok (rs, gf)) ->
  exists rs0 r, rs = rs0 ++ [r] /\
    ((exists r0 x' d, follows rs r0 r /\ next_dt (g_world (s_after r0)) (s_dt r0) = Ok (x', d) /\
        (nltb (t_tfinal o) (nadd (g_time (s_after r0)) d) || neqb (nadd (g_time (s_after r0)) d) (t_tfinal o))%bool = true /\
        s_dt r = nsub (t_tfinal o) (g_time (s_after r0))) \/
     (t_max_steps o <> 0 /\ t_max_steps o <= g_iter (s_after r)) \/
     (neqb (t_rel_tol o) (nint 0) = false /\
        exists v, reported "rel_res" (monitor (g_world (s_after r))) v /\ nltb v (t_rel_tol o) = true) \/
     (neqb (t_abs_tol o) (nint 0) = false /\
        exists name v rest, monitor (g_world (s_after r)) = (name, v) :: rest /\ nltb v (t_abs_tol o) = true)).
Proof.
  intros V N X L do_step next_dt monitor call fuel o obs x rs gf KM H.
  unfold solve in H. destruct (t_use_cfl o); try discriminate.
  apply loop_links in H as (_ & _ & FO & (rs0 & r & E & FIN)).
  exists rs0, r. split; auto. destruct FIN as [(_ & [C|(r0 & x' & d & F & G1 & G2)])|(x' & dt & l & G1 & _)].
  - discriminate.
  - left. exists r0, x', d. split; auto. split; auto. split; auto.
    destruct (FO r0 r F) as (x2 & d2 & l2 & Q1 & Q2 & Q3 & Q4 & Q5).
    rewrite G1 in Q2. injection Q2 as <- <-. rewrite G2 in Q3. subst l2. exact Q4.
  - right. destruct (compute_inv _ _ _ _ _ _ _ _ G1) as (d' & ab & E1 & _ & _ & _ & E5 & E6).
    rewrite (KM _ _ _ _ E1) in *. symmetry in E6. apply orb_true_iff in E6 as [E6| ->].
    + apply orb_true_iff in E6 as [E6|E6].
      * left. apply andb_true_iff in E6 as (Q1 & Q2). apply negb_true_iff, Z.eqb_neq in Q1. apply Z.leb_le in Q2. auto.
      * right; left. unfold rel_converged, nonzero in E6. apply andb_true_iff in E6 as (Q1 & Q2).
        apply negb_true_iff in Q1. split; auto.
        destruct (find_rel (monitor (g_world (s_after r)))) as [v|] eqn:EF; [|discriminate].
        exists v. split; auto. apply find_rel_reported. auto.
    + right; right. unfold abs_converged, nonzero in E5.
      destruct (neqb (t_abs_tol o) (nint 0)) eqn:NZ; [discriminate|]. split; auto. cbn [negb] in E5.
      destruct (monitor (g_world (s_after r))) as [|[name v] rest]; [discriminate|].
      exists name, v, rest. split; auto. congruence.
Qed.

Lemma pf_C46_nothing_reported_refuted :
  forall (V : Type) (N : Num V) (X L : Type) (do_step : X -> V -> V -> res X) (next_dt : X -> V -> res (X * V))
    (monitor : X -> list (string * V)) (call : L -> Z -> V -> V -> X -> res X)
    (fuel : nat) (o : time_options V) (x x1 : X) (next : X * V),
  (forall x, monitor x = []) -> t_use_cfl o = false -> neqb (t_abs_tol o) (nint 0) = false ->
  t_initial_step o < INT_MAX ->
  do_step x (t_t0 o) (t_dt_initial o) = Ok x1 -> next_dt x1 (t_dt_initial o) = Ok next ->
  solve do_step next_dt monitor call (S fuel) o new_observable x = Some UB.
Proof.
  intros V N X L do_step next_dt monitor call fuel o x x1 [x2 d] M U A I E1 E2.
  unfold solve. rewrite U. cbn [solve_loop]. unfold advance. cbn [g_world g_time g_dt g_iter g_obs].
  rewrite E1. cbn [rbind]. destruct (Z.leb_spec INT_MAX (t_initial_step o)) as [C|_]; [lia|].
  unfold notify, notify_observers, new_observable.
  cbn [rbind g_world g_time g_dt g_iter g_obs o_observers run_calls].
  unfold compute_next. cbn [g_world g_time g_dt g_iter g_obs]. rewrite E2. cbn [rbind].
  rewrite U, M. unfold abs_converged, ModelTime.nonzero. rewrite A. cbn [negb rbind]. reflexivity.
Qed.

(** ** Observers during a run *)
Section Calls.
  Context {V : Type} `{N : Num V} {X L : Type}.
  Variable do_step : X -> V -> V -> res X.
  Variable next_dt : X -> V -> res (X * V).
  Variable monitor : X -> list (string * V).
  Variable call : L -> Z -> V -> V -> X -> res X.

  Definition sched (obs : observable L) (e : event) (n : Z) : list L :=
    match o_observers obs e with
    | None => []
    | Some l => if Z.rem (o_count obs e + n) (o_freq obs e) =? 0 then l else []
    end.

  Lemma sched_same (a b : observable L) e n m :
    o_observers a = o_observers b -> o_freq a = o_freq b ->
    (o_observers a e <> None -> o_count a e + n = o_count b e + m) -> sched a e n = sched b e m.
  Proof.
    intros E F C. unfold sched. rewrite <- E, <- F. destruct (o_observers a e) as [l|]; auto.
    rewrite C by congruence. reflexivity.
  Qed.

  Lemma notify_sched (o : observable L) e ls o' :
    notify_observers o e = Ok (ls, o') ->
    ls = sched o e 0 /\ o_observers o' = o_observers o /\ o_freq o' = o_freq o /\
    (forall e', o_observers o e' <> None -> o_count o' e' = o_count o e' + (if event_eqb e e' then 1 else 0)).
  Proof.
    unfold notify_observers, sched. destruct (o_observers o e) as [l|] eqn:E.
    - destruct (o_freq o e =? 0); try discriminate. destruct (INT_MAX <=? o_count o e); try discriminate.
      intros H; injection H as <- <-. rewrite Z.add_0_r. cbn [o_observers o_freq o_count].
      split; auto. split; auto. split; auto.
      intros e' _. unfold set_at. destruct (event_eqb e e') eqn:EE; [|lia].
      apply event_eqb_eq in EE. subst. lia.
    - intros H; injection H as <- <-. split; auto. split; auto. split; auto.
      intros e' Q. destruct (event_eqb e e') eqn:EE; [|lia]. apply event_eqb_eq in EE. subst. congruence.
  Qed.

  Lemma loop_calls fuel : forall o g last rs gf,
    solve_loop do_step next_dt monitor call fuel o g last = Some (Ok (rs, gf)) ->
    forall k r, nth_error rs k = Some r ->
      s_calls r = sched (g_obs g) TimeStepComplete (Z.of_nat k) ++ sched (g_obs g) SolutionUpdate (Z.of_nat k).
  Proof.
    induction fuel as [|fuel IH]; intros o g last rs gf H; [discriminate|].
    apply loop_inv in H as (g1 & ls & EA & H).
    apply (advance_inv do_step next_dt monitor call) in EA as (_ & _ & _ & _ & (o1 & l1 & l2 & E1 & E2 & ->)).
    destruct (notify_sched _ _ _ _ E1) as (L1 & P1 & Q1 & R1).
    destruct (notify_sched _ _ _ _ E2) as (L2 & P2 & Q2 & R2).
    cbn zeta in H. set (r0 := {| s_time := g_time g; s_dt := g_dt g; s_calls := l1 ++ l2; s_after := g1 |}) in *.
    assert (ONE : s_calls r0 = sched (g_obs g) TimeStepComplete (Z.of_nat 0) ++ sched (g_obs g) SolutionUpdate (Z.of_nat 0)).
    { cbn [s_calls r0 Z.of_nat]. rewrite L1, L2. f_equal. apply sched_same; auto.
      rewrite P1. intros NN. rewrite (R1 SolutionUpdate NN). simpl. lia. }
    assert (ST : forall k r, nth_error [r0] k = Some r -> s_calls r =
       sched (g_obs g) TimeStepComplete (Z.of_nat k) ++ sched (g_obs g) SolutionUpdate (Z.of_nat k)).
    { intros [|[|k]] r E; try discriminate. injection E as <-. exact ONE. }
    destruct H as [(-> & -> & ->)|(-> & x & dt & last' & stop & EC & H)]; auto.
    destruct H as [(-> & -> & ->)|(-> & rs' & ES & ->)]; auto.
    intros [|k] r E; [simpl in E; injection E as <-; exact ONE|]. simpl in E.
    rewrite (IH _ _ _ _ _ ES k r E). cbn [g_obs].
    f_equal; apply sched_same; try congruence; rewrite P2, P1; intros NN.
    - rewrite R2 by congruence. rewrite R1 by congruence. simpl (event_eqb _ _). cbn match. lia.
    - rewrite R2 by congruence. rewrite R1 by congruence. simpl (event_eqb _ _). cbn match. lia.
  Qed.
End Calls.

Lemma pf_C47_schedule :
  forall (V : Type) (N : Num V) (X : Type) (do_step : X -> V -> V -> res X) (next_dt : X -> V -> res (X * V))
    (monitor : X -> list (string * V)) (call : driver_call -> Z -> V -> V -> X -> res X)
    (fuel : nat) (o : time_options V) (n m : Z) (x : X) rs gf,
  0 < n -> 0 <= m ->
  solve do_step next_dt monitor call fuel o (driver_observers n m) x = Some (Ok (rs, gf)) ->
  forall k r, nth_error rs k = Some r ->
    s_calls r = (if Z.of_nat k mod n =? 0 then [SetResidual; SetSolution; SetTime; UpdateLog] else []) ++
                (if (0 <? m) && (Z.of_nat k mod m =? 0) then [WriteSolution] else []).
Proof.
  intros V N X do_step next_dt monitor call fuel o n m x rs gf Hn Hm H k r E.
  unfold solve in H. destruct (t_use_cfl o); try discriminate.
  rewrite (loop_calls _ _ _ _ _ _ _ _ _ _ H k r E). cbn [g_obs]. unfold sched, driver_observers.
  destruct (Z.eqb_spec m 0) as [->|NZ]; cbn [o_observers o_freq o_count register_observer set_notify_frequency set_at
     event_eqb new_observable app].
  - unfold set_at. cbn [event_eqb]. rewrite Z.rem_mod_nonneg by lia. rewrite Z.add_0_l. reflexivity.
  - unfold set_at. cbn [event_eqb]. rewrite !Z.rem_mod_nonneg by lia. rewrite !Z.add_0_l.
    destruct (Z.ltb_spec 0 m); [|lia]. reflexivity.
Qed.

(** ** The step-size controller *)
Section Pid.
  Context {V : Type} `{N : Num V}.

  Lemma nmax_lo (a lo : V) : (forall x : V, nltb x x = false) -> nltb (nmax a lo) lo = false.
  Proof. intros IR. unfold nmax. destruct (nltb a lo) eqn:E; auto. Qed.
  Lemma nmax_hi (a lo hi : V) : (forall x : V, nltb x x = false) -> nltb hi lo = false ->
    nltb hi (nmax (nmin a hi) lo) = false.
  Proof.
    intros IR H. unfold nmax. destruct (nltb (nmin a hi) lo); auto. unfold nmin. destruct (nltb hi a) eqn:E; auto.
  Qed.

  Lemma adapt_early pow (p : pid V) e s :
    (List.length (p_errs p) <> 3)%nat ->
    adapt_step pow p e s = Ok ({| p_errtol := p_errtol p; p_minstep := p_minstep p; p_maxstep := p_maxstep p;
      p_steps := p_steps p ++ [s];
      p_errs := p_errs p ++ [nmax e (nrat 1 4503599627370496)] |}, s).
  Proof. intros H. unfold adapt_step. rewrite (proj2 (Nat.eqb_neq _ _) H). reflexivity. Qed.

  Lemma adapt_late pow (p : pid V) e s :
    (List.length (p_errs p) = 3)%nat -> (List.length (p_steps p) = 3)%nat ->
    exists p' st, adapt_step pow p e s =
      Ok (p', nmax (nmin (nmax (nmin st (nmul s (nrat 11 10))) (nmul s (nrat 1 100))) (p_maxstep p)) (p_minstep p)) /\
      p_minstep p' = p_minstep p /\ p_maxstep p' = p_maxstep p /\
      (List.length (p_errs p') = 3)%nat /\ (List.length (p_steps p') = 3)%nat.
  Proof.
    intros H1 H2. unfold adapt_step. rewrite H1. simpl (negb _). cbn match.
    destruct (p_errs p) as [|e0 [|e1 [|e2 [|e3 l]]]]; simpl in H1; try discriminate.
    destruct (p_steps p) as [|s0 [|s1 [|s2 [|s3 l']]]]; simpl in H2; try discriminate.
    cbn [tl app]. do 2 eexists. split; [reflexivity|]. auto.
  Qed.

  Lemma pid_run_ok pow lo hi fed : forall (p : pid V),
    (forall x, nltb x x = false) -> nltb hi lo = false ->
    p_minstep p = lo -> p_maxstep p = hi ->
    List.length (p_errs p) = List.length (p_steps p) -> (List.length (p_errs p) <= 3)%nat ->
    exists l, pid_run pow p fed = Ok l /\ List.length l = List.length fed /\
      forall k e s st, nth_error fed k = Some (e, s) -> nth_error l k = Some st ->
        ((k + List.length (p_errs p) < 3)%nat -> st = s) /\
        ((3 <= k + List.length (p_errs p))%nat ->
           nltb st lo = false /\ nltb hi st = false /\
           exists raw, st = nmax (nmin (nmax (nmin raw (nmul s (nrat 11 10))) (nmul s (nrat 1 100))) hi) lo).
  Proof.
    induction fed as [|[e s] fed IH]; intros p IR LH HL HH HE H3.
    - exists []. split; auto. split; auto. intros [|k] e s st; discriminate.
    - cbn [pid_run]. destruct (Nat.eq_dec (List.length (p_errs p)) 3) as [E3|N3].
      + destruct (adapt_late pow p e s E3) as (p' & st & EA & M1 & M2 & L1 & L2); [congruence|].
        rewrite EA. destruct (IH p' IR LH) as (l & EL & LL & SP); try congruence; try lia.
        rewrite EL. eexists. split; [reflexivity|]. split; [simpl; auto|].
        intros [|k] e' s' st' Q1 Q2; simpl in Q1, Q2.
        * injection Q1 as <- <-. injection Q2 as <-. split; [lia|]. intros _. rewrite HL, HH.
          split; [apply nmax_lo; auto|]. split; [apply nmax_hi; auto|eauto].
        * destruct (SP k e' s' st' Q1 Q2) as (A & B). split; [intros; lia|]. intros _. apply B. lia.
      + rewrite (adapt_early pow p e s N3).
        match goal with |- context [pid_run pow ?p' fed] => destruct (IH p' IR LH) as (l & EL & LL & SP) end;
          cbn [p_minstep p_maxstep p_errs p_steps]; auto.
        { rewrite !app_length. simpl. lia. }
        { rewrite app_length. simpl. lia. }
        rewrite EL. eexists. split; [reflexivity|]. split; [simpl; auto|].
        intros [|k] e' s' st' Q1 Q2; simpl in Q1, Q2.
        * injection Q1 as <- <-. injection Q2 as <-. split; auto. intros. lia.
        * destruct (SP k e' s' st' Q1 Q2) as (A & B). cbn [p_errs] in A, B. rewrite app_length in A, B. simpl in A, B.
          split; intros; [apply A|apply B]; lia.
  Qed.
End Pid.

Lemma pf_C50_bounds :
  forall (V : Type) (N : Num V) (pow : V -> V -> V) (tol lo hi : V) (fed : list (V * V)),
  (forall x : V, nltb x x = false) -> nltb hi lo = false ->
  exists l, pid_run pow (new_pid tol lo hi) fed = Ok l /\ List.length l = List.length fed /\
    forall k e s st, nth_error fed k = Some (e, s) -> nth_error l k = Some st ->
      ((k < 3)%nat -> st = s) /\
      ((3 <= k)%nat -> nltb st lo = false /\ nltb hi st = false).
Proof.
  intros V N pow tol lo hi fed IR LH.
  destruct (pid_run_ok pow lo hi fed (new_pid tol lo hi) IR LH) as (l & E & LL & SP); auto.
  exists l. split; auto. split; auto. intros k e s st Q1 Q2. destruct (SP k e s st Q1 Q2) as (A & B).
  cbn [new_pid p_errs List.length] in A, B. rewrite Nat.add_0_r in A, B. split; auto.
  intros H. destruct (B H) as (B1 & B2 & _). auto.
Qed.

Lemma nmax_R x y : nmax x y = Rmax x y.
Proof.
  unfold nmax, Rmax. cbn [nltb Num_R]. unfold Rltb. destruct (Rlt_dec x y), (Rle_dec x y); auto; lra.
Qed.
Lemma nmin_R x y : nmin x y = Rmin x y.
Proof.
  unfold nmin, Rmin. cbn [nltb Num_R]. unfold Rltb. destruct (Rlt_dec y x), (Rle_dec x y); auto; lra.
Qed.

Lemma clamp_R (s lo hi raw : R) : (0 < lo)%R -> (lo <= s <= hi)%R ->
  let st := nmax (nmin (nmax (nmin raw (nmul s (nrat 11 10))) (nmul s (nrat 1 100))) hi) lo in
  (lo <= st <= hi)%R /\ (s / 100 <= st <= s * (11 / 10))%R.
Proof.
  intros L H. cbn zeta. rewrite !nmax_R, !nmin_R. cbn [nmul nrat Num_R].
  unfold Rmax, Rmin. repeat (match goal with |- context [Rle_dec ?a ?b] => lazymatch a with context [Rle_dec _ _] => fail | _ => destruct (Rle_dec a b) end end); repeat split; lra.
Qed.

Lemma controlled_ok pow lo hi errs : (0 < lo)%R -> forall (p : pid R) s,
  p_minstep p = lo -> p_maxstep p = hi -> (lo <= s <= hi)%R ->
  List.length (p_errs p) = List.length (p_steps p) -> (List.length (p_errs p) <= 3)%nat ->
  exists l, controlled pow p s errs = Ok l /\ List.length l = S (List.length errs) /\
    (forall st, In st l -> (lo <= st <= hi)%R) /\
    (forall a b, follows l a b -> (a / 100 <= b <= a * (11 / 10))%R) /\
    (forall k st, (k + List.length (p_errs p) <= 3)%nat -> nth_error l k = Some st -> st = s).
Proof.
  intros LP. induction errs as [|e errs IH]; intros p s HL HH HS HE H3.
  - exists [s]. split; auto. split; auto. split; [intros st [<-|[]]; auto|]. split.
    + intros a b (l1 & l2 & Q). assert (List.length [s] = List.length (l1 ++ a :: b :: l2)) as C by congruence.
      rewrite app_length in C. simpl in C. lia.
    + intros [|[|k]] st _ Q; try discriminate. injection Q as <-. auto.
  - cbn [controlled].
    assert (ST : exists p' s', adapt_step pow p e s = Ok (p', s') /\ p_minstep p' = lo /\ p_maxstep p' = hi /\
      (lo <= s' <= hi)%R /\ (s / 100 <= s' <= s * (11 / 10))%R /\
      List.length (p_errs p') = List.length (p_steps p') /\ (List.length (p_errs p') <= 3)%nat /\
      (forall k, (S k + List.length (p_errs p) <= 3)%nat -> s' = s /\ (k + List.length (p_errs p') <= 3)%nat)).
    { destruct (Nat.eq_dec (List.length (p_errs p)) 3) as [E3|N3].
      - destruct (adapt_late pow p e s E3) as (p' & st & EA & M1 & M2 & L1 & L2); [congruence|].
        do 2 eexists. split; [exact EA|]. split; [congruence|]. split; [congruence|].
        rewrite HL, HH. destruct (clamp_R s lo hi st LP HS) as (C1 & C2).
        split; [exact C1|]. split; [exact C2|]. split; [congruence|]. split; [lia|]. intros; lia.
      - rewrite (adapt_early pow p e s N3). do 2 eexists. split; [reflexivity|].
        cbn [p_minstep p_maxstep p_errs p_steps]. split; auto. split; auto. split; auto. split; [lra|].
        rewrite !app_length. simpl. split; [lia|]. split; [lia|]. intros; split; auto; lia. }
    destruct ST as (p' & s' & EA & M1 & M2 & B1 & B2 & L1 & L2 & KE). rewrite EA.
    destruct (IH p' s' M1 M2 B1 L1 L2) as (l & E & LL & I1 & I2 & I3). rewrite E.
    assert (HD : exists l', l = s' :: l').
    { clear - E. destruct errs; simpl in E; [injection E as <-; eauto|].
      destruct (adapt_step pow p' r s') as [[q t]| | |]; try discriminate.
      destruct (controlled pow q t errs); try discriminate. injection E as <-. eauto. }
    destruct HD as (l' & ->).
    exists (s :: s' :: l'). split; auto. split; [simpl in *; lia|]. split; [|split].
    + intros st [<-|Hs]; auto.
    + intros a b (l1 & l2 & Q). destruct l1 as [|c l1]; simpl in Q.
      * injection Q as <- <- Q. exact B2.
      * injection Q as <- Q. apply I2. exists l1, l2. auto.
    + intros [|k] st HK Q; simpl in Q; [congruence|]. destruct (KE k HK) as (-> & HK'). apply (I3 k); auto.
Qed.

Lemma pf_C50_controlled :
  forall (pow : R -> R -> R) (tol lo hi s : R) (errs : list R),
  (0 < lo)%R -> (lo <= s <= hi)%R ->
  exists l, controlled pow (new_pid tol lo hi) s errs = Ok l /\ List.length l = S (List.length errs) /\
    (forall st, In st l -> (lo <= st <= hi)%R) /\
    (forall a b, follows l a b -> (a / 100 <= b <= a * (11 / 10))%R) /\
    (forall k st, (k <= 3)%nat -> nth_error l k = Some st -> st = s).
Proof.
  intros pow tol lo hi s errs LP HS.
  destruct (controlled_ok pow lo hi errs LP (new_pid tol lo hi) s) as (l & E & LL & I1 & I2 & I3); auto.
  exists l. split; auto. split; auto. split; auto. split; auto. intros k st HK. apply I3. simpl. lia.
Qed.

Lemma pid_run_late pow tol lo hi fed : forall (p : pid R) e1 s1 e2 s2 e3 s3,
  p_errtol p = tol -> p_minstep p = lo -> p_maxstep p = hi ->
  p_errs p = [kept_error e1; kept_error e2; kept_error e3] -> p_steps p = [s1; s2; s3] ->
  exists l, pid_run pow p fed = Ok l /\
    forall k e s e' s' e'' s'' st,
      nth_error ((e1, s1) :: (e2, s2) :: (e3, s3) :: fed) (S (S (S k))) = Some (e, s) ->
      nth_error ((e1, s1) :: (e2, s2) :: (e3, s3) :: fed) (S (S k)) = Some (e', s') ->
      nth_error ((e1, s1) :: (e2, s2) :: (e3, s3) :: fed) (S k) = Some (e'', s'') ->
      nth_error l k = Some st ->
      st = between lo hi (between (s / 100) (s * (11 / 10)) (pid_law pow tol s s' (kept_error e) (kept_error e') (kept_error e''))).
Proof.
  induction fed as [|[e s] fed IH]; intros p e1 s1 e2 s2 e3 s3 HT HL HH HE HS.
  - exists []. split; auto. intros [|k]; discriminate.
  - cbn [pid_run]. unfold adapt_step. rewrite HE, HS. cbn [List.length Nat.eqb negb tl app].
    match goal with |- context [pid_run pow ?p' fed] => destruct (IH p' e2 s2 e3 s3 e s) as (l & EL & SP) end;
      cbn [p_errtol p_minstep p_maxstep p_errs p_steps]; auto.
    { repeat f_equal. unfold kept_error. rewrite nmax_R. reflexivity. }
    rewrite EL. eexists. split; [reflexivity|]. intros [|k] f sf f' sf' f'' sf'' st Q1 Q2 Q3 Q4.
    + cbn [nth_error] in Q1, Q2, Q3, Q4. injection Q1 as <- <-. injection Q2 as <- <-. injection Q3 as <- <-. injection Q4 as <-.
      rewrite !nmax_R, !nmin_R. rewrite HT, HL, HH. unfold between, pid_law, kept_error.
      cbn [nmul ndiv nadd nrat nint Num_R]. unfold Rdiv. rewrite !Rmult_1_l. reflexivity.
    + exact (SP k f sf f' sf' f'' sf'' st Q1 Q2 Q3 Q4).
Qed.

Lemma pf_C50_law :
  forall (pow : R -> R -> R) (tol lo hi : R) (fed : list (R * R)),
  exists l, pid_run pow (new_pid tol lo hi) fed = Ok l /\
    forall k e s e' s' e'' s'' st,
      nth_error fed (S (S (S k))) = Some (e, s) -> nth_error fed (S (S k)) = Some (e', s') ->
      nth_error fed (S k) = Some (e'', s'') -> nth_error l (S (S (S k))) = Some st ->
      st = between lo hi (between (s / 100) (s * (11 / 10)) (pid_law pow tol s s' (kept_error e) (kept_error e') (kept_error e''))).
Proof.
  intros pow tol lo hi fed.
  destruct fed as [|[e1 s1] fed]; [exists []; split; [reflexivity|]; intros k; discriminate|].
  destruct fed as [|[e2 s2] fed]; [exists [s1]; split; [reflexivity|]; intros k; discriminate|].
  destruct fed as [|[e3 s3] fed]; [exists [s1; s2]; split; [reflexivity|]; intros k; discriminate|].
  cbn [pid_run]. rewrite adapt_early by (cbn; lia). cbn [new_pid p_errtol p_minstep p_maxstep p_steps p_errs app].
  rewrite adapt_early by (cbn; lia). cbn [p_errtol p_minstep p_maxstep p_steps p_errs app].
  rewrite adapt_early by (cbn; lia). cbn [p_errtol p_minstep p_maxstep p_steps p_errs app].
  match goal with |- context [pid_run pow ?p' fed] => destruct (pid_run_late pow tol lo hi fed p' e1 s1 e2 s2 e3 s3) as (l & EL & SP) end;
    cbn [p_errtol p_minstep p_maxstep p_errs p_steps]; auto.
  { repeat f_equal; unfold kept_error; rewrite nmax_R; reflexivity. }
  rewrite EL. eexists. split; [reflexivity|]. intros k e s e' s' e'' s'' st Q1 Q2 Q3 Q4. cbn [nth_error] in Q4.
  exact (SP k e s e' s' e'' s'' st Q1 Q2 Q3 Q4).
Qed.

Lemma pf_C50_initial_outside_refuted :
  exists (tol lo hi s : R) (errs : list R) (l : list R) (a b : R),
  (0 < lo < hi)%R /\ (0 < s)%R /\
  controlled (fun _ _ => 1%R) (new_pid tol lo hi) s errs = Ok l /\
  In s l /\ (s < lo)%R /\ follows l a b /\ (b > a * 100)%R.
Proof.
  exists 1%R, 1%R, 2%R, (1 / 1000)%R, [1; 1; 1; 1]%R.
  do 3 eexists. split; [lra|]. split; [lra|]. split.
  { cbn [controlled]. rewrite adapt_early by (simpl; lia).
    rewrite adapt_early by (simpl; lia). rewrite adapt_early by (simpl; lia).
    unfold adapt_step. cbn [new_pid p_errs p_steps p_errtol p_minstep p_maxstep app List.length Nat.eqb negb tl].
    reflexivity. }
  split; [left; reflexivity|]. split; [lra|]. split.
  { exists [(1/1000)%R; (1/1000)%R; (1/1000)%R], []. reflexivity. }
  rewrite !nmax_R, !nmin_R. unfold Rmax at 1. match goal with |- context [Rle_dec ?a ?b] => destruct (Rle_dec a b) end; [lra|].
  exfalso. apply n. clear n. eapply Rle_trans; [apply Rmin_l|]. apply Rmax_lub; [eapply Rle_trans; [apply Rmin_r|]|];
    cbn [nmul nrat Num_R]; lra.
Qed.

