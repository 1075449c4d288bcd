(** Cycle definitions, the loop over cycles and the implicit step. *)
From Verif Require Import Outcome ZList ZListProofs Num Kernel ModelTime SpecTime Time1Proofs Time2Proofs ModelMG SpecMG MG1Proofs.
From Coq Require Import Lia Bool.
Local Open Scope Z_scope.

(** * Cycle definitions *)
Lemma get_mg_cycle_cyc n ns : 1 <= n <= 6 -> 0 <= ns ->
  get_mg_cycle n ns = Ok (cyc (Z.to_nat ns) (Z.to_nat (n - 1))).
Proof.
  intros Hn Hs. unfold get_mg_cycle. destruct (Z.ltb_spec ns 0); [lia|].
  set (k := Z.to_nat ns). clearbody k.
  assert (n = 1 \/ n = 2 \/ n = 3 \/ n = 4 \/ n = 5 \/ n = 6) as [->|[->|[->|[->|[->| ->]]]]] by lia;
    [change (Z.to_nat (1 - 1)) with 0%nat|change (Z.to_nat (2 - 1)) with 1%nat|change (Z.to_nat (3 - 1)) with 2%nat
    |change (Z.to_nat (4 - 1)) with 3%nat|change (Z.to_nat (5 - 1)) with 4%nat|change (Z.to_nat (6 - 1)) with 5%nat];
    cbn [cyc]; rewrite <- ?app_assoc; reflexivity.
Qed.

Lemma get_mg_cycle_rejects n ns : 0 <= ns -> ~ 1 <= n <= 6 -> get_mg_cycle n ns = Fatal.
Proof.
  intros Hs Hn. unfold get_mg_cycle. destruct (Z.ltb_spec ns 0); [lia|].
  destruct n as [|p|p]; try reflexivity.
  destruct p as [[[p|p|]|[p|p|]|]|[[p|p|]|[p|p|]|]|]; try reflexivity; exfalso; lia.
Qed.

Lemma get_mg_cycle_throws n ns : ns < 0 -> get_mg_cycle n ns = Throw.
Proof. intros H. unfold get_mg_cycle. destruct (Z.ltb_spec ns 0); [reflexivity|lia]. Qed.

Lemma levels_visited_app c1 : forall l c2,
  levels_visited l (c1 ++ c2) = removelast (levels_visited l c1) ++ levels_visited (last (levels_visited l c1) 0) c2.
Proof.
  induction c1 as [|z c1 IH]; intros l c2; [reflexivity|].
  cbn [app levels_visited]. rewrite IH.
  assert (NE : levels_visited (l + z) c1 <> []) by (destruct c1; discriminate).
  destruct (levels_visited (l + z) c1) eqn:E; [congruence|]. reflexivity.
Qed.

Definition total (c : list Z) : Z := fold_right Z.add 0 c.

Lemma total_app a b : total (a ++ b) = total a + total b.
Proof. unfold total. induction a as [|x a IH]; simpl; [lia|]. rewrite IH. lia. Qed.

Lemma total_repeat n : total (repeat 0 n) = 0.
Proof. unfold total. induction n; simpl; auto. Qed.

Lemma last_visited c : forall l, last (levels_visited l c) 0 = l + total c.
Proof.
  induction c as [|z c IH]; intros l; [simpl; lia|].
  cbn [levels_visited]. assert (NE : levels_visited (l + z) c <> []) by (destruct c; discriminate).
  transitivity (last (levels_visited (l + z) c) 0).
  { destruct (levels_visited (l + z) c); [congruence|reflexivity]. }
  rewrite IH. unfold total. simpl. fold (total c). lia.
Qed.

Lemma in_visited_app x c1 c2 : forall l,
  In x (levels_visited l (c1 ++ c2)) <-> In x (levels_visited l c1) \/ In x (levels_visited (l + total c1) c2).
Proof.
  induction c1 as [|z c1 IH]; intros l; cbn [app levels_visited].
  - unfold total; simpl. rewrite Z.add_0_r. split; auto. intros [[<-|[]]|H]; auto. destruct c2; simpl; auto.
  - cbn [In]. rewrite IH. unfold total. cbn [fold_right]. rewrite Z.add_assoc. tauto.
Qed.

Lemma in_visited_zeros x n : forall l, In x (levels_visited l (repeat 0 n)) <-> x = l.
Proof.
  induction n as [|n IH]; intros l; cbn [repeat levels_visited In].
  - intuition.
  - rewrite IH. rewrite Z.add_0_r. intuition.
Qed.

Lemma cyc_total ns m : total (cyc ns m) = 0.
Proof.
  induction m as [|m IH]; cbn [cyc]; rewrite ?total_app, ?total_repeat; [reflexivity|].
  rewrite IH. unfold total; simpl. lia.
Qed.

Lemma cyc_visits ns m : forall x l, In x (levels_visited l (cyc ns m)) <-> l <= x <= l + Z.of_nat m.
Proof.
  induction m as [|m IH]; intros x l; cbn [cyc].
  - rewrite in_visited_app, !in_visited_zeros, total_repeat. lia.
  - rewrite !in_visited_app, !in_visited_zeros, IH, !total_repeat, cyc_total.
    unfold total. cbn [fold_right levels_visited In]. lia.
Qed.

Lemma cyc_entries ns m z : In z (cyc ns m) -> z = -1 \/ z = 0 \/ z = 1.
Proof.
  induction m as [|m IH]; cbn [cyc]; rewrite ?in_app_iff; intros H.
  - destruct H as [H|H]; apply repeat_spec in H; auto.
  - destruct H as [H|[H|[H|[H|H]]]]; auto; try (apply repeat_spec in H; auto); destruct H as [H|[]]; auto.
Qed.

Lemma smoothings_app k c1 c2 : forall l,
  smoothings k l (c1 ++ c2) = (smoothings k l c1 + smoothings k (l + total c1) c2)%nat.
Proof.
  induction c1 as [|z c1 IH]; intros l; cbn [app smoothings].
  - unfold total; simpl. rewrite Z.add_0_r. reflexivity.
  - rewrite IH. unfold total. cbn [fold_right]. rewrite Z.add_assoc. lia.
Qed.

Lemma smoothings_zeros k n : forall l, smoothings k l (repeat 0 n) = if l =? k then n else 0%nat.
Proof.
  induction n as [|n IH]; intros l; cbn [repeat smoothings].
  - destruct (l =? k); reflexivity.
  - rewrite Z.add_0_r, IH. change (0 =? 0) with true. cbn [andb]. destruct (l =? k); lia.
Qed.

Lemma cyc_smoothings ns k : forall m l, l <= k <= l + Z.of_nat m -> smoothings k l (cyc ns m) = (2 * ns)%nat.
Proof.
  assert (O : forall m l, k < l -> smoothings k l (cyc ns m) = 0%nat).
  { induction m as [|m IH]; intros l H; cbn [cyc];
      rewrite ?smoothings_app, ?smoothings_zeros, ?total_repeat, ?cyc_total.
    - destruct (Z.eqb_spec l k); [lia|]. destruct (Z.eqb_spec (l + 0) k); lia.
    - unfold total. cbn [fold_right smoothings]. change (1 =? 0) with false. change (-1 =? 0) with false. cbn [andb].
      rewrite IH by lia.
      repeat match goal with |- context [?a =? k] => destruct (Z.eqb_spec a k); [lia|] end. lia. }
  induction m as [|m IH]; intros l H; cbn [cyc];
    rewrite ?smoothings_app, ?smoothings_zeros, ?total_repeat, ?cyc_total.
  - assert (l = k) as -> by lia. rewrite Z.add_0_r, Z.eqb_refl. lia.
  - unfold total. cbn [fold_right smoothings]. change (1 =? 0) with false. change (-1 =? 0) with false. cbn [andb].
    destruct (Z.eq_dec l k) as [->|NE].
    + rewrite O by lia. replace (k + 0 + (1 + 0) + 0 + (-1 + 0)) with k by lia. rewrite Z.eqb_refl. lia.
    + rewrite IH by lia. replace (l + 0 + (1 + 0) + 0 + (-1 + 0)) with l by lia.
      destruct (Z.eqb_spec l k); lia.
Qed.

(** * The report *)
Section Report.
  Context {V : Type} `{N : Num V} {S : Type}.
  Implicit Types (g : mg_config V S).
  Local Open Scope num_scope.

  Lemma collect_map {A} (h : V -> A) (a : list V) : forall l r,
    collect (fun i => (rbind (of_opt (zget a i)) (fun v => Ok (h v)))) l = Ok r ->
    exists xs, Forall2 (fun i x => zget a i = Some x) l xs /\ r = map h xs.
  Proof.
    induction l as [|i l IH]; intros r E; cbn [collect] in E.
    - injection E as <-. exists []. split; constructor.
    - destruct (zget a i) eqn:Z; cbn [of_opt rbind] in E; [|discriminate].
      destruct (collect _ l) eqn:C in E; cbn [rbind] in E; try discriminate. injection E as <-.
      destruct (IH _ C) as (xs & F & ->). exists (v :: xs). split; [constructor; auto|reflexivity].
  Qed.

  Lemma residual0_is g vs r : residual0 g vs = Ok r -> residual_is g vs r.
  Proof.
    unfold residual0. intros E. destruct (nth_error vs 0) as [v|] eqn:V0; cbn [of_opt rbind] in E; [|discriminate].
    destruct (reduce_residual g (v_du v)) as [rs| | |] eqn:R; cbn [rbind] in E; try discriminate.
    exists v. destruct (v_du v) as [|a s] eqn:D.
    - cbn [reduce_residual] in R. injection R as <-. discriminate.
    - exists a. split; auto. split; auto. cbn [reduce_residual] in R.
      destruct (rms g a) as [r0| | |] eqn:RM; cbn [rbind] in R; try discriminate.
      destruct (reduce_residual g s); cbn [rbind] in R; try discriminate. injection R as <-.
      cbn in E. injection E as <-. unfold rms in RM.
      destruct (collect (rms_cell a) (g_interior g)) as [l| | |] eqn:C; cbn [rbind] in RM; try discriminate.
      injection RM as <-. destruct (collect_map npow2 a _ _ C) as (xs & F & ->). exists xs. auto.
  Qed.

  Lemma mg_loop_report g time dt old res0 : forall k ic resN vs vs' nc rate, 0 <= ic -> (ic + Z.of_nat k)%Z = Z.max 0 (g_max_cycles g) ->
    mg_loop g time dt old res0 resN k ic vs = Ok (vs', nc, rate) ->
    exists rs, passes (one_pass g time dt old) (residual_is g) vs rs vs' /\
      ((nc = 0 /\ Z.of_nat (length rs) = Z.of_nat k /\ Forall (fun r => nleb (r / res0) (g_tol g) = false) rs /\
        rate = g_pow g (last rs resN / res0) (nint 1 / nint (g_max_cycles g))) \/
       (nc = (ic + Z.of_nat (length rs))%Z /\ (length rs <= k)%nat /\
        exists rs' r, rs = rs' ++ [r] /\ Forall (fun r => nleb (r / res0) (g_tol g) = false) rs' /\
          nleb (r / res0) (g_tol g) = true /\ rate = g_pow g (r / res0) (nint 1 / nint nc))).
  Proof.
    induction k as [|k IH]; intros ic resN vs vs' nc rate Hi HM E; cbn [mg_loop] in E.
    - injection E as <- <- <-. exists []. split; [constructor|]. left. repeat split; auto.
    - destruct (mg_stages g time dt old (g_cycle g) (Ok (0%nat, vs))) as [[l vs1]| | |] eqn:ES; cbn [rbind] in E; try discriminate.
      destruct (residual0 g vs1) as [r| | |] eqn:ER; cbn [rbind] in E; try discriminate.
      assert (P1 : one_pass g time dt old vs = Ok vs1) by (unfold one_pass; rewrite ES; reflexivity).
      apply residual0_is in ER.
      destruct (nleb (r / res0) (g_tol g)) eqn:L.
      + injection E as <- <- <-. exists [r]. split; [econstructor; eauto; constructor|]. right.
        split; [simpl; lia|]. split; [simpl; lia|]. exists [], r. simpl. repeat split; auto.
      + destruct (IH (ic + 1)%Z r vs1 vs' nc rate ltac:(lia) ltac:(lia) E) as (rs & PS & [(A1 & A2 & A3 & A4)|(A1 & A2 & rs' & r' & A3 & A4 & A5 & A6)]).
        * exists (r :: rs). split; [econstructor; eauto|]. left. split; auto. split; [simpl; lia|].
          split; [constructor; auto|]. destruct rs; auto.
          change (last (r :: v :: rs) resN) with (last (v :: rs) resN).
          replace (last (v :: rs) resN) with (last (v :: rs) r); auto.
          clear. revert v. induction rs as [|x rs IHr]; intros v; auto. apply IHr.
        * exists (r :: rs). split; [econstructor; eauto|]. right. split; [simpl length; lia|]. split; [simpl; lia|].
          exists (r :: rs'), r'. split; [rewrite A3; reflexivity|]. split; [constructor; auto|]. auto.
  Qed.
End Report.

(** * The implicit step *)
Section Step.
  Context {V : Type} `{N : Num V} {S : Type}.
  Local Open Scope num_scope.
  Variables (g : mg_config V S) (ok : nat -> S -> Prop) (nv : nat) (size : nat -> Z) (P Q : nat -> Z -> Prop)
    (ext : nat -> field V -> field V) (f : nat -> V -> field V -> field V)
    (rest prol : nat -> field V -> field V) (n ns : nat).
  Hypothesis PQ : forall k u, same_on nv (size k) (P k) (ext k u) u.
  Hypothesis PQ' : forall k i, P k i -> Q k i.
  Hypothesis CE : forall k, (k <= n)%nat -> computes_ext (g_eval g k) (ok k) nv (size k) (P k) (Q k) (ext k) (f k).
  Hypothesis CR : forall k, (k < n)%nat ->
    transfers (g_restrict g (1 + k)) nv (size k) (P k) (size (1 + k)) (P (1 + k)) (rest (1 + k)).
  Hypothesis CP : forall k, (k < n)%nat ->
    transfers (g_prolong g (1 + k)) nv (size (1 + k)) (Q (1 + k)) (size k) (P k) (prol (1 + k)).
  Hypothesis CY : g_cycle g = cyc (Datatypes.S ns) n.
  Hypothesis IN : forall i, In i (g_interior g) -> 0 <= i < size 0.
  Hypothesis NV : (0 < nv)%nat.

  Notation lok := (level_ok ok nv size).
  Notation glv vs := (map (gl g ext f rest prol (dt_of g vs)) (seq 1 n)).

  Definition levels_ok (vs : list (level V S)) : Prop :=
    length vs = (1 + n)%nat /\ forall k v, nth_error vs k = Some v -> lok k v.

  Lemma level0 vs : levels_ok vs -> exists v, nth_error vs 0 = Some v /\ lok 0 v /\ v_c v = None.
  Proof.
    intros (L & H). destruct vs as [|v vs]; [discriminate|]. exists v. split; auto.
    pose proof (H 0%nat v eq_refl) as LO. split; auto. destruct LO as (_ & _ & _ & _ & X). destruct (v_c v); [contradiction|reflexivity].
  Qed.

  Lemma collect_ok (a : list V) l : (forall i, In i l -> 0 <= i < zlen a) -> exists r, collect (rms_cell a) l = Ok r.
  Proof.
    induction l as [|i l IH]; intros H; [eexists; reflexivity|]. cbn [collect]. unfold rms_cell at 1.
    assert (exists x, zget a i = Some x) as (x & ->) by (apply zget_some; apply H; left; auto). cbn [of_opt rbind].
    destruct IH as (r & ->); [intros; apply H; right; auto|]. eexists. reflexivity.
  Qed.

  Lemma residual0_ok vs : levels_ok vs -> exists r, residual0 g vs = Ok r.
  Proof.
    intros LO. destruct (level0 vs LO) as (v & E & (_ & _ & (L & HD) & _) & _). unfold residual0. rewrite E. cbn [of_opt rbind].
    assert (R : forall s : state V, (forall e a, nth_error s e = Some a -> zlen a = size 0) ->
       exists rs, reduce_residual g s = Ok rs /\ length rs = length s).
    { induction s as [|a s IH]; intros H; [exists []; auto|]. cbn [reduce_residual]. unfold rms.
      destruct (collect_ok a (g_interior g)) as (r & ->). { rewrite (H 0%nat a eq_refl). exact IN. }
      cbn [rbind]. destruct IH as (rs & -> & Lr). { intros e b Hb. exact (H (Datatypes.S e) b Hb). }
      eexists. split; [reflexivity|]. simpl. congruence. }
    destruct (R (v_du v) HD) as (rs & -> & Lr). cbn [rbind]. destruct rs as [|r rs]; [simpl in Lr; lia|].
    exists r. reflexivity.
  Qed.

  (** The integrator's next state after one pass through the cycle. *)
  Lemma pass_spec time dt old w vs v u :
    state_holds nv (size 0) (P 0) old w ->
    levels_ok vs -> nth_error vs 0 = Some v -> state_holds nv (size 0) (P 0) (v_u v) u ->
    let F := implicit_rhs (g_steady g) (f 0) dt w in
    let pre := vcycle_pre (Datatypes.S ns) time F (ext 0) (m_dt (v_sm v)) (g_cfl g 0) (g_relax g) (g_coarse_relax g) (glv vs) u in
    exists vs' v', mg_stages g time dt old (g_cycle g) (Ok (0%nat, vs)) = Ok (0%nat, vs') /\ levels_ok vs' /\
      (forall k v, nth_error vs' k = Some v -> m_dt (v_sm v) = g_cfl g k) /\
      nth_error vs' 0 = Some v' /\
      state_holds nv (size 0) (Q 0) (v_u v') (smooth F (ext 0) time (g_cfl g 0) pre) /\
      state_holds nv (size 0) (P 0) (v_du v') (slope F time (g_cfl g 0) pre).
  Proof.
    intros HO LO E HU F pre. destruct (level0 vs LO) as (v0 & E0 & L0 & C0). rewrite E in E0. injection E0 as <-.
    destruct LO as (LN & LO). rewrite CY.
    assert (C : computes_ext (level_eval g dt old 0 (v_c v)) (ok 0%nat) nv (size 0%nat) (P 0%nat) (Q 0%nat) (ext 0%nat) F).
    { rewrite C0. cbn [level_eval]. apply (fine_computes g ok nv size P Q ext f n CE dt old w HO). }
    destruct (cyc_spec g ok nv size P Q ext f rest prol PQ PQ' n CE CR CP time dt old ns n 0 vs v u F
      eq_refl LN C E HU (fun k v H _ => LO k v H)) as (vs' & v' & E1 & A1 & _ & A3 & A4 & _ & A6 & A7).
    exists vs', v'. split; [exact E1|]. split.
    { split; [congruence|]. intros k x H. apply (A3 k x H). lia. }
    split. { intros k x H. apply (A3 k x H). lia. }
    split; [exact A4|]. split; [exact A6|exact A7].
  Qed.

  Lemma settled_levels vs vs' : levels_ok vs' -> (forall k v, nth_error vs' k = Some v -> m_dt (v_sm v) = g_cfl g k) ->
    glv vs' = map settled (glv vs).
  Proof.
    intros (L & _) H. rewrite map_map. apply map_ext_in. intros k Hk. apply in_seq in Hk.
    unfold gl, settled. cbn [l_f l_ext l_rest l_prol l_cfl l_dt]. f_equal. unfold dt_of.
    destruct (nth_error vs' k) eqn:E; auto.
  Qed.

  Lemma loop_spec time dt old w res0 :
    state_holds nv (size 0) (P 0) old w ->
    let F := implicit_rhs (g_steady g) (f 0) dt w in
    forall m ic resN vs v u, 0 <= ic -> levels_ok vs -> nth_error vs 0 = Some v -> state_holds nv (size 0) (P 0) (v_u v) u ->
    exists vs' nc rate k v', mg_loop g time dt old res0 resN m ic vs = Ok (vs', nc, rate) /\
      levels_ok vs' /\ nth_error vs' 0 = Some v' /\ (k <= m)%nat /\
      (nc = 0 /\ k = m \/ nc = (ic + Z.of_nat k)%Z /\ (0 < k)%nat) /\
      state_holds nv (size 0) (P 0) (v_u v')
        (vcycles k (Datatypes.S ns) time F (ext 0) (m_dt (v_sm v)) (g_cfl g 0) (g_relax g) (g_coarse_relax g) (glv vs) u).
  Proof.
    intros HO F. induction m as [|m IH]; intros ic resN vs v u Hic LO E HU.
    - cbn [mg_loop]. exists vs, 0, (g_pow g (resN / res0) (nint 1 / nint (g_max_cycles g))), 0%nat, v.
      split; [reflexivity|]. split; [exact LO|]. split; [exact E|]. split; [lia|]. split; [left; auto|]. exact HU.
    - cbn [mg_loop].
      destruct (pass_spec time dt old w vs v u HO LO E HU) as (vs1 & v1 & E1 & L1 & D1 & N1 & H1 & _).
      rewrite E1. cbn [rbind]. destruct (residual0_ok vs1 L1) as (r & ->). cbn [rbind].
      assert (HP : state_holds nv (size 0%nat) (P 0%nat) (v_u v1)
        (vcycle (Datatypes.S ns) time F (ext 0%nat) (m_dt (v_sm v)) (g_cfl g 0) (g_relax g) (g_coarse_relax g) (glv vs) u)).
      { split; [exact (proj1 H1)|]. intros e i He Hi HPi. apply H1; auto. }
      destruct (nleb (r / res0) (g_tol g)).
      + do 5 eexists. split; [reflexivity|]. split; [exact L1|]. split; [exact N1|]. split; [|split].
        * instantiate (1 := 1%nat). lia.
        * right. split; lia.
        * exact HP.
      + destruct (IH (ic + 1)%Z r vs1 v1 _ ltac:(lia) L1 N1 HP) as (vs' & nc & rate & k & v' & E2 & A1 & A2 & A3 & A4 & A5).
        exists vs', nc, rate, (Datatypes.S k), v'. split; [exact E2|]. split; [exact A1|]. split; [exact A2|].
        split; [lia|]. split; [destruct A4; lia|].
        cbn [vcycles]. rewrite (D1 _ _ N1) in A5. rewrite (settled_levels vs vs1 L1 D1) in A5. exact A5.
  Qed.

  Lemma cycle_spec time dt old w vs v u :
    state_holds nv (size 0) (P 0) old w ->
    levels_ok vs -> nth_error vs 0 = Some v -> state_holds nv (size 0) (P 0) (v_u v) u ->
    let F := implicit_rhs (g_steady g) (f 0) dt w in
    exists vs' nc rate k v', time_step_cycle g time dt old vs = Ok (vs', nc, rate) /\
      levels_ok vs' /\ nth_error vs' 0 = Some v' /\ (k <= Z.to_nat (g_max_cycles g))%nat /\
      (nc = 0 /\ k = Z.to_nat (g_max_cycles g) \/ nc = Z.of_nat k /\ (0 < k)%nat) /\
      state_holds nv (size 0) (P 0) (v_u v')
        (vcycles k (Datatypes.S ns) time F (ext 0) (m_dt (v_sm v)) (g_cfl g 0) (g_relax g) (g_coarse_relax g) (glv vs) u).
  Proof.
    intros HO LO E HU F. unfold time_step_cycle. rewrite E. cbn [of_opt rbind].
    destruct (level0 _ LO) as (v0 & E0 & L0 & C0). rewrite E in E0. injection E0 as <-.
    pose proof L0 as (M1 & M2 & M3 & M4 & M5).
    assert (BL : (0 < length vs)%nat) by (apply nth_error_Some; congruence).
    rewrite C0. cbn [level_eval].
    destruct (fine_computes g ok nv size P Q ext f n CE dt old w HO (v_sc v) (v_u v) time (v_du v) u M1 HU M3)
      as (sc2 & u2 & du2 & E2 & O2 & HU2 & _ & HD2).
    rewrite E2. cbn [rbind].
    match goal with |- context [upd vs 0 ?x] => set (vb := x) end.
    assert (HB : levels_ok (upd vs 0 vb)).
    { destruct LO as (LN & LO). split; [rewrite upd_length; auto|]. intros [|k] x X.
      - rewrite nth_error_upd_same in X by auto. injection X as <-.
        split; [exact O2|]. split; [exact (proj1 HU2)|]. split; [exact (proj1 HD2)|]. split; [exact M4|exact I].
      - rewrite nth_error_upd_other in X by lia. auto. }
    destruct (residual0_ok _ HB) as (r & ER). rewrite ER. cbn [rbind].
    assert (NB : nth_error (upd vs 0 vb) 0 = Some vb) by (apply nth_error_upd_same; auto).
    destruct (loop_spec time dt old w r HO (Z.to_nat (g_max_cycles g)) 0 r _ vb u (Z.le_refl 0) HB NB HU2)
      as (vs' & nc & rate & k & v' & EL & A1 & A2 & A3 & A4 & A5).
    rewrite EL. exists vs', nc, rate, k, v'. split; [reflexivity|].
    split; [exact A1|]. split; [exact A2|]. split; [exact A3|]. split; [exact A4|].
    replace (glv vs) with (glv (upd vs 0 vb)); [exact A5|].
    apply map_ext_in. intros j Hj. apply in_seq in Hj. unfold gl, dt_of. rewrite !nth_error_upd_other by lia. reflexivity.
  Qed.

  Theorem bdf_step_spec (b : mg_world V S) v time dt w :
    levels_ok (b_levels b) -> shaped nv (size 0) (b_res0 b) ->
    nth_error (b_levels b) 0 = Some v -> state_holds nv (size 0) (P 0) (v_u v) w ->
    let F := implicit_rhs (g_steady g) (f 0) dt w in
    exists b' k v', bdf_step g b time dt = Ok b' /\
      levels_ok (b_levels b') /\ shaped nv (size 0) (b_res0 b') /\
      nth_error (b_levels b') 0 = Some v' /\ (k <= Z.to_nat (g_max_cycles g))%nat /\
      (b_ncycles b' = 0 /\ k = Z.to_nat (g_max_cycles g) \/ b_ncycles b' = Z.of_nat k /\ (0 < k)%nat) /\
      state_holds nv (size 0) (P 0) (v_u v')
        (vcycles k (Datatypes.S ns) time F (ext 0) (m_dt (v_sm v)) (g_cfl g 0) (g_relax g) (g_coarse_relax g)
           (glv (b_levels b)) w).
  Proof.
    intros LO SR E HU F. unfold bdf_step. rewrite E. cbn [of_opt rbind]. rewrite (holds_len _ _ _ _ _ HU).
    assert (SZ : shaped nv (size 0%nat) (map (map (fun _ => nint 0)) (v_u v))).
    { destruct HU as ((L & Z) & _). split; [rewrite map_length; auto|]. intros e a H.
      rewrite nth_error_map in H. destruct (nth_error (v_u v) e) as [x|] eqn:X; [|discriminate]. injection H as <-.
      unfold zlen. rewrite map_length. exact (Z _ _ X). }
    destruct (copy_holds nv (size 0%nat) (P 0%nat) _ (v_u v) w SZ HU) as (old & Eo & Ho). rewrite Eo. cbn [rbind].
    destruct (level0 _ LO) as (v0 & E0 & L0 & C0). rewrite E in E0. injection E0 as <-.
    pose proof L0 as (M1 & M2 & M3 & M4 & M5).
    destruct (CE 0 (Nat.le_0_l n) (v_sc v) old time (b_res0 b) w M1 Ho SR) as (sc & old' & r0 & E1 & O1 & HO' & _ & HR0).
    rewrite E1. cbn [rbind].
    set (va := {| v_sc := sc; v_u := v_u v; v_du := v_du v; v_sm := v_sm v; v_c := v_c v |}).
    assert (BL : (0 < length (b_levels b))%nat) by (apply nth_error_Some; congruence).
    assert (HA : levels_ok (upd (b_levels b) 0 va)).
    { destruct LO as (LN & LO). split; [rewrite upd_length; auto|]. intros [|k] x X.
      - rewrite nth_error_upd_same in X by auto. injection X as <-.
        split; [exact O1|]. split; [exact M2|]. split; [exact M3|]. split; [exact M4|exact M5].
      - rewrite nth_error_upd_other in X by lia. auto. }
    assert (NA : nth_error (upd (b_levels b) 0 va) 0 = Some va) by (apply nth_error_upd_same; auto).
    destruct (cycle_spec time dt old' w _ va w HO' HA NA HU) as (vs' & nc & rate & k & v' & EL & A1 & A2 & A3 & A4 & A5).
    rewrite EL. cbn [rbind].
    do 3 eexists. split; [reflexivity|]. cbn [b_levels b_res0 b_ncycles].
    split; [exact A1|]. split; [exact (proj1 HR0)|]. split; [exact A2|]. split; [exact A3|]. split; [exact A4|].
    replace (glv (b_levels b)) with (glv (upd (b_levels b) 0 va)); [exact A5|].
    apply map_ext_in. intros j Hj. apply in_seq in Hj. unfold gl, dt_of. rewrite !nth_error_upd_other by lia. reflexivity.
  Qed.

  (** The steps of the smoothers after a step of the integrator. *)
  Definition all_settled (vs : list (level V S)) : Prop := forall k v, nth_error vs k = Some v -> m_dt (v_sm v) = g_cfl g k.
  Lemma loop_settled time dt old w res0 : state_holds nv (size 0) (P 0) old w ->
    forall m ic resN vs u vs' nc rate, levels_ok vs -> state_holds nv (size 0) (P 0) (match vs with v :: _ => v_u v | [] => [] end) u ->
    mg_loop g time dt old res0 resN m ic vs = Ok (vs', nc, rate) -> m = O /\ vs' = vs \/ m <> O /\ all_settled vs'.
  Proof.
    intros HO. induction m as [|m IH]; intros ic resN vs u vs' nc rate LO HU E.
    - cbn [mg_loop] in E. injection E as <- _ _. auto.
    - right. split; [discriminate|]. cbn [mg_loop] in E.
      destruct (level0 vs LO) as (v & E0 & _). assert (HV : state_holds nv (size 0%nat) (P 0%nat) (v_u v) u)
        by (destruct vs; [discriminate|]; injection E0 as ->; exact HU).
      destruct (pass_spec time dt old w vs v u HO LO E0 HV) as (vs1 & v1 & E1 & L1 & D1 & N1 & H1 & _).
      rewrite E1 in E. cbn [rbind] in E. destruct (residual0_ok vs1 L1) as (r & ER). rewrite ER in E. cbn [rbind] in E.
      destruct (nleb (r / res0) (g_tol g)); [injection E as <- _ _; exact D1|].
      assert (H2 : state_holds nv (size 0%nat) (P 0%nat) (match vs1 with v :: _ => v_u v | [] => [] end)
        (smooth (implicit_rhs (g_steady g) (f 0%nat) dt w) (ext 0%nat) time (g_cfl g 0)
           (vcycle_pre (Datatypes.S ns) time (implicit_rhs (g_steady g) (f 0%nat) dt w) (ext 0%nat) (m_dt (v_sm v)) (g_cfl g 0)
              (g_relax g) (g_coarse_relax g) (glv vs) u))).
      { destruct vs1; [discriminate|]. injection N1 as ->. split; [exact (proj1 H1)|]. intros e i He Hi HPi. apply H1; auto. }
      destruct (IH _ _ _ _ _ _ _ L1 H2 E) as [(_ & ->)|(_ & D)]; [exact D1|exact D].
  Qed.

  Lemma step_settled (b b' : mg_world V S) v time dt w :
    levels_ok (b_levels b) -> shaped nv (size 0) (b_res0 b) ->
    nth_error (b_levels b) 0 = Some v -> state_holds nv (size 0) (P 0) (v_u v) w -> bdf_step g b time dt = Ok b' ->
    Z.to_nat (g_max_cycles g) <> O /\ all_settled (b_levels b') \/
    Z.to_nat (g_max_cycles g) = O /\ forall k x', nth_error (b_levels b') k = Some x' ->
      exists x, nth_error (b_levels b) k = Some x /\ m_dt (v_sm x) = m_dt (v_sm x').
  Proof.
    intros LO SR E HU EB. unfold bdf_step in EB. rewrite E in EB. cbn [of_opt rbind] in EB. rewrite (holds_len _ _ _ _ _ HU) in EB.
    assert (SZ : shaped nv (size 0%nat) (map (map (fun _ => nint 0)) (v_u v))).
    { destruct HU as ((L & Z) & _). split; [rewrite map_length; auto|]. intros e a H.
      rewrite nth_error_map in H. destruct (nth_error (v_u v) e) as [x|] eqn:X; [|discriminate]. injection H as <-.
      unfold zlen. rewrite map_length. exact (Z _ _ X). }
    destruct (copy_holds nv (size 0%nat) (P 0%nat) _ (v_u v) w SZ HU) as (old & Eo & Ho). rewrite Eo in EB. cbn [rbind] in EB.
    destruct (level0 _ LO) as (v0 & E0 & L0 & C0). rewrite E in E0. injection E0 as <-.
    pose proof L0 as (M1 & M2 & M3 & M4 & M5).
    destruct (CE 0 (Nat.le_0_l n) (v_sc v) old time (b_res0 b) w M1 Ho SR) as (sc & old' & r0 & E1 & O1 & HO' & _ & HR0).
    rewrite E1 in EB. cbn [rbind] in EB.
    assert (HOP : state_holds nv (size 0%nat) (P 0%nat) old' w).
    { exact HO'. }
    assert (BL : (0 < length (b_levels b))%nat) by (apply nth_error_Some; congruence).
    unfold time_step_cycle in EB. rewrite nth_error_upd_same in EB by auto. cbn [of_opt rbind v_c v_sc v_u v_du v_sm] in EB.
    rewrite C0 in EB. cbn [level_eval] in EB.
    destruct (fine_computes g ok nv size P Q ext f n CE dt old' w HOP sc (v_u v) time (v_du v) w O1 HU M3)
      as (sc2 & u2 & du2 & E2 & O2 & HU2 & _ & HD2).
    rewrite E2 in EB. cbn [rbind] in EB.
    match type of EB with context [residual0 g ?x] => set (vb := x) in * end.
    assert (HB : levels_ok vb).
    { destruct LO as (LN & LO). split; [unfold vb; rewrite !upd_length; auto|]. intros [|k] x X; unfold vb in X.
      - rewrite nth_error_upd_same in X by (rewrite upd_length; auto). injection X as <-.
        split; [exact O2|]. split; [exact (proj1 HU2)|]. split; [exact (proj1 HD2)|]. split; [exact M4|exact I].
      - rewrite !nth_error_upd_other in X by lia. auto. }
    destruct (residual0_ok _ HB) as (r & ER). rewrite ER in EB. cbn [rbind] in EB.
    destruct (mg_loop g time dt old' r r (Z.to_nat (g_max_cycles g)) 0 vb) as [((vs', nc), rate)| | |] eqn:EL; try discriminate EB.
    cbn [rbind] in EB. injection EB as <-. cbn [b_levels].
    assert (NB : exists x vb', vb = x :: vb' /\ v_u x = u2 /\ v_sm x = v_sm v).
    { unfold vb. destruct (b_levels b) as [|y l]; [discriminate|]. cbn [upd]. eexists _, _. split; [reflexivity|]. split; reflexivity. }
    destruct NB as (x & vb' & EQ & EU & ESM).
    destruct (loop_settled time dt old' w r HOP (Z.to_nat (g_max_cycles g)) 0 r vb w vs' nc rate HB) as [(A & ->)|(A & D)]; auto.
    - rewrite EQ, EU. exact HU2.
    - right. split; [exact A|]. intros [|k] y Hy.
      + rewrite EQ in Hy. injection Hy as <-. exists v. split; [exact E|]. rewrite ESM. reflexivity.
      + unfold vb in Hy. rewrite !nth_error_upd_other in Hy by lia. exists y. auto.
  Qed.
End Step.
