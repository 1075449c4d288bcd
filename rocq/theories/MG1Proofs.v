(** The multigrid model refines the recursive full-approximation cycle. *)
From Verif Require Import Outcome ZList ZListProofs Num Kernel ModelTime SpecTime Time1Proofs Time2Proofs ModelMG SpecMG.
From Coq Require Import Lia.
Local Open Scope Z_scope.

Section Gen.
  Context {V : Type} `{N : Num V} {S : Type}.
  Local Open Scope num_scope.

  Lemma computes_ext_computes (eval : rhs_fun V S) ok nv size P Q ext f :
    computes_ext eval ok nv size P Q ext f -> computes eval ok nv size P f.
  Proof.
    intros C sc s t r u OK HS HR. destruct (C sc s t r u OK HS HR) as (sc' & s' & r' & E & O & A & _ & B).
    exists sc', s', r'. auto.
  Qed.

  Lemma ew2_holds nv size (P : Z -> Prop) (body : Z -> prog V) (h : V -> V -> V) (out a b : state V) wa wb :
    (forall i, body i = ew_prog [1%nat; 2%nat] (fun l => match l with [x; y] => h x y | _ => nint 0 end) i) ->
    shaped nv size out -> state_holds nv size P a wa -> state_holds nv size P b wb ->
    exists out', for_vecs nv body out [a; b] = Ok out' /\
      state_holds nv size P out' (fun e i => h (wa e i) (wb e i)).
  Proof.
    intros HB HO HA HC.
    destruct (for_vecs_holds nv size P body [1%nat; 2%nat]
      (fun l => match l with [x; y] => h x y | _ => nint 0 end) [a; b] out
      (fun k => match k with 1%nat => wa | _ => wb end)) as (o & E & H); auto.
    - intros s [<-|[<-|[]]]; [exact (proj1 HA)|exact (proj1 HC)].
    - intros d [<-|[<-|[]]]; simpl; split; auto.
    - exists o. split; auto.
  Qed.

  Lemma source_holds nv size (P : Z -> Prop) (out a b : state V) wa wb :
    shaped nv size out -> state_holds nv size P a wa -> state_holds nv size P b wb ->
    exists out', for_vecs nv source_body out [a; b] = Ok out' /\
      state_holds nv size P out' (fun e i => - wb e i + wa e i).
  Proof. intros. apply (ew2_holds nv size P source_body (fun x y => - y + x) out a b wa wb); auto. Qed.

  Lemma delta_holds nv size (P : Z -> Prop) (out a b : state V) wa wb :
    shaped nv size out -> state_holds nv size P a wa -> state_holds nv size P b wb ->
    exists out', for_vecs nv delta_body out [a; b] = Ok out' /\
      state_holds nv size P out' (fun e i => wb e i - wa e i).
  Proof. intros. apply (ew2_holds nv size P delta_body (fun x y => y - x) out a b wa wb); auto. Qed.

  Lemma add_holds nv size (P : Z -> Prop) (u r : state V) wu wr :
    state_holds nv size P u wu -> state_holds nv size P r wr ->
    exists out', for_vecs nv add_body u [r] = Ok out' /\
      state_holds nv size P out' (fun e i => wu e i + wr e i).
  Proof.
    intros HU HR.
    destruct (for_vecs_holds nv size P add_body [0%nat; 1%nat]
      (fun l => match l with [s; r] => s + r | _ => nint 0 end) [r] u
      (fun a => match a with 0%nat => wu | _ => wr end)) as (o & E & H); auto.
    - exact (proj1 HU).
    - intros s [<-|[]]; exact (proj1 HR).
    - intros d [<-|[<-|[]]]; simpl; split; auto.
    - exists o. split; auto.
  Qed.

  Lemma bdf_holds nv size (P : Z -> Prop) dt (r old u : state V) wr wo wu :
    state_holds nv size P r wr -> state_holds nv size P old wo -> state_holds nv size P u wu ->
    exists out', for_vecs nv (bdf_body dt) r [old; u] = Ok out' /\
      state_holds nv size P out' (fun e i => wr e i - (nint 1 / dt) * (wu e i - wo e i)).
  Proof.
    intros HR HO HU.
    destruct (for_vecs_holds nv size P (bdf_body dt) [0%nat; 1%nat; 2%nat]
      (fun l => match l with [r; s0; s] => r - (nint 1 / dt) * (s - s0) | _ => nint 0 end) [old; u] r
      (fun a => match a with 0%nat => wr | 1%nat => wo | _ => wu end)) as (o & E & H); auto.
    - exact (proj1 HR).
    - intros s [<-|[<-|[]]]; [exact (proj1 HO)|exact (proj1 HU)].
    - intros d [<-|[<-|[<-|[]]]]; simpl; split; auto.
    - exists o. split; auto.
  Qed.

  Lemma holds_len nv size (P : Z -> Prop) (s : state V) u : state_holds nv size P s u -> length s = nv.
  Proof. intros ((L & _) & _). exact L. Qed.

  Lemma holds_same nv size0 P0 (s : state V) (u w : field V) : state_holds nv size0 P0 s u -> same_on nv size0 P0 u w ->
    state_holds nv size0 P0 s w.
  Proof. intros (A & B) H. split; auto. intros e i He Hi HP. rewrite B by auto. f_equal. auto. Qed.

  (** ** The smoother *)
  Definition sm_shaped (nv : nat) (size : Z) (o : smoother V) : Prop :=
    shaped nv size (m_k1 o) /\ shaped nv size (m_k2 o) /\ shaped nv size (m_k3 o) /\
    shaped nv size (m_k4 o) /\ shaped nv size (m_stage o).

  Lemma do_smooth_spec (eval : rhs_fun V S) ok nv size P Q ext f rmax cfl (o : smoother V) sc (u du : state V) t w :
    computes_ext eval ok nv size P Q ext f ->
    sm_shaped nv size o -> ok sc -> state_holds nv size P u w -> shaped nv size du ->
    let u1 := fun e i => w e i + m_dt o * slope f t (m_dt o) w e i in
    exists o' sc' u' du', do_smooth rmax cfl eval o sc u du t = Ok (o', sc', u', du') /\
      sm_shaped nv size o' /\ ok sc' /\ m_dt o' = cfl /\
      state_holds nv size P u' u1 /\ state_holds nv size Q u' (ext u1) /\
      state_holds nv size P du' (slope f t (m_dt o) w) /\
      (forall u2, same_on nv size P u1 u2 -> state_holds nv size P (m_k4 o') (f (t + nint 1 * m_dt o) u2)).
  Proof.
    intros CE (S1 & S2 & S3 & S4 & S5) HO HU HD u1. unfold do_smooth.
    pose proof (computes_ext_computes _ _ _ _ _ _ _ _ CE) as C.
    rewrite (holds_len _ _ _ _ _ HU). set (dt := m_dt o) in *.
    destruct (C sc u t (m_k1 o) w HO HU S1) as (sc1 & ua & k1 & E1 & O1 & HU1 & HK1). rewrite E1. cbn [rbind].
    destruct (stage1_holds nv size P dt (nrat 1 2) (m_stage o) ua k1 w (f t w) S5 HU1 HK1) as (st & Es & Hst).
    rewrite Es. cbn [rbind].
    destruct (C sc1 st (t + nrat 1 2 * dt) (m_k2 o) _ O1 Hst S2) as (sc2 & st2 & k2 & E2 & O2 & Hst2 & HK2).
    rewrite E2. cbn [rbind].
    destruct (stage2_holds nv size P dt (nint 0) (nrat 3 4) st2 ua k1 k2 _ _ _ (proj1 Hst2) HU1 HK1 HK2) as (st3 & E3 & Hst3).
    rewrite E3. cbn [rbind].
    destruct (C sc2 st3 (t + nrat 3 4 * dt) (m_k3 o) _ O2 Hst3 S3) as (sc3 & st4 & k3 & E4 & O3 & Hst4 & HK3).
    rewrite E4. cbn [rbind].
    destruct (residual_holds nv size P (nrat 2 9) (nrat 1 3) (nrat 4 9) du k1 k2 k3 _ _ _ HD HK1 HK2 HK3) as (du' & E5 & Hdu).
    rewrite E5. cbn [rbind].
    destruct (update_holds nv size P dt ua du' _ _ HU1 Hdu) as (u' & E6 & Hu').
    rewrite E6. cbn [rbind].
    destruct (CE sc3 u' (t + nint 1 * dt) (m_k4 o) _ O3 Hu' S4) as (sc4 & u'' & k4 & E7 & O4 & Hu'' & HQ & HK4).
    rewrite E7. cbn [rbind].
    destruct (error_fold_ok nv size rmax dt k1 k2 k3 k4 du' (proj1 HK1) (proj1 HK2) (proj1 HK3) (proj1 HK4) (proj1 Hdu)
      nv (Nat.le_refl nv)) as (err & Ee).
    rewrite Ee. cbn [rbind].
    do 4 eexists. split; [reflexivity|]. cbn [m_k1 m_k2 m_k3 m_k4 m_stage m_dt].
    split. { split; [exact (proj1 HK1)|]. split; [exact (proj1 HK2)|]. split; [exact (proj1 HK3)|].
             split; [exact (proj1 HK4)|]. exact (proj1 Hst4). }
    split; [exact O4|]. split; [reflexivity|]. split; [exact Hu''|]. split; [exact HQ|].
    split; [exact Hdu|]. intros u2 S2'.
    destruct (CE sc3 u' (t + nint 1 * dt) (m_k4 o) u2 O3 (holds_same _ _ _ _ _ _ Hu' S2') S4)
      as (a & b & c & E8 & _ & _ & _ & H8).
    rewrite E7 in E8. injection E8 as <- <- <-. exact H8.
  Qed.

  (** ** Levels *)
  Variables (g : mg_config V S) (ok : nat -> S -> Prop) (nv : nat) (size : nat -> Z) (P Q : nat -> Z -> Prop)
    (ext : nat -> field V -> field V) (f : nat -> V -> field V -> field V)
    (rest prol : nat -> field V -> field V).

  Definition data_ok (k : nat) (c : coarse_data V) : Prop :=
    shaped nv (size (1 + k)) (c_pre c) /\ shaped nv (size (1 + k)) (c_respre c) /\
    shaped nv (size (1 + k)) (c_restr c) /\ shaped nv (size (1 + k)) (c_delta c) /\
    shaped nv (size (1 + k)) (c_src c) /\ shaped nv (size k) (c_fine c).

  Definition level_ok (k : nat) (v : level V S) : Prop :=
    ok k (v_sc v) /\ shaped nv (size k) (v_u v) /\ shaped nv (size k) (v_du v) /\ sm_shaped nv (size k) (v_sm v) /\
    match k, v_c v with
    | O, None => True
    | Datatypes.S k', Some c => data_ok k' c
    | _, _ => False
    end.

  Hypothesis PQ : forall k u, same_on nv (size k) (P k) (ext k u) u.
  Hypothesis PQ' : forall k i, P k i -> Q k i.
  Variable n : nat.   (* number of coarse levels *)
  Hypothesis CE : forall k, (k <= n)%nat -> computes_ext (g_eval g k) (ok k) nv (size k) (P k) (Q k) (ext k) (f k).
  Hypothesis CR : forall k, (k < n)%nat ->
    transfers (g_restrict g (1 + k)) nv (size k) (P k) (size (1 + k)) (P (1 + k)) (rest (1 + k)).
  Hypothesis CP : forall k, (k < n)%nat ->
    transfers (g_prolong g (1 + k)) nv (size (1 + k)) (Q (1 + k)) (size k) (P k) (prol (1 + k)).

  Lemma holds_mono k (s : state V) u : state_holds nv (size k) (Q k) s u -> state_holds nv (size k) (P k) s u.
  Proof. intros (A & B). split; auto. Qed.

  Lemma holds_ext k s u : state_holds nv (size k) (P k) s u -> state_holds nv (size k) (P k) s (ext k u).
  Proof. intros H. eapply holds_same; eauto. intros e i He Hi HP. symmetry. apply PQ; auto. Qed.

  Lemma coarse_computes k src wsrc : (k <= n)%nat -> state_holds nv (size k) (P k) src wsrc ->
    computes_ext (coarse_eval g k src) (ok k) nv (size k) (P k) (Q k) (ext k)
      (fun t u e i => f k t u e i + wsrc e i).
  Proof.
    intros Hk HS sc s t r u OK HU HR.
    destruct (CE k Hk sc s t r u OK HU HR) as (sc' & s' & r' & E & O & A & B & C).
    unfold coarse_eval. rewrite E. cbn [rbind]. rewrite (holds_len _ _ _ _ _ A).
    destruct (add_holds nv (size k) (P k) r' src _ _ C HS) as (r2 & E2 & H2). rewrite E2. cbn [rbind].
    exists sc', s', r2. auto.
  Qed.

  Lemma fine_computes dt old w : state_holds nv (size 0) (P 0) old w ->
    computes_ext (fine_eval g dt old) (ok 0) nv (size 0) (P 0) (Q 0) (ext 0)
      (implicit_rhs (g_steady g) (f 0) dt w).
  Proof.
    intros HS sc s t r u OK HU HR.
    destruct (CE 0 (Nat.le_0_l n) sc s t r u OK HU HR) as (sc' & s' & r' & E & O & A & B & C).
    unfold fine_eval, implicit_rhs. rewrite E. cbn [rbind]. destruct (g_steady g).
    - exists sc', s', r'. auto.
    - rewrite (holds_len _ _ _ _ _ A).
      destruct (bdf_holds nv (size 0) (P 0) dt r' old s' _ _ _ C HS A) as (r2 & E2 & H2). rewrite E2. cbn [rbind].
      exists sc', s', r2. auto.
  Qed.

  (** ** Stages *)
  Variables (time dt : V) (old : state V).
  Notation stages := (mg_stages g time dt old).
  Notation leval k c := (level_eval g dt old k c).

  Lemma stages_app z1 z2 st : stages (z1 ++ z2) st = stages z2 (stages z1 st).
  Proof. apply fold_left_app. Qed.

  Lemma stages_nil st : stages [] st = st.
  Proof. reflexivity. Qed.

  Lemma stages_cons z zs st : stages (z :: zs) (Ok st) = stages zs (mg_stage g time dt old st z).
  Proof. reflexivity. Qed.


  Lemma smooths_last F ex t cfl : forall k d w,
    smooths F ex t d cfl (Datatypes.S k) w
    = smooth F ex t (match k with O => d | _ => cfl end) (smooths F ex t d cfl k w).
  Proof.
    induction k as [|k IH]; intros d w; [reflexivity|].
    change (smooths F ex t d cfl (Datatypes.S (Datatypes.S k)) w)
      with (smooths F ex t cfl cfl (Datatypes.S k) (smooth F ex t d w)).
    rewrite IH. destruct k; reflexivity.
  Qed.

  (** Everything but level l is as before, and level l is v. *)
  Definition changed (l : nat) (vs vs' : list (level V S)) (v : level V S) : Prop :=
    length vs' = length vs /\ nth_error vs' l = Some v /\ forall k, k <> l -> nth_error vs' k = nth_error vs k.

  Lemma changed_upd l (vs : list (level V S)) v0 v : nth_error vs l = Some v0 -> changed l vs (upd vs l v) v.
  Proof.
    intros H. assert (l < length vs)%nat by (apply nth_error_Some; congruence).
    split; [apply upd_length|]. split; [apply nth_error_upd_same; auto|].
    intros k NE. apply nth_error_upd_other. auto.
  Qed.

  Lemma changed_trans l (vs vs1 vs2 : list (level V S)) a b : changed l vs vs1 a -> changed l vs1 vs2 b -> changed l vs vs2 b.
  Proof.
    intros (A1 & A2 & A3) (B1 & B2 & B3). split; [congruence|]. split; auto.
    intros k NE. rewrite B3, A3; auto.
  Qed.

  (** One smoothing. *)
  Lemma smooth_stage l F vs v w :
    computes_ext (leval l (v_c v)) (ok l) nv (size l) (P l) (Q l) (ext l) F ->
    nth_error vs l = Some v -> level_ok l v -> state_holds nv (size l) (P l) (v_u v) w ->
    let d := m_dt (v_sm v) in
    exists vs' v', mg_stage g time dt old (l, vs) 0 = Ok (l, vs') /\ changed l vs vs' v' /\
      level_ok l v' /\ v_c v' = v_c v /\ m_dt (v_sm v') = g_cfl g l /\
      state_holds nv (size l) (Q l) (v_u v') (smooth F (ext l) time d w) /\
      state_holds nv (size l) (P l) (v_du v') (slope F time d w) /\
      state_holds nv (size l) (P l) (m_k4 (v_sm v')) (F (time + nint 1 * d) (smooth F (ext l) time d w)).
  Proof.
    intros C E (L1 & L2 & L3 & L4 & L5) HU d. unfold mg_stage, smooth_level. cbn [Z.eqb]. rewrite E. cbn [of_opt rbind].
    destruct (do_smooth_spec _ _ _ _ _ _ _ _ (g_reduce_max g) (g_cfl g l) (v_sm v) (v_sc v) (v_u v) (v_du v) time w
      C L4 L1 HU L3) as (o' & sc' & u' & du' & ES & A1 & A2 & A3 & A4 & A5 & A6 & A7).
    rewrite ES. cbn [rbind]. do 2 eexists. split; [reflexivity|]. split; [eapply changed_upd; eauto|].
    cbn [v_sc v_u v_du v_sm v_c].
    split. { split; [exact A2|]. split; [exact (proj1 A4)|]. split; [exact (proj1 A6)|]. split; [exact A1|exact L5]. }
    split; [reflexivity|]. split; [exact A3|]. split; [exact A5|]. split; [exact A6|].
    apply A7. intros e i He Hi HP. symmetry. apply PQ; auto.
  Qed.

  (** Smoothing level l 1 + k times. *)
  Lemma smooths_stage l F : forall k vs v w,
    computes_ext (leval l (v_c v)) (ok l) nv (size l) (P l) (Q l) (ext l) F ->
    nth_error vs l = Some v -> level_ok l v -> state_holds nv (size l) (P l) (v_u v) w ->
    let d := m_dt (v_sm v) in let cfl := g_cfl g l in
    let wp := smooths F (ext l) time d cfl k w in
    let dl := match k with O => d | _ => cfl end in
    exists vs' v', stages (repeat 0%Z (Datatypes.S k)) (Ok (l, vs)) = Ok (l, vs') /\ changed l vs vs' v' /\
      level_ok l v' /\ v_c v' = v_c v /\ m_dt (v_sm v') = cfl /\
      state_holds nv (size l) (Q l) (v_u v') (smooth F (ext l) time dl wp) /\
      state_holds nv (size l) (P l) (v_du v') (slope F time dl wp) /\
      state_holds nv (size l) (P l) (m_k4 (v_sm v')) (F (time + nint 1 * dl) (smooth F (ext l) time dl wp)).
  Proof.
    induction k as [|k IH]; intros vs v w C E LO HU; cbn zeta.
    - destruct (smooth_stage l F vs v w C E LO HU) as (vs' & v' & ES & H). exists vs', v'.
      cbn [repeat]. rewrite stages_cons, ES. split; [reflexivity|]. exact H.
    - destruct (smooth_stage l F vs v w C E LO HU) as (vs1 & v1 & ES & CH & A1 & A2 & A3 & A4 & A5 & A6).
      change (repeat 0%Z (Datatypes.S (Datatypes.S k))) with (0%Z :: repeat 0%Z (Datatypes.S k)).
      rewrite stages_cons, ES.
      rewrite <- A2 in C. apply holds_mono in A4.
      destruct (IH vs1 v1 _ C (proj1 (proj2 CH)) A1 A4) as (vs2 & v2 & ES2 & CH2 & B1 & B2 & B3 & B4 & B5 & B6).
      rewrite A3 in B4, B5, B6.
      assert (EQ : match k with O => g_cfl g l | Datatypes.S _ => g_cfl g l end = g_cfl g l) by (destruct k; auto).
      rewrite EQ in B4, B5, B6. cbn [smooths].
      exists vs2, v2. split; [exact ES2|]. split; [eapply changed_trans; eauto|]. split; [exact B1|].
      split; [congruence|]. split; [exact B3|]. auto.
  Qed.

  (** A transfer to the coarser level. *)
  Lemma down_stage l vs vf vc w r :
    (l < n)%nat -> nth_error vs l = Some vf -> nth_error vs (1 + l) = Some vc -> level_ok (1 + l) vc ->
    state_holds nv (size l) (P l) (v_u vf) w -> state_holds nv (size l) (P l) (m_k4 (v_sm vf)) r ->
    let v0 := ext (1 + l) (rest (1 + l) w) in
    exists vs' v' c', mg_stage g time dt old (l, vs) 1 = Ok ((1 + l)%nat, vs') /\ changed (1 + l) vs vs' v' /\
      level_ok (1 + l) v' /\ m_dt (v_sm v') = m_dt (v_sm vc) /\ v_c v' = Some c' /\
      state_holds nv (size (1 + l)) (P (1 + l)) (v_u v') v0 /\
      state_holds nv (size (1 + l)) (Q (1 + l)) (c_pre c') v0 /\
      state_holds nv (size (1 + l)) (P (1 + l)) (c_src c')
        (fun e i => - f (1 + l) time v0 e i + rest (1 + l) r e i) /\
      state_holds nv (size (1 + l)) (P (1 + l)) (c_respre c')
        (with_source (f (1 + l)) time v0 (rest (1 + l) r) time v0).
  Proof.
    intros Hl Ef Ec (L1 & L2 & L3 & L4 & L5) HU HR v0. unfold mg_stage. cbn [Z.eqb].
    rewrite Ef. cbn [of_opt rbind]. rewrite Ec. cbn [of_opt rbind]. unfold set_coarse.
    cbn [Nat.add] in L5. destruct (v_c vc) as [c|] eqn:EC; [|contradiction]. cbn [of_opt rbind].
    destruct L5 as (D1 & D2 & D3 & D4 & D5 & D6).
    destruct (CR l Hl (v_u vf) (v_u vc) w HU L2) as (s & Es & Hs). rewrite Es. cbn [rbind].
    destruct (CR l Hl _ (c_restr c) r HR D3) as (re & Er & Hre). rewrite Er. cbn [rbind].
    apply holds_ext in Hs. fold v0 in Hs.
    rewrite (holds_len _ _ _ _ _ Hs).
    destruct (copy_holds nv (size (1 + l)) (P (1 + l)) (c_pre c) s v0 D1 Hs) as (pre & Ep & Hp).
    rewrite Ep. cbn [rbind].
    destruct (CE (1 + l) Hl (v_sc vc) s time (v_du vc) v0 L1 Hs L3) as (sc1 & s1 & du1 & E1 & O1 & HS1 & _ & HD1).
    rewrite E1. cbn [rbind]. rewrite (holds_len _ _ _ _ _ HD1).
    destruct (source_holds nv (size (1 + l)) (P (1 + l)) (c_src c) re du1 _ _ D5 Hre HD1) as (src & Esr & Hsrc).
    rewrite Esr. cbn [rbind].
    destruct (coarse_computes (1 + l) src _ Hl Hsrc sc1 pre time (c_respre c) v0 O1 Hp D2)
      as (sc2 & pre2 & rp & E2 & O2 & HP2 & _ & HRP).
    assert (HQ : state_holds nv (size (1 + l)) (Q (1 + l)) pre2 v0).
    { assert (Hs0 : state_holds nv (size (1 + l)) (P (1 + l)) pre (rest (1 + l) w))
        by (eapply holds_same; [exact Hp|]; intros e i He Hi HP; apply PQ; auto).
      destruct (coarse_computes (1 + l) src _ Hl Hsrc sc1 pre time (c_respre c) _ O1 Hs0 D2)
        as (a & b & d & E3 & _ & _ & HQ & _). rewrite E2 in E3. injection E3 as <- <- <-. exact HQ. }
    rewrite E2. cbn [rbind].
    do 3 eexists. split; [reflexivity|]. split; [eapply changed_upd; eauto|].
    cbn [v_sc v_u v_du v_sm v_c c_pre c_src c_respre].
    split. { split; [exact O2|]. split; [exact (proj1 HS1)|]. split; [exact (proj1 HD1)|]. split; [exact L4|].
             cbn [Nat.add]. unfold data_ok. cbn [v_c c_pre c_respre c_restr c_delta c_src c_fine].
             split; [exact (proj1 HP2)|]. split; [exact (proj1 HRP)|]. split; [exact (proj1 Hre)|].
             split; [exact D4|]. split; [exact (proj1 Hsrc)|exact D6]. }
    split; [reflexivity|]. split; [reflexivity|]. split; [exact HS1|]. split; [exact HQ|]. split; [exact Hsrc|].
    exact HRP.
  Qed.

  (** Setting up a coarse level from any fine state and residual. *)
  Lemma coarse_spec l vc fs fr w r t :
    (l < n)%nat -> level_ok (1 + l) vc ->
    state_holds nv (size l) (P l) fs w -> state_holds nv (size l) (P l) fr r ->
    let v0 := ext (1 + l) (rest (1 + l) w) in
    exists v' c', set_coarse g (1 + l) fs fr t vc = Ok v' /\ level_ok (1 + l) v' /\ v_c v' = Some c' /\
      state_holds nv (size (1 + l)) (P (1 + l)) (v_u v') v0 /\
      state_holds nv (size (1 + l)) (P (1 + l)) (c_src c') (fun e i => - f (1 + l) t v0 e i + rest (1 + l) r e i).
  Proof.
    intros Hl (L1 & L2 & L3 & L4 & L5) HU HR v0. unfold set_coarse.
    cbn [Nat.add] in L5. destruct (v_c vc) as [c|] eqn:EC; [|contradiction]. cbn [of_opt rbind].
    destruct L5 as (D1 & D2 & D3 & D4 & D5 & D6).
    destruct (CR l Hl fs (v_u vc) w HU L2) as (s & Es & Hs). rewrite Es. cbn [rbind].
    destruct (CR l Hl _ (c_restr c) r HR D3) as (re & Er & Hre). rewrite Er. cbn [rbind].
    apply holds_ext in Hs. fold v0 in Hs.
    rewrite (holds_len _ _ _ _ _ Hs).
    destruct (copy_holds nv (size (1 + l)) (P (1 + l)) (c_pre c) s v0 D1 Hs) as (pre & Ep & Hp).
    rewrite Ep. cbn [rbind].
    destruct (CE (1 + l) Hl (v_sc vc) s t (v_du vc) v0 L1 Hs L3) as (sc1 & s1 & du1 & E1 & O1 & HS1 & _ & HD1).
    rewrite E1. cbn [rbind]. rewrite (holds_len _ _ _ _ _ HD1).
    destruct (source_holds nv (size (1 + l)) (P (1 + l)) (c_src c) re du1 _ _ D5 Hre HD1) as (src & Esr & Hsrc).
    rewrite Esr. cbn [rbind].
    destruct (coarse_computes (1 + l) src _ Hl Hsrc sc1 pre t (c_respre c) v0 O1 Hp D2)
      as (sc2 & pre2 & rp & E2 & O2 & HP2 & _ & HRP).
    rewrite E2. cbn [rbind].
    do 2 eexists. split; [reflexivity|].
    cbn [v_sc v_u v_du v_sm v_c c_pre c_src c_respre].
    split. { split; [exact O2|]. split; [exact (proj1 HS1)|]. split; [exact (proj1 HD1)|]. split; [exact L4|].
             cbn [Nat.add]. unfold data_ok. cbn [v_c c_pre c_respre c_restr c_delta c_src c_fine].
             split; [exact (proj1 HP2)|]. split; [exact (proj1 HRP)|]. split; [exact (proj1 Hre)|].
             split; [exact D4|]. split; [exact (proj1 Hsrc)|exact D6]. }
    split; [reflexivity|]. split; [exact HS1|exact Hsrc].
  Qed.

  (** A transfer to the finer level. *)
  Lemma up_stage l vs vf vc c wf v v0 :
    (l < n)%nat -> nth_error vs l = Some vf -> nth_error vs (1 + l) = Some vc -> level_ok (1 + l) vc ->
    level_ok l vf -> v_c vc = Some c ->
    state_holds nv (size l) (P l) (v_u vf) wf ->
    state_holds nv (size (1 + l)) (Q (1 + l)) (v_u vc) v ->
    state_holds nv (size (1 + l)) (Q (1 + l)) (c_pre c) v0 ->
    let relax := if (l =? 0)%nat then g_relax g else g_coarse_relax g in
    exists vs' vf' vc', mg_stage g time dt old (Datatypes.S l, vs) (-1) = Ok (l, vs') /\
      length vs' = length vs /\ nth_error vs' l = Some vf' /\ nth_error vs' (1 + l) = Some vc' /\
      (forall k, k <> l -> k <> (1 + l)%nat -> nth_error vs' k = nth_error vs k) /\
      level_ok l vf' /\ level_ok (1 + l) vc' /\ v_sm vf' = v_sm vf /\ v_sm vc' = v_sm vc /\ v_c vf' = v_c vf /\
      state_holds nv (size l) (P l) (v_u vf')
        (fun e i => wf e i + relax * prol (1 + l) (fun e i => v e i - v0 e i) e i).
  Proof.
    intros Hl Ef Ec (L1 & L2 & L3 & L4 & L5) (M1 & M2 & M3 & M4 & M5) EC HU HV HP0 relax. unfold mg_stage. cbn [Z.eqb].
    change (1 + l)%nat with (Datatypes.S l) in *.
    rewrite Ec. cbn [of_opt rbind]. unfold update_delta.
    cbn [Nat.add] in L5. rewrite EC in L5 |- *. cbn [of_opt rbind].
    destruct L5 as (D1 & D2 & D3 & D4 & D5 & D6).
    rewrite (holds_len _ _ _ _ _ HV).
    destruct (delta_holds nv (size (1 + l)) (Q (1 + l)) (c_delta c) (c_pre c) (v_u vc) _ _ D4 HP0 HV) as (de & Ed & Hd).
    rewrite Ed. cbn [rbind].
    destruct (CP l Hl de (c_fine c) _ Hd D6) as (fi & Ei & Hf). cbn [Nat.add] in Ei. rewrite Ei. cbn [rbind v_c of_opt c_fine].
    replace (Datatypes.S l - 1)%nat with l by lia. rewrite Ef. cbn [of_opt rbind]. unfold apply_delta.
    rewrite (holds_len _ _ _ _ _ HU). fold relax.
    destruct (update_holds nv (size l) (P l) relax (v_u vf) fi _ _ HU Hf) as (u' & Eu & Hu').
    rewrite Eu. cbn [rbind].
    assert (B : (Datatypes.S l < length vs)%nat) by (apply nth_error_Some; congruence).
    do 3 eexists. split; [reflexivity|]. split; [rewrite !upd_length; reflexivity|].
    split; [apply nth_error_upd_same; rewrite upd_length; lia|].
    split; [rewrite nth_error_upd_other by lia; apply nth_error_upd_same; auto|].
    split; [intros k K1 K2; rewrite !nth_error_upd_other by auto; reflexivity|].
    split. { split; [exact M1|]. split; [exact (proj1 Hu')|]. split; [exact M3|]. split; [exact M4|exact M5]. }
    split. { split; [exact L1|]. split; [exact L2|]. split; [exact L3|]. split; [exact L4|].
             cbn [v_c]. unfold data_ok. cbn [c_pre c_respre c_restr c_delta c_src c_fine].
             split; [exact D1|]. split; [exact D2|]. split; [exact D3|]. split; [exact (proj1 Hd)|].
             split; [exact D5|exact (proj1 Hf)]. }
    split; [reflexivity|]. split; [reflexivity|]. split; [reflexivity|]. exact Hu'.
  Qed.

  (** ** The V-cycle *)
  Fixpoint cyc (ns m : nat) : list Z :=
    match m with
    | O => repeat 0%Z ns ++ repeat 0%Z ns
    | Datatypes.S m => repeat 0%Z ns ++ [1%Z] ++ cyc ns m ++ [(-1)%Z] ++ repeat 0%Z ns
    end.

  Definition dt_of (vs : list (level V S)) (k : nat) : V :=
    match nth_error vs k with Some v => m_dt (v_sm v) | None => g_cfl g k end.
  Definition gl (d : nat -> V) (k : nat) : glevel V :=
    {| l_f := f k; l_ext := ext k; l_rest := rest k; l_prol := prol k; l_cfl := g_cfl g k; l_dt := d k |}.

  Lemma cyc_spec ns : forall m l vs v w F,
    (l + m)%nat = n -> length vs = (1 + n)%nat ->
    computes_ext (leval l (v_c v)) (ok l) nv (size l) (P l) (Q l) (ext l) F ->
    nth_error vs l = Some v -> state_holds nv (size l) (P l) (v_u v) w ->
    (forall k v, nth_error vs k = Some v -> (l <= k)%nat -> level_ok k v) ->
    let wp := vcycle_pre (Datatypes.S ns) time F (ext l) (m_dt (v_sm v)) (g_cfl g l)
                (if (l =? 0)%nat then g_relax g else g_coarse_relax g) (g_coarse_relax g)
                (map (gl (dt_of vs)) (seq (1 + l) m)) w in
    exists vs' v', stages (cyc (Datatypes.S ns) m) (Ok (l, vs)) = Ok (l, vs') /\ length vs' = length vs /\
      (forall k, (k < l)%nat -> nth_error vs' k = nth_error vs k) /\
      (forall k v, nth_error vs' k = Some v -> (l <= k)%nat -> level_ok k v /\ m_dt (v_sm v) = g_cfl g k) /\
      nth_error vs' l = Some v' /\ v_c v' = v_c v /\
      state_holds nv (size l) (Q l) (v_u v') (smooth F (ext l) time (g_cfl g l) wp) /\
      state_holds nv (size l) (P l) (v_du v') (slope F time (g_cfl g l) wp).
  Proof.
    induction m as [|m IH]; intros l vs v w F LM LN C E HU LO; cbn zeta.
    - cbn [cyc]. rewrite stages_app.
      destruct (smooths_stage l F ns vs v w C E (LO l v E (Nat.le_refl l)) HU)
        as (vs1 & v1 & E1 & CH1 & A1 & A2 & A3 & A4 & A5 & A6).
      rewrite E1. apply holds_mono in A4. rewrite <- smooths_last in A4.
      rewrite <- A2 in C.
      destruct (smooths_stage l F ns vs1 v1 _ C (proj1 (proj2 CH1)) A1 A4)
        as (vs2 & v2 & E2 & CH2 & B1 & B2 & B3 & B4 & B5 & B6).
      exists vs2, v2. rewrite A3 in B4, B5.
      assert (EQ : match ns with O => g_cfl g l | Datatypes.S _ => g_cfl g l end = g_cfl g l) by (destruct ns; auto).
      rewrite EQ in B4, B5. pose proof (changed_trans _ _ _ _ _ _ CH1 CH2) as (T1 & T2 & T3).
      split; [exact E2|]. split; [exact T1|]. split; [intros k Hk; apply T3; lia|]. split.
      { intros k v' Hv Hk. assert (k = l) as ->.
        { assert (k < length vs2)%nat by (apply nth_error_Some; congruence). lia. }
        rewrite T2 in Hv. injection Hv as <-. auto. }
      split; [exact T2|]. split; [congruence|]. cbn [seq map vcycle_pre]. rewrite Nat.sub_succ, Nat.sub_0_r.
      auto.
    - cbn [cyc]. rewrite !stages_app.
      destruct (smooths_stage l F ns vs v w C E (LO l v E (Nat.le_refl l)) HU)
        as (vs1 & v1 & E1 & CH1 & A1 & A2 & A3 & A4 & A5 & A6).
      rewrite E1. pose proof (holds_mono _ _ _ A4) as A4'. rewrite <- smooths_last in A4'. rewrite <- smooths_last in A6.
      destruct CH1 as (T1 & T2 & T3).
      set (u1 := smooths F (ext l) time (m_dt (v_sm v)) (g_cfl g l) (Datatypes.S ns) w) in *.
      assert (B : exists vc, nth_error vs (1 + l) = Some vc).
      { destruct (nth_error vs (1 + l)) eqn:X; eauto. apply nth_error_None in X. lia. }
      destruct B as (vc & Evc).
      assert (Evc1 : nth_error vs1 (1 + l) = Some vc) by (rewrite T3 by lia; exact Evc).
      assert (Hl : (l < n)%nat) by lia.
      destruct (down_stage l vs1 v1 vc u1 _ Hl T2 Evc1 (LO _ _ Evc (Nat.le_succ_diag_r l)) A4' A6)
        as (vs2 & v2 & c2 & E2 & CH2 & B1 & B2 & B3 & B4 & B5 & B6 & B7).
      rewrite (stages_cons 1 []), E2, stages_nil.
      destruct CH2 as (U1 & U2 & U3).
      set (v0 := ext (1 + l) (rest (1 + l) u1)) in *.
      set (r := rest (1 + l) (F (time + nint 1 * match ns with O => m_dt (v_sm v) | Datatypes.S _ => g_cfl g l end) u1)) in *.
      assert (C2 : computes_ext (leval (1 + l) (v_c v2)) (ok (1 + l)) nv (size (1 + l)) (P (1 + l)) (Q (1 + l)) (ext (1 + l))
                     (with_source (f (1 + l)) time v0 r)).
      { rewrite B3. cbn [level_eval].
        exact (coarse_computes (1 + l) (c_src c2) _ Hl B6). }
      destruct (IH (1 + l)%nat vs2 v2 v0 _ ltac:(lia) ltac:(lia) C2 U2 B4)
        as (vs3 & v3 & E3 & D1 & D2 & D3 & D4 & D5 & D6 & D7).
      { intros k v' Hv Hk. destruct (Nat.eq_dec k (1 + l)) as [->|NE].
        - rewrite U2 in Hv. injection Hv as <-. exact B1.
        - rewrite U3 in Hv by auto. destruct (Nat.eq_dec k l) as [->|NE2]; [lia|].
          rewrite T3 in Hv by auto. apply LO; auto. lia. }
      rewrite E3.
      assert (EQD : map (gl (dt_of vs2)) (seq (1 + (1 + l)) m) = map (gl (dt_of vs)) (seq (1 + (1 + l)) m)).
      { apply map_ext_in. intros k Hk. apply in_seq in Hk. unfold gl, dt_of. rewrite U3, T3 by lia. reflexivity. }
      rewrite EQD in D6, D7. change (1 + l =? 0)%nat with false in D6, D7. cbn iota in D6, D7.
      rewrite B2 in D6, D7.
      assert (EV1 : nth_error vs3 l = Some v1) by (rewrite D2, U3 by lia; exact T2).
      rewrite B3 in D5.
      set (v' := smooth (with_source (f (1 + l)) time v0 r) (ext (1 + l)) time (g_cfl g (1 + l)) _) in D6.
      destruct (up_stage l vs3 v1 v3 c2 u1 v' v0 Hl EV1 D4 (proj1 (D3 _ _ D4 (Nat.le_refl _))) A1 D5 A4' D6 B5)
        as (vs4 & vf4 & vc4 & E4 & F1 & F2 & F3 & F4 & F5 & F6 & F7 & F8 & F9 & F10).
      rewrite (stages_cons (-1) []). change (1 + l)%nat with (Datatypes.S l) at 1. rewrite E4, stages_nil.
      assert (C5 : computes_ext (leval l (v_c vf4)) (ok l) nv (size l) (P l) (Q l) (ext l) F) by (rewrite F9, A2; exact C).
      destruct (smooths_stage l F ns vs4 vf4 _ C5 F2 F5 F10)
        as (vs5 & v5 & E5 & CH5 & G1 & G2 & G3 & G4 & G5 & G6).
      destruct CH5 as (W1 & W2 & W3).
      exists vs5, v5. rewrite F7, A3 in G4, G5.
      assert (EQ : match ns with O => g_cfl g l | Datatypes.S _ => g_cfl g l end = g_cfl g l) by (destruct ns; auto).
      rewrite EQ in G4, G5.
      split; [exact E5|]. split; [congruence|].
      split. { intros k Hk. rewrite W3, F4, D2, U3, T3 by lia. reflexivity. }
      split. { intros k vk Hv Hk. destruct (Nat.eq_dec k l) as [->|NE].
        - rewrite W2 in Hv. injection Hv as <-. auto.
        - rewrite W3 in Hv by auto. destruct (Nat.eq_dec k (1 + l)) as [->|NE2].
          + rewrite F3 in Hv. injection Hv as <-. split; [exact F6|]. rewrite F8. apply (D3 _ _ D4 (Nat.le_refl _)).
          + rewrite F4 in Hv by auto. apply D3; auto. lia. }
      split; [exact W2|]. split; [congruence|].
      change (seq (1 + l) (Datatypes.S m)) with ((1 + l)%nat :: seq (1 + (1 + l)) m). cbn [map vcycle_pre].
      rewrite Nat.sub_succ, Nat.sub_0_r. cbn [gl l_f l_ext l_rest l_prol l_cfl l_dt].
      replace (dt_of vs (1 + l)) with (m_dt (v_sm vc)) by (unfold dt_of; rewrite Evc; reflexivity).
      fold u1. fold v0.
      split; [exact G4|exact G5].
  Qed.
End Gen.
