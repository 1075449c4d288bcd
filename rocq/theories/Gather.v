(** Loops in which no cell is stored to by two iterations, and every iteration loads only
    cells that no other iteration stores to. *)
From Verif Require Import Outcome ZList ZListProofs Kernel KernelProofs.
From Coq Require Import ZifyBool ZifyNat.

Section Gather.
  Context {V A : Type}.
  Variables (wi : A -> list (nat * Z)) (body : A -> prog V) (xs : list A) (m : mem V).

  (** What iteration x may load. *)
  Definition gread (x : A) (a : nat) (i : Z) : Prop :=
    inb m a i /\ (forall y, In y xs -> In (a, i) (wi y) -> y = x).

  Definition gwrite (x : A) (a : nat) (i : Z) : Prop := In (a, i) (wi x).

  Definition gather_ok : Prop :=
    NoDup xs /\
    (forall x y c, In x xs -> In y xs -> In c (wi x) -> In c (wi y) -> x = y) /\
    (forall x, In x xs -> uses (gread x) (gwrite x) (body x)) /\
    (forall x a i, In x xs -> In (a, i) (wi x) -> inb m a i).

  Definition nth_pred (P : A -> nat -> Z -> Prop) (n : nat) (a : nat) (i : Z) : Prop :=
    match nth_error xs n with Some x => P x a i | None => False end.

  Lemma gather_race_free :
    gather_ok -> race_free (map body xs) m (nth_pred gread) (nth_pred gwrite).
  Proof.
    intros (ND & D & U & B). repeat split.
    - intros n p Hn. rewrite nth_error_map in Hn.
      destruct (nth_error xs n) as [x|] eqn:E; simpl in Hn; [|discriminate]. injection Hn as <-.
      eapply uses_weaken; [| |exact (U x (nth_error_In _ _ E))]; unfold nth_pred; rewrite E; auto.
    - intros n a i Hn C. unfold nth_pred in C.
      destruct (nth_error xs n) as [x|] eqn:E; [|tauto].
      destruct C as [C|C].
      + apply C.
      + eapply B; eauto. eapply nth_error_In; eauto.
    - intros n n' a i Hn Hn' N Hw Hr. unfold nth_pred in *.
      destruct (nth_error xs n) as [x|] eqn:E; [|contradiction].
      destruct (nth_error xs n') as [y|] eqn:E'; [|tauto].
      assert (NE : x <> y).
      { intros C. apply N. eapply NoDup_nth_error; [exact ND| |congruence].
        eapply nth_error_lt; eauto. }
      destruct Hr as [(_ & R)|C].
      + apply NE. apply R; auto. eapply nth_error_In; eauto.
      + apply NE. eapply (D x y (a, i)); eauto; eapply nth_error_In; eauto.
  Qed.

  Lemma in_wi_dec (c : nat * Z) (l : list (nat * Z)) : {In c l} + {~ In c l}.
  Proof.
    apply in_dec. intros [a i] [b j].
    destruct (Nat.eq_dec a b), (Z.eq_dec i j); [left; congruence|right; congruence..].
  Qed.

  Lemma gather_wdec : wdec (length (map body xs)) (nth_pred gwrite).
  Proof.
    intros a i.
    destruct (in_wi_dec (a, i) (flat_map wi xs)) as [I|I].
    - left. apply in_flat_map in I as (x & Hx & HI). apply In_nth_error in Hx as (n & Hn).
      exists n. split.
      + rewrite map_length. eapply nth_error_lt; eauto.
      + unfold nth_pred; rewrite Hn. exact HI.
    - right. intros n _ C. unfold nth_pred in C.
      destruct (nth_error xs n) as [x|] eqn:E; [|contradiction].
      apply I. apply in_flat_map. exists x; split; auto. eapply nth_error_In; eauto.
  Qed.

  Theorem gather_result :
    gather_ok ->
    exists m', exec_all (map body xs) m = Ok m' /\ same_shape m m' /\
      (forall x r a i, In x xs -> exec (body x) m = Ok r -> In (a, i) (wi x) ->
                       mread m' a i = mread r a i) /\
      (forall a i, (forall x, In x xs -> ~ In (a, i) (wi x)) -> mread m' a i = mread m a i).
  Proof.
    intros G. destruct (race_free_result _ _ _ _ (gather_race_free G)) as (m' & E & S & T & F).
    exists m'. repeat split; auto.
    - intros x r a i Hx Er HI. apply In_nth_error in Hx as (n & Hn).
      apply (T n (body x) r); auto.
      + rewrite nth_error_map, Hn. reflexivity.
      + unfold nth_pred. rewrite Hn. exact HI.
    - intros a i H. apply F. intros n _ C. unfold nth_pred in C.
      destruct (nth_error xs n) as [x|] eqn:Ex; [|contradiction].
      apply (H x); auto. eapply nth_error_In; eauto.
  Qed.

  Theorem gather_schedule :
    gather_ok ->
    exists m', exec_all (map body xs) m = Ok m' /\ same_shape m m' /\
      (forall m'', par_result (map body xs) m m'' <-> m'' = m') /\
      ~ par_fault (map body xs) m /\
      (forall c, psteps (map body xs, m) c -> pdone (fst c) \/ exists c', pstep c c').
  Proof.
    intros G. eapply race_free_schedule_independent.
    - apply gather_race_free; auto.
    - apply gather_wdec.
  Qed.
End Gather.

Lemma exec_rd {V} a i (k : V -> prog V) m v r :
  mread m a i = Some v -> exec (k v) m = r -> exec (Rd a i k) m = r.
Proof. intros H1 H2. simpl. rewrite H1. exact H2. Qed.

Lemma exec_wr_done {V} a i (v : V) m :
  inb m a i -> exists r, exec (Wr a i v Done) m = Ok r /\ mread r a i = Some v.
Proof.
  intros H. destruct (inb_mwrite m a i v H) as (m' & E). simpl. rewrite E.
  exists m'; split; auto. eapply mread_mwrite_same; eauto.
Qed.

(** Loops over [0,size) of an index array are loops over its elements. *)
Lemma map_over_list {A B} (f : option A -> B) (l : list A) :
  map (fun ii => f (zget l ii)) (zrange 0 (zlen l)) = map (fun q => f (Some q)) l.
Proof.
  apply nth_error_ext. intros n. rewrite !nth_error_map.
  destruct (Nat.lt_ge_cases n (length l)) as [H|H].
  - unfold zrange, zlen. rewrite nth_error_zseq by lia. simpl.
    replace (0 + Z.of_nat n)%Z with (Z.of_nat n) by lia.
    destruct (nth_error l n) as [q|] eqn:E; simpl.
    + f_equal. f_equal. unfold zget.
      destruct (Z.ltb_spec (Z.of_nat n) 0); try lia. rewrite Nat2Z.id. auto.
    + apply nth_error_None in E. lia.
  - rewrite (proj2 (nth_error_None l n)) by lia.
    rewrite (proj2 (nth_error_None (zrange 0 (zlen l)) n)). reflexivity.
    unfold zrange. rewrite zseq_length. unfold zlen. lia.
Qed.

(** ** Boxes of cells in row-major order *)

Definition box2 (ilo ihi jlo jhi : Z) : list (Z * Z) :=
  flat_map (fun i => map (fun j => (i, j)) (zrange jlo jhi)) (zrange ilo ihi).

Definition box3 (ilo ihi jlo jhi klo khi : Z) : list (Z * Z * Z) :=
  flat_map (fun i => flat_map (fun j => map (fun k => (i, j, k)) (zrange klo khi)) (zrange jlo jhi))
           (zrange ilo ihi).

Lemma in_box2 ilo ihi jlo jhi i j :
  In (i, j) (box2 ilo ihi jlo jhi) <-> ilo <= i < ihi /\ jlo <= j < jhi.
Proof.
  unfold box2. rewrite in_flat_map. split.
  - intros (x & Hx & H). apply in_map_iff in H as (y & E & Hy). injection E as -> ->.
    rewrite in_zrange in *. lia.
  - intros (Hi & Hj). exists i. rewrite in_zrange. split; auto.
    apply in_map_iff. exists j. rewrite in_zrange. auto.
Qed.

Lemma in_box3 ilo ihi jlo jhi klo khi i j k :
  In (i, j, k) (box3 ilo ihi jlo jhi klo khi) <->
  ilo <= i < ihi /\ jlo <= j < jhi /\ klo <= k < khi.
Proof.
  unfold box3. rewrite in_flat_map. split.
  - intros (x & Hx & H). apply in_flat_map in H as (y & Hy & H).
    apply in_map_iff in H as (z & E & Hz). injection E as -> -> ->.
    rewrite in_zrange in *. lia.
  - intros (Hi & Hj & Hk). exists i. rewrite in_zrange. split; auto.
    apply in_flat_map. exists j. rewrite in_zrange. split; auto.
    apply in_map_iff. exists k. rewrite in_zrange. auto.
Qed.

Lemma nodup_app {A} (l1 l2 : list A) :
  NoDup l1 -> NoDup l2 -> (forall x, In x l1 -> ~ In x l2) -> NoDup (l1 ++ l2).
Proof.
  induction l1 as [|a l1 IH]; simpl; intros H1 H2 H; auto.
  inversion H1; subst. constructor.
  - rewrite in_app_iff. intros [C|C]; [contradiction|]. exact (H a (or_introl eq_refl) C).
  - apply IH; auto.
Qed.

Lemma nodup_flat_map {A B} (f : A -> list B) (xs : list A) :
  NoDup xs -> (forall x, In x xs -> NoDup (f x)) ->
  (forall x y b, In x xs -> In y xs -> In b (f x) -> In b (f y) -> x = y) ->
  NoDup (flat_map f xs).
Proof.
  induction 1 as [|x xs Hx ND IH]; simpl; intros H1 H2; [constructor|].
  apply nodup_app.
  - apply H1; auto.
  - apply IH; intros; eauto.
  - intros b Hb C. apply in_flat_map in C as (y & Hy & Hb').
    assert (x = y) by (eapply H2; eauto). subst; contradiction.
Qed.

Lemma nodup_map_inj {A B} (f : A -> B) (xs : list A) :
  NoDup xs -> (forall x y, In x xs -> In y xs -> f x = f y -> x = y) -> NoDup (map f xs).
Proof.
  induction 1 as [|x xs Hx ND IH]; simpl; intros H; constructor.
  - rewrite in_map_iff. intros (y & E & Hy). apply Hx. rewrite (H x y); auto.
  - apply IH; auto.
Qed.

Lemma nodup_box2 ilo ihi jlo jhi : NoDup (box2 ilo ihi jlo jhi).
Proof.
  apply nodup_flat_map.
  - apply nodup_zrange.
  - intros x _. apply nodup_map_inj; [apply nodup_zrange|congruence].
  - intros x y b _ _ H1 H2. apply in_map_iff in H1 as (? & <- & _).
    apply in_map_iff in H2 as (? & E & _). congruence.
Qed.

Lemma nodup_box3 ilo ihi jlo jhi klo khi : NoDup (box3 ilo ihi jlo jhi klo khi).
Proof.
  apply nodup_flat_map.
  - apply nodup_zrange.
  - intros x _. apply nodup_flat_map; [apply nodup_zrange| |].
    + intros y _. apply nodup_map_inj; [apply nodup_zrange|congruence].
    + intros y y' b _ _ H1 H2. apply in_map_iff in H1 as (? & <- & _).
      apply in_map_iff in H2 as (? & E & _). congruence.
  - intros x y b _ _ H1 H2. apply in_flat_map in H1 as (? & _ & H1).
    apply in_map_iff in H1 as (? & <- & _).
    apply in_flat_map in H2 as (? & _ & H2). apply in_map_iff in H2 as (? & E & _). congruence.
Qed.

Lemma map_flat_map {A B C} (g : B -> C) (f : A -> list B) xs :
  map g (flat_map f xs) = flat_map (fun x => map g (f x)) xs.
Proof. induction xs; simpl; auto. rewrite map_app. congruence. Qed.

Lemma flat_map_flat_map {A B C} (g : B -> list C) (f : A -> list B) xs :
  flat_map g (flat_map f xs) = flat_map (fun x => flat_map g (f x)) xs.
Proof. induction xs; simpl; auto. rewrite flat_map_app. congruence. Qed.

Lemma flat_map_map {A B C} (g : B -> list C) (f : A -> B) xs :
  flat_map g (map f xs) = flat_map (fun x => g (f x)) xs.
Proof. induction xs; simpl; auto. congruence. Qed.

Lemma flat_map_ext_in {A B} (f g : A -> list B) xs :
  (forall x, In x xs -> f x = g x) -> flat_map f xs = flat_map g xs.
Proof. induction xs; simpl; intros H; auto. rewrite H, IHxs; auto. Qed.

Lemma map_box3 {A} (f : Z -> Z -> Z -> A) ilo ihi jlo jhi klo khi :
  map (fun c => let '(i, j, k) := c in f i j k) (box3 ilo ihi jlo jhi klo khi) =
  flat_map (fun i => flat_map (fun j => map (fun k => f i j k) (zrange klo khi)) (zrange jlo jhi))
           (zrange ilo ihi).
Proof.
  unfold box3. rewrite map_flat_map. apply flat_map_ext. intros i.
  rewrite map_flat_map. apply flat_map_ext. intros j. rewrite map_map. reflexivity.
Qed.

Lemma map_box2 {A} (f : Z -> Z -> A) ilo ihi jlo jhi :
  map (fun c => let '(i, j) := c in f i j) (box2 ilo ihi jlo jhi) =
  flat_map (fun i => map (fun j => f i j) (zrange jlo jhi)) (zrange ilo ihi).
Proof.
  unfold box2. rewrite map_flat_map. apply flat_map_ext. intros i. rewrite map_map. reflexivity.
Qed.

Lemma length_flat_map_const {A B} (f : A -> list B) (c : Z) (xs : list A) :
  (forall x, In x xs -> zlen (f x) = c) -> zlen (flat_map f xs) = zlen xs * c.
Proof.
  induction xs as [|x xs IH]; intros H; cbn [flat_map].
  - reflexivity.
  - rewrite zlen_app, (H x) by (left; auto). rewrite IH by (intros; apply H; right; auto).
    unfold zlen. cbn [length]. lia.
Qed.

Lemma zlen_box2 ilo ihi jlo jhi :
  zlen (box2 ilo ihi jlo jhi) = Z.max 0 (ihi - ilo) * Z.max 0 (jhi - jlo).
Proof.
  unfold box2. rewrite (length_flat_map_const _ (Z.max 0 (jhi - jlo))).
  - rewrite zlen_zrange. lia.
  - intros. rewrite zlen_map, zlen_zrange. reflexivity.
Qed.

Lemma zlen_box3 ilo ihi jlo jhi klo khi :
  zlen (box3 ilo ihi jlo jhi klo khi) =
  Z.max 0 (ihi - ilo) * (Z.max 0 (jhi - jlo) * Z.max 0 (khi - klo)).
Proof.
  unfold box3. rewrite (length_flat_map_const _ (Z.max 0 (jhi - jlo) * Z.max 0 (khi - klo))).
  - rewrite zlen_zrange. reflexivity.
  - intros. rewrite (length_flat_map_const _ (Z.max 0 (khi - klo))).
    + rewrite zlen_zrange. reflexivity.
    + intros. rewrite zlen_map, zlen_zrange. reflexivity.
Qed.

(** Position of a cell in a box. *)
Lemma zget_flat_map {B} (f : Z -> list B) lo hi c i r :
  (forall x, lo <= x < hi -> zlen (f x) = c) -> lo <= i < hi -> 0 <= r < c ->
  zget (flat_map f (zrange lo hi)) ((i - lo) * c + r) = zget (f i) r.
Proof.
  intros HC Hi Hr.
  rewrite (zrange_split lo i hi) by lia. rewrite flat_map_app.
  assert (L : zlen (flat_map f (zrange lo i)) = (i - lo) * c).
  { rewrite (length_flat_map_const _ c).
    - rewrite zlen_zrange. f_equal. lia.
    - intros x Hx. apply in_zrange in Hx. apply HC. lia. }
  rewrite zget_app_r by (rewrite L; lia). rewrite L.
  replace ((i - lo) * c + r - (i - lo) * c) with r by lia.
  rewrite zrange_cons by lia. simpl. apply zget_app_l. rewrite HC; lia.
Qed.

Lemma zget_box3 ilo ihi jlo jhi klo khi i j k :
  ilo <= i < ihi -> jlo <= j < jhi -> klo <= k < khi ->
  zget (box3 ilo ihi jlo jhi klo khi)
       ((i - ilo) * ((jhi - jlo) * (khi - klo)) + ((j - jlo) * (khi - klo) + (k - klo)))
  = Some (i, j, k).
Proof.
  intros Hi Hj Hk. unfold box3.
  assert (E1 : forall a b : Z, zlen (map (fun k0 : Z => (a, b, k0)) (zrange klo khi)) = khi - klo).
  { intros. rewrite zlen_map, zlen_zrange. lia. }
  rewrite (zget_flat_map _ _ _ ((jhi - jlo) * (khi - klo))); [| |lia|].
  - rewrite (zget_flat_map _ _ _ (khi - klo)); try lia.
    + rewrite zget_map, zget_zrange by lia. simpl. do 2 f_equal. lia.
    + intros. apply E1.
  - intros. rewrite (length_flat_map_const _ (khi - klo)).
    + rewrite zlen_zrange. f_equal. lia.
    + intros. apply E1.
  - split; nia.
Qed.

Lemma zget_box2 ilo ihi jlo jhi i j :
  ilo <= i < ihi -> jlo <= j < jhi ->
  zget (box2 ilo ihi jlo jhi) ((i - ilo) * (jhi - jlo) + (j - jlo)) = Some (i, j).
Proof.
  intros Hi Hj. unfold box2.
  rewrite (zget_flat_map _ _ _ (jhi - jlo)); try lia.
  - rewrite zget_map, zget_zrange by lia. simpl. do 2 f_equal. lia.
  - intros. rewrite zlen_map, zlen_zrange. lia.
Qed.
