(** Facts about [zget], [zset], [zrange]. *)
From Verif Require Import ZList.
From Coq Require Import ZifyBool ZifyNat.

Lemma upd_length {A} (l : list A) n v : length (upd l n v) = length l.
Proof. revert n; induction l as [|x l IH]; intros [|n]; simpl; auto. Qed.

Lemma nth_error_upd_same {A} (l : list A) n v :
  (n < length l)%nat -> nth_error (upd l n v) n = Some v.
Proof.
  revert n; induction l as [|x l IH]; intros [|n]; simpl; intros H; try lia; auto.
  apply IH; lia.
Qed.

Lemma nth_error_upd_other {A} (l : list A) n m v :
  n <> m -> nth_error (upd l n v) m = nth_error l m.
Proof.
  revert n m; induction l as [|x l IH]; intros [|n] [|m] H; simpl; auto; try congruence.
Qed.

Lemma zlen_upd {A} (l : list A) n v : zlen (upd l n v) = zlen l.
Proof. unfold zlen; rewrite upd_length; reflexivity. Qed.

Lemma zget_some {A} (l : list A) i : 0 <= i < zlen l -> exists v, zget l i = Some v.
Proof.
  unfold zget, zlen; intros H. destruct (Z.ltb_spec i 0); try lia.
  destruct (nth_error l (Z.to_nat i)) eqn:E; eauto.
  apply nth_error_None in E; lia.
Qed.

Lemma zget_range {A} (l : list A) i v : zget l i = Some v -> 0 <= i < zlen l.
Proof.
  unfold zget, zlen. destruct (Z.ltb_spec i 0); [discriminate|]. intros H1.
  assert (nth_error l (Z.to_nat i) <> None) as H2 by congruence.
  apply nth_error_Some in H2. lia.
Qed.

Lemma zget_none {A} (l : list A) i : ~ 0 <= i < zlen l -> zget l i = None.
Proof.
  intros H. destruct (zget l i) eqn:E; auto. apply zget_range in E. contradiction.
Qed.

Lemma zset_some {A} (l : list A) i v :
  0 <= i < zlen l -> zset l i v = Some (upd l (Z.to_nat i) v).
Proof.
  intros H. unfold zset.
  destruct (Z.leb_spec 0 i); [|lia]. destruct (Z.ltb_spec i (zlen l)); [reflexivity|lia].
Qed.

Lemma zset_inv {A} (l : list A) i v l' :
  zset l i v = Some l' -> 0 <= i < zlen l /\ l' = upd l (Z.to_nat i) v.
Proof.
  unfold zset. destruct (Z.leb_spec 0 i); simpl; [|discriminate].
  destruct (Z.ltb_spec i (zlen l)); [|discriminate]. intros E; injection E; split; auto; lia.
Qed.

Lemma zset_none {A} (l : list A) i v : ~ 0 <= i < zlen l -> zset l i v = None.
Proof. intros H. destruct (zset l i v) eqn:E; auto. apply zset_inv in E. tauto. Qed.

Lemma zget_zset_same {A} (l l' : list A) i v : zset l i v = Some l' -> zget l' i = Some v.
Proof.
  intros H. apply zset_inv in H as [H ->]. unfold zget.
  destruct (Z.ltb_spec i 0); try lia.
  apply nth_error_upd_same. unfold zlen in H; lia.
Qed.

Lemma zget_zset_other {A} (l l' : list A) i j v :
  zset l i v = Some l' -> i <> j -> zget l' j = zget l j.
Proof.
  intros H N. apply zset_inv in H as [H ->]. unfold zget.
  destruct (Z.ltb_spec j 0); auto.
  apply nth_error_upd_other. lia.
Qed.

Lemma zlen_zset {A} (l l' : list A) i v : zset l i v = Some l' -> zlen l' = zlen l.
Proof. intros H. apply zset_inv in H as [H ->]. apply zlen_upd. Qed.

Lemma zlen_nonneg {A} (l : list A) : 0 <= zlen l.
Proof. unfold zlen; lia. Qed.

Lemma nth_error_ext {A} (l1 l2 : list A) :
  (forall n, nth_error l1 n = nth_error l2 n) -> l1 = l2.
Proof.
  revert l2; induction l1 as [|x l1 IH]; intros [|y l2] H; auto.
  - specialize (H O); discriminate.
  - specialize (H O); discriminate.
  - f_equal.
    + specialize (H O); simpl in H; congruence.
    + apply IH. intros n. exact (H (S n)).
Qed.

Lemma zget_ext {A} (l1 l2 : list A) :
  zlen l1 = zlen l2 -> (forall i, 0 <= i < zlen l1 -> zget l1 i = zget l2 i) -> l1 = l2.
Proof.
  unfold zlen; intros HL H. apply nth_error_ext. intros n.
  destruct (Nat.lt_ge_cases n (length l1)) as [Hn|Hn].
  - specialize (H (Z.of_nat n)). unfold zget in H.
    destruct (Z.ltb_spec (Z.of_nat n) 0); try lia.
    rewrite !Nat2Z.id in H. apply H. lia.
  - rewrite (proj2 (nth_error_None l1 n)) by lia.
    rewrite (proj2 (nth_error_None l2 n)) by lia. reflexivity.
Qed.

Lemma zseq_length lo n : length (zseq lo n) = n.
Proof. revert lo; induction n; simpl; auto. Qed.

Lemma in_zseq lo n x : In x (zseq lo n) <-> lo <= x < lo + Z.of_nat n.
Proof.
  revert lo; induction n as [|n IH]; intros lo; simpl; [lia|].
  rewrite IH. lia.
Qed.

Lemma nodup_zseq lo n : NoDup (zseq lo n).
Proof.
  revert lo; induction n as [|n IH]; intros lo; simpl; constructor; auto.
  rewrite in_zseq. lia.
Qed.

Lemma nth_error_zseq lo n k : (k < n)%nat -> nth_error (zseq lo n) k = Some (lo + Z.of_nat k).
Proof.
  revert lo k; induction n as [|n IH]; intros lo [|k] H; simpl; try lia.
  - f_equal; lia.
  - rewrite IH by lia. f_equal; lia.
Qed.

Lemma in_zrange lo hi x : In x (zrange lo hi) <-> lo <= x < hi.
Proof. unfold zrange; rewrite in_zseq. lia. Qed.

Lemma nodup_zrange lo hi : NoDup (zrange lo hi).
Proof. apply nodup_zseq. Qed.

Lemma zlen_zrange lo hi : zlen (zrange lo hi) = Z.max 0 (hi - lo).
Proof. unfold zlen, zrange; rewrite zseq_length. lia. Qed.

Lemma zget_zrange lo hi k : 0 <= k < hi - lo -> zget (zrange lo hi) k = Some (lo + k).
Proof.
  intros H. unfold zget, zrange. destruct (Z.ltb_spec k 0); try lia.
  rewrite nth_error_zseq by lia. f_equal; lia.
Qed.

Lemma zseq_app lo n m : zseq lo (n + m) = zseq lo n ++ zseq (lo + Z.of_nat n) m.
Proof.
  revert lo; induction n as [|n IH]; intros lo; simpl.
  - f_equal; lia.
  - rewrite IH. do 3 f_equal. lia.
Qed.

Lemma zrange_empty lo hi : hi <= lo -> zrange lo hi = [].
Proof. intros H. unfold zrange. replace (Z.to_nat (hi - lo)) with O by lia. reflexivity. Qed.

Lemma zrange_cons lo hi : lo < hi -> zrange lo hi = lo :: zrange (lo + 1) hi.
Proof.
  intros H. unfold zrange. replace (Z.to_nat (hi - lo)) with (S (Z.to_nat (hi - (lo+1)))) by lia.
  reflexivity.
Qed.

Lemma zrange_snoc lo hi : lo < hi -> zrange lo hi = zrange lo (hi - 1) ++ [hi - 1].
Proof.
  intros H. unfold zrange.
  replace (Z.to_nat (hi - lo)) with (Z.to_nat (hi - 1 - lo) + 1)%nat by lia.
  rewrite zseq_app. simpl. do 2 f_equal. lia.
Qed.

Lemma zrange_split lo mid hi : lo <= mid <= hi -> zrange lo hi = zrange lo mid ++ zrange mid hi.
Proof.
  intros H. unfold zrange.
  replace (Z.to_nat (hi - lo)) with (Z.to_nat (mid - lo) + Z.to_nat (hi - mid))%nat by lia.
  rewrite zseq_app. do 2 f_equal. lia.
Qed.

Lemma zget_map {A B} (f : A -> B) l i : zget (map f l) i = option_map f (zget l i).
Proof. unfold zget. destruct (i <? 0); auto. apply nth_error_map. Qed.

Lemma zlen_map {A B} (f : A -> B) l : zlen (map f l) = zlen l.
Proof. unfold zlen; rewrite map_length; reflexivity. Qed.

Lemma zlen_app {A} (l1 l2 : list A) : zlen (l1 ++ l2) = zlen l1 + zlen l2.
Proof. unfold zlen; rewrite app_length; lia. Qed.

Lemma zget_app_l {A} (l1 l2 : list A) i : i < zlen l1 -> zget (l1 ++ l2) i = zget l1 i.
Proof.
  unfold zget, zlen; intros H. destruct (Z.ltb_spec i 0); auto.
  apply nth_error_app1. lia.
Qed.

Lemma zget_app_r {A} (l1 l2 : list A) i :
  zlen l1 <= i -> zget (l1 ++ l2) i = zget l2 (i - zlen l1).
Proof.
  unfold zget, zlen; intros H. destruct (Z.ltb_spec i 0); try lia.
  destruct (Z.ltb_spec (i - Z.of_nat (length l1)) 0); try lia.
  rewrite nth_error_app2 by lia. f_equal. lia.
Qed.

Lemma zget_in {A} (l : list A) i v : zget l i = Some v -> In v l.
Proof.
  unfold zget. destruct (i <? 0); [discriminate|]. apply nth_error_In.
Qed.

Lemma in_zget {A} (l : list A) v : In v l -> exists i, 0 <= i < zlen l /\ zget l i = Some v.
Proof.
  intros H. apply In_nth_error in H as [n H]. exists (Z.of_nat n).
  assert (E : zget l (Z.of_nat n) = Some v).
  { unfold zget. destruct (Z.ltb_spec (Z.of_nat n) 0); try lia. rewrite Nat2Z.id. exact H. }
  split; auto. eapply zget_range; eauto.
Qed.

Lemma zget_nodup {A} (l : list A) i j v :
  NoDup l -> zget l i = Some v -> zget l j = Some v -> i = j.
Proof.
  intros ND Hi Hj.
  pose proof (zget_range _ _ _ Hi). pose proof (zget_range _ _ _ Hj).
  unfold zget in *. destruct (Z.ltb_spec i 0); try lia. destruct (Z.ltb_spec j 0); try lia.
  assert (Z.to_nat i = Z.to_nat j).
  { eapply NoDup_nth_error; eauto. unfold zlen in *; lia. congruence. }
  lia.
Qed.
