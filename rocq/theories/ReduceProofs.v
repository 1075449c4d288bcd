(** Every order and bracketing of an exact reduction gives the same value. *)
From Coq Require Import ZArith List Reals Lra Lia Permutation.
From Verif Require Import Num ModelReduce SpecField SumProofs.
Import ListNotations.
Local Open Scope R_scope.

Lemma combines_sum l v : combines Rplus l v -> v = Rsum l.
Proof.
  induction 1 as [x|l1 l2 x y H1 IH1 H2 IH2]; simpl; [lra|]. rewrite Rsum_app, <- IH1, <- IH2. auto.
Qed.
Lemma combines_exists {V} (op : V -> V -> V) x l : exists v, combines op (x :: l) v.
Proof.
  revert x. induction l as [|y l IH]; intros x; [exists x; constructor|].
  destruct (IH y) as (v & H). exists (op x v). apply (comb_two op [x] (y :: l)); auto. constructor.
Qed.
Lemma reduction_exists {V} (op : V -> V -> V) e i l : exists v, reduction op e i l v.
Proof. destruct (combines_exists op i l) as (v & H). exists v, 0%nat, (i :: l). split; auto. Qed.

Lemma Rsum_repeat0 n : Rsum (repeat 0 n) = 0.
Proof. induction n; simpl; [auto|]. rewrite IHn. lra. Qed.

Lemma reduction_sum l v : reduction Rplus 0 0 l v <-> v = Rsum l.
Proof.
  split.
  - intros (n & l' & P & H). apply combines_sum in H. rewrite H, <- (Rsum_perm _ _ P).
    simpl. rewrite Rsum_app, Rsum_repeat0. lra.
  - intros ->. destruct (combines_exists Rplus 0 l) as (v & H). exists 0%nat, (0 :: l). split; auto.
    pose proof (combines_sum _ _ H) as E. simpl in E. replace (Rsum l) with v by (rewrite E; lra). auto.
Qed.

(** Minimum and maximum: any reduction returns a least (greatest) contribution. *)
Definition is_min (l : list R) (v : R) : Prop := In v l /\ forall x, In x l -> v <= x.
Definition is_max (l : list R) (v : R) : Prop := In v l /\ forall x, In x l -> x <= v.

Lemma nmin_R x y : nmin x y = Rmin x y.
Proof.
  unfold nmin. simpl. unfold Rltb, Rmin. destruct (Rlt_dec y x), (Rle_dec x y); lra.
Qed.
Lemma nmax_R x y : nmax x y = Rmax x y.
Proof.
  unfold nmax. simpl. unfold Rltb, Rmax. destruct (Rlt_dec x y), (Rle_dec x y); lra.
Qed.

Lemma combines_min l v : combines nmin l v -> is_min l v.
Proof.
  induction 1 as [x|l1 l2 x y H1 (I1 & B1) H2 (I2 & B2)].
  - split; simpl; auto. intros x0 [->|[]]. lra.
  - rewrite nmin_R. split.
    + apply in_or_app. unfold Rmin. destruct (Rle_dec x y); auto.
    + intros z Hz. apply in_app_or in Hz as [Hz|Hz].
      * eapply Rle_trans; [apply Rmin_l|auto].
      * eapply Rle_trans; [apply Rmin_r|auto].
Qed.
Lemma combines_max l v : combines nmax l v -> is_max l v.
Proof.
  induction 1 as [x|l1 l2 x y H1 (I1 & B1) H2 (I2 & B2)].
  - split; simpl; auto. intros x0 [->|[]]. lra.
  - rewrite nmax_R. split.
    + apply in_or_app. unfold Rmax. destruct (Rle_dec x y); auto.
    + intros z Hz. apply in_app_or in Hz as [Hz|Hz].
      * eapply Rle_trans; [|apply Rmax_l]. auto.
      * eapply Rle_trans; [|apply Rmax_r]. auto.
Qed.

Lemma reduction_in {V} e i (l : list V) n l' x :
  Permutation (i :: repeat e n ++ l) l' -> (In x l' <-> x = i \/ In x (repeat e n) \/ In x l).
Proof.
  intros P. split.
  - intros H. apply (Permutation_in _ (Permutation_sym P)) in H. destruct H as [->|H]; auto.
    apply in_app_or in H. tauto.
  - intros H. apply (Permutation_in _ P). destruct H as [->|[H|H]]; [left; auto| |]; right; apply in_or_app; auto.
Qed.

Lemma reduction_min i l v : reduction nmin i i l v -> is_min (i :: l) v.
Proof.
  intros (n & l' & P & H). apply combines_min in H as (I & B). split.
  - apply (reduction_in _ _ _ _ _ v P) in I. simpl. destruct I as [->|[I|I]]; auto.
    apply repeat_spec in I. auto.
  - intros x Hx. apply B. apply (reduction_in _ _ _ _ _ x P). simpl in Hx. destruct Hx; auto.
Qed.
Lemma reduction_max i l v : reduction nmax i i l v -> is_max (i :: l) v.
Proof.
  intros (n & l' & P & H). apply combines_max in H as (I & B). split.
  - apply (reduction_in _ _ _ _ _ v P) in I. simpl. destruct I as [->|[I|I]]; auto.
    apply repeat_spec in I. auto.
  - intros x Hx. apply B. apply (reduction_in _ _ _ _ _ x P). simpl in Hx. destruct Hx; auto.
Qed.
