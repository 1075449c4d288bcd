(** Reading a number does not depend on the capitalisation of its letters. *)
From Coq Require Import ZArith String Ascii List Lia.
From Verif Require Import Outcome ModelDouble SpecDouble ModelText.
Import ListNotations.
Local Open Scope string_scope.
Local Open Scope Z_scope.

Lemma letters_case i c d : String.get i capitals = Some c -> String.get i smalls = Some d ->
  lower c = lower d /\ digit_value c = None /\ digit_value d = None /\
  c <> "-"%char /\ c <> "+"%char /\ c <> "."%char /\ d <> "-"%char /\ d <> "+"%char /\ d <> "."%char.
Proof.
  do 26 (destruct i as [|i]; [cbn; intros [= <-] [= <-]; repeat split; try reflexivity; discriminate|]).
  cbn. destruct i; discriminate.
Qed.

Lemma letter_inv c d : same_letter c d ->
  c = d \/ (lower c = lower d /\ digit_value c = None /\ digit_value d = None /\
  c <> "-"%char /\ c <> "+"%char /\ c <> "."%char /\ d <> "-"%char /\ d <> "+"%char /\ d <> "."%char).
Proof.
  intros [E|(i & [(A & B)|(A & B)])]; [auto| |]; right.
  - exact (letters_case i c d A B).
  - destruct (letters_case i d c B A) as (H1 & H2 & H3 & H). intuition congruence.
Qed.

Lemma same_refl s : same_text s s.
Proof. induction s as [|c s IH]; cbn; [exact I|]. split; [left; reflexivity|exact IH]. Qed.

Lemma same_lower s : forall t, same_text s t -> lowercase s = lowercase t.
Proof.
  induction s as [|c s IH]; intros [|d t] H; cbn in *; try contradiction; auto.
  destruct H as (A & B). rewrite (IH t B). destruct (letter_inv c d A) as [->|(-> & _)]; reflexivity.
Qed.

Lemma sign_other c r : c <> "-"%char -> c <> "+"%char -> split_sign (String c r) = (false, String c r).
Proof.
  intros A B. destruct c as [[] [] [] [] [] [] [] []]; cbn; try reflexivity; exfalso; try (apply A; reflexivity); try (apply B; reflexivity).
Qed.

Lemma same_sign s t : same_text s t ->
  fst (split_sign s) = fst (split_sign t) /\ same_text (snd (split_sign s)) (snd (split_sign t)).
Proof.
  destruct s as [|c s], t as [|d t]; cbn [same_text]; try contradiction; [intros _; cbn; auto|].
  intros (A & B). destruct (letter_inv c d A) as [->|(_ & _ & _ & N1 & N2 & _ & N3 & N4 & _)].
  - destruct (Ascii.ascii_dec d "-"%char) as [->|Nm]; [cbn; auto|].
    destruct (Ascii.ascii_dec d "+"%char) as [->|Np]; [cbn; auto|].
    rewrite !sign_other by assumption. cbn. repeat split; auto; left; reflexivity.
  - rewrite !sign_other by assumption. cbn. auto.
Qed.

Lemma same_digits s : forall t, same_text s t ->
  fst (take_digits s) = fst (take_digits t) /\ same_text (snd (take_digits s)) (snd (take_digits t)).
Proof.
  induction s as [|c s IH]; intros [|d t]; cbn [same_text]; try contradiction; [cbn; auto|].
  intros (A & B). destruct (IH t B) as (I1 & I2). cbn [take_digits].
  destruct (letter_inv c d A) as [->|(_ & Dc & Dd & _)].
  - destruct (digit_value d).
    + destruct (take_digits s), (take_digits t). cbn in *. subst. auto.
    + cbn. repeat split; auto; left; reflexivity.
  - rewrite Dc, Dd. cbn. auto.
Qed.

Lemma point_other c r : c <> "."%char ->
  match String c r with String "." t => take_digits t | _ => ("", String c r) end = ("", String c r).
Proof.
  intros A. destruct c as [[] [] [] [] [] [] [] []]; cbn; try reflexivity; exfalso; apply A; reflexivity.
Qed.

Lemma same_point s t : same_text s t ->
  let f s := match s with String "." t => take_digits t | _ => ("", s) end in
  fst (f s) = fst (f t) /\ same_text (snd (f s)) (snd (f t)).
Proof.
  cbv zeta. destruct s as [|c s], t as [|d t]; cbn [same_text]; try contradiction; [intros _; cbn; auto|].
  intros (A & B). destruct (letter_inv c d A) as [->|(_ & _ & _ & _ & _ & N1 & _ & _ & N2)].
  - destruct (Ascii.ascii_dec d "."%char) as [->|Nm]; [apply same_digits; exact B|].
    rewrite !point_other by assumption. cbn. repeat split; auto; left; reflexivity.
  - rewrite !point_other by assumption. cbn. auto.
Qed.

Lemma same_value s : forall t n, same_text s t -> digits_value n s = digits_value n t.
Proof.
  induction s as [|c s IH]; intros [|d t] n; cbn [same_text]; try contradiction; [reflexivity|].
  intros (A & B). cbn [digits_value]. destruct (letter_inv c d A) as [->|(_ & -> & -> & _)]; [|reflexivity].
  destruct (digit_value d); [apply IH; exact B|reflexivity].
Qed.
Lemma same_unsigned s t : same_text s t -> unsigned_value s = unsigned_value t.
Proof.
  intros H. unfold unsigned_value. destruct s, t; cbn [same_text] in H; try contradiction; [reflexivity|].
  apply same_value. exact H.
Qed.

Lemma read_same (s t : string) : same_text s t -> read_number s = read_number t.
Proof.
  intros H. unfold read_number. destruct (same_sign s t H) as (A & B).
  destruct (split_sign s) as [g r], (split_sign t) as [g' r']. cbn [fst snd] in A, B. subst g'.
  rewrite (same_lower r r' B). destruct (String.eqb (lowercase r') "nan"); [reflexivity|].
  destruct (String.eqb (lowercase r') "inf" || String.eqb (lowercase r') "infinity")%bool; [reflexivity|].
  destruct (same_digits r r' B) as (C & D).
  destruct (take_digits r) as [ip r1], (take_digits r') as [ip' r1']. cbn [fst snd] in C, D. subst ip'.
  pose proof (same_point r1 r1' D) as (E & F). cbv zeta in E, F.
  destruct (match r1 with String "." t => take_digits t | _ => ("", r1) end) as [fp r2].
  destruct (match r1' with String "." t => take_digits t | _ => ("", r1') end) as [fp' r2'].
  cbn [fst snd] in E, F. subst fp'.
  destruct (unsigned_value (ip ++ fp)); [|reflexivity].
  destruct r2 as [|c u], r2' as [|d v]; cbn [same_text] in F; try contradiction; [reflexivity|].
  destruct F as (L & F).
  assert (El : lower c = lower d) by (destruct (letter_inv c d L) as [->|(-> & _)]; reflexivity).
  rewrite El. destruct (Ascii.eqb (lower d) "e"); [|reflexivity].
  destruct (same_sign u v F) as (G & K). destruct (split_sign u) as [e1 w], (split_sign v) as [e2 w'].
  cbn [fst snd] in G, K. subst e2. rewrite (same_unsigned w w' K). reflexivity.
Qed.
