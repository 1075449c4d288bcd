(** Facts about the text functions. *)
From Coq Require Import ZArith List String Ascii Bool Lia ZifyBool.
Import ListNotations.
From Verif Require Import Outcome ModelText.
Local Open Scope string_scope.
Local Open Scope list_scope.
Local Open Scope Z_scope.

Lemma digit_range d : 0 <= d < 10 -> d = 0 \/ d = 1 \/ d = 2 \/ d = 3 \/ d = 4 \/ d = 5 \/ d = 6 \/ d = 7 \/ d = 8 \/ d = 9.
Proof. lia. Qed.

Lemma digit_value_char d : 0 <= d < 10 -> digit_value (digit_char d) = Some d.
Proof. intros H. destruct (digit_range d H) as [E|[E|[E|[E|[E|[E|[E|[E|[E|E]]]]]]]]]; rewrite E; reflexivity. Qed.

Lemma digit_value_range c v : digit_value c = Some v -> 0 <= v < 10.
Proof.
  unfold digit_value. destruct (_ && _) eqn:E; [|discriminate]. intros H. injection H as <-.
  apply andb_true_iff in E as (A & B). lia.
Qed.

Lemma append_assoc s t u : ((s ++ t) ++ u = s ++ (t ++ u))%string.
Proof. induction s as [|c s IH]; cbn [append]; [reflexivity|rewrite IH; reflexivity]. Qed.
Lemma append_nil s : (s ++ "" = s)%string.
Proof. induction s as [|c s IH]; cbn [append]; [reflexivity|rewrite IH; reflexivity]. Qed.
Lemma length_append s t : String.length (s ++ t) = (String.length s + String.length t)%nat.
Proof. induction s as [|c s IH]; cbn [append String.length]; [reflexivity|rewrite IH; reflexivity]. Qed.
Lemma append_cancel s t u : (s ++ t = s ++ u)%string -> t = u.
Proof. induction s as [|c s IH]; cbn [append]; auto. intros H. injection H as H. auto. Qed.
Lemma append_cancel_r : forall s t u, (s ++ u = t ++ u)%string -> s = t.
Proof.
  induction s as [|c s IH]; intros [|d t] u H; auto.
  - apply (f_equal String.length) in H. rewrite !length_append in H. cbn in H. lia.
  - apply (f_equal String.length) in H. rewrite !length_append in H. cbn in H. lia.
  - cbn [append] in H. injection H as -> H. f_equal. eauto.
Qed.

Lemma digits_value_app v s t :
  digits_value v (s ++ t) = match digits_value v s with Some x => digits_value x t | None => None end.
Proof.
  revert v. induction s as [|c s IH]; intros v; cbn [append digits_value]; auto. destruct (digit_value c); auto.
Qed.

Lemma digits_value_bounds s : forall v x, digits_value v s = Some x ->
  v * 10 ^ Z.of_nat (String.length s) <= x < (v + 1) * 10 ^ Z.of_nat (String.length s).
Proof.
  induction s as [|c s IH]; intros v x H; cbn [digits_value String.length] in *.
  - injection H as ->. cbn. lia.
  - destruct (digit_value c) as [k|] eqn:E; [|discriminate]. apply digit_value_range in E.
    apply IH in H. rewrite Nat2Z.inj_succ, Z.pow_succ_r by lia. pose proof (Z.pow_pos_nonneg 10 (Z.of_nat (String.length s))). nia.
Qed.

Lemma dec_digits_spec : forall f n acc, (1 <= f)%nat -> 0 <= n < 10 ^ Z.of_nat f ->
  exists s, dec_digits f n acc = (s ++ acc)%string /\ s <> "" /\
    (forall v, digits_value v s = Some (v * 10 ^ Z.of_nat (String.length s) + n)) /\
    (1 <= n -> 10 ^ (Z.of_nat (String.length s) - 1) <= n).
Proof.
  induction f as [|f IH]; intros n acc Hf Hn; [lia|]. cbn [dec_digits].
  pose proof (Z.mod_pos_bound n 10 ltac:(lia)) as HM. pose proof (Z.div_mod n 10 ltac:(lia)) as HD.
  destruct (Z.ltb_spec n 10) as [L|L].
  - exists (String (digit_char (n mod 10)) ""). cbn [append String.length]. split; auto. split; [discriminate|]. split.
    + intros v. cbn [digits_value]. rewrite digit_value_char by lia. rewrite Z.mod_small by lia. f_equal. change (10 ^ Z.of_nat 1) with 10. lia.
    + intros ?. change (10 ^ (Z.of_nat 1 - 1)) with 1. lia.
  - rewrite Nat2Z.inj_succ, Z.pow_succ_r in Hn by lia.
    assert (F1 : (1 <= f)%nat) by (destruct f; [cbn in Hn; lia|lia]).
    destruct (IH (n / 10) (String (digit_char (n mod 10)) acc) F1) as (s & E & NE & V & LB).
    { split; [apply Z.div_pos; lia|apply Z.div_lt_upper_bound; lia]. }
    exists (s ++ String (digit_char (n mod 10)) "")%string. split; [rewrite E, append_assoc; reflexivity|]. split.
    { destruct s; [congruence|discriminate]. }
    rewrite length_append. cbn [String.length]. rewrite Nat2Z.inj_add. change (Z.of_nat 1) with 1. split.
    + intros v. rewrite digits_value_app, V. cbn [digits_value]. rewrite digit_value_char by lia.
      rewrite Z.pow_add_r by lia. f_equal. change (10 ^ 1) with 10. rewrite Z.mul_assoc. lia.
    + intros _. assert (1 <= n / 10) by (apply Z.div_le_lower_bound; lia). specialize (LB H).
      assert (1 <= Z.of_nat (String.length s)) by (destruct s; [congruence|cbn [String.length]; lia]).
      replace (Z.of_nat (String.length s) + 1 - 1) with (Z.succ (Z.of_nat (String.length s) - 1)) by lia.
      rewrite Z.pow_succ_r by lia. lia.
Qed.

Lemma dec_fuel n : 0 <= n -> n < 10 ^ Z.of_nat (S (Z.to_nat (Z.log2 n))).
Proof.
  intros H. pose proof (Z.log2_nonneg n) as G. rewrite Nat2Z.inj_succ, Z2Nat.id by auto.
  destruct (Z.eq_dec n 0) as [->|N]; [cbn; lia|].
  pose proof (Z.log2_spec n ltac:(lia)) as (_ & U).
  apply Z.lt_le_trans with (1 := U). apply Z.pow_le_mono_l. lia.
Qed.

Lemma dec_spec n : 0 <= n -> dec n <> "" /\
  (forall v, digits_value v (dec n) = Some (v * 10 ^ Z.of_nat (String.length (dec n)) + n)) /\
  (1 <= n -> 10 ^ (Z.of_nat (String.length (dec n)) - 1) <= n).
Proof.
  intros H. unfold dec. destruct (Z.ltb_spec n 0); [lia|].
  destruct (dec_digits_spec (S (Z.to_nat (Z.log2 n))) n "") as (s & E & NE & V & LB); [lia|pose proof (dec_fuel n H); lia|].
  rewrite E, append_nil. auto.
Qed.

Lemma dec_value n : 0 <= n -> digits_value 0 (dec n) = Some n.
Proof. intros H. destruct (dec_spec n H) as (_ & V & _). rewrite V. f_equal. Qed.

Lemma dec_inj i j : 0 <= i -> 0 <= j -> dec i = dec j -> i = j.
Proof. intros Hi Hj E. pose proof (dec_value i Hi) as A. rewrite E, dec_value in A by auto. congruence. Qed.

Definition is_digit (c : ascii) : Prop := exists v, digit_value c = Some v.
Fixpoint every (P : ascii -> Prop) (s : string) : Prop :=
  match s with EmptyString => True | String c s' => P c /\ every P s' end.
Lemma every_app P s t : every P (s ++ t) <-> every P s /\ every P t.
Proof. induction s as [|c s IH]; cbn [append every]; tauto. Qed.
Lemma every_impl (P Q : ascii -> Prop) s : (forall c, P c -> Q c) -> every P s -> every Q s.
Proof. intros H. induction s as [|c s IH]; cbn [every]; auto. intros (A & B). auto. Qed.

Lemma digits_every s : forall v x, digits_value v s = Some x -> every is_digit s.
Proof.
  induction s as [|c s IH]; intros v x H; cbn [digits_value every] in *; auto.
  destruct (digit_value c) eqn:E; [|discriminate]. split; [exists z; auto|eauto].
Qed.
Lemma dec_every n : 0 <= n -> every is_digit (dec n).
Proof. intros H. eapply digits_every. apply dec_value; auto. Qed.

Lemma lexical_dec n : 0 <= n <= 2147483647 -> lexical_int (dec n) = Ok n.
Proof.
  intros H. destruct (dec_spec n ltac:(lia)) as (NE & V & _). pose proof (dec_every n ltac:(lia)) as ED.
  specialize (V 0). unfold lexical_int.
  assert (U : unsigned_value (dec n) = Some n).
  { unfold unsigned_value. destruct (dec n) eqn:E; [congruence|]. rewrite V. f_equal. }
  destruct (dec n) as [|c s] eqn:E; [congruence|].
  assert (K : match String c s with String "-" s' => option_map Z.opp (unsigned_value s')
                | String "+" s' => unsigned_value s' | _ => unsigned_value (String c s) end = Some n).
  { destruct ED as ((v & D) & _). clear - U D.
    destruct c as [[] [] [] [] [] [] [] []]; first [exact U|discriminate D]. }
  destruct (match String c s with String "-" s' => option_map Z.opp (unsigned_value s')
                | String "+" s' => unsigned_value s' | _ => unsigned_value (String c s) end) as [w|] eqn:EK; [|discriminate].
  assert (w = n) by congruence. subst w.
  replace ((-2147483648 <=? n) && (n <=? 2147483647)) with true by (symmetry; apply andb_true_iff; split; apply Z.leb_le; lia).
  exact eq_refl.
Qed.

(** ** Padding *)
Lemma repeat_char_app c n s : repeat_char c n s = (repeat_char c n "" ++ s)%string.
Proof. induction n; cbn [repeat_char append]; [reflexivity|rewrite IHn; reflexivity]. Qed.
Lemma length_repeat c n s : String.length (repeat_char c n s) = (n + String.length s)%nat.
Proof. induction n; cbn [repeat_char String.length]; lia. Qed.
Lemma value_zeros n s : digits_value 0 (repeat_char "0" n s) = digits_value 0 s.
Proof. induction n; cbn [repeat_char digits_value]; auto. Qed.
Lemma pad0_value w s : digits_value 0 (pad0 w s) = digits_value 0 s.
Proof. apply value_zeros. Qed.
Lemma pad0_length w s : Z.of_nat (String.length s) <= w -> Z.of_nat (String.length (pad0 w s)) = w.
Proof. intros H. unfold pad0. rewrite length_repeat. lia. Qed.

(** ** Order *)
Lemma compare_prefix s t u : String.compare (s ++ t) (s ++ u) = String.compare t u.
Proof.
  induction s as [|c s IH]; cbn [append String.compare]; auto.
  unfold Ascii.compare. rewrite N.compare_refl. exact IH.
Qed.
Lemma compare_suffix : forall s t u, String.length s = String.length t ->
  String.compare s t = Lt -> String.compare (s ++ u) (t ++ u) = Lt.
Proof.
  induction s as [|c s IH]; intros [|d t] u HL HC; cbn [append String.compare String.length] in *; try discriminate.
  destruct (Ascii.compare c d) eqn:E; auto; discriminate.
Qed.
Lemma digit_code c v : digit_value c = Some v -> Z.of_N (N_of_ascii c) = 48 + v.
Proof. unfold digit_value. destruct (_ && _); [|discriminate]. intros H. injection H as <-. lia. Qed.
Lemma compare_digits : forall s t a x y, String.length s = String.length t ->
  digits_value a s = Some x -> digits_value a t = Some y -> x < y -> String.compare s t = Lt.
Proof.
  induction s as [|c s IH]; intros [|d t] a x y HL HX HY LT; cbn [digits_value String.length String.compare] in *; try discriminate.
  - injection HX as <-. injection HY as <-. lia.
  - destruct (digit_value c) as [p|] eqn:P; [|discriminate]. destruct (digit_value d) as [q|] eqn:Q; [|discriminate].
    injection HL as HL. pose proof (digit_code c p P) as CP. pose proof (digit_code d q Q) as CQ.
    destruct (Z.compare_spec p q) as [E|E|E].
    + subst q. assert (N_of_ascii c = N_of_ascii d) by lia. unfold Ascii.compare. rewrite H, N.compare_refl.
      eapply IH; eauto.
    + unfold Ascii.compare. assert ((N_of_ascii c ?= N_of_ascii d)%N = Lt) by (apply N.compare_lt_iff; lia).
      rewrite H. reflexivity.
    + exfalso. apply digits_value_bounds in HX. apply digits_value_bounds in HY. rewrite <- HL in HY.
      pose proof (Z.pow_pos_nonneg 10 (Z.of_nat (String.length s))). nia.
Qed.

(** ** Words *)
Section Words.
  Variable p : ascii -> bool.
  Definition blank_text (s : string) : Prop := every (fun c => p c = true) s.
  Definition solid (s : string) : Prop := s <> "" /\ every (fun c => p c = false) s.

  (** The maximal pieces without separators. *)
  Definition close (cur : string) (l : list string) : list string := match cur with EmptyString => l | _ => cur :: l end.
  Fixpoint words (cur : string) (s : string) : list string :=
    match s with
    | EmptyString => close cur []
    | String c s' => if p c then close cur (words "" s') else words (cur ++ String c "")%string s'
    end.

  Lemma words_blank b s : blank_text b -> words "" (b ++ s) = words "" s.
  Proof. induction b as [|c b IH]; cbn [append words]; auto. intros (H & HB). rewrite H. cbn [close]. auto. Qed.
  Lemma words_solid t : forall cur s, every (fun c => p c = false) t -> words cur (t ++ s) = words (cur ++ t) s.
  Proof.
    induction t as [|c t IH]; intros cur s; cbn [append words].
    - rewrite append_nil. auto.
    - intros (H & HT). rewrite H, IH by auto. rewrite append_assoc. reflexivity.
  Qed.
  Lemma words_close cur b s : b <> "" -> blank_text b -> words cur (b ++ s) = close cur (words "" s).
  Proof.
    destruct b as [|c b]; [congruence|]. intros _ (H & HB). cbn [append words]. rewrite H, words_blank by auto. reflexivity.
  Qed.
  Lemma words_token t b s : solid t -> b <> "" -> blank_text b -> words "" (t ++ b ++ s) = t :: words "" s.
  Proof.
    intros (NE & HT) NB HB. rewrite words_solid by auto. cbn [append]. rewrite words_close by auto.
    destruct t; [congruence|reflexivity].
  Qed.
  Lemma words_last t : solid t -> words "" t = [t].
  Proof.
    intros (NE & HT). rewrite <- (append_nil t) at 1. rewrite words_solid by auto. cbn. destruct t; [congruence|reflexivity].
  Qed.

  Lemma trim_left_words s : words "" (trim_left p s) = words "" s.
  Proof.
    induction s as [|c s IH]; cbn [trim_left]; auto. destruct (p c) eqn:E; auto.
    rewrite IH. cbn [words]. rewrite E. reflexivity.
  Qed.
  Lemma trim_left_head s : match trim_left p s with EmptyString => True | String c _ => p c = false end.
  Proof. induction s as [|c s IH]; cbn [trim_left]; auto. destruct (p c) eqn:E; auto. Qed.
  Lemma trim_right_split s : exists b, blank_text b /\ s = (trim_right p s ++ b)%string.
  Proof.
    induction s as [|c s (b & HB & E)]; [exists ""; split; [exact I|reflexivity]|]. cbn [trim_right].
    destruct (trim_right p s) as [|c' r] eqn:T.
    - cbn [append] in E. destruct (p c) eqn:PC.
      + exists (String c b). split; [split; auto|rewrite E; reflexivity].
      + exists b. split; auto. rewrite E. reflexivity.
    - exists b. split; auto. rewrite E at 1. reflexivity.
  Qed.
  Lemma trim_right_last s : match trim_right p s with
    | EmptyString => True | String c r => exists u d, String c r = (u ++ String d "")%string /\ p d = false end.
  Proof.
    induction s as [|c s IH]; cbn [trim_right]; auto. destruct (trim_right p s) as [|c' r].
    - destruct (p c) eqn:PC; auto. exists "", c. auto.
    - destruct IH as (u & d & E & PD). exists (String c u), d. split; auto. rewrite E. reflexivity.
  Qed.
  Lemma words_tail s : forall cur b, blank_text b -> words cur (s ++ b) = words cur s.
  Proof.
    induction s as [|c s IH]; intros cur b HB; cbn [append words].
    - destruct b as [|c b]; auto. rewrite <- (append_nil (String c b)), words_close by (auto; discriminate). reflexivity.
    - destruct (p c); rewrite IH by auto; reflexivity.
  Qed.

  (** On a string that starts and ends with a non-separator, split gives the words. *)
  Lemma append_nonempty cur c : (cur ++ String c "")%string <> "".
  Proof. destruct cur; discriminate. Qed.

  Lemma split_from_words s d : p d = false -> forall cur,
    (cur <> "" -> split_from p false cur (s ++ String d "") = words cur (s ++ String d "")) /\
    split_from p true "" (s ++ String d "") = words "" (s ++ String d "").
  Proof.
    intros PD. induction s as [|c s IH]; intros cur; cbn [append split_from words].
    - rewrite PD. cbn [split_from words append]. split.
      + intros NE. destruct cur; [congruence|reflexivity].
      + reflexivity.
    - destruct (p c) eqn:PC.
      + split.
        * intros NE. rewrite (proj2 (IH "")). destruct cur; [congruence|reflexivity].
        * rewrite (proj2 (IH "")). reflexivity.
      + split.
        * intros NE. apply IH, append_nonempty.
        * change ("" ++ String c "")%string with (String c "")%string. apply IH. discriminate.
  Qed.

  Lemma split_compress_words s : words "" s <> [] -> split_compress p (trim_if p s) = words "" s.
  Proof.
    intros NE. unfold split_compress, trim_if. rewrite <- trim_left_words in *. pose proof (trim_left_head s) as HD.
    set (l := trim_left p s) in *. clearbody l.
    destruct (trim_right_split l) as (b & HB & E). pose proof (trim_right_last l) as HT.
    assert (W : words "" l = words "" (trim_right p l)) by (rewrite E at 1; apply words_tail; auto).
    rewrite W in *. destruct (trim_right p l) as [|c r] eqn:TR; [cbn in NE; congruence|].
    assert (PC : p c = false) by (rewrite E in HD; exact HD).
    destruct HT as (u & d & EU & PD). rewrite EU in *.
    destruct u as [|c' u]; cbn [append] in *; injection EU as -> ->.
    - cbn [split_from words]. rewrite PC. reflexivity.
    - cbn [split_from words]. rewrite PC. change ("" ++ String c' "")%string with (String c' "")%string.
      apply (proj1 (split_from_words u d PD (String c' ""))). discriminate.
  Qed.
End Words.
