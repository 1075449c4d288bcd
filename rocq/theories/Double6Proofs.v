(** Reading numbers without a point, and refusing everything that is not a number. *)
From Coq Require Import ZArith List String Ascii Bool SpecFloat Lia.
From Verif Require Import Outcome Num ModelText TextProofs SpecVTK ModelDouble SpecDouble SpecNumber
  DoubleProofs Double2Proofs Double3Proofs Double5Proofs.
Import ListNotations.
Local Open Scope string_scope.
Local Open Scope Z_scope.

Lemma short_literal l : good_literal l -> l_fraction l = [] -> read_number (short_text l) = read_number (literal_text l).
Proof.
  intros G F. rewrite read_literal by auto. destruct G as (DW & DF & NE & SG & EX). rewrite F, app_nil_r in *.
  unfold short_text, read_number.
  set (tail := match l_exponent l with None => "" | Some (s, ds) => "e" ++ s ++ written ds end).
  assert (HD : exists c r, written (l_whole l) ++ tail = String c r /\ is_digit c).
  { destruct (l_whole l) as [|d w] eqn:E; [congruence|]; cbn [written append]. inversion DW; subst. do 2 eexists. split; [reflexivity|].
    exists d. apply written_char; auto. }
  destruct HD as (c & r & HD & CC). rewrite HD.
  rewrite sign_split_literal by auto.
  rewrite !not_word by first [left; exact CC|split; [reflexivity|discriminate]]. cbn [orb].
  rewrite <- HD.
  assert (TE : match tail with EmptyString => True | String x _ => digit_value x = None end).
  { unfold tail. destruct (l_exponent l) as [(s, ds)|]; cbn; auto. }
  rewrite take_digits_app by (auto; apply written_every; auto).
  assert (TP : (match tail with String "." t => take_digits t | _ => ("", tail) end) = ("", tail)).
  { unfold tail. destruct (l_exponent l) as [(s, ds)|]; reflexivity. }
  rewrite TP. clear TP.
  assert (AE : written (l_whole l) ++ "" = written (l_whole l)).
  { clear. induction (written (l_whole l)); cbn; congruence. }
  rewrite AE.
  rewrite (unsigned_digits _ (number (l_whole l))).
  2:{ destruct (l_whole l); [congruence|discriminate]. }
  2:{ apply written_value; auto. }
  cbn [String.length List.length]. unfold tail. destruct (l_exponent l) as [(s, ds)|]; cbn [append].
  - destruct EX as (S & D & N). change (Ascii.eqb (lower "e") "e") with true. cbv iota.
    rewrite exponent_split by auto.
    rewrite (unsigned_digits _ (number ds)).
    2:{ destruct ds; [congruence|discriminate]. }
    2:{ apply written_value; auto. }
    f_equal. destruct (String.eqb s "-"); lia.
  - f_equal.
Qed.

(** ** Taking a text apart *)
Lemma same_letter_lower c : same_letter c (lower c).
Proof.
  unfold lower. cbv zeta. destruct ((65 <=? N_of_ascii c) && (N_of_ascii c <=? 90))%N eqn:E; [|left; reflexivity].
  apply andb_prop in E. destruct E as (A & B). apply N.leb_le in A, B. right.
  exists (N.to_nat (N_of_ascii c) - 65)%nat. left. pose proof (ascii_N_embedding c) as C.
  set (n := N_of_ascii c) in *. clearbody n. subst c.
  assert (K : exists k, (k < 26)%nat /\ n = (65 + N.of_nat k)%N) by (exists (N.to_nat n - 65)%nat; lia).
  destruct K as (k & K & ->). replace (N.to_nat (65 + N.of_nat k) - 65)%nat with k by lia. clear A B.
  do 26 (destruct k as [|k]; [split; reflexivity|]). lia.
Qed.
Lemma same_lowercase s : same_text s (lowercase s).
Proof. induction s as [|c s IH]; cbn [lowercase same_text]; auto using same_letter_lower. Qed.
Lemma same_app s t : forall s' t', same_text s s' -> same_text t t' -> same_text (s ++ t) (s' ++ t').
Proof.
  induction s as [|c s IH]; intros [|d s'] t'; cbn [same_text append]; try contradiction; auto.
  intros (A & B) C. auto.
Qed.

Lemma sign_parts s : exists sg, s = sg ++ snd (split_sign s) /\ (sg = "" \/ sg = "+" \/ sg = "-").
Proof.
  destruct s as [|c r]; [exists ""; cbn; auto|].
  destruct (ascii_dec c "-") as [->|A]; [exists "-"; cbn; auto|].
  destruct (ascii_dec c "+") as [->|B]; [exists "+"; cbn; auto|].
  rewrite sign_other by auto. exists ""; cbn; auto.
Qed.
Lemma digits_parts s : s = fst (take_digits s) ++ snd (take_digits s) /\ every is_digit (fst (take_digits s)).
Proof.
  induction s as [|c s IH]; [cbn; auto|]. cbn [take_digits]. destruct (digit_value c) eqn:E; [|cbn; auto].
  destruct (take_digits s) as (d, t). cbn [fst snd append every] in *. destruct IH as (A & B). split; [congruence|].
  split; auto. eexists; eauto.
Qed.
Lemma unsigned_parts s v : unsigned_value s = Some v -> exists ds, digits ds /\ written ds = s /\ ds <> [].
Proof.
  intros E. assert (D : every is_digit s /\ s <> "").
  { destruct s; [discriminate|]. split; [|discriminate]. eapply digits_every. exact E. }
  destruct D as (D & N). destruct (digits_of_string s D) as (ds & A & B). exists ds. repeat split; auto.
  intros ->. cbn in B. congruence.
Qed.

Lemma append_assoc (a b c : string) : (a ++ b) ++ c = a ++ b ++ c.
Proof. induction a; cbn [append]; congruence. Qed.

(** A sign as the literal keeps it. *)
Lemma sign_flags sg : (sg = "" \/ sg = "+" \/ sg = "-") ->
  exists mi pl : bool, (mi = true -> pl = false) /\ (if mi then "-" else if pl then "+" else "") = sg.
Proof.
  intros [->|[->| ->]]; [exists false, false|exists false, true|exists true, false]; split; auto; discriminate.
Qed.

Lemma read_other s : read_number s = Throw \/ is_number s \/ is_word s.
Proof.
  unfold read_number. destruct (sign_parts s) as (sg & E & SG). destruct (split_sign s) as (neg, r). cbn [snd] in E.
  destruct (String.eqb_spec (lowercase r) "nan") as [W|_].
  { right; right. exists sg, "nan". split; auto. split; [right; right; exists ""; reflexivity|]. rewrite E, <- W.
    apply same_app; auto using same_refl, same_lowercase. }
  destruct (String.eqb_spec (lowercase r) "inf") as [W|_].
  { right; right. exists sg, "inf". split; auto. split; auto. rewrite E, <- W.
    apply same_app; auto using same_refl, same_lowercase. }
  destruct (String.eqb_spec (lowercase r) "infinity") as [W|_].
  { right; right. exists sg, "infinity". split; auto. split; auto. rewrite E, <- W.
    apply same_app; auto using same_refl, same_lowercase. }
  cbn [orb]. destruct (digits_parts r) as (R & RD). destruct (take_digits r) as (ip, r1). cbn [fst snd] in R, RD.
  assert (PT : exists fp r2 (dot : bool), (match r1 with String "." t => take_digits t | _ => ("", r1) end) = (fp, r2) /\
    r1 = (if dot then "." else "") ++ fp ++ r2 /\ every is_digit fp /\ (dot = false -> fp = "")).
  { destruct r1 as [|c t]; [exists "", "", false; cbn; auto|].
    destruct (ascii_dec c ".") as [->|N].
    - destruct (digits_parts t) as (A & B). exists (fst (take_digits t)), (snd (take_digits t)), true.
      repeat split; auto; [destruct (take_digits t); reflexivity|cbn [append]; congruence|discriminate].
    - exists "", (String c t), false. rewrite point_other by auto. cbn; auto. }
  destruct PT as (fp & r2 & dot & -> & R1 & FD & ND).
  destruct (unsigned_value (ip ++ fp)) as [n|] eqn:U; [|auto].
  destruct (digits_of_string ip RD) as (w & DW & <-). destruct (digits_of_string fp FD) as (f & DF & <-).
  destruct (sign_flags sg SG) as (mi & pl & MP & <-).
  assert (NE : (w ++ f)%list <> []).
  { intros Z. apply app_eq_nil in Z. destruct Z as (-> & ->). cbn in U. discriminate. }
  assert (G : forall ex tail, (match ex with None => True | Some (s, ds) => (s = "" \/ s = "+" \/ s = "-") /\ digits ds /\ ds <> [] end) ->
    same_text r2 tail -> tail = (match ex with None => "" | Some (s, ds) => "e" ++ s ++ written ds end) -> is_number s).
  { intros ex tail EX ST ->.
    exists {| l_minus := mi; l_plus := pl; l_whole := w; l_fraction := f; l_exponent := ex |}.
    split; [repeat split; auto|]. unfold literal_text, short_text; cbn [l_minus l_plus l_whole l_fraction l_exponent].
    rewrite E, R, R1. destruct dot.
    - left. repeat apply same_app; auto using same_refl.
    - right. assert (f = []) by (destruct f; auto; specialize (ND eq_refl); discriminate). subst f. split; auto. cbn [written append].
      repeat apply same_app; auto using same_refl. }
  destruct r2 as [|c t].
  - right; left. eapply (G None ""); cbn; auto.
  - destruct (Ascii.eqb_spec (lower c) "e") as [C|]; [|auto].
    destruct (sign_parts t) as (es & T & ES). destruct (split_sign t) as (eneg, u). cbn [snd] in T.
    destruct (unsigned_value u) as [v|] eqn:V; [|auto].
    destruct (unsigned_parts u v V) as (ds & D & DU & N). right; left.
    eapply (G (Some (es, ds)) ("e" ++ es ++ written ds)); auto.
    cbn [append same_text]. split; [rewrite <- C; apply same_letter_lower|]. rewrite T, DU. apply same_refl.
Qed.

(** ** A number ends with a digit or a point *)
Fixpoint ends (c : ascii) (s : string) : ascii := match s with EmptyString => c | String d r => ends d r end.
Lemma ends_app s : forall c t, ends c (s ++ t) = ends (ends c s) t.
Proof. induction s as [|d s IH]; intros c t; cbn [append ends]; auto. Qed.
Lemma ends_written ds : digits ds -> ds <> [] -> forall c, is_digit (ends c (written ds)).
Proof.
  intros D. induction D as [|d ds Hd D IH]; [congruence|]. intros _ c. cbn [written ends].
  destruct ds; [cbn; exists d; apply written_char; auto|]. apply IH. discriminate.
Qed.
Lemma ends_same s : forall t c d, same_letter c d -> same_text s t -> same_letter (ends c s) (ends d t).
Proof.
  induction s as [|x s IH]; intros [|y t] c d CD; cbn [same_text ends]; try contradiction; auto.
  intros (A & B). auto.
Qed.
Lemma number_ends s : is_number s -> forall c, exists d, same_letter (ends c s) d /\ (is_digit d \/ d = "."%char).
Proof.
  intros (l & (DW & DF & NE & SG & EX) & H) c.
  set (tail := match l_exponent l with None => "" | Some (x, ds) => "e" ++ x ++ written ds end) in *.
  assert (T : forall e, is_digit e \/ e = "."%char -> is_digit (ends e tail) \/ ends e tail = "."%char).
  { intros e He. unfold tail. destruct (l_exponent l) as [(x, ds)|]; [|exact He].
    destruct EX as (_ & D & N). left. rewrite !ends_app. apply ends_written; auto. }
  destruct H as [H|(F & H)].
  - exists (ends c (literal_text l)). split; [apply ends_same; auto; left; auto|].
    unfold literal_text. fold tail. rewrite !ends_app. apply T. cbn [ends].
    destruct (l_fraction l); [auto|]. left. apply ends_written; auto. discriminate.
  - exists (ends c (short_text l)). split; [apply ends_same; auto; left; auto|].
    unfold short_text. fold tail. rewrite !ends_app. apply T. left. rewrite F, app_nil_r in NE. apply ends_written; auto.
Qed.
Lemma not_twelve_e : ~ is_number "12e" /\ ~ is_word "12e".
Proof.
  split.
  - intros H. destruct (number_ends _ H "x"%char) as (d & S & D). cbn [ends] in S. apply letter_inv in S.
    destruct S as [<-|S]; [destruct D as [(v & D)|D]; discriminate|].
    destruct D as [(v & D)| ->]; [|cbn in S; intuition discriminate]. destruct S as (_ & _ & S & _). congruence.
  - intros (sg & w & SG & W & S). 
    assert (LW := same_lower _ _ S). destruct SG as [->|[->| ->]]; [|discriminate LW|discriminate LW].
    destruct W as [->|[->|(t & ->)]]; discriminate LW.
Qed.
