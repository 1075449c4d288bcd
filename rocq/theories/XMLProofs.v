(** The parser: more text does not change what was parsed, and documents are read as what they denote. *)
From Coq Require Import ZArith List String Ascii Bool Lia NArith.
Import ListNotations.
From Verif Require Import Outcome ModelText ModelVTK ModelXML SpecXML.
Local Open Scope string_scope.

Lemma app_nil_r (s : string) : s ++ "" = s.
Proof. induction s; cbn; congruence. Qed.
Lemma app_assoc (a b c : string) : (a ++ b) ++ c = a ++ b ++ c.
Proof. induction a; cbn; congruence. Qed.
Lemma app_length (a b : string) : String.length (a ++ b) = (String.length a + String.length b)%nat.
Proof. induction a; cbn; lia. Qed.

(** *** More text *)
Lemma skip_space_app s t : skip_space s <> "" -> skip_space (s ++ t) = skip_space s ++ t.
Proof. induction s as [|c s IH]; cbn; [congruence|]. destruct (is_space c); auto. Qed.

Lemma take_chars_app s t : forall n r, take_name_chars s = (n, r) -> r <> "" -> take_name_chars (s ++ t) = (n, r ++ t).
Proof.
  induction s as [|c s IH]; cbn; intros n r H D; [injection H as <- <-; congruence|].
  destruct (is_name_char c).
  - destruct (take_name_chars s) as [n' r'] eqn:E. injection H as <- <-. rewrite (IH n' r' eq_refl D). reflexivity.
  - injection H as <- <-. reflexivity.
Qed.
Lemma take_name_app s t n r : take_name s = Some (n, r) -> r <> "" -> take_name (s ++ t) = Some (n, r ++ t).
Proof.
  destruct s as [|c s]; cbn; [discriminate|]. destruct (is_name_start c); [|discriminate].
  destruct (take_name_chars s) as [n' r'] eqn:E. intros H D. injection H as <- <-.
  rewrite (take_chars_app s t n' r' E D). reflexivity.
Qed.
Lemma until_app q s t : forall a b, until q s = Some (a, b) -> until q (s ++ t) = Some (a, b ++ t).
Proof.
  induction s as [|c s IH]; cbn; intros a b H; [discriminate|].
  destruct (Ascii.eqb c q); [injection H as <- <-; reflexivity|].
  destruct (until q s) as [[a' b']|]; [|discriminate]. injection H as <- <-. rewrite (IH a' b' eq_refl). reflexivity.
Qed.

Lemma space_stable s c r t : skip_space s = String c r -> skip_space (s ++ t) = String c (r ++ t).
Proof. intros H. rewrite skip_space_app by (rewrite H; discriminate). rewrite H. reflexivity. Qed.

Definition after_eq (s : string) : option string := match s with String "=" r => Some r | _ => None end.
Lemma after_eq_app s r t : after_eq s = Some r -> after_eq (s ++ t) = Some (r ++ t).
Proof. destruct s as [|[[] [] [] [] [] [] [] []] s]; cbn; try discriminate. intros [= <-]. reflexivity. Qed.
Lemma parse_attribute_eq s : parse_attribute s =
  match take_name s with
  | None => None
  | Some (n, r) =>
      match after_eq (skip_space r) with
      | Some r1 =>
          match skip_space r1 with
          | String q r2 =>
              if (Ascii.eqb q """" || Ascii.eqb q "'")%bool then
                match until q r2 with Some (v, String _ r3) => Some (n, v, r3) | _ => None end
              else None
          | EmptyString => None
          end
      | None => None
      end
  end.
Proof.
  unfold parse_attribute. destruct (take_name s) as [[n r]|]; [|reflexivity].
  destruct (skip_space r) as [|[[] [] [] [] [] [] [] []] u]; reflexivity.
Qed.

Lemma parse_attribute_app s t n v r : parse_attribute s = Some (n, v, r) -> parse_attribute (s ++ t) = Some (n, v, r ++ t).
Proof.
  rewrite !parse_attribute_eq. destruct (take_name s) as [[n' r']|] eqn:E; [|discriminate].
  destruct (after_eq (skip_space r')) as [r1|] eqn:E1; [|discriminate].
  assert (D : r' <> "") by (intros ->; discriminate).
  rewrite (take_name_app s t n' r' E D).
  assert (D1 : skip_space r' <> "") by (intros C; rewrite C in E1; discriminate).
  rewrite (skip_space_app r' t D1), (after_eq_app _ _ t E1).
  destruct (skip_space r1) as [|q r2] eqn:E2; [discriminate|]. rewrite (space_stable r1 q r2 t E2).
  destruct (Ascii.eqb q """" || Ascii.eqb q "'")%bool; [|discriminate].
  destruct (until q r2) as [[v' [|c r3]]|] eqn:E3; try discriminate. intros H. injection H as <- <- <-.
  rewrite (until_app q r2 t _ _ E3). reflexivity.
Qed.

Lemma parse_attributes_mono f : forall g seen s x, (f <= g)%nat -> parse_attributes f seen s = Some x -> parse_attributes g seen s = Some x.
Proof.
  induction f as [|f IH]; intros g seen s x L H; [discriminate|]. destruct g as [|g]; [lia|].
  cbn [parse_attributes] in *. destruct (skip_space s) as [|c r]; [discriminate|].
  destruct (is_name_start c); [|exact H].
  destruct (parse_attribute (String c r)) as [[[n v] r1]|]; [|discriminate].
  destruct (existsb _ seen); [discriminate|]. apply IH; [lia|exact H].
Qed.

Definition after_gt (s : string) : option string := match s with String ">" r => Some r | _ => None end.
Lemma after_gt_app s r t : after_gt s = Some r -> after_gt (s ++ t) = Some (r ++ t).
Proof. destruct s as [|[[] [] [] [] [] [] [] []] s]; cbn; try discriminate. intros [= <-]. reflexivity. Qed.
Lemma after_gt_eq {A} (s : string) (k : string -> option A) :
  match s with String ">" r => k r | _ => None end = match after_gt s with Some r => k r | None => None end.
Proof. destruct s as [|[[] [] [] [] [] [] [] []] s]; reflexivity. Qed.

Lemma parse_attributes_app f : forall seen s t a e r, parse_attributes f seen s = Some (a, e, r) ->
  parse_attributes f seen (s ++ t) = Some (a, e, r ++ t).
Proof.
  induction f as [|f IH]; intros seen s t a e r H; [discriminate|].
  cbn [parse_attributes] in *. destruct (skip_space s) as [|c u] eqn:E; [discriminate|].
  rewrite (space_stable s c u t E). destruct (is_name_start c).
  - destruct (parse_attribute (String c u)) as [[[n v] r1]|] eqn:P; [|discriminate].
    change (String c (u ++ t)) with (String c u ++ t). rewrite (parse_attribute_app _ t _ _ _ P).
    destruct (existsb _ seen); [discriminate|]. apply IH. exact H.
  - destruct (Ascii.eqb c ">"); [injection H as <- <- <-; reflexivity|].
    destruct (Ascii.eqb c "/"); [|discriminate].
    rewrite after_gt_eq in H. rewrite after_gt_eq. destruct (after_gt u) as [r1|] eqn:G; [|discriminate].
    rewrite (after_gt_app _ _ t G). injection H as <- <- <-. reflexivity.
Qed.

Definition split_slash (s : string) : bool * string := match s with String "/" r => (true, r) | _ => (false, s) end.
Lemma split_slash_app s t : s <> "" -> split_slash (s ++ t) = (fst (split_slash s), snd (split_slash s) ++ t).
Proof. destruct s as [|[[] [] [] [] [] [] [] []] s]; cbn; try reflexivity. congruence. Qed.
Lemma parse_tag_eq s : parse_tag s =
  let '(closing, s) := split_slash (skip_space s) in
  match take_name s with
  | None => None
  | Some (n, r) =>
      match parse_attributes (S (String.length r)) [] r with
      | None => None
      | Some (a, empty, r1) => Some (if empty then Empty n a else if closing then Closing n else Opening n a, r1)
      end
  end.
Proof. reflexivity. Qed.

Lemma parse_tag_app s t g r : parse_tag s = Some (g, r) -> parse_tag (s ++ t) = Some (g, r ++ t).
Proof.
  rewrite !parse_tag_eq. destruct (skip_space s) as [|c u] eqn:E; [discriminate|].
  rewrite (space_stable s c u t E). change (String c (u ++ t)) with (String c u ++ t).
  rewrite split_slash_app by discriminate. destruct (split_slash (String c u)) as [b w]. cbn [fst snd].
  destruct (take_name w) as [[n v]|] eqn:Tn; [|discriminate].
  destruct (parse_attributes (S (String.length v)) [] v) as [[[a e] r1]|] eqn:P; [|discriminate].
  assert (D : v <> "") by (intros ->; discriminate).
  rewrite (take_name_app w t n v Tn D). intros H. injection H as <- <-.
  apply (parse_attributes_app _ _ _ t) in P.
  assert (L : (S (String.length v) <= S (String.length (v ++ t)))%nat) by (rewrite app_length; lia).
  rewrite (parse_attributes_mono _ _ _ _ _ L P). reflexivity.
Qed.

Lemma parse_children_mono f : forall g s x, (f <= g)%nat -> parse_children f s = Some x -> parse_children g s = Some x.
Proof.
  induction f as [|f IH]; intros g s x L H; [discriminate|]. destruct g as [|g]; [lia|].
  assert (L' : (f <= g)%nat) by lia. cbn [parse_children] in *. destruct (skip_space s) as [|c r]; [discriminate|].
  destruct (Ascii.eqb c "<").
  - destruct (parse_tag r) as [[[n a|n a|n] r1]|]; try discriminate; [| |exact H].
    + destruct (parse_children f r1) as [[[l e] r2]|] eqn:E; [|discriminate]. rewrite (IH g _ _ L' E).
      destruct (String.eqb e n); [|discriminate].
      destruct (parse_children f r2) as [[[l' e'] r3]|] eqn:E'; [|discriminate]. rewrite (IH g _ _ L' E'). exact H.
    + destruct (parse_children f r1) as [[[l e] r2]|] eqn:E; [|discriminate]. rewrite (IH g _ _ L' E). exact H.
  - destruct (until "<" s) as [[t r1]|]; [|discriminate].
    destruct (parse_children f r1) as [[[l e] r2]|] eqn:E; [|discriminate]. rewrite (IH g _ _ L' E). exact H.
Qed.

Lemma parse_children_app f : forall s t l e r, parse_children f s = Some (l, e, r) -> parse_children f (s ++ t) = Some (l, e, r ++ t).
Proof.
  induction f as [|f IH]; intros s t l e r H; [discriminate|].
  cbn [parse_children] in *. destruct (skip_space s) as [|c u] eqn:E; [discriminate|].
  rewrite (space_stable s c u t E). destruct (Ascii.eqb c "<").
  - destruct (parse_tag u) as [[g r1]|] eqn:P; [|discriminate]. rewrite (parse_tag_app _ t _ _ P).
    destruct g as [n a|n a|n].
    + destruct (parse_children f r1) as [[[l1 e1] r2]|] eqn:E1; [|discriminate]. rewrite (IH _ t _ _ _ E1).
      destruct (String.eqb e1 n); [|discriminate].
      destruct (parse_children f r2) as [[[l2 e2] r3]|] eqn:E2; [|discriminate]. rewrite (IH _ t _ _ _ E2).
      injection H as <- <- <-. reflexivity.
    + destruct (parse_children f r1) as [[[l1 e1] r2]|] eqn:E1; [|discriminate]. rewrite (IH _ t _ _ _ E1).
      injection H as <- <- <-. reflexivity.
    + injection H as <- <- <-. reflexivity.
  - destruct (until "<" s) as [[x r1]|] eqn:U; [|discriminate]. rewrite (until_app _ _ t _ _ U).
    destruct (parse_children f r1) as [[[l1 e1] r2]|] eqn:E1; [|discriminate]. rewrite (IH _ t _ _ _ E1).
    injection H as <- <- <-. reflexivity.
Qed.

(** *** Names, blanks, plain text *)
Lemma all_cons P c s : all_chars P (String c s) -> P c /\ all_chars P s.
Proof. intros H. split; [exact (H 0%nat c eq_refl)|intros n d E; exact (H (S n) d E)]. Qed.
Lemma all_intro (P : ascii -> Prop) c s : P c -> all_chars P s -> all_chars P (String c s).
Proof. intros A B [|n] d E; [injection E as <-; exact A|exact (B n d E)]. Qed.
Lemma all_nil P : all_chars P "".
Proof. intros n c E. destruct n; discriminate. Qed.
Lemma all_app P s t : all_chars P s -> all_chars P t -> all_chars P (s ++ t).
Proof.
  induction s as [|c s IH]; intros A B; [exact B|]. apply all_cons in A as (A & A'). cbn. apply all_intro; auto.
Qed.
Lemma all_weaken (P Q : ascii -> Prop) s : (forall c, P c -> Q c) -> all_chars P s -> all_chars Q s.
Proof. intros H A n c E. exact (H c (A n c E)). Qed.

Lemma name_letter c : name_first c -> is_name_start c = true /\ is_name_char c = true /\ is_space c = false /\ c <> "/"%char /\ c <> "<"%char.
Proof.
  intros H. assert (A : is_name_start c = true).
  { unfold is_name_start. destruct H as [[H|H]|[->| ->]]; [| |reflexivity|reflexivity]; rewrite !orb_true_iff, !andb_true_iff, !N.leb_le; tauto. }
  split; [exact A|]. split; [unfold is_name_char; rewrite A; reflexivity|].
  split; [|split; intros ->; discriminate].
  unfold is_space. destruct H as [[H|H]|[->| ->]]; [| |reflexivity|reflexivity];
    rewrite orb_false_iff, andb_false_iff, N.eqb_neq, !N.leb_gt; lia.
Qed.
Lemma name_further c : name_next c -> is_name_char c = true.
Proof.
  intros [H|[H|[->| ->]]]; [exact (proj1 (proj2 (name_letter c H)))| |reflexivity|reflexivity].
  unfold is_name_char. rewrite !orb_true_iff, !andb_true_iff, !N.leb_le. tauto.
Qed.
Lemma first_of_name c r : good_name (String c r) -> name_first c.
Proof. intros (c' & r' & E & H & _). injection E as -> _. exact H. Qed.
Lemma name_nonempty : ~ good_name "".
Proof. intros (c & r & E & _). discriminate. Qed.

Lemma take_chars_name n : forall r, all_chars name_next n -> (forall c u, r = String c u -> is_name_char c = false) ->
  take_name_chars (n ++ r) = (n, r).
Proof.
  induction n as [|c n IH]; intros r A B.
  - cbn [append]. destruct r as [|c u]; [reflexivity|]. cbn. rewrite (B c u eq_refl). reflexivity.
  - apply all_cons in A as (A & A'). cbn. rewrite (name_further c A), (IH r A' B). reflexivity.
Qed.
Lemma take_good_name n r : good_name n -> (forall c u, r = String c u -> is_name_char c = false) -> take_name (n ++ r) = Some (n, r).
Proof.
  intros (c & n' & -> & A & A') B. cbn. rewrite (proj1 (name_letter c A)), (take_chars_name n' r A' B). reflexivity.
Qed.

Lemma until_plain q v r : all_chars (fun c => c <> q) v -> until q (v ++ String q r) = Some (v, String q r).
Proof.
  induction v as [|c v IH]; intros A; cbn.
  - rewrite Ascii.eqb_refl. reflexivity.
  - apply all_cons in A as (A & A'). rewrite (proj2 (Ascii.eqb_neq c q) A), (IH A'). reflexivity.
Qed.

Lemma plain_quote v : plain v -> all_chars (fun c => c <> """"%char) v.
Proof. apply all_weaken. intros c [(_ & _ & _ & _ & H)|[->| ->]]; [exact H|discriminate|discriminate]. Qed.
Lemma plain_lt v : plain v -> all_chars (fun c => c <> "<"%char) v.
Proof. apply all_weaken. intros c [(_ & H & _)|[->| ->]]; [exact H|discriminate|discriminate]. Qed.

Lemma parse_good_attribute n v r : good_name n -> plain v ->
  parse_attribute (n ++ "=" ++ quote ++ v ++ quote ++ r) = Some (n, v, r).
Proof.
  intros G P. rewrite parse_attribute_eq. rewrite take_good_name; [|exact G|intros c u E; injection E as <- _; reflexivity].
  cbn [append skip_space after_eq]. change (is_space "=") with false. cbn [after_eq].
  change (quote ++ v ++ quote ++ r) with (String """" (v ++ String """" r)).
  cbn [skip_space]. change (is_space """") with false. cbn [Ascii.eqb orb Bool.eqb andb].
  rewrite until_plain by (apply plain_quote; exact P). reflexivity.
Qed.

Lemma existsb_seen (n : string) (seen : list (string * string)) : ~ In n (map fst seen) -> existsb (fun a => String.eqb (fst a) n) seen = false.
Proof.
  induction seen as [|a seen IH]; cbn; intros H; [reflexivity|].
  rewrite (proj2 (String.eqb_neq (fst a) n)) by tauto. apply IH. tauto.
Qed.

Lemma parse_good_attributes l : forall f seen r, (List.length l < f)%nat -> NoDup (map fst (seen ++ l)) ->
  (forall a, In a l -> good_name (fst a) /\ plain (snd a)) ->
  parse_attributes f seen (attributes_text l ++ ">" ++ r) = Some ((seen ++ l)%list, false, r).
Proof.
  induction l as [|[n v] l IH]; intros f seen r L ND G; (destruct f as [|f]; [cbn in L; lia|]).
  - rewrite List.app_nil_r. reflexivity.
  - cbn [attributes_text parse_attributes]. unfold attribute_text. cbn [fst snd]. rewrite !app_assoc. cbn [append skip_space].
    change (is_space " ") with true. cbv iota.
    destruct (G (n, v) (or_introl eq_refl)) as (Gn & Gv). cbn [fst snd] in Gn, Gv.
    destruct n as [|c m]; [destruct (name_nonempty Gn)|]. destruct (name_letter c (first_of_name c m Gn)) as (A & _ & B & _).
    cbn [append skip_space]. rewrite B, A.
    change (String c (m ++ String "=" (quote ++ v ++ quote ++ attributes_text l ++ String ">" r)))
      with (String c m ++ "=" ++ quote ++ v ++ quote ++ attributes_text l ++ ">" ++ r).
    rewrite parse_good_attribute by assumption.
    rewrite map_app in ND. cbn [map fst] in ND.
    assert (NI : ~ In (String c m) (map fst seen)).
    { intros C. apply NoDup_remove_2 in ND. apply ND. apply in_or_app. left. exact C. }
    rewrite existsb_seen by exact NI.
    rewrite IH.
    + rewrite <- List.app_assoc. reflexivity.
    + cbn in L. lia.
    + rewrite <- List.app_assoc, map_app. exact ND.
    + intros a H. apply G. right. exact H.
Qed.

Lemma attributes_length l : (List.length l <= String.length (attributes_text l))%nat.
Proof. induction l as [|a l IH]; cbn; [lia|]. rewrite app_length. lia. Qed.

Lemma attrs_not_name l r c u : attributes_text l ++ ">" ++ r = String c u -> is_name_char c = false.
Proof. destruct l as [|a l]; cbn; intros H; injection H as <- _; reflexivity. Qed.

Lemma parse_opening n a r : good_name n -> good_attributes a -> parse_tag (n ++ attributes_text a ++ ">" ++ r) = Some (Opening n a, r).
Proof.
  intros G (ND & GA). rewrite parse_tag_eq.
  assert (E : split_slash (skip_space (n ++ attributes_text a ++ ">" ++ r)) = (false, n ++ attributes_text a ++ ">" ++ r)).
  { destruct n as [|c m]; [destruct (name_nonempty G)|]. destruct (name_letter c (first_of_name c m G)) as (_ & _ & B & C & _).
    cbn [append skip_space]. rewrite B. destruct c as [[] [] [] [] [] [] [] []]; try reflexivity. congruence. }
  rewrite E, take_good_name; [|exact G|apply attrs_not_name].
  rewrite (parse_good_attributes a _ [] r); [reflexivity| |exact ND|exact GA].
  rewrite app_length. pose proof (attributes_length a). lia.
Qed.
Lemma parse_closing n r : good_name n -> parse_tag ("/" ++ n ++ ">" ++ r) = Some (Closing n, r).
Proof.
  intros G. rewrite parse_tag_eq. cbn [append skip_space]. change (is_space "/") with false. cbn [split_slash].
  change (String ">" r) with (attributes_text [] ++ ">" ++ r).
  rewrite take_good_name; [|exact G|apply attrs_not_name]. reflexivity.
Qed.

Lemma blank_skip b s : blank_text b -> skip_space (b ++ s) = skip_space s.
Proof.
  induction b as [|c b IH]; intros H; [reflexivity|]. apply all_cons in H as (A & B). cbn.
  assert (E : is_space c = true) by (destruct A as [->|[->| ->]]; reflexivity). rewrite E. exact (IH B).
Qed.
Lemma plain_skip t s : plain t -> ~ blank_text t -> exists c u, skip_space (t ++ s) = String c u /\ c <> "<"%char.
Proof.
  induction t as [|c t IH]; intros P B.
  - exfalso. apply B. apply all_nil.
  - apply all_cons in P as (P & P'). cbn. destruct (is_space c) eqn:E.
    + apply IH; [exact P'|]. intros C. apply B. apply all_intro; [|exact C].
      destruct P as [((L & _) & _)|P]; [|tauto]. left. unfold is_space in E.
      rewrite orb_true_iff, andb_true_iff, !N.leb_le, N.eqb_eq in E.
      assert (K : N_of_ascii c = 32%N) by lia. rewrite <- (ascii_N_embedding c), K. reflexivity.
    + exists c, (t ++ s). split; [reflexivity|]. intros ->. destruct P as [(_ & C & _)|[C|C]]; [congruence|discriminate|discriminate].
Qed.

(** *** Elements *)
(** A parsed element: its tag, and its children up to its closing tag. *)
Definition parses (e : string) (x : xml) : Prop :=
  exists n a body l, e = "<" ++ n ++ attributes_text a ++ ">" ++ body /\ good_name n /\ good_attributes a /\
    x = make_elem n a l /\ forall f r, (String.length body < f)%nat -> parse_children f (body ++ r) = Some (l, n, r).

Scheme element_mut := Induction for element Sort Prop with elements_mut := Induction for elements Sort Prop.
Combined Scheme element_elements from element_mut, elements_mut.

Lemma parses_next b e x f s l n r : blank_text b -> parses e x -> (String.length e <= f)%nat ->
  parse_children f s = Some (l, n, r) -> parse_children (S f) (b ++ e ++ s) = Some (NElem x :: l, n, r).
Proof.
  intros B (n' & a & body & l' & -> & G & GA & -> & H) L E. cbn [parse_children]. rewrite (blank_skip b _ B), !app_assoc.
  cbn [append skip_space]. change (is_space "<") with false. change (Ascii.eqb "<" "<") with true. cbv iota.
  change (String ">" (body ++ s)) with (">" ++ body ++ s). rewrite parse_opening by assumption.
  rewrite H by (clear - L; repeat first [rewrite !app_length in L | progress cbn [append String.length] in L]; lia).
  rewrite String.eqb_refl, E. reflexivity.
Qed.

Lemma close_children b n r f : blank_text b -> good_name n -> parse_children (S f) (b ++ "</" ++ n ++ ">" ++ r) = Some ([], n, r).
Proof.
  intros B G. cbn [parse_children]. rewrite (blank_skip b _ B). cbn [append skip_space]. change (is_space "<") with false.
  change (Ascii.eqb "<" "<") with true. cbv iota.
  change (String "/" (n ++ String ">" r)) with ("/" ++ n ++ ">" ++ r). rewrite parse_closing by exact G. reflexivity.
Qed.

Lemma all_parse :
  (forall e x, element e x -> parses e x) /\
  (forall s l, elements s l -> forall n r f, good_name n -> (String.length s < f)%nat ->
     parse_children f (s ++ "</" ++ n ++ ">" ++ r) = Some (map NElem l, n, r)).
Proof.
  apply (element_elements (fun e x _ => parses e x) (fun s l _ => forall n r f, good_name n -> (String.length s < f)%nat ->
     parse_children f (s ++ "</" ++ n ++ ">" ++ r) = Some (map NElem l, n, r))).
  - intros n a t G GA P B. exists n, a, (t ++ "</" ++ n ++ ">"), [NText t].
    split; [reflexivity|]. split; [exact G|]. split; [exact GA|]. split; [reflexivity|].
    intros f r L. destruct f as [|[|f]]; [cbn in L; lia| |].
    { rewrite app_length in L. cbn in L. lia. }
    rewrite !app_assoc. cbn [parse_children]. destruct (plain_skip t ("</" ++ n ++ ">" ++ r) P B) as (c & u & E & Nc).
    rewrite E, (proj2 (Ascii.eqb_neq c "<") Nc).
    change ("</" ++ n ++ ">" ++ r) with (String "<" ("/" ++ n ++ ">" ++ r)).
    rewrite until_plain by (apply plain_lt; exact P).
    change (String "<" ("/" ++ n ++ ">" ++ r)) with ("" ++ "</" ++ n ++ ">" ++ r).
    pose proof (close_children "" n r f (all_nil _) G) as C. cbn [parse_children] in C. rewrite C. reflexivity.
  - intros n a s l G GA E IH. exists n, a, (s ++ "</" ++ n ++ ">"), (map NElem l).
    split; [reflexivity|]. split; [exact G|]. split; [exact GA|]. split.
    + unfold make_elem. f_equal.
      * destruct l; reflexivity.
      * clear. induction l as [|x l IH]; cbn; [reflexivity|]. f_equal. exact IH.
    + intros f r L. rewrite !app_assoc. apply IH; [exact G|]. rewrite app_length in L. lia.
  - intros b B n r f G L. destruct f as [|f]; [lia|]. apply close_children; assumption.
  - intros b e x s l B E IHe F IH n r f G L. destruct f as [|f]; [lia|]. rewrite !app_assoc.
    rewrite !app_length in L.
    cbn [map]. apply (parses_next b e x f (s ++ "</" ++ n ++ ">" ++ r) (map NElem l) n r B IHe); [lia|]. apply IH; [exact G|].
    destruct IHe as (? & ? & ? & ? & -> & _). cbn [append String.length] in L. lia.
Qed.

Lemma document_blank b f : blank_text b -> parse_document f b = [].
Proof. intros B. destruct f; [reflexivity|]. cbn. pose proof (blank_skip b "" B) as E. rewrite app_nil_r in E. rewrite E. reflexivity. Qed.

Lemma parses_load e x : parses e x -> forall b b', blank_text b -> blank_text b' -> load_xml (b ++ e ++ b') = [x].
Proof.
  intros (n & a & body & l & -> & G & GA & -> & H) b b' B B'. unfold load_xml. cbn [parse_document].
  rewrite (blank_skip b _ B), !app_assoc. cbn [append skip_space]. change (is_space "<") with false.
  change (Ascii.eqb "<" "<") with true. cbv iota.
  change (String ">" (body ++ b')) with (">" ++ body ++ b'). rewrite parse_opening by assumption.
  rewrite H by (clear; repeat first [rewrite !app_length | progress cbn [append String.length]]; lia).
  rewrite String.eqb_refl, document_blank by exact B'. reflexivity.
Qed.

Lemma load_document s x : document s x -> load_xml s = [x].
Proof. intros (b & e & b' & B & E & B' & ->). apply parses_load; auto. apply all_parse. exact E. Qed.

(** *** A document that ends too early *)
Lemma load_cut n a body l b' : good_name n -> good_attributes a -> body <> "" ->
  (forall f r, (String.length body < f)%nat -> parse_children f (body ++ r) = Some (l, n, r)) -> blank_text b' ->
  forall p t, "<" ++ n ++ attributes_text a ++ ">" ++ body ++ b' = p ++ t -> (String.length b' < String.length t)%nat -> load_xml p = [].
Proof.
  intros G GA D H B p t E L.
  destruct p as [|c p]; [reflexivity|]. cbn [append] in E. injection E as <- E.
  unfold load_xml. cbn [parse_document skip_space]. change (is_space "<") with false. change (Ascii.eqb "<" "<") with true. cbv iota.
  destruct (parse_tag p) as [[g r]|] eqn:P; [|reflexivity].
  pose proof (parse_tag_app p t g r P) as P'. rewrite <- E in P'.
  change (String ">" (body ++ b')) with (">" ++ body ++ b') in P'. rewrite parse_opening in P' by assumption.
  injection P' as <- Er.
  destruct (parse_children (String.length (String "<" p)) r) as [[[l1 e1] r1]|] eqn:C; [|reflexivity].
  apply (parse_children_app _ _ t) in C. rewrite <- Er in C.
  set (F := S (String.length (String "<" p) + String.length (body ++ b'))).
  apply (parse_children_mono _ F) in C; [|unfold F; lia].
  rewrite H in C by (unfold F; rewrite app_length; lia). injection C as _ _ C.
  apply (f_equal String.length) in C. rewrite app_length in C. lia.
Qed.

Lemma cut_document s x p t : element s x -> blank_text t -> forall q, s ++ t = p ++ q -> (String.length t < String.length q)%nat -> load_xml p = [].
Proof.
  intros E B q Eq L. destruct (proj1 all_parse s x E) as (n & a & body & l & -> & G & GA & -> & H).
  rewrite !app_assoc in Eq. apply (load_cut n a body l t G GA) with (t := q); auto.
  intros ->. specialize (H 1%nat "" ltac:(cbn; lia)). discriminate.
Qed.
