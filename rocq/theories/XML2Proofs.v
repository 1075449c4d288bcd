(** The text of a solution file is a document. *)
From Coq Require Import ZArith List String Ascii Bool Lia NArith.
From Flocq Require Import IEEE754.BinarySingleNaN.
From Verif Require Import Outcome ZList Num Kernel ModelIndex ModelDisc3D ModelDisc2D ModelText ModelVTK ModelXML ModelProgram ModelDouble
  SpecGrid SpecVTK SpecDouble SpecProgram SpecXML TextProofs VTKProofs VTK2Proofs Make3Proofs Make2Proofs Disc3DProofs Disc2DProofs
  Double2Proofs Double3Proofs Double4Proofs XMLProofs.
Import ListNotations.
Local Open Scope string_scope.
Local Open Scope Z_scope.

(** *** Characters *)
Fixpoint all_b (p : ascii -> bool) (s : string) : bool :=
  match s with EmptyString => true | String c r => p c && all_b p r end.
Lemma all_b_ok (p : ascii -> bool) (P : ascii -> Prop) s : (forall c, p c = true -> P c) -> all_b p s = true -> all_chars P s.
Proof.
  intros H. induction s as [|c s IH]; cbn; intros E; [apply all_nil|]. apply andb_prop in E as (A & B).
  apply all_intro; auto.
Qed.
Definition plain_b (c : ascii) : bool :=
  let n := N_of_ascii c in
  ((32 <=? n) && (n <=? 126) && negb (Ascii.eqb c "<") && negb (Ascii.eqb c ">") && negb (Ascii.eqb c "&") && negb (Ascii.eqb c """"))%N
  || Ascii.eqb c newline || Ascii.eqb c tabulator.
Lemma plain_b_ok c : plain_b c = true -> plain_char c \/ c = newline \/ c = tabulator.
Proof.
  unfold plain_b, plain_char. rewrite !orb_true_iff, !andb_true_iff, !negb_true_iff, !N.leb_le, !Ascii.eqb_eq, !Ascii.eqb_neq. tauto.
Qed.
Definition name_b (c : ascii) : bool :=
  let n := N_of_ascii c in ((65 <=? n) && (n <=? 90) || (97 <=? n) && (n <=? 122))%N || Ascii.eqb c "_".
Lemma name_b_ok c : name_b c = true -> letter c \/ c = "_"%char.
Proof. unfold name_b, letter. rewrite !orb_true_iff, !andb_true_iff, !N.leb_le, Ascii.eqb_eq. tauto. Qed.
Definition blank_b (c : ascii) : bool := Ascii.eqb c " " || Ascii.eqb c newline || Ascii.eqb c tabulator.
Lemma blank_b_ok c : blank_b c = true -> c = " "%char \/ c = newline \/ c = tabulator.
Proof. unfold blank_b. rewrite !orb_true_iff, !Ascii.eqb_eq. tauto. Qed.

Lemma plain_lit s : all_b plain_b s = true -> SpecXML.plain s.
Proof. apply all_b_ok. exact plain_b_ok. Qed.
Lemma blank_lit s : all_b blank_b s = true -> SpecXML.blank_text s.
Proof. apply all_b_ok. exact blank_b_ok. Qed.
Lemma name_lit s : s <> "" -> all_b name_b s = true -> good_name s.
Proof.
  intros A B. destruct s as [|c r]; [congruence|]. exists c, r. split; [reflexivity|].
  assert (H : all_chars (fun c => letter c \/ c = "_"%char) (String c r)) by (revert B; apply all_b_ok; exact name_b_ok).
  apply all_cons in H as (H & H'). split; [destruct H; [left|right; left]; assumption|].
  revert H'. apply all_weaken. intros x [X|X]; left; [left|right; left]; assumption.
Qed.

Lemma plain_app s t : SpecXML.plain s -> SpecXML.plain t -> SpecXML.plain (s ++ t).
Proof. apply all_app. Qed.

Lemma digit_char_plain c : is_digit c -> plain_b c = true.
Proof.
  intros (v & E). unfold digit_value in E.
  destruct ((0 <=? Z.of_N (N_of_ascii c) - 48) && (Z.of_N (N_of_ascii c) - 48 <? 10))%bool eqn:B; [|discriminate].
  apply andb_prop in B as (B1 & B2). apply Z.leb_le in B1. apply Z.ltb_lt in B2.
  unfold plain_b. rewrite (proj2 (N.leb_le 32 _)), (proj2 (N.leb_le _ 126)) by lia.
  assert (N : forall q, (58 <= N_of_ascii q \/ N_of_ascii q < 48)%N -> Ascii.eqb c q = false).
  { intros q Q. apply Ascii.eqb_neq. intros ->. lia. }
  rewrite !N by (cbn; lia). reflexivity.
Qed.
Lemma every_all (P : ascii -> Prop) s : every P s -> all_chars P s.
Proof. intros H n c E. exact (every_get _ _ H n c E). Qed.
Lemma digits_plain s : every is_digit s -> SpecXML.plain s.
Proof.
  intros H. apply every_all in H. revert H. apply all_weaken. intros c D. apply plain_b_ok. apply digit_char_plain. exact D.
Qed.
Lemma dec_neg n : n < 0 -> dec n = String "-" (dec (- n)).
Proof. intros H. unfold dec. destruct (Z.ltb_spec n 0); [|lia]. destruct (Z.ltb_spec (- n) 0); [lia|reflexivity]. Qed.
Lemma dec_plain n : SpecXML.plain (dec n).
Proof.
  destruct (Z_lt_le_dec n 0) as [L|L].
  - rewrite dec_neg by exact L. change (String "-" (dec (- n))) with ("-" ++ dec (- n)).
    apply plain_app; [apply plain_lit; reflexivity|]. apply digits_plain, dec_every. lia.
  - apply digits_plain, dec_every. exact L.
Qed.

(** Text that contains a word is not blank. *)
Definition not_blank (s : string) : Prop := exists n c, String.get n s = Some c /\ c <> " "%char /\ c <> newline /\ c <> tabulator.
Lemma not_blank_ok s : not_blank s -> ~ SpecXML.blank_text s.
Proof. intros (n & c & E & A & B & C) H. destruct (H n c E) as [K|[K|K]]; congruence. Qed.
Lemma not_blank_l s t : not_blank s -> not_blank (s ++ t).
Proof.
  intros (n & c & E & D). exists n, c. split; [|exact D]. revert n E.
  induction s as [|x s IH]; intros n E; [destruct n; discriminate|]. destruct n; [exact E|]. cbn. apply IH. exact E.
Qed.
Lemma not_blank_r s t : not_blank t -> not_blank (s ++ t).
Proof.
  intros H. induction s as [|x s IH]; [exact H|]. destruct IH as (n & c & E & D). exists (S n), c. split; [exact E|exact D].
Qed.
Lemma word_not_blank s : word s -> not_blank s.
Proof.
  intros (D & W). destruct s as [|c s]; [congruence|]. exists 0%nat, c. split; [reflexivity|].
  destruct (W 0%nat c eq_refl) as (A & B & C). repeat split; assumption.
Qed.
Lemma dec_not_blank n : not_blank (dec n).
Proof.
  assert (P : forall n, 0 <= n -> not_blank (dec n)).
  { intros m L. destruct (dec_spec m L) as (D & _). pose proof (dec_every m L) as E. destruct (dec m) as [|c s]; [congruence|].
    exists 0%nat, c. split; [reflexivity|]. destruct E as ((v & E) & _). repeat split; intros ->; discriminate. }
  destruct (Z_lt_le_dec n 0) as [L|L]; [|apply P; exact L]. rewrite dec_neg by exact L.
  change (String "-" (dec (- n))) with ("-" ++ dec (- n)). apply not_blank_r, P. lia.
Qed.

Lemma cat_plain l : (forall s, In s l -> SpecXML.plain s) -> SpecXML.plain (cat l).
Proof.
  induction l as [|s l IH]; intros H; [apply all_nil|]. change (cat (s :: l)) with (s ++ cat l). apply plain_app.
  - apply H. left; reflexivity.
  - apply IH. intros t T. apply H. right; exact T.
Qed.
Lemma cat_not_blank s l : not_blank s -> not_blank (cat (s :: l)).
Proof. apply not_blank_l. Qed.

(** *** The document *)
Lemma atts_ok l : (forall a, In a l -> good_name (fst a) /\ SpecXML.plain (snd a)) -> NoDup (map fst l) -> good_attributes l.
Proof. intros A B. split; assumption. Qed.
Ltac lit_name := apply name_lit; [discriminate|reflexivity].
Ltac lit_atts :=
  apply atts_ok;
  [ intros a Ha; cbn [In] in Ha;
    repeat (destruct Ha as [<-|Ha]; [split; [lit_name|first [apply plain_lit; reflexivity|assumption]]|]); contradiction
  | cbn [map fst]; repeat (constructor; [cbn; intros HIn; repeat (destruct HIn as [HIn|HIn]; [discriminate HIn|]); contradiction|]); constructor ].

Section Document.
  Context {V : Type} `{N : Num V}.
  Variables (show show6 : V -> string).
  Hypothesis SH : forall v, printed (show v).
  Hypothesis SH6 : forall v, printed (show6 v).

  Lemma vts_element ext st cells points : SpecXML.plain ext -> SpecXML.plain cells -> not_blank cells ->
    SpecXML.plain points -> not_blank points ->
    exists e, element e (vts_document show6 ext st cells points) /\
      e ++ nl =
      "<VTKFile type=""StructuredGrid"" version=""1.0"" byte_order=""LittleEndian"">" ++ nl ++
      "  <StructuredGrid WholeExtent=""" ++ ext ++ """>" ++ nl ++
      "    <FieldData>" ++ nl ++
      "     <DataArray type=""Float64"" Name=""TimeValue"" NumberOfTuples=""1"">" ++ nl ++
      show6 (fs_time st) ++ nl ++
      "     </DataArray>" ++ nl ++
      "     <DataArray type=""Int32"" Name=""IterationValue"" NumberOfTuples=""1"">" ++ nl ++
      dec (fs_iter st) ++ nl ++
      "     </DataArray>" ++ nl ++
      "     <DataArray type=""Float64"" Name=""TimeStepSize"" NumberOfTuples=""1"">" ++ nl ++
      show6 (fs_dt st) ++ nl ++
      "     </DataArray>" ++ nl ++
      "    </FieldData>" ++ nl ++
      "    <Piece Extent="" " ++ ext ++ """>" ++ nl ++
      "      <PointData>" ++ nl ++
      "      </PointData>" ++ nl ++
      "      <CellData>" ++ nl ++
      "    <DataArray type=""Float64"" Name=""c"" format=""ascii"">" ++ cells ++ "</DataArray>" ++ nl ++
      "      </CellData>" ++ nl ++
      "      <Points>" ++ nl ++
      "        <DataArray type=""Float64"" Name=""Points"" NumberOfComponents=""3"" format=""ascii"">" ++ points ++ "</DataArray>" ++ nl ++
      "      </Points>" ++ nl ++
      "    </Piece>" ++ nl ++
      "  </StructuredGrid>" ++ nl ++
      "</VTKFile>" ++ nl.
  Proof.
    intros PE PC NC PP NP.
    assert (PE' : SpecXML.plain (" " ++ ext)) by (apply plain_app; [apply plain_lit; reflexivity|exact PE]).
    assert (P6 : forall v, SpecXML.plain (nl ++ show6 v ++ nl ++ "     ")).
    { intros v. apply plain_app; [apply plain_lit; reflexivity|]. apply plain_app; [apply (SH6 v)|apply plain_lit; reflexivity]. }
    assert (B6 : forall v, ~ SpecXML.blank_text (nl ++ show6 v ++ nl ++ "     ")).
    { intros v. apply not_blank_ok, not_blank_r, not_blank_l, word_not_blank, (SH6 v). }
    assert (PI : SpecXML.plain (nl ++ dec (fs_iter st) ++ nl ++ "     ")).
    { apply plain_app; [apply plain_lit; reflexivity|]. apply plain_app; [apply dec_plain|apply plain_lit; reflexivity]. }
    assert (BI : ~ SpecXML.blank_text (nl ++ dec (fs_iter st) ++ nl ++ "     ")).
    { apply not_blank_ok, not_blank_r, not_blank_l, dec_not_blank. }
    eexists. split.
    - unfold vts_document.
      eapply parent_element; [lit_name|lit_atts|].
      eapply (more_elements (nl ++ "  ")); [apply blank_lit; reflexivity| |apply (no_elements nl); apply blank_lit; reflexivity].
      eapply parent_element; [lit_name|lit_atts|].
      eapply (more_elements (nl ++ "    ")); [apply blank_lit; reflexivity| |].
      { eapply parent_element; [lit_name|lit_atts|].
        eapply (more_elements (nl ++ "     ")); [apply blank_lit; reflexivity| |].
        { eapply text_element; [lit_name|lit_atts|apply P6|apply B6]. }
        eapply (more_elements (nl ++ "     ")); [apply blank_lit; reflexivity| |].
        { eapply text_element; [lit_name|lit_atts|exact PI|exact BI]. }
        eapply (more_elements (nl ++ "     ")); [apply blank_lit; reflexivity| |].
        { eapply text_element; [lit_name|lit_atts|apply P6|apply B6]. }
        apply (no_elements (nl ++ "    ")); apply blank_lit; reflexivity. }
      eapply (more_elements (nl ++ "    ")); [apply blank_lit; reflexivity| |apply (no_elements (nl ++ "  ")); apply blank_lit; reflexivity].
      eapply parent_element; [lit_name|lit_atts|].
      eapply (more_elements (nl ++ "      ")); [apply blank_lit; reflexivity| |].
      { eapply parent_element; [lit_name|lit_atts|]. apply (no_elements (nl ++ "      ")); apply blank_lit; reflexivity. }
      eapply (more_elements (nl ++ "      ")); [apply blank_lit; reflexivity| |].
      { eapply parent_element; [lit_name|lit_atts|].
        eapply (more_elements (nl ++ "    ")); [apply blank_lit; reflexivity| |apply (no_elements (nl ++ "      ")); apply blank_lit; reflexivity].
        eapply text_element; [lit_name|lit_atts|exact PC|apply not_blank_ok; exact NC]. }
      eapply (more_elements (nl ++ "      ")); [apply blank_lit; reflexivity| |apply (no_elements (nl ++ "    ")); apply blank_lit; reflexivity].
      eapply parent_element; [lit_name|lit_atts|].
      eapply (more_elements (nl ++ "        ")); [apply blank_lit; reflexivity| |apply (no_elements (nl ++ "      ")); apply blank_lit; reflexivity].
      eapply text_element; [lit_name|lit_atts|exact PP|apply not_blank_ok; exact NP].
    - unfold nl, quote, attribute_text. repeat first [progress cbn [append attributes_text attribute_text fst snd] | rewrite app_assoc].
      reflexivity.
  Qed.

  Lemma extent_plain a b c : SpecXML.plain (extent_text a b c).
  Proof. unfold extent_text. repeat (apply plain_app; [first [apply plain_lit; reflexivity|apply dec_plain]|]). apply dec_plain. Qed.

  Lemma cells_good vals : vals <> [] -> SpecXML.plain (cells_text show vals) /\ not_blank (cells_text show vals).
  Proof.
    intros D. unfold cells_text. split.
    - apply plain_app; [apply plain_lit; reflexivity|]. apply plain_app; [|apply plain_lit; reflexivity].
      apply cat_plain. intros s H. apply in_map_iff in H as (v & <- & _). apply plain_app; [apply (SH v)|apply plain_lit; reflexivity].
    - apply not_blank_r, not_blank_l. destruct vals as [|v vals]; [congruence|]. apply cat_not_blank, not_blank_l, word_not_blank, (SH v).
  Qed.
  Lemma points_good lines : lines <> [] -> (forall s, In s lines -> SpecXML.plain s /\ not_blank s) ->
    SpecXML.plain (points_text lines) /\ not_blank (points_text lines).
  Proof.
    intros D H. unfold points_text. split.
    - apply plain_app; [apply plain_lit; reflexivity|]. apply plain_app; [|apply plain_lit; reflexivity].
      apply cat_plain. intros s I. apply H. exact I.
    - apply not_blank_r, not_blank_l. destruct lines as [|l lines]; [congruence|]. apply cat_not_blank, (H l). left; reflexivity.
  Qed.

  (** *** 3D *)
  Definition point3 (dom : domain V) (dx : V) (p : Z * Z * Z) : V * V * V := (px3 dom dx p, py3 dom dx p, pz3 dom dx p).
  Lemma print3_ok (dom : domain V) d st c u : valid_domain3 dom -> make3 dom = Ok d -> holds_inside3 dom c u ->
    print3 show show6 st d c = Ok (text3 show show6 (nx dom) (ny dom) (nz dom) st (map (value3 u) (file_order3 (nx dom) (ny dom) (nz dom)))
      (map (point3 dom (d3_dx d)) (file_order3 (nx dom + 1) (ny dom + 1) (nz dom + 1)))).
  Proof.
    intros HV E HC. destruct (make3_inv dom d HV E) as (W & D). unfold print3.
    pose proof HV as (H1 & H2 & H3 & Hh).
    rewrite (wf_ni _ W), (wf_nj _ W), (wf_nk _ W), (wf_nh _ W), D.
    rewrite (mapM_ok _ (value3 u)).
    2:{ intros [[i j] k] H. apply file_order3_in in H as (A & B & C). cbn [value3].
        rewrite (ix3_slot d i j k W), D, (proj2 HC i j k) by (split; auto). reflexivity. }
    cbn [rbind]. rewrite (mapM_ok _ (point3 dom (d3_dx d))).
    2:{ intros [[i j] k] H. apply file_order3_in in H as (A & B & C).
        destruct (corners3 dom d i j k HV E A B C) as (X & Y & Z). rewrite X, Y, Z. reflexivity. }
    reflexivity.
  Qed.

  Lemma in_not_nil {A} (a : A) l : In a l -> l <> [].
  Proof. intros H ->. exact H. Qed.

  Lemma text3_document (dom : domain V) d st c u : valid_domain3 dom -> make3 dom = Ok d -> holds_inside3 dom c u ->
    exists e x, print3 show show6 st d c = Ok (e ++ nl) /\ write3 show show6 st d c = Ok [x] /\ element e x.
  Proof.
    intros HV E HC. rewrite (print3_ok dom d st c u HV E HC), (write3_ok show show6 dom d st c u HV E HC). unfold doc3.
    pose proof HV as (H1 & H2 & H3 & Hh).
    destruct (cells_good (map (value3 u) (file_order3 (nx dom) (ny dom) (nz dom)))) as (C1 & C2).
    { apply in_not_nil with (a := value3 u (0, 0, 0)). apply in_map, file_order3_in. lia. }
    destruct (points_good (map (line3 show dom (d3_dx d)) (file_order3 (nx dom + 1) (ny dom + 1) (nz dom + 1)))) as (P1 & P2).
    { apply in_not_nil with (a := line3 show dom (d3_dx d) (0, 0, 0)). apply in_map, file_order3_in. lia. }
    { intros s H. apply in_map_iff in H as (p & <- & _). unfold line3. split.
      - repeat (apply plain_app; [first [apply SH|apply plain_lit; reflexivity]|]). apply plain_lit; reflexivity.
      - apply not_blank_l, word_not_blank, SH. }
    destruct (vts_element (extent_text (nx dom) (ny dom) (nz dom)) st _ _ (extent_plain _ _ _) C1 C2 P1 P2) as (e & EL & EQ).
    exists e, (vts_document show6 (extent_text (nx dom) (ny dom) (nz dom)) st
       (cells_text show (map (value3 u) (file_order3 (nx dom) (ny dom) (nz dom))))
       (points_text (map (line3 show dom (d3_dx d)) (file_order3 (nx dom + 1) (ny dom + 1) (nz dom + 1))))).
    split; [|split; [reflexivity|exact EL]]. rewrite EQ. f_equal. unfold text3.
    match goal with |- context [cat (map ?f (map (point3 dom (d3_dx d)) ?l))] =>
      replace (map f (map (point3 dom (d3_dx d)) l)) with (map (line3 show dom (d3_dx d)) l)
        by (rewrite map_map; apply map_ext; intros p; reflexivity) end.
    unfold cells_text, points_text, extent_text, nl.
    repeat first [progress cbn [append] | rewrite app_assoc]. reflexivity.
  Qed.

  (** *** 2D *)
  Definition point2 (dom : domain V) (dx : V) (p : Z * Z) : V * V := (px2 dom dx p, py2 dom dx p).
  Lemma print2_ok (dom : domain V) d st c u : valid_domain2 dom -> make2 dom = Ok d -> holds_inside2 dom c u ->
    print2 show show6 st d c = Ok (text2 show show6 (nx dom) st (map (value2 u) (file_order2 (nx dom)))
      (map (point2 dom (d2_dx d)) (file_order2 (nx dom + 1)))).
  Proof.
    intros HV E HC. destruct (make2_inv dom d HV E) as (W & D). unfold print2. pose proof HV as (H1 & Hh).
    rewrite (wf2_ni _ W), (wf2_nh _ W), D.
    rewrite (mapM_ok _ (value2 u)).
    2:{ intros [i j] H. apply file_order2_in in H as (A & B). cbn [value2].
        rewrite (ix2_slot d i j W), D, (proj2 HC i j) by (split; auto). reflexivity. }
    cbn [rbind]. rewrite (mapM_ok _ (point2 dom (d2_dx d))).
    2:{ intros [i j] H. apply file_order2_in in H as (A & B).
        destruct (corners2 show show6 (fs_time st) dom d i j HV E A B) as (X & Y). rewrite X, Y. reflexivity. }
    reflexivity.
  Qed.

  Lemma text2_document (dom : domain V) d st c u : valid_domain2 dom -> make2 dom = Ok d -> holds_inside2 dom c u ->
    exists e x, print2 show show6 st d c = Ok (e ++ nl) /\ write2 show show6 st d c = Ok [x] /\ element e x.
  Proof.
    intros HV E HC. rewrite (print2_ok dom d st c u HV E HC), (write2_ok show show6 (fs_time st) dom d st c u HV E HC). unfold doc2.
    pose proof HV as (H1 & Hh).
    destruct (cells_good (map (value2 u) (file_order2 (nx dom)))) as (C1 & C2).
    { apply in_not_nil with (a := value2 u (0, 0)). apply in_map, file_order2_in. lia. }
    destruct (points_good (map (line2 show dom (d2_dx d)) (file_order2 (nx dom + 1)))) as (P1 & P2).
    { apply in_not_nil with (a := line2 show dom (d2_dx d) (0, 0)). apply in_map, file_order2_in. lia. }
    { intros s H. apply in_map_iff in H as (p & <- & _). unfold line2. split.
      - repeat (apply plain_app; [first [apply SH|apply plain_lit; reflexivity]|]). apply plain_lit; reflexivity.
      - apply not_blank_l, word_not_blank, SH. }
    destruct (vts_element (extent_text (nx dom) (nx dom) 0) st _ _ (extent_plain _ _ _) C1 C2 P1 P2) as (e & EL & EQ).
    exists e, (vts_document show6 (extent_text (nx dom) (nx dom) 0) st
       (cells_text show (map (value2 u) (file_order2 (nx dom))))
       (points_text (map (line2 show dom (d2_dx d)) (file_order2 (nx dom + 1))))).
    split; [|split; [reflexivity|exact EL]]. rewrite EQ. f_equal. unfold text2.
    match goal with |- context [cat (map ?f (map (point2 dom (d2_dx d)) ?l))] =>
      replace (map f (map (point2 dom (d2_dx d)) l)) with (map (line2 show dom (d2_dx d)) l)
        by (rewrite map_map; apply map_ext; intros p; reflexivity) end.
    unfold cells_text, points_text, extent_text, nl. change (dec 0) with "0".
    repeat first [progress cbn [append] | rewrite app_assoc]. reflexivity.
  Qed.
End Document.

(** *** Printed doubles *)
Lemma every_plain_b s : every (fun c => plain_b c = true) s -> SpecXML.plain s.
Proof. intros H. apply every_all in H. revert H. apply all_weaken. exact plain_b_ok. Qed.
Lemma every_lit s : all_b plain_b s = true -> every (fun c => plain_b c = true) s.
Proof. induction s as [|c s IH]; cbn; intros H; [exact I|]. apply andb_prop in H. tauto. Qed.
Lemma every_written ds : digits ds -> every (fun c => plain_b c = true) (written ds).
Proof. intros D. eapply every_impl; [|apply written_every, D]. exact digit_char_plain. Qed.
Lemma literal_plain l : good_literal l -> every (fun c => plain_b c = true) (literal_text l).
Proof.
  intros (DW & DF & NE & SG & EX). unfold literal_text. rewrite !every_app. split; [|split; [|split; [|split]]].
  - destruct (l_minus l), (l_plus l); apply every_lit; reflexivity.
  - apply every_written; auto.
  - apply every_lit; reflexivity.
  - apply every_written; auto.
  - destruct (l_exponent l) as [(s, ds)|]; [|exact I]. destruct EX as (S & D & _). rewrite !every_app.
    split; [apply every_lit; reflexivity|]. split; [|apply every_written; auto].
    destruct S as [->|[->| ->]]; apply every_lit; reflexivity.
Qed.
Lemma scientific_printed p (x : double) : 2 <= p -> printed (scientific p (B2SF x)).
Proof.
  intros Hp. split; [apply word_scientific; exact Hp|]. apply every_plain_b. destruct x as [s|s| |s m e h].
  - cbn [B2SF scientific]. rewrite !every_app. split; [destruct s; apply every_lit; reflexivity|].
    split; [apply every_lit; reflexivity|]. split; [|apply every_lit; reflexivity].
    generalize (Z.to_nat (p - 1)). intros n. induction n; cbn [repeat_char every]; [exact I|]. split; [reflexivity|exact IHn].
  - destruct s; apply every_lit; reflexivity.
  - apply every_lit; reflexivity.
  - destruct (print_literal p s m e h Hp) as (l & k & G & E & _). rewrite E. apply literal_plain; exact G.
Qed.
