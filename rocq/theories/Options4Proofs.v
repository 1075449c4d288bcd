(** Proofs about configuration files with sections and with lines that assign nothing. *)
From Coq Require Import ZArith String Ascii Bool Lia List.
Import ListNotations.
From Verif Require Import Outcome ModelText ModelOptions SpecOptions TextProofs OptionsProofs Options2Proofs Options3Proofs.
Local Open Scope list_scope.

Lemma get_last s c : String.get (String.length s) (s ++ String c "") = Some c.
Proof. induction s as [|d s IH]; [reflexivity|exact IH]. Qed.
Lemma last_char_app s c : last_char (s ++ String c "") = Some c.
Proof.
  unfold last_char. rewrite length_append. cbn [String.length]. replace (String.length s + 1 - 1)%nat with (String.length s) by lia.
  apply get_last.
Qed.
Lemma last_char_some s : s <> ""%string -> exists t c, s = (t ++ String c "")%string /\ last_char s = Some c.
Proof.
  induction s as [|d s IH]; [congruence|]. intros _. destruct s as [|e s].
  - exists ""%string, d. split; reflexivity.
  - destruct IH as (t & c & E & _); [discriminate|]. exists (String d t), c. split; [cbn [append]; congruence|].
    rewrite E. exact (last_char_app (String d t) c).
Qed.
Lemma substring_app s t : String.substring 0 (String.length s) (s ++ t) = s.
Proof. induction s as [|d s IH]; [destruct t; reflexivity|]. cbn. rewrite IH. reflexivity. Qed.

Section Sections.
  Context {V : Type} (lit : Z -> Z -> V) (eps100 max100 : V).
  Notation base := (base_opts lit eps100 max100).
  Notation names := (map o_name base).
  Notation parse_lines := (parse_config_lines lit eps100 max100).

  Lemma assign_line_in (pre n : string) b1 b2 b3 v b4 c :
    n <> ""%string -> every (fun d => ws d = false) n -> free_of "#" n -> free_of "=" n -> free_of "[" n ->
    blanks b1 -> blanks b2 -> blanks b3 -> blanks b4 -> plain_value v -> good_comment c ->
    ~ In (pre ++ n)%string names ->
    forall rest, parse_lines pre (line_text (Assign b1 n b2 b3 v b4 c) :: rest) = Throw.
  Proof.
    intros NE W F1 F2 F3 B1 B2 B3 B4 P C NI rest. cbn [parse_config_lines line_text].
    set (body := (b1 ++ n ++ b2 ++ "=" ++ b3 ++ v ++ b4)%string).
    replace (b1 ++ n ++ b2 ++ "=" ++ b3 ++ v ++ b4 ++ comment_text c)%string with (body ++ comment_text c)%string
      by (unfold body; rewrite !append_assoc; reflexivity).
    assert (FB : free_of "#" body).
    { unfold body. rewrite !free_app. repeat split; auto using blanks_free, not_blank_hash.
      - apply free_every. cbn. split; [discriminate|exact I].
      - apply P. }
    rewrite cut_comment by auto.
    assert (T : trim_ws body = (n ++ b2 ++ String "=" (trim_right ws (b3 ++ v ++ b4)))%string).
    { unfold body, trim_ws, trim_if. rewrite trim_left_app by (apply blanks_ws; auto).
      rewrite trim_left_id.
      2:{ intros d t E. destruct n as [|d' n']; [congruence|]. cbn in E. injection E as <- _. cbn in W. tauto. }
      rewrite <- append_assoc. change ("=" ++ b3 ++ v ++ b4)%string with (String "=" (b3 ++ v ++ b4)).
      rewrite trim_right_cons by reflexivity. rewrite append_assoc. reflexivity. }
    rewrite T. destruct n as [|d n']; [congruence|]. cbn [append].
    assert (D : Ascii.eqb d "[" = false).
    { apply Ascii.eqb_neq. apply free_every in F3. cbn in F3. tauto. }
    rewrite D. cbn [andb].
    change (String d (n' ++ b2 ++ String "=" (trim_right ws (b3 ++ v ++ b4))))
      with (String d n' ++ b2 ++ String "=" (trim_right ws (b3 ++ v ++ b4)))%string.
    rewrite <- append_assoc, cut_app.
    2:{ apply free_app. split; auto using blanks_free, not_blank_eq. }
    assert (T2 : trim_ws (String d n' ++ b2) = String d n').
    { unfold trim_ws, trim_if. rewrite trim_left_id.
      2:{ intros e t E. cbn in E. injection E as <- _. cbn in W. tauto. }
      rewrite trim_right_app, trim_right_yes by (apply blanks_ws; auto). apply trim_right_id. intros e t E. rewrite E in W.
      apply every_last in W. auto. }
    rewrite T2, find_out by exact NI. reflexivity.
  Qed.

  Definition section_text (b1 s b2 : string) (c : option string) : string :=
    (b1 ++ "[" ++ s ++ "]" ++ b2 ++ comment_text c)%string.

  Lemma section_trim b1 s b2 c : blanks b1 -> blanks b2 -> free_of "#" s -> good_comment c ->
    trim_ws (match cut "#" (section_text b1 s b2 c) with Some (a, _) => a | None => section_text b1 s b2 c end)
      = String "[" (s ++ "]").
  Proof.
    intros B1 B2 F C. unfold section_text.
    replace (b1 ++ "[" ++ s ++ "]" ++ b2 ++ comment_text c)%string with ((b1 ++ "[" ++ s ++ "]" ++ b2) ++ comment_text c)%string
      by (rewrite !append_assoc; reflexivity).
    rewrite cut_comment; [|rewrite !free_app; repeat split; auto using blanks_free, not_blank_hash; apply free_every; cbn; (split; [discriminate|exact I])|exact C].
    unfold trim_ws, trim_if. rewrite trim_left_app by (apply blanks_ws; auto).
    rewrite trim_left_id by (intros d t E; cbn in E; injection E as <- _; reflexivity).
    change ("[" ++ s ++ "]" ++ b2)%string with (String "[" s ++ String "]" b2)%string.
    rewrite trim_right_cons by reflexivity. rewrite trim_right_yes by (apply blanks_ws; auto). reflexivity.
  Qed.

  Lemma section_line pre b1 s b2 c rest : blanks b1 -> blanks b2 -> free_of "#" s -> good_comment c -> s <> ""%string ->
    exists p, parse_lines pre (section_text b1 s b2 c :: rest) = parse_lines (p ++ ".") rest.
  Proof.
    intros B1 B2 F C NE. cbn [parse_config_lines]. rewrite section_trim by auto. rewrite Ascii.eqb_refl. cbn [andb].
    change (String "[" (s ++ "]")) with (String "[" s ++ String "]" "")%string. rewrite last_char_app, Ascii.eqb_refl. cbn [andb].
    replace (String.substring 0 (String.length (String "[" s ++ "]") - 2) (s ++ "]")) with s.
    2:{ rewrite length_append. cbn [String.length]. replace (Datatypes.S (String.length s) + 1 - 2)%nat with (String.length s) by lia.
        symmetry. apply substring_app. }
    destruct (last_char_some s NE) as (t & d & E & ->). destruct (Ascii.eqb_spec d ".").
    - exists t. rewrite E. subst d. reflexivity.
    - exists s. reflexivity.
  Qed.

  Lemma empty_section pre b1 b2 c rest : blanks b1 -> blanks b2 -> good_comment c ->
    parse_lines pre (section_text b1 "" b2 c :: rest) = UB.
  Proof.
    intros B1 B2 C. cbn [parse_config_lines]. rewrite section_trim; auto. intros n. destruct n; discriminate.
  Qed.

  Lemma gap_lines pre l rest : Forall (good_line base) l -> Forall (fun x => exists b c, x = Empty b c) l ->
    parse_lines pre (map line_text l ++ rest) = parse_lines pre rest.
  Proof.
    induction 1 as [|x l H1 H2 IH]; intros G; [reflexivity|]. inversion G as [|y l' (b & c & E) G2]; subst.
    cbn [good_line] in H1. destruct H1 as (B & C). cbn [map List.app parse_config_lines line_text].
    rewrite cut_comment by auto using blanks_free, not_blank_hash.
    assert (T : trim_ws b = ""%string).
    { unfold trim_ws, trim_if. rewrite <- (append_nil b), trim_left_app by (apply blanks_ws; auto). reflexivity. }
    rewrite T. exact (IH G2).
  Qed.

  Lemma dotted p n : ~ In ((p ++ ".") ++ n)%string names.
  Proof.
    intros H. apply (name_free lit eps100 max100 _ "."%char) in H; [|reflexivity].
    apply (H (String.length p)). clear H. rewrite append_assoc. induction p as [|d p IH]; [reflexivity|exact IH].
  Qed.

  Lemma section_free b1 s b2 c : blanks b1 -> blanks b2 -> free_of "010" s -> good_comment c -> free_of "010" (section_text b1 s b2 c).
  Proof.
    intros. unfold section_text. rewrite !free_app. repeat split; auto using blanks_free, not_blank_nl, comment_free;
      apply free_every; cbn; (split; [discriminate|exact I]).
  Qed.

  Lemma config_section l b1 s b2 c gap a1 n a2 a3 v a4 c' rest :
    Forall (good_line base) l -> blanks b1 -> blanks b2 -> s <> ""%string -> free_of "#" s -> free_of "010" s -> good_comment c ->
    Forall (good_line base) gap -> Forall (fun x => exists b c, x = Empty b c) gap ->
    n <> ""%string -> (forall k d, String.get k n = Some d -> ~ blank d /\ d <> "010"%char /\ d <> "#"%char /\ d <> "="%char /\ d <> "["%char) ->
    blanks a1 -> blanks a2 -> blanks a3 -> blanks a4 -> plain_value v -> good_comment c' ->
    parse_config lit eps100 max100 (file_text l ++ section_text b1 s b2 c ++ nl ++ file_text gap ++
      line_text (Assign a1 n a2 a3 v a4 c') ++ nl ++ rest) = Throw.
  Proof.
    intros GL B1 B2 SE F1 F2 C GG GE NE G A1 A2 A3 A4 P C'. apply every_get in G.
    assert (FR : forall d, (~ blank d /\ d <> "010" /\ d <> "#" /\ d <> "=" /\ d <> "[" -> False)%char -> free_of d n).
    { intros d N. apply free_every. revert G. apply every_impl. intros e H E. subst. auto. }
    unfold parse_config. rewrite (lines_text lit eps100 max100) by auto.
    unfold nl. cbn [append]. rewrite lines_app by (apply section_free; auto). cbn [append].
    rewrite (lines_text lit eps100 max100) by auto.
    assert (FN : free_of "010" (line_text (Assign a1 n a2 a3 v a4 c'))).
    { cbn [line_text]. rewrite !free_app. destruct P as (_ & P & _).
      repeat split; auto using blanks_free, not_blank_nl, comment_free.
      - apply FR. tauto.
      - apply free_every. cbn. split; [discriminate|exact I]. }
    rewrite lines_app by auto. cbn [append]. rewrite lines_parse by auto.
    destruct (section_line "" b1 s b2 c (map line_text gap ++ line_text (Assign a1 n a2 a3 v a4 c') :: lines_from "" rest)) as (p & ->); auto.
    rewrite gap_lines by auto. rewrite (assign_line_in (p ++ ".") n); auto.
    - revert G. apply every_impl. intros d (H1 & H2 & _). destruct (ws d) eqn:W; auto. apply ws_cases in W as [W|W]; tauto.
    - apply FR. tauto.
    - apply FR. tauto.
    - apply FR. tauto.
    - apply dotted.
  Qed.

  Lemma config_empty_section l b1 b2 c rest : Forall (good_line base) l -> blanks b1 -> blanks b2 -> good_comment c ->
    parse_config lit eps100 max100 (file_text l ++ section_text b1 "" b2 c ++ nl ++ rest) = UB.
  Proof.
    intros GL B1 B2 C. unfold parse_config. rewrite (lines_text lit eps100 max100) by auto.
    unfold nl. cbn [append]. rewrite lines_app by (apply section_free; auto; intros n; destruct n; discriminate). cbn [append].
    rewrite lines_parse by auto. rewrite empty_section by auto. reflexivity.
  Qed.

  (** A line that is no comment, section or assignment. *)
  Lemma config_garbage l t c rest : Forall (good_line base) l -> ~ blanks t ->
    free_of "#" t -> free_of "010" t -> free_of "=" t -> free_of "[" t -> good_comment c ->
    parse_config lit eps100 max100 (file_text l ++ (t ++ comment_text c) ++ nl ++ rest) = Throw.
  Proof.
    intros GL NB F1 F2 F3 F4 C. unfold parse_config. rewrite (lines_text lit eps100 max100) by auto.
    unfold nl. change ((String "010" "" ++ rest)%string) with (String "010" rest).
    rewrite lines_app by (apply free_app; auto using comment_free). cbn [append].
    rewrite lines_parse by auto. cbn [parse_config_lines]. rewrite cut_comment by auto.
    assert (SUB : forall d, free_of d t -> free_of d (trim_ws t)).
    { intros d H. apply free_every. apply free_every in H. unfold trim_ws, trim_if.
      assert (TL : forall s, every (fun x => x <> d) s -> every (fun x => x <> d) (trim_left ws s)).
      { induction s as [|e s IH]; cbn [trim_left every]; auto. intros (X & Y). destruct (ws e); [auto|split; auto]. }
      assert (TR : forall s, every (fun x => x <> d) s -> every (fun x => x <> d) (trim_right ws s)).
      { induction s as [|e s IH]; cbn [trim_right every]; auto. intros (X & Y). specialize (IH Y).
        destruct (trim_right ws s); [destruct (ws e); cbn; auto|cbn in *; tauto]. }
      auto. }
    destruct (trim_ws t) as [|e s] eqn:T.
    - exfalso. apply NB. clear - T F2. unfold trim_ws, trim_if in T.
      assert (TR : forall s, trim_right ws s = ""%string -> every (fun x => ws x = true) s).
      { induction s as [|e s IH]; cbn [trim_right every]; auto. destruct (trim_right ws s); [|discriminate].
        destruct (ws e); [intros _; auto|discriminate]. }
      apply TR in T.
      assert (TL : forall s, every (fun x => ws x = true) (trim_left ws s) -> every (fun x => ws x = true) s).
      { induction s as [|e s IH]; cbn [trim_left every]; auto. destruct (ws e) eqn:E; [auto|cbn [every]; intros (X & _); congruence]. }
      apply TL in T. rewrite every_get in T. intros k d G. specialize (T k d G). apply ws_cases in T as [T|T]; [exact T|].
      subst d. exfalso. exact (F2 k G).
    - assert (D : Ascii.eqb e "[" = false).
      { apply Ascii.eqb_neq. specialize (SUB _ F4). apply free_every in SUB. cbn in SUB. tauto. }
      rewrite D. cbn [andb]. rewrite cut_none by (apply SUB; exact F3). reflexivity.
  Qed.
End Sections.
