(** Proofs about reading a log file as a table. *)
From Coq Require Import ZArith String Ascii Bool Lia List.
Import ListNotations.
From Verif Require Import Outcome Num ModelText TextProofs ModelLogger SpecLogger LoggerProofs Logger2Proofs SpecTable.
Local Open Scope list_scope.
Local Open Scope Z_scope.
Local Notation sp := (any_of " ").

Lemma lines_cons s : exists l ls, text_lines s = l :: ls.
Proof.
  induction s as [|c s (l & ls & E)]; cbn [text_lines]; [eauto|]. destruct (Ascii.eqb c "010"); [eauto|]. rewrite E. eauto.
Qed.
Lemma lines_app a b : text_lines (a ++ nl ++ b) = text_lines a ++ text_lines b.
Proof.
  induction a as [|c a IH]; [reflexivity|]. change (String c a ++ nl ++ b)%string with (String c (a ++ nl ++ b)).
  cbn [text_lines]. destruct (Ascii.eqb c "010"); [rewrite IH; reflexivity|]. rewrite IH.
  destruct (lines_cons a) as (l & ls & E). rewrite E. reflexivity.
Qed.
Lemma table_app a b : table_in (a ++ nl ++ b) = table_in a ++ table_in b.
Proof. unfold table_in. rewrite lines_app, map_app, filter_app, map_app. reflexivity. Qed.

Lemma one_line_cons c s : one_line (String c s) -> c <> "010"%char /\ one_line s.
Proof. intros H. split; [intros ->; exact (H O eq_refl)|intros n; exact (H (S n))]. Qed.
Lemma one_line_lines s : one_line s -> text_lines s = [s].
Proof.
  induction s as [|c s IH]; auto. intros H. apply one_line_cons in H as (H1 & H2). cbn [text_lines].
  apply Ascii.eqb_neq in H1. rewrite H1, (IH H2). reflexivity.
Qed.
Lemma one_line_app a b : one_line a -> one_line b -> one_line (a ++ b).
Proof.
  induction a as [|c a IH]; auto. intros H B. apply one_line_cons in H as (H1 & H2).
  intros [|n]; cbn; [congruence|exact (IH H2 B n)].
Qed.

Notation starts := (fun l => exists rest, l = String "#" rest).
Lemma comment_tail x : one_line x -> forall t,
  (all_comment t -> all_comment (t ++ x)) /\
  (Forall starts (tl (text_lines t)) -> Forall starts (tl (text_lines (t ++ x)))).
Proof.
  intros X. unfold all_comment. induction t as [|c t (I1 & I2)].
  - cbn [append]. split.
    + intros F. inversion F as [|? ? (r & E)]; subst. discriminate.
    + intros _. rewrite one_line_lines by auto. constructor.
  - cbn [append text_lines]. destruct (Ascii.eqb c "010").
    + split; [|exact I1]. intros F. inversion F as [|? ? (r & E)]; subst. discriminate.
    + destruct (lines_cons t) as (l & ls & E), (lines_cons (t ++ x)) as (l' & ls' & E'). rewrite E, E' in *. cbn [tl] in *.
      split; [|exact I2]. intros F. inversion F as [|? ? (r & E1) F2]; subst. injection E1 as -> ->. constructor; eauto.
Qed.

Lemma comment_table t : all_comment t -> table_in t = [].
Proof.
  unfold all_comment, table_in. induction (text_lines t) as [|l ls IH]; auto. intros F.
  apply Forall_cons_iff in F as ((r & ->) & F). cbn. apply IH, F.
Qed.

Definition no_hash (s : string) : Prop := forall n, String.get n s <> Some "#"%char.
Lemma no_hash_app a b : no_hash a -> no_hash b -> no_hash (a ++ b).
Proof.
  induction a as [|c a IH]; auto. intros H B [|n]; cbn; [exact (H O)|]. apply IH; auto. intros k. exact (H (S k)).
Qed.
Lemma uncommented_app a b : no_hash a -> uncommented (a ++ String "#" b) = a.
Proof.
  induction a as [|c a IH]; intros H; [reflexivity|]. cbn [append uncommented].
  assert (C : c <> "#"%char) by (intros ->; exact (H O eq_refl)). apply Ascii.eqb_neq in C. rewrite C, IH; auto.
  intros n. exact (H (S n)).
Qed.
Lemma blanks_text s : only_blanks s = true -> blank_text sp s.
Proof.
  induction s as [|c s IH]; cbn [only_blanks blank_text]; [intros _; exact I|]. intros H. apply andb_true_iff in H as (H1 & H2).
  apply Ascii.eqb_eq in H1. subst. split; [reflexivity|]. apply IH, H2.
Qed.
Lemma words_of_blanks s : blank_text sp s -> words sp "" s = [].
Proof. intros H. rewrite <- (append_nil s), words_blank by auto. reflexivity. Qed.

(** A line of words followed by its time stamp. *)
Lemma line_table s l st : one_line s -> no_hash s -> one_line st -> words sp "" s = l -> l <> [] ->
  table_in (s ++ " #[" ++ st ++ "]")%string = [l].
Proof.
  intros O H S W NE. unfold table_in. rewrite one_line_lines.
  2: { apply one_line_app; auto. change (one_line (" #[" ++ (st ++ "]"))%string). apply one_line_app.
       - intros [|[|[|[|n]]]]; discriminate.
       - apply one_line_app; auto. intros [|[|n]]; discriminate. }
  cbn [map]. change (s ++ " #[" ++ st ++ "]")%string with (s ++ (" " ++ String "#" ("[" ++ st ++ "]")))%string.
  rewrite <- append_assoc, uncommented_app.
  2: { apply no_hash_app; auto. intros [|[|n]]; discriminate. }
  assert (E : words sp "" (s ++ " ") = l).
  { rewrite words_tail; auto. split; [reflexivity|exact I]. }
  cbn [filter]. destruct (only_blanks (s ++ " ")) eqn:B.
  - apply blanks_text, words_of_blanks in B. congruence.
  - cbn [negb map]. rewrite (words_split _ l); auto.
Qed.

Lemma stamp_tail (stamp : nat -> string) n : (forall n, one_line (stamp n)) -> one_line (" #[" ++ stamp n ++ "]")%string.
Proof.
  intros S. apply one_line_app; [intros [|[|[|[|k]]]]; discriminate|]. apply one_line_app; auto. intros [|[|k]]; discriminate.
Qed.

Definition to_file (f : string) (r : record) (d : delivery) : Prop := d_file d = Some f /\ d_record d = r.
Lemma file_text_cons f stamp n d out r : to_file f r d ->
  file_text f stamp n (d :: out) = ((r_text r ++ " #[" ++ stamp n ++ "]") ++ nl ++ file_text f stamp (S n) out)%string.
Proof. intros (E & R). cbn [file_text]. rewrite E, String.eqb_refl, R. rewrite !append_assoc. reflexivity. Qed.

Section Table.
  Context {V : Type}.
  Variables (showe : V -> string) (table : list string -> string) (banner : string).
  Variables (f : string) (lvl : level) (stamp : nat -> string).
  Hypothesis Hstamp : forall n, one_line (stamp n).
  Hypothesis Htable : forall header, all_comment (table header).
  Hypothesis Hbanner : all_comment banner.
  Hypothesis Hlevel : rank lvl <= rank LWarning.

  (** Commented records leave the table alone. *)
  Lemma comment_record d out n r : to_file f r d -> all_comment (r_text r) ->
    table_in (file_text f stamp n (d :: out)) = table_in (file_text f stamp (S n) out).
  Proof.
    intros D C. rewrite (file_text_cons _ _ _ _ _ r D), table_app.
    rewrite comment_table; auto. apply comment_tail; auto. apply stamp_tail; auto.
  Qed.
  Lemma line_record d out n r l : to_file f r d -> one_line (r_text r) -> no_hash (r_text r) -> words sp "" (r_text r) = l -> l <> [] ->
    table_in (file_text f stamp n (d :: out)) = l :: table_in (file_text f stamp (S n) out).
  Proof.
    intros D A B C E. rewrite (file_text_cons _ _ _ _ _ r D), table_app. rewrite (line_table _ l); auto.
  Qed.

  Definition ready (g : logger V) : Prop := l_enabled g = true /\ l_filter g = Some lvl /\ l_file g = Some f /\ 0 <= l_updates g.
  Lemma deliver_ready g r : ready g ->
    (rank lvl <= rank (r_level r) -> exists d, deliver g r = [d] /\ to_file f r d) /\
    (~ rank lvl <= rank (r_level r) -> deliver g r = []).
  Proof.
    intros (A & B & C & _). unfold deliver. rewrite A, B. cbn [andb]. split; intros H.
    - rewrite (proj2 (Z.leb_le _ _) H). eexists. split; [reflexivity|]. split; [exact C|reflexivity].
    - rewrite (proj2 (Z.leb_nle _ _) H). reflexivity.
  Qed.

  Lemma lines_after tg s : all_comment tg -> one_line tg ->
    (forall l ls, text_lines (after_newlines tg s) = l :: ls -> Forall starts ls).
  Proof.
    intros T O. induction s as [|c s IH]; intros l ls; cbn [after_newlines].
    - cbn. intros E. injection E as <- <-. constructor.
    - destruct (Ascii.eqb c "010") eqn:C.
      + apply Ascii.eqb_eq in C. subst c. cbn [append text_lines]. rewrite Ascii.eqb_refl. intros E. injection E as <- <-.
        unfold all_comment in T. rewrite (one_line_lines tg O) in T. apply Forall_inv in T as (r & ->).
        cbn [append]. cbn [text_lines]. change (Ascii.eqb "#" "010") with false. cbn iota.
        assert (OR : one_line r) by (apply one_line_cons in O; tauto).
        assert (G : forall x, one_line x -> forall y l ls, text_lines y = l :: ls -> text_lines (x ++ y) = (x ++ l)%string :: ls).
        { clear. induction x as [|c x IH]; intros O y l ls E; [exact E|]. apply one_line_cons in O as (O1 & O2).
          cbn [append text_lines]. apply Ascii.eqb_neq in O1. rewrite O1, (IH O2 y l ls E). reflexivity. }
        destruct (lines_cons (after_newlines (String "#" r) s)) as (l & ls & E). rewrite (G r OR _ _ _ E).
        constructor; [eauto|]. eapply IH; eauto.
      + cbn [text_lines]. rewrite C. destruct (lines_cons (after_newlines tg s)) as (l' & ls' & E). rewrite E.
        intros X. injection X as <- <-. eapply IH; eauto.
  Qed.
  Lemma tag_hash l : exists r, tag l = String "#" r /\ one_line (tag l).
  Proof. destruct l; eexists; (split; [reflexivity|]); cbn [tag]; intros n; do 13 (destruct n as [|n]; [discriminate|]); discriminate. Qed.
  Lemma message_comment l s : all_comment (r_text (message_record l s)).
  Proof.
    unfold message_record. cbn [r_text]. set (s' := match l with LFatal => _ | _ => s end). clearbody s'.
    destruct (tag_hash l) as (r & E & O).
    assert (T : all_comment (tag l)).
    { unfold all_comment. rewrite one_line_lines by auto. rewrite E. constructor; eauto. }
    pose proof (lines_after (tag l) s' T O) as A.
    unfold all_comment. rewrite E in *. apply one_line_cons in O as (_ & O). cbn [append text_lines].
    change (Ascii.eqb "#" "010") with false. cbn iota.
    destruct (lines_cons (after_newlines (String "#" r) s')) as (l1 & ls & E1). specialize (A l1 ls E1).
    assert (G : forall x, one_line x -> forall y l ls, text_lines y = l :: ls -> text_lines (x ++ y) = (x ++ l)%string :: ls).
    { clear. induction x as [|c x IH]; intros O y l ls E; [exact E|]. apply one_line_cons in O as (O1 & O2).
      cbn [append text_lines]. apply Ascii.eqb_neq in O1. rewrite O1, (IH O2 y l ls E). reflexivity. }
    rewrite (G r O _ _ _ E1). constructor; eauto.
  Qed.

  Lemma fold_one l : Forall one_line l -> one_line (fold_right append ""%string l).
  Proof. induction 1; cbn [fold_right]; [intros n; destruct n; discriminate|]. apply one_line_app; auto. Qed.
  Lemma fold_hash l : Forall no_hash l -> no_hash (fold_right append ""%string l).
  Proof. induction 1; cbn [fold_right]; [intros n; destruct n; discriminate|]. apply no_hash_app; auto. Qed.
  Lemma repeat_plain n : one_line (repeat_char " " n "") /\ no_hash (repeat_char " " n "").
  Proof.
    induction n as [|n (I1 & I2)]; cbn [repeat_char]; [split; intros k; destruct k; discriminate|].
    split; intros [|k]; cbn; try discriminate; [apply I1|apply I2].
  Qed.
  Lemma column_plain s : is_word s -> one_line (column s) /\ no_hash (column s).
  Proof.
    intros (_ & O & H). rewrite column_split. pose proof (repeat_plain (13 - String.length s)) as (A & B).
    split; [apply one_line_app|apply no_hash_app]; auto.
  Qed.

  (** One row, first or not. *)
  Lemma row_table names t r s g : names <> [] -> Forall is_word names -> legible showe names (t ++ r ++ s) -> ready g ->
    exists g' out,
      perform_all showe table banner g [Monitors t r s; Update] = Next g' out /\ ready g' /\ 0 < l_updates g' /\
      forall n out', table_in (file_text f stamp n (out ++ out')) =
        ((if l_updates g =? 0 then [names] else []) ++ [printed showe (t ++ r ++ s)]) ++
        table_in (file_text f stamp (n + length out) out').
  Proof.
    intros NE NW (LN & LW & LL) R. cbn [perform_all perform]. unfold update_log.
    set (g1 := set_monitors g t r s). assert (R1 : ready g1) by exact R.
    change (l_time g1) with t. change (l_residual g1) with r. change (l_solution g1) with s. change (l_updates g1) with (l_updates g).
    change (l_header g1) with (l_header g). rewrite LN. destruct names as [|n1 ns]; [congruence|].
    rewrite andb_false_r. destruct R as (_ & _ & _ & U).
    assert (DW : forall x, exists d, deliver g1 (warning x) = [d] /\ to_file f (warning x) d).
    { intros x. apply (deliver_ready g1 (warning x) R1). exact Hlevel. }
    destruct (DW ("#" ++ nl ++ "# Logger outputs: ")%string) as (d1 & E1 & F1).
    destruct (DW (fold_right append "" (map (fun n => n ++ " ") (n1 :: ns)))%string) as (d2 & E2 & F2).
    destruct (DW (row showe g1)) as (d4 & E4 & F4).
    assert (T4 : forall n out', table_in (file_text f stamp n (d4 :: out')) =
        printed showe (t ++ r ++ s) :: table_in (file_text f stamp (S n) out')).
    { unfold printed. intros n out'. assert (RT : r_text (warning (row showe g1)) =
        (" " ++ fold_right append "" (map column (map (fun p => showe (snd p)) (t ++ r ++ s))))%string).
      { cbn [warning r_text]. unfold row. cbn [g1 set_monitors l_time l_residual l_solution]. rewrite map_map. reflexivity. }
      assert (NN : map (fun p => showe (snd p)) (t ++ r ++ s) <> []) by (destruct (t ++ r ++ s); discriminate).
      assert (CP : Forall (fun x => one_line x /\ no_hash x) (map column (map (fun p => showe (snd p)) (t ++ r ++ s)))).
      { apply Forall_map. revert LW. apply Forall_impl. intros x. apply column_plain. }
      apply (line_record d4 out' n (warning (row showe g1))); auto.
      - rewrite RT. apply one_line_app; [intros [|[|k]]; discriminate|]. apply fold_one. revert CP. apply Forall_impl. tauto.
      - rewrite RT. apply no_hash_app; [intros [|[|k]]; discriminate|]. apply fold_hash. revert CP. apply Forall_impl. tauto.
      - rewrite RT. destruct (t ++ r ++ s) as [|p0 ps]; [discriminate LN|]. cbn [tl] in LL. cbn [map fold_right] in *.
        apply Forall_cons_iff in LW as (W1 & W2). destruct W1 as (W1 & _).
        rewrite words_blank by (split; [reflexivity|exact I]). rewrite column_split, append_assoc, words_blank by apply repeat_blank.
        pose proof (no_blank_solid _ W1) as (NE1 & S1). rewrite words_solid by auto. cbn [append].
        rewrite words_columns.
        + destruct (showe (snd p0)); [congruence|reflexivity].
        + revert W2. apply Forall_impl. intros x (B & _). exact B.
        + apply Forall_map. exact LL. }
    assert (T2 : forall n out', table_in (file_text f stamp n (d1 :: d2 :: out')) =
        (n1 :: ns) :: table_in (file_text f stamp (S (S n)) out')).
    { intros n out'. rewrite (comment_record d1 _ n _ F1).
      2: { cbn [warning r_text]. unfold all_comment. cbn. repeat constructor; eauto. }
      apply (line_record d2 out' (S n) _ (n1 :: ns) F2); [| | |discriminate]; cbn [warning r_text].
      - apply fold_one, Forall_map. revert NW. apply Forall_impl. intros x (_ & O & _). apply one_line_app; auto. intros [|[|k]]; discriminate.
      - apply fold_hash, Forall_map. revert NW. apply Forall_impl. intros x (_ & _ & O). apply no_hash_app; auto. intros [|[|k]]; discriminate.
      - clear - NW. induction NW as [|x l F1 F2 IH]; auto. cbn [map fold_right].
        rewrite append_assoc, words_token; [rewrite IH; reflexivity|apply no_blank_solid, F1|discriminate|split; [reflexivity|exact I]]. }
    assert (TH : forall header, exists d, deliver g1 (warning (table header)) = [d] /\
        forall n out', table_in (file_text f stamp n (d :: out')) = table_in (file_text f stamp (S n) out')).
    { intros header. destruct (DW (table header)) as (d3 & E3 & F3). exists d3. split; auto. intros n out'.
      apply (comment_record d3 out' n _ F3). apply Htable. }
    rewrite E1, E2, E4. eexists _, _. split; [reflexivity|].
    split; [destruct R1 as (P1 & P2 & P3 & P4); unfold ready; cbn in *; repeat split; auto; lia|].
    split; [cbn; lia|]. intros n out'. rewrite app_nil_r.
    destruct (l_updates g =? 0) eqn:Z0.
    - apply Z.eqb_eq in Z0. rewrite Z0. change (Z.rem 0 50 =? 0) with true. cbn iota.
      destruct (TH (n1 :: ns)) as (d3 & E3 & T3). rewrite E3. cbn [app length]. rewrite T2, T3, T4.
      replace (n + 4)%nat with (S (S (S (S n)))) by lia. reflexivity.
    - destruct (Z.rem (l_updates g) 50 =? 0).
      + destruct (TH (l_header g)) as (d3 & E3 & T3). rewrite E3. cbn [app length]. rewrite T3, T4.
        replace (n + 2)%nat with (S (S n)) by lia. reflexivity.
      + cbn [app length]. rewrite T4. replace (n + 1)%nat with (S n) by lia. reflexivity.
  Qed.

  Lemma perform_app h1 : forall g h2, perform_all showe table banner g (h1 ++ h2) =
    match perform_all showe table banner g h1 with
    | Next g1 o1 => match perform_all showe table banner g1 h2 with
                    | Next g2 o2 => Next g2 (o1 ++ o2) | Aborted o2 => Aborted (o1 ++ o2) | Undefined => Undefined end
    | e => e end.
  Proof.
    induction h1 as [|c h1 IH]; intros g h2; cbn [app perform_all].
    - destruct (perform_all _ _ _ g h2); reflexivity.
    - destruct (perform showe table banner g c) as [g1 o1|o1|]; auto. rewrite IH.
      destruct (perform_all _ _ _ g1 h1) as [g2 o2|o2|]; auto.
      destruct (perform_all _ _ _ g2 h2); rewrite ?app_assoc; reflexivity.
  Qed.

  Lemma entries_table names es : names <> [] -> Forall is_word names -> Forall (legible showe names) (rows_of es) ->
    forall g g' out n, ready g -> perform_all showe table banner g (flat_map entry_calls es) = Next g' out ->
    table_in (file_text f stamp n out) =
      (if (l_updates g =? 0) then match rows_of es with [] => [] | _ => [names] end else []) ++
      map (printed showe) (rows_of es).
  Proof.
    intros NE NW. induction es as [|e es IH]; intros F g g' out n R P.
    - cbn in P. injection P as <- <-. cbn. destruct (l_updates g =? 0); reflexivity.
    - change (flat_map entry_calls (e :: es)) with (entry_calls e ++ flat_map entry_calls es) in P.
      destruct e as [l s|t r s].
      + cbn [entry_calls app perform_all] in P. cbn [perform] in P. change (rows_of (Says l s :: es)) with (rows_of es) in *.
        assert (exists out1, perform_all showe table banner g (flat_map entry_calls es) = Next g' out1 /\ out = deliver g (message_record l s) ++ out1) as (out1 & P1 & ->).
        { destruct l; try discriminate; (destruct (perform_all showe table banner g (flat_map entry_calls es)) as [g2 o2|o2|] eqn:E; try discriminate;
            injection P as <- <-; eauto). }
        destruct (deliver_ready g (message_record l s) R) as (D1 & D2).
        destruct (Z_le_dec (rank lvl) (rank (r_level (message_record l s)))) as [H|H].
        * destruct (D1 H) as (d & -> & D). cbn [app]. rewrite (comment_record d _ n _ D) by apply message_comment.
          apply (IH F g g' out1 (S n) R P1).
        * rewrite (D2 H). apply (IH F g g' out1 n R P1).
      + change (rows_of (Row t r s :: es)) with ((t ++ r ++ s) :: rows_of es) in *.
        apply Forall_cons_iff in F as (F1 & F2). cbn [entry_calls] in P. rewrite perform_app in P.
        destruct (row_table names t r s g NE NW F1 R) as (g1 & o1 & P1 & R1 & U1 & T1). rewrite P1 in P.
        destruct (perform_all showe table banner g1 (flat_map entry_calls es)) as [g2 o2|o2|] eqn:E; try discriminate.
        injection P as <- <-. rewrite T1, (IH F2 g1 g2 o2 _ R1 E).
        replace (l_updates g1 =? 0) with false by (symmetry; apply Z.eqb_neq; lia).
        cbn [app map]. rewrite <- app_assoc. reflexivity.
  Qed.

  Lemma log_table names es : names <> [] -> Forall is_word names -> Forall (legible showe names) (rows_of es) ->
    forall g out, perform_all showe table banner new_logger (InitFile f lvl :: flat_map entry_calls es) = Next g out ->
    table_in (file_text f stamp 0 out) =
      match rows_of es with [] => [] | _ => [names] end ++ map (printed showe) (rows_of es).
  Proof.
    intros NE NW F g out P. cbn [perform_all perform] in P.
    set (g0 := set_level (open_file new_logger f) lvl) in P. change (if l_overridden (open_file new_logger f) then open_file new_logger f else g0) with g0 in P.
    assert (R : ready g0) by (unfold ready; cbn; repeat split; auto; lia).
    destruct (perform_all showe table banner g0 (flat_map entry_calls es)) as [g2 o2|o2|] eqn:E; try discriminate.
    injection P as <- <-. destruct (deliver_ready g0 {| r_level := LInfo; r_text := banner |} R) as (D1 & D2).
    assert (X : forall n, table_in (file_text f stamp n o2) = match rows_of es with [] => [] | _ => [names] end ++ map (printed showe) (rows_of es)).
    { intros n. apply (entries_table names es NE NW F g0 g2 o2 n R E). }
    destruct (Z_le_dec (rank lvl) (rank LInfo)) as [H|H].
    - destruct (D1 H) as (d & -> & D). cbn [app]. rewrite (comment_record d _ _ _ D) by exact Hbanner. apply X.
    - rewrite (D2 H). apply X.
  Qed.
End Table.
