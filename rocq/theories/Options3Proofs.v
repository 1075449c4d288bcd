(** Proofs about rejected options and the configuration template. *)
From Coq Require Import ZArith String Ascii Bool Lia List.
Import ListNotations.
From Verif Require Import Outcome ModelText ModelOptions SpecOptions TextProofs OptionsProofs Options2Proofs.
Local Open Scope list_scope.
Local Open Scope Z_scope.

(** ** Numbers as text *)
Lemma digits_first c s v : every is_digit (String c s) -> unsigned_value (String c s) = Some v ->
  lexical_int (String c s) = (if v <=? 2147483647 then Ok v else Throw) /\
  lexical_unsigned (String c s) = (if v <=? 4294967295 then Ok v else Throw).
Proof.
  intros (D & _) H. assert (0 <= v).
  { unfold unsigned_value in H. apply digits_value_bounds in H. lia. }
  assert (N : c <> "-"%char /\ c <> "+"%char).
  { destruct D as (x & D). split; intros E; subst; discriminate D. }
  destruct N as (N1 & N2). unfold lexical_int, lexical_unsigned.
  assert (A : forall X (a b d : X), match c with "-" => a | "+" => b | _ => d end%char = d).
  { intros. destruct c as [[] [] [] [] [] [] [] []]; try reflexivity; exfalso; [apply N2|apply N1]; reflexivity. }
  split.
  - rewrite A, H. replace (-2147483648 <=? v) with true by (symmetry; apply Z.leb_le; lia). reflexivity.
  - rewrite A, H. reflexivity.
Qed.
Lemma dec_not_empty n : 0 <= n -> exists c s, dec n = String c s /\ every is_digit (String c s) /\ unsigned_value (String c s) = Some n.
Proof.
  intros H. destruct (dec_spec n H) as (NE & _). pose proof (dec_every n H) as E. pose proof (dec_value n H) as D.
  destruct (dec n) as [|c s]; [congruence|]. exists c, s. auto.
Qed.
Lemma dec_neg n : n < 0 -> dec n = String "-" (dec (- n)).
Proof.
  intros H. unfold dec. replace (n <? 0) with true by (symmetry; apply Z.ltb_lt; lia).
  replace (- n <? 0) with false by (symmetry; apply Z.ltb_ge; lia). reflexivity.
Qed.
Lemma lexical_int_dec n : -2147483648 <= n <= 2147483647 -> lexical_int (dec n) = Ok n.
Proof.
  intros H. destruct (Z.lt_ge_cases n 0) as [L|L].
  - rewrite dec_neg by auto. destruct (dec_not_empty (- n)) as (c & s & E & _ & U); [lia|]. rewrite E.
    unfold lexical_int. rewrite U. cbn [option_map]. rewrite Z.opp_involutive.
    replace ((-2147483648 <=? n) && (n <=? 2147483647)) with true by (symmetry; apply andb_true_iff; split; apply Z.leb_le; lia).
    reflexivity.
  - apply lexical_dec. lia.
Qed.
Lemma lexical_unsigned_dec n : 0 <= n <= 4294967295 -> lexical_unsigned (dec n) = Ok n.
Proof.
  intros H. destruct (dec_not_empty n) as (c & s & E & D & U); [lia|]. rewrite E. destruct (digits_first c s n D U) as (_ & L).
  rewrite L. replace (n <=? 4294967295) with true by (symmetry; apply Z.leb_le; lia). reflexivity.
Qed.
Lemma lexical_unsigned_neg n : 0 < n <= 4294967295 -> lexical_unsigned (dec (- n)) = Ok (4294967296 - n).
Proof.
  intros H. rewrite dec_neg, Z.opp_involutive by lia. destruct (dec_not_empty n) as (c & s & E & D & U); [lia|]. rewrite E.
  unfold lexical_unsigned. rewrite U. replace (n <=? 4294967295) with true by (symmetry; apply Z.leb_le; lia).
  replace ((- n) mod 4294967296) with (4294967296 - n); [reflexivity|].
  symmetry. replace (- n) with (4294967296 - n + (-1) * 4294967296) by lia. rewrite Z_mod_plus_full, Z.mod_small by lia. reflexivity.
Qed.
Lemma lexical_int_out n : n < -2147483648 \/ 2147483647 < n -> lexical_int (dec n) = Throw.
Proof.
  intros H. destruct (Z.lt_ge_cases n 0) as [L|L].
  - rewrite dec_neg by auto. destruct (dec_not_empty (- n)) as (c & s & E & _ & U); [lia|]. rewrite E.
    unfold lexical_int. rewrite U. cbn [option_map]. rewrite Z.opp_involutive.
    replace ((-2147483648 <=? n) && (n <=? 2147483647)) with false; [reflexivity|].
    symmetry. apply andb_false_iff. left. apply Z.leb_gt. lia.
  - destruct (dec_not_empty n) as (c & t & E & D & U); [lia|]. rewrite E. destruct (digits_first c t n D U) as (A & _). rewrite A.
    replace (n <=? 2147483647) with false by (symmetry; apply Z.leb_gt; lia). reflexivity.
Qed.
Lemma lexical_int_range s n : lexical_int s = Ok n -> -2147483648 <= n <= 2147483647.
Proof.
  unfold lexical_int. match goal with |- context[match ?X with Some v => _ | None => Throw end] => destruct X end; [|discriminate].
  destruct (_ && _) eqn:E; [|discriminate]. intros H. injection H as <-. apply andb_true_iff in E as (A & B). lia.
Qed.
Lemma lexical_unsigned_range s n : lexical_unsigned s = Ok n -> 0 <= n <= 4294967295.
Proof.
  unfold lexical_unsigned. match goal with |- context[let '(neg, r) := ?X in _] => destruct X as [neg r] eqn:EX end.
  assert (P : forall v, r = Some v -> 0 <= v).
  { assert (Q : forall t v, unsigned_value t = Some v -> 0 <= v).
    { intros t v. unfold unsigned_value. destruct t; [discriminate|]. intros U. apply digits_value_bounds in U. lia. }
    destruct s as [|c s]; [injection EX as _ <-; discriminate|].
    assert (R : r = unsigned_value s \/ r = unsigned_value (String c s)).
    { destruct c as [[] [] [] [] [] [] [] []]; injection EX as _ <-; auto. }
    intros v ->. destruct R as [R|R]; symmetry in R; eauto. }
  destruct r as [v|]; [|discriminate]. specialize (P v eq_refl). destruct (v <=? 4294967295) eqn:L; [|discriminate].
  apply Z.leb_le in L. intros H. destruct neg; injection H as <-; [|lia].
  pose proof (Z.mod_pos_bound (- v) 4294967296). lia.
Qed.

Lemma digits_plain s : every is_digit s -> plain_value s.
Proof.
  intros H. assert (F : forall c, ~ is_digit c -> free_of c s).
  { intros c N. apply free_every. revert H. apply every_impl. intros d D E. subst. auto. }
  assert (B : forall c, is_digit c -> ~ blank c).
  { intros c (v & D) [E|[E|E]]; subst; discriminate D. }
  split; [apply F; intros (v & D); discriminate D|]. split; [apply F; intros (v & D); discriminate D|]. split.
  - intros c t E. subst. apply B. cbn in H. tauto.
  - intros c t E. subst. apply B. apply every_last in H. auto.
Qed.
Lemma dec_plain n : plain_value (dec n).
Proof.
  destruct (Z.lt_ge_cases n 0) as [L|L].
  - rewrite dec_neg by auto. destruct (dec_not_empty (- n)) as (c & s & E & D & _); [lia|]. rewrite E.
    pose proof (digits_plain _ D) as (A & B & C & F). split; [|split; [|split]].
    + apply free_every. cbn [every]. split; [discriminate|]. apply free_every in A. exact A.
    + apply free_every. cbn [every]. split; [discriminate|]. apply free_every in B. exact B.
    + intros d t Et. injection Et as <- _. intros [X|[X|X]]; discriminate.
    + intros d t Et. destruct t as [|x t]; [discriminate|]. injection Et as _ Et. eapply F; eauto.
  - apply digits_plain. apply dec_every. lia.
Qed.

Section Reject.
  Context {V : Type}.
  Variables (read : string -> res V) (showg : V -> string) (lit : Z -> Z -> V) (eps100 max100 : V).
  Local Notation base := (base_opts lit eps100 max100).
  Local Notation names := (map o_name base).
  Local Notation find_exact := (find_exact lit eps100 max100).
  Local Notation accepts := (accepts base read).
  Local Notation parse_options := (parse_options read lit eps100 max100).

  Hypothesis read_total : forall s, read s = Throw \/ exists v, read s = Ok v.

  Lemma kept_none cmd : kept (fun _ => false) cmd = cmd.
  Proof. unfold kept. induction cmd as [|a l IH]; cbn; auto. f_equal. exact IH. Qed.

  Lemma reject_command fs args (opts : members V) cmd :
    parse_command_line lit eps100 max100 args = Ok cmd ->
    (~ NoDup (map fst cmd) \/ exists n v, In (n, v) cmd /\ forall x, ~ accepts n v x) ->
    parse_options fs args opts = Throw.
  Proof.
    intros P H. unfold ModelOptions.parse_options. rewrite P. cbn [rbind]. unfold store.
    destruct (stores_total read lit eps100 max100 (fun _ => false) read_total cmd (fun _ => None) (fun _ => false)) as [E|(ND & AC)].
    - rewrite E. reflexivity.
    - exfalso. rewrite kept_none in *. destruct H as [H|(n & v & I & H)]; [auto|]. destruct (AC n v I) as (_ & x & A). exact (H x A).
  Qed.

  Lemma reject_config fs args cmd f text (opts : members V) :
    parse_command_line lit eps100 max100 args = Ok cmd ->
    NoDup (map fst cmd) -> (forall n v, In (n, v) cmd -> exists x, accepts n v x) ->
    opened cmd opts f -> fs f = Some text ->
    (parse_config lit eps100 max100 text = Throw \/
     exists cfg, parse_config lit eps100 max100 text = Ok cfg /\
       (~ NoDup (map fst (in_force cmd cfg)) \/ exists n v, In (n, v) (in_force cmd cfg) /\ forall x, ~ accepts n v x)) ->
    parse_options fs args opts = Throw.
  Proof.
    intros P ND AC OP FS H.
    destruct (first_store read lit eps100 max100 cmd opts f ND AC OP) as (m & final & S1 & S2 & S3 & S4 & S5).
    unfold ModelOptions.parse_options. rewrite P. cbn [rbind]. rewrite S1. cbn [rbind]. rewrite S5. cbn [rbind]. rewrite FS.
    destruct H as [H|(cfg & PF & H)].
    - rewrite H. reflexivity.
    - rewrite PF. cbn [rbind]. unfold store.
      assert (K : kept final cfg = in_force cmd cfg).
      { unfold kept, in_force. apply existsb_ext_in'. intros (n & v) _. cbn [fst]. f_equal.
        apply Bool.eq_iff_eq_true. rewrite S2, existsb_exists, in_map_iff. split.
        - intros (x & E & I). exists x. split; auto. apply String.eqb_eq. auto.
        - intros (x & I & E). exists x. apply String.eqb_eq in E. auto. }
      destruct (stores_total read lit eps100 max100 final read_total cfg m (fun _ => false)) as [E|(ND2 & AC2)].
      + rewrite E. reflexivity.
      + exfalso. rewrite K in *. destruct H as [H|(n & v & I & H)]; [auto|]. destruct (AC2 n v I) as (_ & x & A). exact (H x A).
  Qed.

  Lemma first_reject fs args cmd f text (opts : members V) :
    parse_command_line lit eps100 max100 args = Ok cmd ->
    NoDup (map fst cmd) -> (forall n v, In (n, v) cmd -> exists x, accepts n v x) ->
    opened cmd opts f -> fs f = Some text -> parse_config lit eps100 max100 text = Throw ->
    parse_options fs args opts = Throw.
  Proof.
    intros P ND AC OP FS H.
    destruct (first_store read lit eps100 max100 cmd opts f ND AC OP) as (m & final & S1 & S2 & S3 & S4 & S5).
    unfold ModelOptions.parse_options. rewrite P. cbn [rbind]. rewrite S1. cbn [rbind]. rewrite S5. cbn [rbind]. rewrite FS, H. reflexivity.
  Qed.

  (** A line with a name that is not an option. *)
  Lemma config_unknown l n b1 b2 b3 v b4 c rest :
    Forall (good_line base) l -> ~ In n names ->
    n <> ""%string -> (forall k d, String.get k n = Some d -> ~ blank d /\ d <> "010"%char /\ d <> "#"%char /\ d <> "="%char /\ d <> "["%char) ->
    blanks b1 -> blanks b2 -> blanks b3 -> blanks b4 -> plain_value v -> good_comment c ->
    parse_config lit eps100 max100 (file_text l ++ line_text (Assign b1 n b2 b3 v b4 c) ++ nl ++ rest) = Throw.
  Proof using lit eps100 max100.
    clear read_total. clear read showg. intros GL NI NE G B1 B2 B3 B4 P C. apply every_get in G.
    assert (FR : forall d, (~ blank d /\ d <> "010" /\ d <> "#" /\ d <> "=" /\ d <> "[" -> False)%char -> free_of d n).
    { intros d N. apply free_every. revert G. apply every_impl. intros e H E. subst. auto. }
    unfold parse_config. rewrite (lines_text lit eps100 max100) by auto.
    assert (FN : free_of "010" (line_text (Assign b1 n b2 b3 v b4 c))).
    { cbn [line_text]. rewrite !free_app. destruct P as (_ & P & _).
      repeat split; auto using blanks_free, not_blank_nl, comment_free.
      - apply FR. tauto.
      - apply free_every. cbn. split; [discriminate|exact I]. }
    unfold nl. change ((String "010" "" ++ rest)%string) with (String "010" rest).
    rewrite lines_app by auto. cbn [append]. rewrite lines_parse by auto.
    rewrite (assign_line lit eps100 max100 n); auto.
    - rewrite find_out by auto. reflexivity.
    - revert G. apply every_impl. intros d (H1 & H2 & _). destruct (ws d) eqn:W; auto. apply ws_cases in W as [W|W]; tauto.
    - apply FR. tauto.
    - apply FR. tauto.
    - apply FR. tauto.
  Qed.

  (** *** Values of a finished parse *)
  Definition typed (k : kind) (x : value V) : Prop :=
    match k, x with
    | KString, VString _ | KFlag, VString _ | KDouble, VDouble _ | KBool, VBool _ => True
    | KInt, VInt n => -2147483648 <= n <= 2147483647
    | KUnsigned, VUnsigned n => 0 <= n <= 4294967295
    | _, _ => False
    end.
  Definition fits (m : vmap V) : Prop := forall n x b, m n = Some (x, b) -> exists o, find_exact n = Some o /\ typed (o_kind o) x.
  Lemma convert_typed k s x : convert read k s = Ok x -> typed k x.
  Proof.
    destruct k; cbn [convert].
    - intros H. injection H as <-. exact I.
    - destruct (read s); cbn [rbind]; try discriminate. intros H. injection H as <-. exact I.
    - destruct (lexical_int s) eqn:E; cbn [rbind]; try discriminate. intros H. injection H as <-. apply lexical_int_range in E. exact E.
    - destruct (lexical_unsigned s) eqn:E; cbn [rbind]; try discriminate. intros H. injection H as <-. apply lexical_unsigned_range in E. exact E.
    - destruct (bool_text s); cbn [rbind]; try discriminate. intros H. injection H as <-. exact I.
    - intros H. injection H as <-. exact I.
  Qed.
  Lemma default_typed o x : In o base -> o_default o = Some x -> typed (o_kind o) x.
  Proof.
    intros I D. cbn in I.
    repeat (destruct I as [I|I]; [subst o; cbn in D; first [discriminate D|injection D as <-; cbn; (exact Logic.I || lia)]|]). destruct I.
  Qed.
  Lemma fits_stores final l : forall m new m' new', fits m ->
    foldM (store_one read lit eps100 max100 final) l (m, new) = Ok (m', new') -> fits m'.
  Proof.
    induction l as [|(a & t) l IH]; intros m new m' new' F; cbn [foldM store_one].
    - intros H. injection H as <- _. auto.
    - destruct (final a); cbn [rbind]; [apply IH; auto|].
      destruct (find_exact a) as [o|] eqn:E; [|discriminate].
      destruct (convert read (o_kind o) t) as [x| | |] eqn:C; cbn [rbind]; try (destruct (m a) as [[? []]|]; discriminate).
      assert (F' : fits (vset m a (x, false))).
      { intros n y b H. destruct (string_dec n a) as [Q|Q].
        - subst. rewrite vset_same in H. injection H as <- _. exists o. split; auto. eapply convert_typed; eauto.
        - rewrite vset_other in H by auto. eapply F; eauto. }
      destruct (m a) as [[? []]|]; cbn [rbind]; try discriminate; apply IH; auto.
  Qed.
  Lemma fits_store final m l m' final' : fits m -> store read lit eps100 max100 final m l = Ok (m', final') ->
    fits m' /\ forall o, In o base -> m' (o_name o) = None -> o_default o = None.
  Proof.
    intros F. unfold store. destruct (foldM _ l _) as [[m1 new]| | |] eqn:E; cbn [rbind]; try discriminate.
    intros H. set (md := fold_left add_default base m1) in H. assert (Em : m' = md) by congruence.
    subst m'. unfold md. clear md H. pose proof (fits_stores _ _ _ _ _ _ F E) as F1. split.
    - intros n x b H. rewrite base_defaults in H. destruct (m1 n) as [[y c]|] eqn:M.
      + injection H as <- _. eapply F1; eauto.
      + destruct (find_exact n) as [o|] eqn:Fo; [|discriminate]. exists o. split; auto.
        destruct (o_default o) as [y|] eqn:D; [|discriminate]. cbn in H. injection H as <- _.
        apply default_typed; auto. apply find_some_in in Fo. tauto.
    - intros o I H. rewrite base_defaults in H. destruct (m1 (o_name o)); [discriminate|].
      rewrite find_in in H by auto. destruct (o_default o); [discriminate|auto].
  Qed.
  Lemma stores_mono final l : forall m new m' new' n,
    foldM (store_one read lit eps100 max100 final) l (m, new) = Ok (m', new') -> m' n = None -> m n = None.
  Proof.
    induction l as [|(a & t) l IH]; intros m new m' new' n; cbn [foldM store_one].
    - intros H. injection H as <- _. auto.
    - destruct (final a); cbn [rbind]; [apply IH; auto|].
      destruct (find_exact a) as [o|] eqn:E; [|discriminate].
      destruct (convert read (o_kind o) t) as [x| | |] eqn:C; cbn [rbind]; try (destruct (m a) as [[? []]|]; discriminate).
      assert (F' : vset m a (x, false) n = None -> m n = None).
      { destruct (string_dec n a) as [Q|Q]; [subst; rewrite vset_same; discriminate|rewrite vset_other; auto]. }
      destruct (m a) as [[? []]|]; cbn [rbind]; try discriminate; intros G1 G2; apply F'; eapply IH; eauto.
  Qed.
  Lemma store_mono final m l m' final' n : store read lit eps100 max100 final m l = Ok (m', final') -> m' n = None -> m n = None.
  Proof.
    unfold store. destruct (foldM _ l _) as [[m1 new]| | |] eqn:E; cbn [rbind]; try discriminate.
    intros H. set (md := fold_left add_default base m1) in H. assert (Em : m' = md) by congruence.
    subst m'. unfold md. rewrite base_defaults. intros G. eapply stores_mono; eauto. destruct (m1 n); [discriminate|auto].
  Qed.
  Lemma running_values fs args (opts opts1 : members V) vm1 :
    parse_options fs args opts = Ok (Running opts1 vm1) ->
    fits vm1 /\
    (forall o, In o base -> o_kind o <> KFlag ->
      match vm1 (o_name o) with
      | Some (x, _) => opts1 (o_name o) = x
      | None => o_default o = None
      end) /\
    (forall o, In o base -> vm1 (o_name o) = None -> opts1 (o_name o) = opts (o_name o)).
  Proof.
    unfold ModelOptions.parse_options. destruct (parse_command_line _ _ _ args) as [cmd| | |]; cbn [rbind]; try discriminate.
    destruct (store read lit eps100 max100 (fun _ => false) (fun _ => None) cmd) as [[m final]| | |] eqn:S1; cbn [rbind]; try discriminate.
    apply fits_store in S1 as (F1 & D1); [|intros n x b H; discriminate].
    destruct (notify lit eps100 max100 m opts "config_file"%string); cbn [rbind]; try discriminate.
    destruct (parse_config _ _ _ _) as [cfg| | |]; cbn [rbind]; try discriminate.
    destruct (store read lit eps100 max100 final m cfg) as [[m3 fin]| | |] eqn:S2; cbn [rbind]; try discriminate.
    pose proof (fun n => store_mono _ _ _ _ _ n S2) as MO.
    apply fits_store in S2 as (F2 & D2); auto.
    set (o2 := notify lit eps100 max100 m3 (notify lit eps100 max100 m opts)).
    destruct (o2 "config_file"%string); cbn [rbind]; try discriminate.
    intros H. assert (E : opts1 = o2 /\ vm1 = m3).
    { destruct (m3 "help"%string); [discriminate|]. destruct (String.eqb _ _); [|destruct (fs _); [|discriminate]]; injection H as <- <-; auto. }
    destruct E as (-> & ->). split; [auto|]. split.
    - intros o I K. destruct (m3 (o_name o)) as [[x b]|] eqn:M; [|auto].
      unfold o2, notify. rewrite find_in by auto. rewrite M. destruct (o_kind o); auto. congruence.
    - intros o I M. unfold o2, notify. rewrite find_in by auto. rewrite M.
      apply MO in M. rewrite M. destruct (o_kind o); auto.
  Qed.

  (** *** The template *)
  Definition assign_of (m : vmap V) (o : opt V) : line :=
    Assign (repeat_char " " (30 - String.length (o_name o)) "") (o_name o) " " " " (show_value showg (m (o_name o))) "" None.
  Definition group_lines (m : vmap V) (title : string) (l : list (opt V)) : list line :=
    [Empty "" None; Empty "" (Some (" ****** " ++ title ++ " Options ****** #")%string); Empty "" None] ++ map (assign_of m) l.
  Definition template_lines (m : vmap V) : list line :=
    group_lines m "File" file_opts ++ group_lines m "Physics" (physics_opts lit) ++
    group_lines m "Discretization" (discretization_opts lit) ++ group_lines m "Multigrid" (multigrid_opts lit) ++
    group_lines m "Time Stepping" (time_stepping_opts lit eps100 max100) ++ [Empty "" None].

  Lemma file_text_app a b : file_text (a ++ b) = (file_text a ++ file_text b)%string.
  Proof.
    unfold file_text. induction a as [|x a IH]; cbn [map fold_right List.app]; auto. rewrite IH, !append_assoc. reflexivity.
  Qed.
  Lemma group_text m title l : template_group showg m title l = file_text (group_lines m title l).
  Proof.
    unfold group_lines. rewrite file_text_app. unfold template_group, file_text.
    assert (E : fold_right append ""%string (map (template_line showg m) l) =
      fold_right append ""%string (map (fun x => (line_text x ++ nl)%string) (map (assign_of m) l))).
    { induction l as [|o l IH]; cbn [map fold_right]; auto. rewrite IH. f_equal.
      unfold template_line, assign_of. cbn [line_text comment_text]. rewrite repeat_char_app, !append_assoc. reflexivity. }
    rewrite E. cbn [map fold_right line_text comment_text].
    generalize (fold_right append ""%string (map (fun x : line => (line_text x ++ nl)%string) (map (assign_of m) l))). intros X.
    unfold nl. cbn [append]. repeat (rewrite append_assoc; cbn [append]). reflexivity.
  Qed.
  Lemma template_text m : config_template showg lit eps100 max100 m = file_text (template_lines m).
  Proof.
    unfold config_template, template_lines. rewrite !group_text, !file_text_app. reflexivity.
  Qed.
  Lemma group_sets m title l : file_sets (group_lines m title l) = map (fun o => (o_name o, show_value showg (m (o_name o)))) l.
  Proof.
    unfold file_sets, group_lines. cbn [flat_map line_sets List.app]. induction l as [|o l IH]; cbn; auto. rewrite IH. reflexivity.
  Qed.
  Definition listed : list (opt V) :=
    file_opts ++ physics_opts lit ++ discretization_opts lit ++ multigrid_opts lit ++ time_stepping_opts lit eps100 max100.
  Lemma template_sets m : file_sets (template_lines m) = map (fun o => (o_name o, show_value showg (m (o_name o)))) listed.
  Proof.
    unfold template_lines, listed. unfold file_sets. rewrite !flat_map_app, !map_app.
    fold (file_sets (group_lines m "File" file_opts)). fold (file_sets (group_lines m "Physics" (physics_opts lit))).
    fold (file_sets (group_lines m "Discretization" (discretization_opts lit))).
    fold (file_sets (group_lines m "Multigrid" (multigrid_opts lit))).
    fold (file_sets (group_lines m "Time Stepping" (time_stepping_opts lit eps100 max100))).
    rewrite !group_sets. cbn [flat_map line_sets]. rewrite List.app_nil_r. reflexivity.
  Qed.
  Lemma listed_in o : In o listed <-> In o base /\ o_name o <> "help"%string.
  Proof.
    unfold listed, base_opts. cbn [In]. rewrite !in_app_iff. split.
    - intros H. split; [tauto|]. intros E. cbn in H. intuition (subst; discriminate).
    - intros (H & N). destruct H as [H|H]; [subst; cbn in N; congruence|tauto].
  Qed.
  Lemma listed_nodup : NoDup (map o_name listed).
  Proof. apply nodup_b_spec. reflexivity. Qed.
  Lemma blanks_repeat n : blanks (repeat_char " " n "").
  Proof. apply blanks_every. induction n; cbn; auto. split; [left; reflexivity|auto]. Qed.
  Lemma lit_blank : blanks " ". Proof. apply blanks_every. cbn. split; [left; reflexivity|exact I]. Qed.
  Lemma lit_empty : blanks "". Proof. apply blanks_every. exact I. Qed.

  Lemma template_good m : (forall o, In o listed -> plain_value (show_value showg (m (o_name o)))) ->
    Forall (good_line base) (template_lines m).
  Proof.
    intros H. assert (T : forall title l, free_of "010" title -> incl l listed -> Forall (good_line base) (group_lines m title l)).
    { intros title l F IN. unfold group_lines. apply Forall_app. split.
      - constructor; [|constructor; [|constructor; [|constructor]]]; cbn [good_line good_comment]; (split; [exact lit_empty|auto]).
        apply free_app. split; [apply free_every; cbn; repeat split; discriminate|].
        apply free_app. split; [auto|apply free_every; cbn; repeat split; discriminate].
      - apply Forall_forall. intros x I. apply in_map_iff in I as (o & E & I). subst x. apply IN in I. unfold assign_of, good_line.
        split; [apply blanks_repeat|]. split; [exact lit_blank|]. split; [exact lit_blank|]. split; [exact lit_empty|].
        split; [apply in_map; apply listed_in in I; tauto|]. split; [auto|exact Logic.I]. }
    assert (IN : forall a b c : list (opt V), incl b (a ++ b ++ c)) by (intros a b c x Hx; rewrite !in_app_iff; auto).
    unfold template_lines. rewrite !Forall_app. repeat split.
    1-5: apply T; [apply free_every; cbn; repeat split; discriminate|unfold listed; intros x Hx; rewrite !in_app_iff; tauto].
    constructor; [|constructor]. cbn. split; [exact lit_empty|auto].
  Qed.

  (** The template, used as configuration file of a new process, gives the options back. *)
  Lemma template_back fs args (opts opts1 : members V) vm1 fs2 f (fresh : members V) :
    parse_options fs args opts = Ok (Running opts1 vm1) ->
    (forall o, In o base -> o_default o = None -> opts (o_name o) = VString "") ->
    (forall n s, In n names -> opts1 n = VString s -> plain_value s) ->
    (forall n x, In n names -> opts1 n = VDouble x -> plain_value (showg x) /\ exists y, read (showg x) = Ok y) ->
    ~ starts_with "--" f -> fs2 f = Some (config_template showg lit eps100 max100 vm1) ->
    exists opts2 vm2, parse_options fs2 [f] fresh = Ok (Running opts2 vm2) /\
      opts2 "config_file"%string = VString f /\
      forall n, In n names -> n <> "help"%string -> n <> "config_file"%string ->
        match opts1 n with
        | VDouble x => exists y, read (showg x) = Ok y /\ opts2 n = VDouble y
        | other => opts2 n = other
        end.
  Proof.
    intros P FR PS PD NF FS.
    destruct (running_values fs args opts opts1 vm1 P) as (FT & RV & RN).
    assert (flagless : forall o, In o listed -> o_kind o <> KFlag).
    { intros o I. clear - I. cbn in I. repeat (destruct I as [I|I]; [subst o; discriminate|]). destruct I. }
    assert (OV : forall o, In o listed -> accepts (o_name o) (show_value showg (vm1 (o_name o)))
               (match opts1 (o_name o) with VDouble x => match read (showg x) with Ok y => VDouble y | _ => VDouble x end | other => other end)
             /\ plain_value (show_value showg (vm1 (o_name o)))).
    { intros o I. pose proof (flagless o I) as K. apply listed_in in I as (I & NH).
      assert (IN : In (o_name o) names) by (apply in_map; auto).
      pose proof (RV o I K) as R. pose proof (RN o I) as RNo. pose proof (PS (o_name o)) as PSo. pose proof (PD (o_name o)) as PDo.
      destruct (vm1 (o_name o)) as [[x b]|] eqn:M.
      - pose proof M as M'. apply FT in M' as (o' & Fo & T). rewrite find_in in Fo by auto. injection Fo as <-. rewrite R in *.
        split.
        + exists o. split; [auto|]. split; [auto|]. revert T K. destruct x as [s|x|n|n|b']; destruct (o_kind o); cbn [typed]; intros T K; try contradiction; cbn [show_value convert].
          * reflexivity.
          * destruct (PDo x IN eq_refl) as (_ & y & Y). rewrite Y. reflexivity.
          * rewrite lexical_int_dec by lia. reflexivity.
          * rewrite lexical_unsigned_dec by lia. reflexivity.
          * destruct b'; reflexivity.
        + destruct x as [s|x|n|n|b']; cbn [show_value]; auto using dec_plain.
          * apply PDo; auto.
          * destruct b'; (split; [apply free_every; cbn; repeat split; discriminate|split; [apply free_every; cbn; repeat split; discriminate|]]);
            (split; intros c t E; [destruct c as [[] [] [] [] [] [] [] []]; try discriminate E; intros [X|[X|X]]; discriminate X|]).
            -- intros B. assert (Ev : every (fun c => ~ blank c) "true") by (cbn; repeat split; intros [X|[X|X]]; discriminate X).
               rewrite E in Ev. apply every_last in Ev. auto.
            -- intros B. assert (Ev : every (fun c => ~ blank c) "false") by (cbn; repeat split; intros [X|[X|X]]; discriminate X).
               rewrite E in Ev. apply every_last in Ev. auto.
      - rewrite (RNo eq_refl), (FR o I R) in *. cbn [show_value]. split.
        + exists o. split; [auto|]. split; [auto|]. replace (o_kind o) with KString; [reflexivity|].
          clear - I R NH. cbn in I. repeat (destruct I as [I|I]; [subst o; cbn in *; congruence|]). destruct I.
        + apply (PSo _ IN eq_refl). }
    assert (LG : Forall (good_line base) (template_lines vm1)).
    { apply template_good. intros o I. apply OV. auto. }
    assert (AC : forall n v, In (n, v) (file_sets (template_lines vm1)) -> exists x, accepts n v x).
    { intros n v I. rewrite template_sets in I. apply in_map_iff in I as (o & E & I). injection E as <- <-.
      eexists. apply (OV o I). }
    set (cmd := [("config_file"%string, f)]).
    destruct (parse_options_ok read lit eps100 max100 fs2 [f] cmd (file_sets (template_lines vm1)) f (file_text (template_lines vm1)) fresh)
      as (opts2 & vm2 & E & C1 & C2 & C3 & _).
    - change [f] with (item_args (FileName f) ++ []). rewrite (item_parse lit eps100 max100 (FileName f) "config_file" f []); [reflexivity|]. cbn. auto.
    - cbn. constructor; [auto|constructor].
    - intros n v [I|[]]. injection I as <- <-. exists (VString f). destruct (config_option lit eps100 max100) as (o & Fo & Ko & _).
      apply accepts_find. exists o. rewrite Ko. auto.
    - cbn. intros [X|[]]. discriminate X.
    - left. left. reflexivity.
    - left. rewrite FS, template_text. reflexivity.
    - apply config_parse. auto.
    - assert (S : forall l, NoDup (map fst l) -> NoDup (map fst (in_force cmd l))).
      { clear. intros l. unfold in_force. induction l as [|a l IH]; cbn [map filter]; intros H; auto.
        apply NoDup_cons_iff in H as (N & H). destruct (negb _); [|auto]. cbn [map]. constructor; auto.
        intros I. apply N. apply in_map_iff in I as (x & Ex & I). apply filter_In in I as (I & _). rewrite <- Ex. apply in_map. auto. }
      apply S. rewrite template_sets, map_map. cbn [fst]. apply listed_nodup.
    - intros n v I. apply in_force_in in I as (I & _). eauto.
    - rewrite template_sets, map_map. cbn [fst]. intros I. apply in_map_iff in I as (o & Eo & I). apply listed_in in I. tauto.
    - intros I. apply in_map_iff in I as ((n & v) & En & I). cbn in En. subst. apply in_force_in in I as (_ & I). apply I. cbn. auto.
    - exists opts2, vm2. split; [exact E|]. split.
      + destruct (config_option lit eps100 max100) as (o & Fo & Ko & _).
        apply (C1 "config_file"%string f (VString f)); [left; reflexivity|]. apply accepts_find. exists o. rewrite Ko. auto.
      + intros n IN NH NC. pose proof IN as IN'. apply in_map_iff in IN as (o & Eo & I).
        assert (Il : In o listed) by (apply listed_in; rewrite Eo; auto).
        destruct (OV o Il) as (A & _). rewrite Eo in A.
        assert (O2 : opts2 n = match opts1 n with VDouble x => match read (showg x) with Ok y => VDouble y | _ => VDouble x end | other => other end).
        { eapply C2; eauto.
          - cbn. intros [X|[]]. congruence.
          - rewrite template_sets. apply in_map_iff. exists o. rewrite Eo. auto. }
        destruct (opts1 n) as [s|x|k|k|b] eqn:O1; auto.
        destruct (PD n x IN' O1) as (_ & y & Y). exists y. rewrite Y in O2. auto.
  Qed.
End Reject.
