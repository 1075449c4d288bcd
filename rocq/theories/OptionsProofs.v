(** Proofs about option parsing: names, arguments, lines. *)
From Coq Require Import ZArith String Ascii Bool Lia List.
Import ListNotations.
From Verif Require Import Outcome ModelText ModelOptions SpecOptions TextProofs.
Local Open Scope list_scope.
Local Open Scope Z_scope.

Lemma every_get P s : every P s <-> forall n c, String.get n s = Some c -> P c.
Proof.
  induction s as [|d s IH]; cbn [every].
  - split; auto. intros _ n c H. destruct n; discriminate.
  - rewrite IH. split.
    + intros (A & B) [|n] c H; cbn in H; [congruence|eauto].
    + intros H. split; [apply (H O); reflexivity|]. intros n c E. apply (H (S n)). exact E.
Qed.
Lemma free_every c s : free_of c s <-> every (fun d => d <> c) s.
Proof.
  rewrite every_get. unfold free_of. split.
  - intros H n d E F. subst. exact (H n E).
  - intros H n E. exact (H n c E eq_refl).
Qed.
Lemma blanks_every s : blanks s <-> every blank s.
Proof. rewrite every_get. unfold blanks. tauto. Qed.

Lemma prefix_starts p s : String.prefix p s = true <-> starts_with p s.
Proof.
  revert s. induction p as [|c p IH]; intros s.
  - destruct s; cbn [String.prefix]; (split; [intros _|auto]); [exists ""%string|exists (String a s)]; reflexivity.
  - destruct s as [|d s].
    + split; [discriminate|]. intros (t & E). discriminate E.
    + cbn [String.prefix]. destruct (ascii_dec c d) as [E|N].
      * subst. rewrite IH. split; intros (t & E); exists t; cbn in *; congruence.
      * split; [discriminate|]. intros (t & E). cbn in E. congruence.
Qed.

Lemma cut_app c a b : free_of c a -> cut c (a ++ String c b) = Some (a, b).
Proof.
  rewrite free_every. induction a as [|d a IH]; cbn [append cut every]; intros H.
  - rewrite Ascii.eqb_refl. reflexivity.
  - destruct H as (A & B). apply Ascii.eqb_neq in A. rewrite A, IH by auto. reflexivity.
Qed.
Lemma cut_none c a : free_of c a -> cut c a = None.
Proof.
  rewrite free_every. induction a as [|d a IH]; cbn [append cut every]; intros H; auto.
  destruct H as (A & B). apply Ascii.eqb_neq in A. rewrite A, IH by auto. reflexivity.
Qed.

(** ** Trimming *)
Section Trim.
  Variable p : ascii -> bool.
  Local Notation yes := (every (fun c => p c = true)).
  Lemma trim_left_app b s : yes b -> trim_left p (b ++ s) = trim_left p s.
  Proof. induction b as [|c b IH]; cbn [append trim_left every]; auto. intros (A & B). rewrite A. auto. Qed.
  Lemma trim_right_yes b : yes b -> trim_right p b = ""%string.
  Proof. induction b as [|c b IH]; cbn [trim_right every]; auto. intros (A & B). rewrite IH, A by auto. reflexivity. Qed.
  Lemma trim_right_app b s : trim_right p (s ++ b) =
    match trim_right p b with EmptyString => trim_right p s | t => (s ++ t)%string end.
  Proof.
    induction s as [|c s IH]; cbn [append trim_right].
    - destruct (trim_right p b); reflexivity.
    - rewrite IH. destruct (trim_right p b) eqn:E; [reflexivity|].
      destruct s; reflexivity.
  Qed.
  Lemma trim_right_cons s c t : p c = false -> trim_right p (s ++ String c t) = (s ++ String c (trim_right p t))%string.
  Proof. intros H. rewrite trim_right_app. cbn [trim_right]. destruct (trim_right p t); [rewrite H|]; reflexivity. Qed.
  Lemma trim_right_id s : (forall c t, s = (t ++ String c "")%string -> p c = false) -> trim_right p s = s.
  Proof.
    induction s as [|c s IH]; cbn [trim_right]; intros H; auto.
    rewrite IH by (intros d t E; apply (H d (String c t)); rewrite E; reflexivity).
    destruct s; auto. rewrite (H c ""%string eq_refl). reflexivity.
  Qed.
  Lemma trim_left_id s : (forall c t, s = String c t -> p c = false) -> trim_left p s = s.
  Proof. destruct s as [|c s]; cbn [trim_left]; intros H; auto. rewrite (H c s eq_refl). reflexivity. Qed.
End Trim.

Lemma blank_ws c : blank c -> ws c = true.
Proof. intros [E|[E|E]]; rewrite E; reflexivity. Qed.
Lemma ws_cases c : ws c = true -> blank c \/ c = "010"%char.
Proof.
  unfold ws, blank. cbn [any_of nl]. rewrite !orb_true_iff, !Ascii.eqb_eq. intros [E|[E|[E|[E|E]]]]; try discriminate; subst; auto.
Qed.
Lemma blanks_ws b : blanks b -> every (fun c => ws c = true) b.
Proof. rewrite blanks_every. apply every_impl. exact blank_ws. Qed.

Lemma every_last P s c : every P (s ++ String c "") -> P c.
Proof. rewrite every_app. cbn. tauto. Qed.
Lemma plain_trim v : plain_value v -> trim_left ws v = v /\ trim_right ws v = v.
Proof.
  intros (H1 & H2 & H3 & H4). apply free_every in H2. split.
  - apply trim_left_id. intros c t E. destruct (ws c) eqn:W; auto. exfalso.
    apply ws_cases in W as [W|W]; [exact (H3 c t E W)|]. rewrite E in H2. cbn in H2. tauto.
  - apply trim_right_id. intros c t E. destruct (ws c) eqn:W; auto. exfalso.
    apply ws_cases in W as [W|W]; [exact (H4 c t E W)|]. rewrite E in H2. apply every_last in H2. tauto.
Qed.

(** Trimming the value part of an assignment. *)
Lemma trim_value b3 v b4 : blanks b3 -> blanks b4 -> plain_value v ->
  trim_ws (trim_right ws (b3 ++ v ++ b4)) = v.
Proof.
  intros H3 H4 Hv. pose proof (plain_trim v Hv) as (L & R). apply blanks_ws in H3, H4.
  unfold trim_ws, trim_if. destruct v as [|c v].
  - cbn [append]. rewrite trim_right_app, (trim_right_yes ws b4), (trim_right_yes ws b3) by auto. reflexivity.
  - assert (N : String c v <> ""%string) by discriminate. revert L R N. generalize (String c v). intros w L R N.
    assert (E : trim_right ws (w ++ b4) = w) by (rewrite trim_right_app, (trim_right_yes ws b4) by auto; exact R).
    rewrite trim_right_app, E. destruct w as [|d w]; [congruence|].
    rewrite trim_left_app by auto. rewrite L. auto.
Qed.

(** ** Lines *)
Lemma lines_app l : forall cur rest, free_of "010" l ->
  lines_from cur (l ++ String "010" rest) = (cur ++ l)%string :: lines_from "" rest.
Proof.
  induction l as [|c l IH]; intros cur rest H; cbn [append lines_from].
  - rewrite append_nil. reflexivity.
  - apply free_every in H. cbn [every] in H. destruct H as (A & B).
    apply Ascii.eqb_neq in A. rewrite A, IH by (apply free_every; auto).
    rewrite append_assoc. reflexivity.
Qed.

Section Opt.
  Context {V : Type}.
  Variables (lit : Z -> Z -> V) (eps100 max100 : V).
  Local Notation base := (base_opts lit eps100 max100).
  Local Notation names := (map o_name base).

  (** *** Names *)
  Definition name_char (c : ascii) : bool :=
    let n := N_of_ascii c in ((48 <=? n) && (n <=? 57) || (97 <=? n) && (n <=? 122) || (n =? 95))%N.
  Definition all_chars (p : ascii -> bool) (s : string) : bool := forallb p (list_ascii_of_string s).
  Lemma all_every p s : all_chars p s = true <-> every (fun c => p c = true) s.
  Proof.
    unfold all_chars. induction s as [|c s IH]; cbn [list_ascii_of_string forallb every].
    - tauto.
    - rewrite andb_true_iff, IH. tauto.
  Qed.
  Definition name_ok (s : string) : bool := all_chars name_char s && negb (String.eqb s "") && (String.length s <=? 30)%nat.
  Lemma names_ok : forallb name_ok names = true.
  Proof. reflexivity. Qed.
  Fixpoint nodup_b (l : list string) : bool :=
    match l with [] => true | s :: l' => negb (existsb (String.eqb s) l') && nodup_b l' end.
  Lemma nodup_b_spec l : nodup_b l = true -> NoDup l.
  Proof.
    induction l as [|s l IH]; cbn [nodup_b]; intros H; constructor.
    - apply andb_true_iff in H as (H & _). apply negb_true_iff in H. intros I.
      assert (existsb (String.eqb s) l = true) by (apply existsb_exists; exists s; split; [auto|apply String.eqb_refl]). congruence.
    - apply andb_true_iff in H as (_ & H). auto.
  Qed.
  Lemma names_nodup : NoDup names.
  Proof. apply nodup_b_spec. reflexivity. Qed.

  Lemma name_facts n : In n names -> n <> ""%string /\ (String.length n <= 30)%nat /\ every (fun c => name_char c = true) n.
  Proof.
    intros H. pose proof names_ok as F. rewrite forallb_forall in F. apply F in H. unfold name_ok in H.
    rewrite !andb_true_iff in H. destruct H as ((A & B) & C). split; [|split].
    - intros E. rewrite E in B. discriminate.
    - apply Nat.leb_le. auto.
    - apply all_every. auto.
  Qed.
  Lemma name_free n c : In n names -> name_char c = false -> free_of c n.
  Proof.
    intros H Hc. apply name_facts in H as (_ & _ & H). apply free_every. revert H. apply every_impl.
    intros d Hd E. subst. congruence.
  Qed.
  Lemma name_char_not_ws c : name_char c = true -> ws c = false.
  Proof.
    intros H. destruct (ws c) eqn:W; auto. apply ws_cases in W as [[E|[E|E]]|E]; rewrite E in H; discriminate.
  Qed.

  Lemma find_none_in n : find_exact lit eps100 max100 n = None -> ~ In n names.
  Proof.
    unfold find_exact. intros H I. apply in_map_iff in I as (o & E & I).
    apply (find_none _ _ H) in I. rewrite E, String.eqb_refl in I. discriminate.
  Qed.
  Lemma find_some_in n o : find_exact lit eps100 max100 n = Some o -> In o base /\ o_name o = n.
  Proof. unfold find_exact. intros H. apply find_some in H as (A & B). apply String.eqb_eq in B. auto. Qed.
  Lemma nodup_name l : forall (a b : opt V), NoDup (map o_name l) -> In a l -> In b l -> o_name a = o_name b -> a = b.
  Proof.
    induction l as [|o l IH]; intros a b H Ia Ib E; [destruct Ia|]. cbn in H. apply NoDup_cons_iff in H as (N & H).
    destruct Ia as [Ia|Ia]; destruct Ib as [Ib|Ib]; subst; auto.
    - exfalso. apply N. rewrite E. apply in_map. auto.
    - exfalso. apply N. rewrite <- E. apply in_map. auto.
  Qed.
  Lemma find_in o : In o base -> find_exact lit eps100 max100 (o_name o) = Some o.
  Proof.
    intros I. destruct (find_exact lit eps100 max100 (o_name o)) as [o'|] eqn:E.
    - apply find_some_in in E as (I' & E). f_equal. eapply nodup_name; eauto. apply names_nodup.
    - exfalso. apply find_none_in in E. apply E. apply in_map. auto.
  Qed.
  Lemma find_out n : ~ In n names -> find_exact lit eps100 max100 n = None.
  Proof.
    intros H. destruct (find_exact lit eps100 max100 n) as [o|] eqn:E; auto.
    apply find_some_in in E as (I & E). exfalso. apply H. rewrite <- E. apply in_map. auto.
  Qed.

  Lemma filter_single {A} (q : A -> bool) (f : A -> string) l a :
    NoDup (map f l) -> In a l -> q a = true -> (forall b, In b l -> q b = true -> f b = f a) -> filter q l = [a].
  Proof.
    intros ND I Q U. induction l as [|x l IH]; [destruct I|]. cbn [map filter] in *. apply NoDup_cons_iff in ND as (N & ND).
    destruct I as [I|I].
    - subst. rewrite Q. f_equal. destruct (filter q l) as [|y t] eqn:E; auto. exfalso.
      assert (I : In y (filter q l)) by (rewrite E; left; auto). apply filter_In in I as (I & Qy).
      apply N. rewrite <- (U y) by (auto; right; auto). apply in_map. auto.
    - destruct (q x) eqn:Qx.
      + exfalso. apply N. rewrite (U x) by (auto; left; auto). apply in_map. auto.
      + apply IH; auto. intros b Ib. apply U. right. auto.
  Qed.

  Lemma guess_ok n name : stands_for base n name ->
    exists o, find_guess lit eps100 max100 n = Ok o /\ In o base /\ o_name o = name.
  Proof.
    intros (NE & I & H). apply in_map_iff in I as (o & E & I). exists o. split; [|auto]. unfold find_guess.
    destruct H as [H|(H1 & H2 & H3)].
    - subst n. rewrite <- E, find_in by auto. reflexivity.
    - rewrite find_out by auto. rewrite (filter_single _ o_name _ o); auto.
      + apply names_nodup.
      + apply prefix_starts. rewrite E. auto.
      + intros b Ib Q. apply prefix_starts in Q. rewrite E. apply H3; auto. apply in_map. auto.
  Qed.
  Lemma guess_throw n : stands_for_none base n -> find_guess lit eps100 max100 n = Throw.
  Proof.
    intros (NE & F & NI & H). unfold find_guess. rewrite find_out by auto.
    destruct (filter (fun o => String.prefix n (o_name o)) base) as [|o [|o' t]] eqn:E; auto. exfalso.
    assert (K : forall x, In x base -> String.prefix n (o_name x) = true -> x = o).
    { intros x Ix Qx. assert (J : In x [o]) by (rewrite <- E; apply filter_In; auto). destruct J as [J|[]]. auto. }
    assert (J : In o (filter (fun o => String.prefix n (o_name o)) base)) by (rewrite E; left; auto).
    apply filter_In in J as (J & Q). destruct H as [H|(a & b & N & Ia & Ib & Sa & Sb)].
    - apply (H (o_name o)); [apply in_map; auto|apply prefix_starts; auto].
    - apply in_map_iff in Ia as (x & Ex & Ix). apply in_map_iff in Ib as (y & Ey & Iy).
      apply N. rewrite <- Ex, <- Ey. f_equal. rewrite (K x), (K y); auto; rewrite ?Ex, ?Ey; apply prefix_starts; auto.
  Qed.

  (** *** The command line *)
  Lemma long_token a : a <> ""%string -> is_long ("--" ++ a) = true.
  Proof.
    intros H. unfold is_long. apply andb_true_iff. split.
    - apply prefix_starts. exists a. reflexivity.
    - apply negb_true_iff. apply String.eqb_neq. cbn. destruct a; congruence.
  Qed.
  Lemma short_token t : ~ starts_with "--" t -> is_long t = false /\ String.eqb t "--" = false.
  Proof.
    intros H. split.
    - unfold is_long. destruct (String.prefix "--" t) eqn:E; auto. apply prefix_starts in E. tauto.
    - apply String.eqb_neq. intros E. apply H. exists ""%string. auto.
  Qed.
  Lemma stands_free n name : stands_for base n name -> free_of "=" n.
  Proof.
    intros (NE & I & H). pose proof (name_free name "=" I eq_refl) as F. destruct H as [H|(_ & (t & H) & _)]; subst; auto.
    apply free_every. apply free_every in F. apply every_app in F. tauto.
  Qed.
  Lemma valued_kind o name : In o base -> o_name o = name -> valued base name -> o_kind o <> KFlag.
  Proof.
    intros I E (o' & I' & E' & K). replace o with o'; auto. eapply nodup_name; eauto; [apply names_nodup|congruence].
  Qed.

  Lemma item_parse i n v rest : item_sets base i n v ->
    parse_command_line lit eps100 max100 (item_args i ++ rest) =
    rbind (parse_command_line lit eps100 max100 rest) (fun r => Ok ((n, v) :: r)).
  Proof.
    destruct i as [a t|a t|f|]; cbn [item_sets item_args].
    - intros (S & W & E & T). subst v. pose proof (stands_free _ _ S) as F. pose proof (guess_ok _ _ S) as (o & G & Io & Eo).
      pose proof (valued_kind o n Io Eo W) as K. destruct S as (NE & _). cbn [List.app parse_command_line].
      rewrite long_token by (destruct a; cbn; congruence).
      cbn [append parse_long]. change (a ++ String "=" t)%string with (a ++ String "=" t)%string.
      rewrite cut_app by auto. destruct t as [|c t]; [congruence|]. cbn [rbind].
      apply String.eqb_neq in NE. rewrite NE, G. cbn [rbind]. rewrite Eo. destruct (o_kind o); congruence || reflexivity.
    - intros (S & W & E & T). subst v. pose proof (stands_free _ _ S) as F. pose proof (guess_ok _ _ S) as (o & G & Io & Eo).
      pose proof (valued_kind o n Io Eo W) as K. destruct S as (NE & _). cbn [List.app parse_command_line].
      rewrite long_token by auto. cbn [append parse_long]. rewrite cut_none by auto. cbn [rbind].
      apply String.eqb_neq in NE. rewrite NE, G. cbn [rbind]. apply short_token in T as (T & _). rewrite T, Eo. cbn [rbind].
      destruct (o_kind o); congruence || reflexivity.
    - intros (E1 & E2 & T). subst. cbn [List.app parse_command_line]. apply short_token in T as (T1 & T2). rewrite T1, T2. reflexivity.
    - intros (E1 & E2). subst. reflexivity.
  Qed.
  Lemma items_parse items sets rest : Forall2 (fun i nv => item_sets base i (fst nv) (snd nv)) items sets ->
    parse_command_line lit eps100 max100 (flat_map item_args items ++ rest) =
    rbind (parse_command_line lit eps100 max100 rest) (fun r => Ok (sets ++ r)).
  Proof.
    induction 1 as [|i (n & v) items sets H1 H2 IH]; cbn [flat_map List.app].
    - destruct (parse_command_line _ _ _ rest); reflexivity.
    - rewrite <- List.app_assoc. cbn [fst snd] in H1. rewrite (item_parse _ _ _ _ H1), IH.
      destruct (parse_command_line _ _ _ rest); reflexivity.
  Qed.
  Lemma unknown_parse n adj rest : stands_for_none base n ->
    (adj = ""%string \/ exists v, v <> ""%string /\ adj = ("=" ++ v)%string) ->
    parse_command_line lit eps100 max100 (("--" ++ n ++ adj)%string :: rest) = Throw.
  Proof.
    intros S H. pose proof (guess_throw n S) as G. destruct S as (NE & F & _).
    cbn [parse_command_line]. rewrite long_token by (destruct n; cbn; congruence). cbn [append parse_long].
    apply String.eqb_neq in NE. destruct H as [H|(v & Hv & H)]; subst adj.
    - rewrite append_nil, cut_none by auto. cbn [rbind]. rewrite NE, G. reflexivity.
    - change (n ++ "=" ++ v)%string with (n ++ String "=" v)%string. rewrite cut_app by auto. destruct v; [congruence|].
      cbn [rbind]. rewrite NE, G. reflexivity.
  Qed.

  (** *** The configuration file *)
  Lemma cut_comment s c : free_of "#" s -> good_comment c ->
    match cut "#" (s ++ comment_text c) with Some (a, _) => a | None => (s ++ comment_text c)%string end = s.
  Proof.
    intros H _. destruct c as [t|]; cbn [comment_text].
    - change ("#" ++ t)%string with (String "#" t). rewrite cut_app by auto. reflexivity.
    - rewrite append_nil, cut_none by auto. reflexivity.
  Qed.
  Lemma free_app c s t : free_of c (s ++ t) <-> free_of c s /\ free_of c t.
  Proof. rewrite !free_every. apply every_app. Qed.
  Lemma blanks_free b c : blanks b -> ~ blank c -> free_of c b.
  Proof. intros H N n E. apply N. eapply H; eauto. Qed.
  Lemma not_blank_hash : ~ blank "#". Proof. intros [E|[E|E]]; discriminate. Qed.
  Lemma not_blank_eq : ~ blank "=". Proof. intros [E|[E|E]]; discriminate. Qed.
  Lemma not_blank_nl : ~ blank "010". Proof. intros [E|[E|E]]; discriminate. Qed.
  Lemma comment_free c : good_comment c -> free_of "010" (comment_text c).
  Proof.
    destruct c as [t|]; cbn; intros H.
    - apply free_every. cbn. split; [discriminate|]. apply free_every. auto.
    - apply free_every. exact I.
  Qed.
  Lemma line_free l : good_line base l -> free_of "010" (line_text l).
  Proof.
    destruct l as [b c|b1 n b2 b3 v b4 c]; cbn [good_line line_text].
    - intros (H1 & H2). apply free_app. split; [apply blanks_free; auto using not_blank_nl|apply comment_free; auto].
    - intros (H1 & H2 & H3 & H4 & H5 & H6 & H7). destruct H6 as (_ & H6 & _). rewrite !free_app.
      repeat split; auto using blanks_free, not_blank_nl, comment_free; [apply name_free; auto|].
      apply free_every. cbn. split; [discriminate|exact I].
  Qed.
  Lemma lines_text l rest : Forall (good_line base) l ->
    lines_from "" (file_text l ++ rest) = map line_text l ++ lines_from "" rest.
  Proof.
    induction 1 as [|x l H1 H2 IH]; [reflexivity|]. unfold file_text. cbn [map fold_right List.app]. fold (file_text l).
    rewrite !append_assoc. cbn [nl append]. rewrite lines_app by (apply line_free; auto). rewrite IH. reflexivity.
  Qed.

  (** The text of an assignment with a name that may be anything without special signs. *)
  Lemma assign_line (n : string) b1 b2 b3 v b4 c :
    n <> ""%string -> every (fun d => ws d = false) n -> free_of "#" n -> free_of "=" n -> free_of "[" n ->
    blanks b1 -> blanks b2 -> blanks b3 -> blanks b4 -> plain_value v -> good_comment c ->
    forall rest, parse_config_lines lit eps100 max100 "" (line_text (Assign b1 n b2 b3 v b4 c) :: rest) =
      match find_exact lit eps100 max100 n with
      | None => Throw
      | Some _ => rbind (parse_config_lines lit eps100 max100 "" rest) (fun r => Ok ((n, v) :: r))
      end.
  Proof.
    intros NE W F1 F2 F3 B1 B2 B3 B4 P C rest. cbn [parse_config_lines line_text].
    set (body := (b1 ++ n ++ b2 ++ "=" ++ b3 ++ v ++ b4)%string).
    replace (b1 ++ n ++ b2 ++ "=" ++ b3 ++ v ++ b4 ++ comment_text c)%string with (body ++ comment_text c)%string
      by (unfold body; rewrite !append_assoc; reflexivity).
    assert (FB : free_of "#" body).
    { unfold body. rewrite !free_app. repeat split; auto using blanks_free, not_blank_hash.
      - apply free_every. cbn. split; [discriminate|exact I].
      - apply P. }
    rewrite cut_comment by auto.
    assert (T : trim_ws body = (n ++ b2 ++ String "=" (trim_right ws (b3 ++ v ++ b4)))%string).
    { unfold body, trim_ws, trim_if. rewrite trim_left_app by (apply blanks_ws; auto).
      rewrite trim_left_id.
      2:{ intros d t E. destruct n as [|d' n']; [congruence|]. cbn in E. injection E as <- _. cbn in W. tauto. }
      rewrite <- append_assoc. change ("=" ++ b3 ++ v ++ b4)%string with (String "=" (b3 ++ v ++ b4)).
      rewrite trim_right_cons by reflexivity. rewrite append_assoc. reflexivity. }
    rewrite T. destruct n as [|d n']; [congruence|]. cbn [append].
    assert (D : Ascii.eqb d "[" = false).
    { apply Ascii.eqb_neq. apply free_every in F3. cbn in F3. tauto. }
    rewrite D. cbn [andb].
    change (String d (n' ++ b2 ++ String "=" (trim_right ws (b3 ++ v ++ b4))))
      with (String d n' ++ b2 ++ String "=" (trim_right ws (b3 ++ v ++ b4)))%string.
    rewrite <- append_assoc, cut_app.
    2:{ apply free_app. split; auto using blanks_free, not_blank_eq. }
    assert (T2 : trim_ws (String d n' ++ b2) = String d n').
    { unfold trim_ws, trim_if. rewrite trim_left_id.
      2:{ intros e t E. cbn in E. injection E as <- _. cbn in W. tauto. }
      rewrite trim_right_app, trim_right_yes by (apply blanks_ws; auto). apply trim_right_id. intros e t E. rewrite E in W.
      apply every_last in W. auto. }
    rewrite T2, trim_value by auto. reflexivity.
  Qed.

  Lemma lines_parse l rest : Forall (good_line base) l ->
    parse_config_lines lit eps100 max100 "" (map line_text l ++ rest) =
    rbind (parse_config_lines lit eps100 max100 "" rest) (fun r => Ok (file_sets l ++ r)).
  Proof.
    induction 1 as [|x l H1 H2 IH]; cbn [map List.app].
    - unfold file_sets. cbn [flat_map]. destruct (parse_config_lines _ _ _ _ rest); reflexivity.
    - destruct x as [b c|b1 n b2 b3 v b4 c].
      + cbn [good_line] in H1. destruct H1 as (B & C). cbn [parse_config_lines line_text].
        rewrite cut_comment by auto using blanks_free, not_blank_hash.
        assert (T : trim_ws b = ""%string).
        { unfold trim_ws, trim_if. rewrite <- (append_nil b), trim_left_app by (apply blanks_ws; auto). reflexivity. }
        rewrite T, IH. reflexivity.
      + cbn [good_line] in H1. destruct H1 as (B1 & B2 & B3 & B4 & N & P & C).
        pose proof (name_facts n N) as (NE & _ & NC).
        rewrite (assign_line n); auto.
        * apply in_map_iff in N as (o & E & N). rewrite <- E, find_in, E by auto. rewrite IH.
          destruct (parse_config_lines _ _ _ _ rest); reflexivity.
        * revert NC. apply every_impl. exact name_char_not_ws.
        * apply name_free; auto.
        * apply name_free; auto.
        * apply name_free; auto.
  Qed.
  Lemma config_parse l : Forall (good_line base) l -> parse_config lit eps100 max100 (file_text l) = Ok (file_sets l).
  Proof.
    intros H. unfold parse_config. rewrite <- (append_nil (file_text l)), lines_text by auto. cbn [lines_from].
    rewrite lines_parse by auto. cbn [parse_config_lines rbind]. rewrite List.app_nil_r. reflexivity.
  Qed.
End Opt.
