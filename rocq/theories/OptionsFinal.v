(** Proofs of the option properties. *)
From Coq Require Import ZArith String Ascii Bool Lia List.
From Verif Require Import Outcome ModelText ModelOptions SpecOptions SpecDefaults TextProofs OptionsProofs Options2Proofs Options3Proofs Options4Proofs.
Import ListNotations.
Local Open Scope string_scope.
Local Open Scope list_scope.
Local Open Scope Z_scope.

(** Examples: numbers are kept as text; the options object is that of a new process. *)
Definition ex_read (s : string) : res string := if String.eqb s "abc" then Throw else Ok s.
Definition ex_lit (m e : Z) : string := (dec m ++ "e" ++ dec e)%string.
Definition ex_table : list (opt string) := base_opts ex_lit "2.22045e-14" "1.79769e+306".
Definition ex_fresh : members string := fun _ => VString "".
Definition ex_items : list item := [Joined "dim" "3"; Apart "final_time" "2.5"; FileName "run.cfg"].
Definition ex_sets : list (string * string) := [("dimension", "3"); ("final_time", "2.5"); ("config_file", "run.cfg")].
Definition ex_lines : list line :=
  [Empty "" (Some " my run"); Assign "  " "dimension" " " " " "2" "" None; Assign "" "bc_x" "" "" "neumann" "  " (Some "walls")].
Definition ex_fs (f : string) : option string := if String.eqb f "run.cfg" then Some (file_text ex_lines) else None.

Fixpoint charsb (p : ascii -> bool) (s : string) : bool :=
  match s with EmptyString => true | String c s' => p c && charsb p s' end.
Lemma charsb_spec p (P : ascii -> Prop) s : (forall c, p c = true -> P c) -> charsb p s = true ->
  forall n c, String.get n s = Some c -> P c.
Proof.
  intros H. induction s as [|d s IH]; intros B n c E; [destruct n; discriminate|].
  cbn [charsb] in B. apply andb_true_iff in B as (B1 & B2). destruct n; cbn in E; [injection E as <-; auto|eauto].
Qed.
Definition blankb (c : ascii) : bool := Ascii.eqb c " " || Ascii.eqb c "009" || Ascii.eqb c "013".
Lemma blankb_spec c : blankb c = true <-> blank c.
Proof. unfold blankb, blank. rewrite !orb_true_iff, !Ascii.eqb_eq. tauto. Qed.
Lemma free_b c s : charsb (fun d => negb (Ascii.eqb d c)) s = true -> free_of c s.
Proof.
  intros H n E. refine (charsb_spec _ (fun d => d <> c) s _ H n c E eq_refl).
  intros d B E'. subst. rewrite Ascii.eqb_refl in B. discriminate.
Qed.
Lemma blanks_b s : charsb blankb s = true -> blanks s.
Proof. intros H n c. apply (charsb_spec blankb blank s); auto. intros d. apply blankb_spec. Qed.
Definition plainb (s : string) : bool := charsb (fun d => negb (blankb d || Ascii.eqb d "#" || Ascii.eqb d "010")) s.
Lemma plain_b s : plainb s = true -> plain_value s.
Proof.
  intros H. assert (E : every (fun d => ~ blank d /\ d <> "#"%char /\ d <> "010"%char) s).
  { apply every_get. apply (charsb_spec _ _ s) with (2 := H). intros c B. apply negb_true_iff in B. rewrite !orb_false_iff in B.
    destruct B as ((B1 & B2) & B3). apply Ascii.eqb_neq in B2, B3. split; auto. intros X. apply blankb_spec in X. congruence. }
  split; [|split; [|split]].
  - apply free_every. revert E. apply every_impl. tauto.
  - apply free_every. revert E. apply every_impl. tauto.
  - intros c t Es. subst. cbn in E. tauto.
  - intros c t Es. subst. apply every_last in E. tauto.
Qed.

Lemma starts_no p s : String.prefix p s = false -> ~ starts_with p s.
Proof. intros H X. apply prefix_starts in X. congruence. Qed.
Lemma not_in_b n l : existsb (String.eqb n) l = false -> ~ In n l.
Proof.
  intros H I. assert (existsb (String.eqb n) l = true); [|congruence]. apply existsb_exists. exists n. split; auto. apply String.eqb_refl.
Qed.
Lemma stands_self n : existsb (String.eqb n) (map o_name ex_table) = true -> stands_for ex_table n n.
Proof.
  intros H. apply existsb_exists in H as (x & I & E). apply String.eqb_eq in E. subst x.
  split; [|split; [auto|left; auto]]. intros E. subst. revert I. apply not_in_b. reflexivity.
Qed.
Lemma stands_abbrev n name : n <> "" -> existsb (String.eqb n) (map o_name ex_table) = false ->
  filter (String.prefix n) (map o_name ex_table) = [name] -> stands_for ex_table n name.
Proof.
  intros NE NI F. assert (I : In name (filter (String.prefix n) (map o_name ex_table))) by (rewrite F; left; auto).
  apply filter_In in I as (I & P). split; [auto|]. split; [auto|]. right. split; [apply not_in_b; auto|]. split; [apply prefix_starts; auto|].
  intros other Io S. assert (J : In other (filter (String.prefix n) (map o_name ex_table))) by (apply filter_In; split; auto; apply prefix_starts; auto).
  rewrite F in J. destruct J as [J|[]]. auto.
Qed.
Lemma valued_b n : existsb (fun o => String.eqb (o_name o) n && match o_kind o with KFlag => false | _ => true end) ex_table = true -> valued ex_table n.
Proof.
  intros H. apply existsb_exists in H as (o & I & E). apply andb_true_iff in E as (E1 & E2). apply String.eqb_eq in E1.
  exists o. split; [auto|]. split; [auto|]. intros K. rewrite K in E2. discriminate.
Qed.
Lemma ex_items_sets : Forall2 (fun i nv => item_sets ex_table i (fst nv) (snd nv)) ex_items ex_sets.
Proof.
  unfold ex_items, ex_sets. constructor; [|constructor; [|constructor; [|constructor]]]; cbn [item_sets fst snd].
  - split; [apply stands_abbrev; [discriminate|reflexivity|reflexivity]|]. split; [apply valued_b; reflexivity|]. split; [reflexivity|discriminate].
  - split; [apply stands_self; reflexivity|]. split; [apply valued_b; reflexivity|]. split; [reflexivity|]. apply starts_no. reflexivity.
  - split; [reflexivity|]. split; [reflexivity|]. apply starts_no. reflexivity.
Qed.
Lemma in_b n l : existsb (String.eqb n) l = true -> In n l.
Proof. intros H. apply existsb_exists in H as (x & I & E). apply String.eqb_eq in E. subst. auto. Qed.
Lemma ex_lines_good : Forall (good_line ex_table) ex_lines.
Proof.
  unfold ex_lines. constructor; [|constructor; [|constructor; [|constructor]]]; cbn [good_line good_comment].
  - split; [apply blanks_b; reflexivity|apply free_b; reflexivity].
  - repeat (split; [apply blanks_b; reflexivity|]). split; [apply in_b; reflexivity|]. split; [apply plain_b; reflexivity|exact I].
  - repeat (split; [apply blanks_b; reflexivity|]). split; [apply in_b; reflexivity|]. split; [apply plain_b; reflexivity|apply free_b; reflexivity].
Qed.
Definition acceptsb (n v : string) : bool :=
  match find (fun o => String.eqb (o_name o) n) ex_table with
  | Some o => match convert ex_read (o_kind o) v with Ok _ => true | _ => false end
  | None => false
  end.
Lemma accepts_b n v : acceptsb n v = true -> exists x, accepts ex_table ex_read n v x.
Proof.
  unfold acceptsb. destruct (find _ ex_table) as [o|] eqn:F; [|discriminate]. apply find_some in F as (I & E). apply String.eqb_eq in E.
  destruct (convert ex_read (o_kind o) v) as [x| | |] eqn:C; try discriminate. intros _. exists x. exists o. auto.
Qed.
Lemma ex_sets_fit : forall n v, In (n, v) ex_sets -> exists x, accepts ex_table ex_read n v x.
Proof. intros n v [E|[E|[E|[]]]]; injection E as <- <-; apply accepts_b; reflexivity. Qed.
Lemma ex_in_force : in_force ex_sets (file_sets ex_lines) = [("bc_x", "neumann")].
Proof. reflexivity. Qed.
Lemma ex_lines_fit : forall n v, In (n, v) (in_force ex_sets (file_sets ex_lines)) -> exists x, accepts ex_table ex_read n v x.
Proof. rewrite ex_in_force. intros n v [E|[]]; injection E as <- <-; apply accepts_b; reflexivity. Qed.
Lemma ex_nodup1 : NoDup (map fst ex_sets). Proof. apply nodup_b_spec. reflexivity. Qed.
Lemma ex_nodup2 : NoDup (map fst (in_force ex_sets (file_sets ex_lines))). Proof. apply nodup_b_spec. reflexivity. Qed.
Lemma ex_opened : opened ex_sets ex_fresh "run.cfg". Proof. left. cbn. auto. Qed.
Lemma ex_help : ~ In "help" (map fst ex_sets) /\ ~ In "help" (map fst (file_sets ex_lines)) /\
  ~ In "config_file" (map fst (in_force ex_sets (file_sets ex_lines))).
Proof. split; [|split]; apply not_in_b; reflexivity. Qed.

(** ** C57 *)

Lemma pf_C57_precedence :
  forall V (read : string -> res V) (lit : Z -> Z -> V) (eps100 max100 : V) (fs : string -> option string)
    (items : list item) (cmd : list (string * string)) (lines : list line) (f : string) (opts : members V),
  Forall2 (fun i nv => item_sets (base_opts lit eps100 max100) i (fst nv) (snd nv)) items cmd ->
  Forall (good_line (base_opts lit eps100 max100)) lines ->
  opened cmd opts f -> (fs f = Some (file_text lines) \/ f = "" /\ fs f = None /\ lines = []) ->
  NoDup (map fst cmd) -> NoDup (map fst (in_force cmd (file_sets lines))) ->
  (forall n v, In (n, v) cmd -> exists x, accepts (base_opts lit eps100 max100) read n v x) ->
  (forall n v, In (n, v) (in_force cmd (file_sets lines)) -> exists x, accepts (base_opts lit eps100 max100) read n v x) ->
  ~ In "help" (map fst cmd) -> ~ In "help" (map fst (file_sets lines)) ->
  ~ In "config_file" (map fst (in_force cmd (file_sets lines))) ->
  exists opts' vm', parse_options read lit eps100 max100 fs (flat_map item_args items) opts = Ok (Running opts' vm') /\
    forall o, In o (base_opts lit eps100 max100) ->
      (forall v, In (o_name o, v) cmd -> convert read (o_kind o) v = Ok (opts' (o_name o))) /\
      (~ In (o_name o) (map fst cmd) -> forall v, In (o_name o, v) (file_sets lines) ->
         convert read (o_kind o) v = Ok (opts' (o_name o))) /\
      (~ In (o_name o) (map fst cmd) -> ~ In (o_name o) (map fst (file_sets lines)) ->
         opts' (o_name o) = match o_default o with Some x => x | None => opts (o_name o) end).
Proof.
  intros V read lit eps100 max100 fs items cmd lines f opts HI HL OP FS ND1 ND2 A1 A2 NH1 NH2 NC.
  destruct (parse_options_ok read lit eps100 max100 fs (flat_map item_args items) cmd (file_sets lines) f (file_text lines) opts)
    as (opts' & vm' & E & C1 & C2 & C3 & _); auto.
  - rewrite <- (List.app_nil_r (flat_map item_args items)), (items_parse lit eps100 max100 items cmd []) by auto.
    cbn [parse_command_line rbind]. rewrite List.app_nil_r. reflexivity.
  - destruct FS as [FS|(Ef & FS & El)]; [left; auto|right]. subst lines. auto.
  - apply config_parse. auto.
  - exists opts', vm'. split; [auto|]. intros o I.
    assert (U : forall v x, accepts (base_opts lit eps100 max100) read (o_name o) v x -> convert read (o_kind o) v = Ok x).
    { intros v x (o' & I' & En & C). assert (o' = o) by (eapply nodup_name; eauto; apply names_nodup). subst. auto. }
    split; [|split].
    + intros v Iv. destruct (A1 _ _ Iv) as (x & A). destruct (C1 _ _ _ Iv A) as (-> & _). auto.
    + intros N v Iv. destruct (A2 (o_name o) v) as (x & A); [apply in_force_in; auto|]. destruct (C2 _ _ _ N Iv A) as (-> & _). auto.
    + intros N1 N2. specialize (C3 o I N1 N2). destruct (o_default o); tauto.
Qed.

Lemma Forall_defaults {A B} (P : A -> B -> Prop) (l : list (A * B)) :
  Forall (fun p => P (fst p) (snd p)) l -> forall a b, In (a, b) l -> P a b.
Proof. intros F a b I. rewrite Forall_forall in F. exact (F _ I). Qed.
Lemma in_table {V} (t : list (opt V)) n d o :
  find (fun o => String.eqb (o_name o) n) t = Some o -> o_default o = d -> In o t /\ o_name o = n /\ o_default o = d.
Proof. intros F D. apply find_some in F. destruct F as [I E]. apply String.eqb_eq in E. auto. Qed.
Lemma ex_defaults :
  In ("eps2", VDouble (ex_lit 2419753086419753 (-20))) (documented ex_lit "2.22045e-14" "1.79769e+306") /\
  ~ In "eps2" (map fst ex_sets) /\ ~ In "eps2" (map fst (file_sets ex_lines)).
Proof.
  split; [unfold documented; repeat (first [left; reflexivity | right])|]. split; cbn; intros H; repeat (destruct H as [H|H]; [discriminate H|]); exact H.
Qed.

Lemma pf_C57_defaults :
  forall V (read : string -> res V) (lit : Z -> Z -> V) (eps100 max100 : V) (fs : string -> option string)
    (items : list item) (cmd : list (string * string)) (lines : list line) (f : string) (opts : members V),
  Forall2 (fun i nv => item_sets (base_opts lit eps100 max100) i (fst nv) (snd nv)) items cmd ->
  Forall (good_line (base_opts lit eps100 max100)) lines ->
  opened cmd opts f -> (fs f = Some (file_text lines) \/ f = "" /\ fs f = None /\ lines = []) ->
  NoDup (map fst cmd) -> NoDup (map fst (in_force cmd (file_sets lines))) ->
  (forall n v, In (n, v) cmd -> exists x, accepts (base_opts lit eps100 max100) read n v x) ->
  (forall n v, In (n, v) (in_force cmd (file_sets lines)) -> exists x, accepts (base_opts lit eps100 max100) read n v x) ->
  ~ In "help" (map fst cmd) -> ~ In "help" (map fst (file_sets lines)) ->
  ~ In "config_file" (map fst (in_force cmd (file_sets lines))) ->
  (exists opts' vm', parse_options read lit eps100 max100 fs (flat_map item_args items) opts = Ok (Running opts' vm') /\
    (forall n x, In (n, x) (documented lit eps100 max100) ->
       ~ In n (map fst cmd) -> ~ In n (map fst (file_sets lines)) -> opts' n = x) /\
    (forall n, In n undefaulted ->
       ~ In n (map fst cmd) -> ~ In n (map fst (file_sets lines)) -> opts' n = opts n)) /\
  (forall n, In n (map o_name (base_opts lit eps100 max100)) <->
     n = "help" \/ In n undefaulted \/ In n (map fst (documented lit eps100 max100))).
Proof.
  intros V read lit eps100 max100 fs items cmd lines f opts HI HL OP FS ND1 ND2 A1 A2 NH1 NH2 NC.
  destruct (pf_C57_precedence V read lit eps100 max100 fs items cmd lines f opts HI HL OP FS ND1 ND2 A1 A2 NH1 NH2 NC)
    as (opts' & vm' & E & C).
  clear - E C. split; [exists opts', vm'; split; [exact E|]; clear E; split|].
  - assert (G : forall n x, In (n, x) (documented lit eps100 max100) ->
      exists o, In o (base_opts lit eps100 max100) /\ o_name o = n /\ o_default o = Some x).
    { apply (Forall_defaults (fun n x => exists o, In o (base_opts lit eps100 max100) /\ o_name o = n /\ o_default o = Some x)).
      unfold documented. repeat (apply Forall_cons; [cbn [fst snd]; eexists; eapply in_table; reflexivity|]).
      apply Forall_nil. }
    intros n x I N1 N2. destruct (G n x I) as (o & Io & <- & Ed). destruct (C o Io) as (_ & _ & D).
    specialize (D N1 N2). rewrite Ed in D. exact D.
  - assert (G : forall n, In n undefaulted ->
      exists o, In o (base_opts lit eps100 max100) /\ o_name o = n /\ o_default o = None).
    { apply Forall_forall. unfold undefaulted. repeat (apply Forall_cons; [eexists; eapply in_table; reflexivity|]).
      apply Forall_nil. }
    intros n I N1 N2. destruct (G n I) as (o & Io & <- & Ed). destruct (C o Io) as (_ & _ & D).
    specialize (D N1 N2). rewrite Ed in D. exact D.
  - intros n. assert (H : n = "help" <-> "help" = n) by (split; auto). rewrite H. clear. cbn. tauto.
Qed.

Definition ex_outcome_check : bool :=
  match parse_options ex_read ex_lit "2.22045e-14" "1.79769e+306" ex_fs (flat_map item_args ex_items) ex_fresh with
  | Ok (Running o _) =>
      match o "dimension", o "bc_x", o "final_time", o "save_every" with
      | VInt 3, VString s, VDouble t, VInt 0 => String.eqb s "neumann" && String.eqb t "2.5"
      | _, _, _, _ => false
      end
  | _ => false
  end.
Lemma ex_outcome_check_true : ex_outcome_check = true.
Proof. vm_compute. reflexivity. Qed.
Lemma ex_outcome :
  match parse_options ex_read ex_lit "2.22045e-14" "1.79769e+306" ex_fs (flat_map item_args ex_items) ex_fresh with
  | Ok (Running o _) => o "dimension" = VInt 3 /\ o "bc_x" = VString "neumann" /\ o "final_time" = VDouble "2.5" /\
                        o "save_every" = VInt 0
  | _ => False
  end.
Proof.
  generalize ex_outcome_check_true. unfold ex_outcome_check.
  generalize (parse_options ex_read ex_lit "2.22045e-14" "1.79769e+306" ex_fs (flat_map item_args ex_items) ex_fresh).
  intros [[o vm1|]| | |]; try discriminate.
  destruct (o "dimension") as [| |z| |]; try discriminate. destruct z as [|[[]|[]|]|]; try discriminate.
  destruct (o "bc_x"); try discriminate. destruct (o "final_time"); try discriminate.
  destruct (o "save_every") as [| |z| |]; try discriminate. destruct z; try discriminate.
  intros H. apply andb_true_iff in H as (H2 & H3). apply String.eqb_eq in H2, H3. subst. auto.
Qed.
Lemma ex_dim_throw : parse_options ex_read ex_lit "2.22045e-14" "1.79769e+306" (fun _ => Some (file_text ex_lines ++ "dim = 3" ++ nl)%string)
    (flat_map item_args ex_items) ex_fresh = Throw.
Proof. vm_compute. reflexivity. Qed.
Lemma ex_nofile : parse_options ex_read ex_lit "2.22045e-14" "1.79769e+306" ex_fs ["nofile"] ex_fresh = Ok (Exited 1).
Proof. vm_compute. reflexivity. Qed.

Lemma pf_C57_unknown_option :
  forall V (read : string -> res V) (lit : Z -> Z -> V) (eps100 max100 : V) (fs : string -> option string)
    (items : list item) (cmd : list (string * string)) (n v : string) (rest : list string) (opts : members V),
  Forall2 (fun i nv => item_sets (base_opts lit eps100 max100) i (fst nv) (snd nv)) items cmd ->
  stands_for_none (base_opts lit eps100 max100) n -> v <> "" ->
  parse_options read lit eps100 max100 fs (flat_map item_args items ++ [("--" ++ n)%string] ++ rest) opts = Throw /\
  parse_options read lit eps100 max100 fs (flat_map item_args items ++ [("--" ++ n ++ "=" ++ v)%string] ++ rest) opts = Throw.
Proof.
  intros V read lit eps100 max100 fs items cmd n v rest opts HI S NE. split.
  - unfold parse_options. rewrite (items_parse lit eps100 max100 items cmd) by auto.
    pose proof (unknown_parse lit eps100 max100 n "" rest S (or_introl eq_refl)) as U. rewrite append_nil in U.
    cbn [List.app]. rewrite U. reflexivity.
  - unfold parse_options. rewrite (items_parse lit eps100 max100 items cmd) by auto. cbn [List.app].
    rewrite (unknown_parse lit eps100 max100 n ("=" ++ v)%string rest S); [reflexivity|]. right. exists v. auto.
Qed.

Lemma none_b n : n <> "" -> charsb (fun d => negb (Ascii.eqb d "=")) n = true -> existsb (String.eqb n) (map o_name ex_table) = false ->
  filter (String.prefix n) (map o_name ex_table) = [] -> stands_for_none ex_table n.
Proof.
  intros NE F NI P. split; [auto|]. split; [apply free_b; auto|]. split; [apply not_in_b; auto|]. left.
  intros other I S. apply prefix_starts in S. assert (J : In other (filter (String.prefix n) (map o_name ex_table))) by (apply filter_In; auto).
  rewrite P in J. destruct J.
Qed.
Lemma ex_unknown : stands_for_none ex_table "iterations".
Proof. apply none_b; [discriminate|reflexivity|reflexivity|reflexivity]. Qed.
Lemma ex_ambiguous : stands_for_none ex_table "domain".
Proof.
  split; [discriminate|]. split; [apply free_b; reflexivity|]. split; [apply not_in_b; reflexivity|]. right.
  exists "domain_x_begin", "domain_x_end". split; [discriminate|]. split; [apply in_b; reflexivity|]. split; [apply in_b; reflexivity|].
  split; apply prefix_starts; reflexivity.
Qed.

Lemma pf_C57_unknown_in_file :
  forall V (read : string -> res V) (lit : Z -> Z -> V) (eps100 max100 : V) (fs : string -> option string)
    (items : list item) (cmd : list (string * string)) (lines : list line) (f : string) (opts : members V)
    (n b1 b2 b3 v b4 : string) (c : option string) (rest : string),
  Forall2 (fun i nv => item_sets (base_opts lit eps100 max100) i (fst nv) (snd nv)) items cmd ->
  NoDup (map fst cmd) -> (forall n v, In (n, v) cmd -> exists x, accepts (base_opts lit eps100 max100) read n v x) ->
  opened cmd opts f -> Forall (good_line (base_opts lit eps100 max100)) lines ->
  ~ In n (map o_name (base_opts lit eps100 max100)) -> n <> "" ->
  (forall k d, String.get k n = Some d -> ~ blank d /\ d <> "010"%char /\ d <> "#"%char /\ d <> "="%char /\ d <> "["%char) ->
  blanks b1 -> blanks b2 -> blanks b3 -> blanks b4 -> plain_value v -> good_comment c ->
  fs f = Some (file_text lines ++ line_text (Assign b1 n b2 b3 v b4 c) ++ nl ++ rest)%string ->
  parse_options read lit eps100 max100 fs (flat_map item_args items) opts = Throw.
Proof.
  intros V read lit eps100 max100 fs items cmd lines f opts n b1 b2 b3 v b4 c rest HI ND AC OP GL NI NE G B1 B2 B3 B4 P C FS.
  eapply (first_reject read lit eps100 max100 fs _ cmd f _ opts); eauto.
  - rewrite <- (List.app_nil_r (flat_map item_args items)), (items_parse lit eps100 max100 items cmd []) by auto.
    cbn [parse_command_line rbind]. rewrite List.app_nil_r. reflexivity.
  - apply (config_unknown lit eps100 max100 lines n b1 b2 b3 v b4 c rest); auto.
Qed.

Lemma ex_dim : ~ In "dim" (map o_name ex_table).
Proof. apply not_in_b. reflexivity. Qed.
Lemma ex_dim_chars : forall k d, String.get k "dim" = Some d -> ~ blank d /\ d <> "010"%char /\ d <> "#"%char /\ d <> "="%char /\ d <> "["%char.
Proof.
  intros k d H. destruct k as [|[|[|k]]]; cbn in H; try (destruct k; discriminate H); injection H as <-;
    (split; [intros [X|[X|X]]; discriminate X|repeat split; discriminate]).
Qed.

Lemma pf_C57_sections :
  forall V (read : string -> res V) (lit : Z -> Z -> V) (eps100 max100 : V) (fs : string -> option string)
    (items : list item) (cmd : list (string * string)) (lines gap : list line) (f : string) (opts : members V)
    (s e1 e2 n b1 b2 b3 v b4 : string) (c c' : option string) (rest : string),
  Forall2 (fun i nv => item_sets (base_opts lit eps100 max100) i (fst nv) (snd nv)) items cmd ->
  NoDup (map fst cmd) -> (forall n v, In (n, v) cmd -> exists x, accepts (base_opts lit eps100 max100) read n v x) ->
  opened cmd opts f -> Forall (good_line (base_opts lit eps100 max100)) lines ->
  blanks e1 -> blanks e2 -> free_of "#" s -> free_of "010" s -> good_comment c ->
  (s <> "" ->
   Forall (good_line (base_opts lit eps100 max100)) gap -> Forall (fun x => exists b t, x = Empty b t) gap ->
   n <> "" ->
   (forall k d, String.get k n = Some d -> ~ blank d /\ d <> "010"%char /\ d <> "#"%char /\ d <> "="%char /\ d <> "["%char) ->
   blanks b1 -> blanks b2 -> blanks b3 -> blanks b4 -> plain_value v -> good_comment c' ->
   fs f = Some (file_text lines ++ (e1 ++ "[" ++ s ++ "]" ++ e2 ++ comment_text c) ++ nl ++ file_text gap ++
     line_text (Assign b1 n b2 b3 v b4 c') ++ nl ++ rest)%string ->
   parse_options read lit eps100 max100 fs (flat_map item_args items) opts = Throw) /\
  (s = "" -> fs f = Some (file_text lines ++ (e1 ++ "[" ++ s ++ "]" ++ e2 ++ comment_text c) ++ nl ++ rest)%string ->
   parse_options read lit eps100 max100 fs (flat_map item_args items) opts = UB).
Proof.
  intros V read lit eps100 max100 fs items cmd lines gap f opts s e1 e2 n b1 b2 b3 v b4 c c' rest HI ND AC OP GL E1 E2 F1 F2 C.
  assert (PC : parse_command_line lit eps100 max100 (flat_map item_args items) = Ok cmd).
  { rewrite <- (List.app_nil_r (flat_map item_args items)), (items_parse lit eps100 max100 items cmd []) by auto.
    cbn [parse_command_line rbind]. rewrite List.app_nil_r. reflexivity. }
  split.
  - intros SE GG GE NE G B1 B2 B3 B4 P C' FS. eapply (first_reject read lit eps100 max100 fs _ cmd f _ opts); eauto.
    exact (config_section lit eps100 max100 lines e1 s e2 c gap b1 n b2 b3 v b4 c' rest GL E1 E2 SE F1 F2 C GG GE NE G B1 B2 B3 B4 P C').
  - intros -> FS. destruct (first_store read lit eps100 max100 cmd opts f ND AC OP) as (m & final & S1 & S2 & S3 & S4 & S5).
    unfold parse_options. rewrite PC. cbn [rbind]. rewrite S1. cbn [rbind]. rewrite S5. cbn [rbind]. rewrite FS.
    pose proof (config_empty_section lit eps100 max100 lines e1 e2 c rest GL E1 E2 C) as U. unfold section_text in U. rewrite U. reflexivity.
Qed.

Lemma pf_C57_no_assignment :
  forall V (read : string -> res V) (lit : Z -> Z -> V) (eps100 max100 : V) (fs : string -> option string)
    (items : list item) (cmd : list (string * string)) (lines : list line) (f : string) (opts : members V)
    (t : string) (c : option string) (rest : string),
  Forall2 (fun i nv => item_sets (base_opts lit eps100 max100) i (fst nv) (snd nv)) items cmd ->
  NoDup (map fst cmd) -> (forall n v, In (n, v) cmd -> exists x, accepts (base_opts lit eps100 max100) read n v x) ->
  opened cmd opts f -> Forall (good_line (base_opts lit eps100 max100)) lines ->
  ~ blanks t -> free_of "#" t -> free_of "010" t -> free_of "=" t -> free_of "[" t -> good_comment c ->
  fs f = Some (file_text lines ++ (t ++ comment_text c) ++ nl ++ rest)%string ->
  parse_options read lit eps100 max100 fs (flat_map item_args items) opts = Throw.
Proof.
  intros V read lit eps100 max100 fs items cmd lines f opts t c rest HI ND AC OP GL NB F1 F2 F3 F4 C FS.
  eapply (first_reject read lit eps100 max100 fs _ cmd f _ opts); eauto.
  - rewrite <- (List.app_nil_r (flat_map item_args items)), (items_parse lit eps100 max100 items cmd []) by auto.
    cbn [parse_command_line rbind]. rewrite List.app_nil_r. reflexivity.
  - exact (config_garbage lit eps100 max100 lines t c rest GL NB F1 F2 F3 F4 C).
Qed.

Lemma ex_sec1 : parse_options ex_read ex_lit "2.22045e-14" "1.79769e+306"
    (fun _ => Some (file_text ex_lines ++ "[grid] # size" ++ nl ++ "bc_y = neumann" ++ nl)%string) (flat_map item_args ex_items) ex_fresh = Throw.
Proof. vm_compute. reflexivity. Qed.
Lemma ex_sec2 : parse_options ex_read ex_lit "2.22045e-14" "1.79769e+306"
    (fun _ => Some (file_text ex_lines ++ "[]" ++ nl)%string) (flat_map item_args ex_items) ex_fresh = UB.
Proof. vm_compute. reflexivity. Qed.
Lemma ex_sec3 : parse_options ex_read ex_lit "2.22045e-14" "1.79769e+306"
    (fun _ => Some (file_text ex_lines ++ "dimension 3" ++ nl)%string) (flat_map item_args ex_items) ex_fresh = Throw.
Proof. vm_compute. reflexivity. Qed.

Lemma pf_C57_bad_command_line :
  forall V (read : string -> res V) (lit : Z -> Z -> V) (eps100 max100 : V) (fs : string -> option string)
    (items : list item) (cmd : list (string * string)) (opts : members V),
  (forall s, read s = Throw \/ exists v, read s = Ok v) ->
  Forall2 (fun i nv => item_sets (base_opts lit eps100 max100) i (fst nv) (snd nv)) items cmd ->
  (~ NoDup (map fst cmd) \/ exists n v, In (n, v) cmd /\ forall x, ~ accepts (base_opts lit eps100 max100) read n v x) ->
  parse_options read lit eps100 max100 fs (flat_map item_args items) opts = Throw.
Proof.
  intros V read lit eps100 max100 fs items cmd opts RT HI H.
  apply (reject_command read lit eps100 max100 RT fs _ opts cmd); auto.
  rewrite <- (List.app_nil_r (flat_map item_args items)), (items_parse lit eps100 max100 items cmd []) by auto.
  cbn [parse_command_line rbind]. rewrite List.app_nil_r. reflexivity.
Qed.

Lemma ex_read_total : forall s, ex_read s = Throw \/ exists v, ex_read s = Ok v.
Proof. intros s. unfold ex_read. destruct (String.eqb s "abc"); eauto. Qed.
Lemma ex_twice : Forall2 (fun i nv => item_sets ex_table i (fst nv) (snd nv)) [Joined "dim" "3"; Joined "dimension" "3"] [("dimension", "3"); ("dimension", "3")].
Proof.
  constructor; [|constructor; [|constructor]]; cbn [item_sets fst snd].
  - split; [apply stands_abbrev; [discriminate|reflexivity|reflexivity]|]. split; [apply valued_b; reflexivity|]. split; [reflexivity|discriminate].
  - split; [apply stands_self; reflexivity|]. split; [apply valued_b; reflexivity|]. split; [reflexivity|discriminate].
Qed.
Lemma ex_twice_dup : ~ NoDup (map fst [("dimension", "3"); ("dimension", "3")]).
Proof. intros H. apply NoDup_cons_iff in H as (H & _). apply H. left. reflexivity. Qed.
Lemma ex_abc : Forall2 (fun i nv => item_sets ex_table i (fst nv) (snd nv)) [Joined "cfl" "abc"] [("cfl", "abc")].
Proof.
  constructor; [|constructor]; cbn [item_sets fst snd].
  split; [apply stands_self; reflexivity|]. split; [apply valued_b; reflexivity|]. split; [reflexivity|discriminate].
Qed.
Lemma ex_abc_not : forall x, ~ accepts ex_table ex_read "cfl" "abc" x.
Proof.
  intros x A. apply accepts_find in A as (o & F & C). unfold find_exact in F. cbn in F. injection F as <-. discriminate C.
Qed.

Lemma pf_C57_bad_file :
  forall V (read : string -> res V) (lit : Z -> Z -> V) (eps100 max100 : V) (fs : string -> option string)
    (items : list item) (cmd : list (string * string)) (lines : list line) (f : string) (opts : members V),
  (forall s, read s = Throw \/ exists v, read s = Ok v) ->
  Forall2 (fun i nv => item_sets (base_opts lit eps100 max100) i (fst nv) (snd nv)) items cmd ->
  NoDup (map fst cmd) -> (forall n v, In (n, v) cmd -> exists x, accepts (base_opts lit eps100 max100) read n v x) ->
  opened cmd opts f -> Forall (good_line (base_opts lit eps100 max100)) lines -> fs f = Some (file_text lines) ->
  (~ NoDup (map fst (in_force cmd (file_sets lines))) \/
   exists n v, In (n, v) (in_force cmd (file_sets lines)) /\ forall x, ~ accepts (base_opts lit eps100 max100) read n v x) ->
  parse_options read lit eps100 max100 fs (flat_map item_args items) opts = Throw.
Proof.
  intros V read lit eps100 max100 fs items cmd lines f opts RT HI ND AC OP GL FS H.
  eapply (reject_config read lit eps100 max100 RT fs _ cmd f _ opts); eauto.
  - rewrite <- (List.app_nil_r (flat_map item_args items)), (items_parse lit eps100 max100 items cmd []) by auto.
    cbn [parse_command_line rbind]. rewrite List.app_nil_r. reflexivity.
  - right. exists (file_sets lines). split; [apply config_parse; auto|auto].
Qed.

Lemma ex_bad_lines : Forall (good_line ex_table) [Assign "" "bc_y" "" "" "neumann" "" None; Assign "" "bc_y" "" "" "periodic" "" None].
Proof.
  constructor; [|constructor; [|constructor]]; cbn [good_line good_comment];
  (repeat (split; [apply blanks_b; reflexivity|]); split; [apply in_b; reflexivity|]; split; [apply plain_b; reflexivity|exact I]).
Qed.
Lemma ex_bad_dup : ~ NoDup (map fst (in_force ex_sets (file_sets [Assign "" "bc_y" "" "" "neumann" "" None; Assign "" "bc_y" "" "" "periodic" "" None]))).
Proof.
  change (~ NoDup ["bc_y"; "bc_y"]). intros H. apply NoDup_cons_iff in H as (H & _). apply H. left. reflexivity.
Qed.

Lemma pf_C57_exit :
  forall V (read : string -> res V) (lit : Z -> Z -> V) (eps100 max100 : V) (fs : string -> option string)
    (items : list item) (cmd : list (string * string)) (f : string) (opts : members V),
  Forall2 (fun i nv => item_sets (base_opts lit eps100 max100) i (fst nv) (snd nv)) items cmd ->
  NoDup (map fst cmd) -> (forall n v, In (n, v) cmd -> exists x, accepts (base_opts lit eps100 max100) read n v x) ->
  opened cmd opts f -> fs f = None ->
  (In "help" (map fst cmd) -> parse_options read lit eps100 max100 fs (flat_map item_args items) opts = Ok (Exited 0)) /\
  (~ In "help" (map fst cmd) -> f <> "" -> parse_options read lit eps100 max100 fs (flat_map item_args items) opts = Ok (Exited 1)).
Proof.
  intros V read lit eps100 max100 fs items cmd f opts HI ND AC OP FS.
  destruct (parse_exit read lit eps100 max100 fs (flat_map item_args items) cmd [] f "" opts) as (H1 & H2); auto.
  - rewrite <- (List.app_nil_r (flat_map item_args items)), (items_parse lit eps100 max100 items cmd []) by auto.
    cbn [parse_command_line rbind]. rewrite List.app_nil_r. reflexivity.
  - rewrite FS. reflexivity.
  - constructor.
  - intros n v [].
Qed.

Lemma ex_help_items : Forall2 (fun i nv => item_sets ex_table i (fst nv) (snd nv)) [Help; FileName "nofile"] [("help", ""); ("config_file", "nofile")].
Proof.
  constructor; [|constructor; [|constructor]]; cbn [item_sets fst snd]; [split; reflexivity|].
  split; [reflexivity|]. split; [reflexivity|]. apply starts_no. reflexivity.
Qed.

Lemma pf_C57_values :
  forall V (read : string -> res V) (s : string) (n : Z),
  convert read KString s = Ok (VString s) /\
  (-2147483648 <= n <= 2147483647 -> convert read KInt (dec n) = Ok (VInt n)) /\
  (n < -2147483648 \/ 2147483647 < n -> convert read KInt (dec n) = Throw) /\
  (0 <= n <= 4294967295 -> convert read KUnsigned (dec n) = Ok (VUnsigned n)) /\
  (4294967295 < n -> convert read KUnsigned (dec n) = Throw) /\
  (0 < n <= 4294967295 -> convert read KUnsigned (dec (- n)) = Ok (VUnsigned (4294967296 - n))) /\
  (In s ["true"; "yes"; "on"; "1"] -> convert read KBool s = Ok (VBool true)) /\
  (In s ["false"; "no"; "off"; "0"] -> convert read KBool s = Ok (VBool false)).
Proof.
  intros V read s n. cbn [convert]. split; [reflexivity|]. split; [|split; [|split; [|split; [|split; [|split]]]]].
  - intros H. rewrite lexical_int_dec by auto. reflexivity.
  - intros H. rewrite lexical_int_out by auto. reflexivity.
  - intros H. rewrite lexical_unsigned_dec by auto. reflexivity.
  - intros H. destruct (dec_not_empty n) as (c & t & E & D & U); [lia|]. rewrite E. destruct (digits_first c t n D U) as (_ & ->).
    replace (n <=? 4294967295) with false by (symmetry; apply Z.leb_gt; lia). reflexivity.
  - intros H. rewrite lexical_unsigned_neg by auto. reflexivity.
  - intros [E|[E|[E|[E|[]]]]]; subst s; reflexivity.
  - intros [E|[E|[E|[E|[]]]]]; subst s; reflexivity.
Qed.

(** ** C64 *)

Lemma pf_C64_template :
  forall V (read : string -> res V) (showg : V -> string) (lit : Z -> Z -> V) (eps100 max100 : V)
    (fs fs2 : string -> option string) (args : list string) (f : string) (opts fresh opts1 : members V) (vm1 : vmap V),
  parse_options read lit eps100 max100 fs args opts = Ok (Running opts1 vm1) ->
  (forall o, In o (base_opts lit eps100 max100) -> o_default o = None -> opts (o_name o) = VString "") ->
  (forall n s, In n (map o_name (base_opts lit eps100 max100)) -> opts1 n = VString s -> plain_value s) ->
  (forall n x, In n (map o_name (base_opts lit eps100 max100)) -> opts1 n = VDouble x ->
     plain_value (showg x) /\ exists y, read (showg x) = Ok y) ->
  ~ starts_with "--" f -> fs2 f = Some (config_template showg lit eps100 max100 vm1) ->
  exists opts2 vm2, parse_options read lit eps100 max100 fs2 [f] fresh = Ok (Running opts2 vm2) /\
    forall n, In n (map o_name (base_opts lit eps100 max100)) -> n <> "help" -> n <> "config_file" ->
      match opts1 n with
      | VDouble x => exists y, read (showg x) = Ok y /\ opts2 n = VDouble y
      | other => opts2 n = other
      end.
Proof.
  intros V read showg lit eps100 max100 fs fs2 args f opts fresh opts1 vm1 P FR PS PD NF FS.
  destruct (template_back read showg lit eps100 max100 fs args opts opts1 vm1 fs2 f fresh P FR PS PD NF FS) as (o2 & v2 & E & _ & H).
  exists o2, v2. auto.
Qed.

Lemma plain_all (o : members string) l : forallb (fun n => match o n with VString s => plainb s | _ => true end) l = true ->
  forall n s, In n l -> o n = VString s -> plain_value s.
Proof. intros H n s I E. rewrite forallb_forall in H. apply H in I. rewrite E in I. apply plain_b. auto. Qed.
Definition ex_template_check : bool :=
  match parse_options ex_read ex_lit "2.22045e-14" "1.79769e+306" ex_fs (flat_map item_args ex_items) ex_fresh with
  | Ok (Running o1 vm1) =>
      forallb (fun n => match o1 n with VString s => plainb s | _ => true end) (map o_name ex_table) &&
      match parse_options ex_read ex_lit "2.22045e-14" "1.79769e+306"
              (fun _ => Some (config_template (fun x => x) ex_lit "2.22045e-14" "1.79769e+306" vm1)) ["saved.cfg"] ex_fresh with
      | Ok (Running o2 _) =>
          match o2 "dimension", o2 "bc_x", o2 "final_time" with
          | VInt 3, VString s, VDouble t => String.eqb s "neumann" && String.eqb t "2.5"
          | _, _, _ => false
          end
      | _ => false
      end
  | _ => false
  end.
Lemma ex_template_check_true : ex_template_check = true.
Proof. vm_compute. reflexivity. Qed.
Lemma ex_template :
  match parse_options ex_read ex_lit "2.22045e-14" "1.79769e+306" ex_fs (flat_map item_args ex_items) ex_fresh with
  | Ok (Running o1 vm1) =>
      (forall n s, In n (map o_name ex_table) -> o1 n = VString s -> plain_value s) /\
      match parse_options ex_read ex_lit "2.22045e-14" "1.79769e+306"
              (fun _ => Some (config_template (fun x => x) ex_lit "2.22045e-14" "1.79769e+306" vm1)) ["saved.cfg"] ex_fresh with
      | Ok (Running o2 _) => o2 "dimension" = VInt 3 /\ o2 "bc_x" = VString "neumann" /\ o2 "final_time" = VDouble "2.5"
      | _ => False
      end
  | _ => False
  end.
Proof.
  generalize ex_template_check_true. unfold ex_template_check.
  generalize (parse_options ex_read ex_lit "2.22045e-14" "1.79769e+306" ex_fs (flat_map item_args ex_items) ex_fresh).
  intros [[o1 vm1|]| | |]; try discriminate.
  generalize (parse_options ex_read ex_lit "2.22045e-14" "1.79769e+306"
              (fun _ => Some (config_template (fun x => x) ex_lit "2.22045e-14" "1.79769e+306" vm1)) ["saved.cfg"] ex_fresh).
  intros P H. apply andb_true_iff in H as (H1 & H2). split; [apply plain_all; exact H1|].
  destruct P as [[o2 vm2|]| | |]; try discriminate.
  destruct (o2 "dimension") as [|v|z| |]; try discriminate. destruct z as [|[[]|[]|]|]; try discriminate.
  destruct (o2 "bc_x"); try discriminate. destruct (o2 "final_time"); try discriminate.
  apply andb_true_iff in H2 as (H2 & H3). apply String.eqb_eq in H2, H3. subst. auto.
Qed.
