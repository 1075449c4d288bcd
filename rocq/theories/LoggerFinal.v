(** Proofs of the logger and profiler properties. *)
From Coq Require Import ZArith Reals Lra String Ascii Bool Lia Permutation Sorted List.
From Verif Require Import Outcome Num ModelText ModelLogger SpecLogger TextProofs LoggerProofs Logger2Proofs.
Import ListNotations.
Local Open Scope string_scope.
Local Open Scope list_scope.
Local Open Scope Z_scope.

Lemma pf_C63_prefix :
  forall (l : level) (s : string), In l [LTrace; LDebug; LInfo; LWarning] ->
  exists lines, lines <> [] /\ Forall one_line lines /\ s = join_lines lines /\
    r_text (message_record l s) =
      join_lines (map (append (match l with LTrace => "# [Trace] " | LDebug => "# [Debug] "
                                          | LInfo => "# [Info] " | _ => "# [Warning] " end)) lines).
Proof.
  intros l s I. destruct (split_lines s) as (ls & NE & F & E). exists ls. split; auto. split; auto. split; auto.
  destruct I as [I|[I|[I|[I|[]]]]]; subst l; cbn [message_record r_text tag]; rewrite E at 1; rewrite after_join by auto; reflexivity.
Qed.

Lemma pf_C63_fatal :
  forall s, exists lines, lines <> [] /\ Forall one_line lines /\ s = join_lines lines /\
    r_text (message_record LFatal s) =
      join_lines (map (append "# [FATAL] ") ([stars; ""] ++ lines ++ [""; stars])).
Proof.
  intros s. destruct (split_lines s) as (ls & NE & F & E). exists ls. split; auto. split; auto. split; auto.
  cbn [message_record r_text]. cbn [tag].
  replace (stars ++ nl ++ nl ++ s ++ nl ++ nl ++ stars)%string with (join_lines ([stars; ""] ++ ls ++ [""; stars])).
  - apply after_join; [|discriminate]. apply Forall_app. split.
    + constructor; [exact stars_line|constructor; [exact empty_line|constructor]].
    + apply Forall_app. split; auto. constructor; [exact empty_line|constructor; [exact stars_line|constructor]].
  - rewrite join_app; [|discriminate|destruct ls; [congruence|discriminate]]. rewrite join_app; [|auto|discriminate].
    rewrite <- E. cbn [join_lines]. rewrite !append_assoc. reflexivity.
Qed.

Lemma pf_C63_error_label_refuted :
  forall s, r_text (message_record LError s) = r_text (message_record LTrace s).
Proof. reflexivity. Qed.

Lemma ex_prefix : r_text (message_record LInfo (join_lines ["a"; ""; "b c"])) =
  join_lines ["# [Info] a"; "# [Info] "; "# [Info] b c"].
Proof. reflexivity. Qed.

Lemma pf_C65_delivery :
  forall (V : Type) (showe : V -> string) (table : list string -> string) (banner : string) (h : list (call V)) g out l s,
  perform_all showe table banner new_logger h = Next g out ->
  (is_enabled h -> wanted h l ->
    exists d, written (perform showe table banner g (Message l s)) = [d] /\ d_record d = message_record l s /\
      (d_console d = true <-> ~ In Close h) /\
      (forall f, d_file d = Some f <-> log_file h f) /\
      (d_default d = true <-> In Close h /\ forall f, ~ log_file h f)) /\
  (~ is_enabled h \/ ~ wanted h l -> written (perform showe table banner g (Message l s)) = []).
Proof.
  intros V showe table banner h g out l s E.
  assert (W : written (perform showe table banner g (Message l s)) = deliver g (message_record l s)) by (destruct l; reflexivity).
  rewrite W. apply (deliver_after showe table banner h g out (message_record l s)) in E.
  replace (r_level (message_record l s)) with l in E by (destruct l; reflexivity). exact E.
Qed.

Lemma pf_C65_fatal :
  forall (V : Type) (showe : V -> string) (table : list string -> string) (banner : string) (g : logger V) c,
  (exists out, perform showe table banner g c = Aborted out) <-> exists s, c = Message LFatal s.
Proof.
  intros V showe table banner g c. split.
  - intros (out & E). destruct c as [l| | |f l| |t r s| |l s]; cbn [perform] in E; try discriminate.
    + destruct (update_log showe table g) as [(g' & o)| | |]; discriminate.
    + destruct l; try discriminate. eauto.
  - intros (s & ->). eexists. reflexivity.
Qed.

Lemma pf_C65_second_file_refuted :
  forall (V : Type) (h : list (call V)) f l f' l', level_in_force (InitFile f l :: h ++ [InitFile f' l']) = level_in_force (InitFile f l :: h).
Proof.
  intros. unfold level_in_force. change (InitFile f l :: h ++ [InitFile f' l']) with ((InitFile f l :: h) ++ [InitFile f' l']).
  rewrite last_set_snoc. reflexivity.
Qed.

Definition ex_history : list (call Z) :=
  [Message LDebug "start"; InitFile "a.log" LInfo; Disable; Message LWarning "hidden"; Enable; Close; InitFile "b.log" LTrace].
Definition ex_showe (x : Z) : string := dec x.
Definition ex_lognames (l : list string) : string := fold_right append "" l.
Lemma ex_deliver : exists g out, perform_all ex_showe ex_lognames "madgicart" new_logger ex_history = Next g out /\
  is_enabled ex_history /\ wanted ex_history LInfo /\ ~ wanted ex_history LDebug /\ log_file ex_history "b.log" /\
  List.length out = 3%nat.
Proof.
  eexists. eexists. split; [reflexivity|]. split; [|split; [|split; [|split]]].
  - intros h1 h2 E. unfold ex_history in E.
    destruct h1 as [|c1 h1]; [discriminate|]. injection E as _ E.
    destruct h1 as [|c2 h1]; [discriminate|]. injection E as _ E.
    destruct h1 as [|c3 h1]; [injection E as <-; cbn [In]; auto|]. injection E as _ E.
    destruct h1 as [|c4 h1]; [discriminate|]. injection E as _ E.
    destruct h1 as [|c5 h1]; [discriminate|]. injection E as _ E.
    destruct h1 as [|c6 h1]; [discriminate|]. injection E as _ E.
    destruct h1 as [|c7 h1]; [discriminate|]. injection E as _ E. destruct h1; discriminate.
  - cbv. discriminate.
  - intros X. apply X. reflexivity.
  - exists [Message LDebug "start"; InitFile "a.log" LInfo; Disable; Message LWarning "hidden"; Enable; Close], [], LTrace.
    split; [reflexivity|]. split; [intros []|intros g k []].
  - reflexivity.
Qed.

Lemma pf_C66_rows :
  forall (V : Type) (showe : V -> string) (table : list string -> string) (banner : string) (h : list (call V)) t r s first rest g out,
  perform_all showe table banner new_logger (h ++ [Monitors t r s]) = Next g out ->
  is_enabled h -> wanted h LWarning ->
  t ++ r ++ s = first :: rest ->
  Forall (fun p => no_blank (fst p)) (first :: rest) -> Forall (fun p => no_blank (showe (snd p))) (first :: rest) ->
  Forall (fun p => (String.length (showe (snd p)) <= 12)%nat) rest ->
  exists g' announce head d,
    perform showe table banner g Update = Next g' (announce ++ head ++ [d]) /\
    row_words (r_text (d_record d)) = map (fun p => showe (snd p)) (t ++ r ++ s) /\
    (updates_since_close h = O -> exists a b, announce = [a; b] /\ row_words (r_text (d_record b)) = map fst (t ++ r ++ s)) /\
    (updates_since_close h <> O -> announce = []) /\
    (Nat.modulo (updates_since_close h) 50 = O -> exists x names, head = [x] /\ r_text (d_record x) = table names /\
       (updates_since_close h = O -> names = map fst (t ++ r ++ s))) /\
    (Nat.modulo (updates_since_close h) 50 <> O -> head = []).
Proof.
  intros V showe table banner h t r s first rest g out E EN W TR FN FB FL.
  destruct (update_row showe table banner h t r s g out E EN W) as (g' & an & hd & d & P & D & A1 & A2 & H1 & H2).
  { rewrite TR. discriminate. }
  exists g', an, hd, d. split; auto. split; [|split; [|split; [auto|split; auto]]].
  - rewrite D, TR. cbn [map]. apply Forall_cons_iff in FB as (B1 & B2). apply row_ok; auto.
    + apply Forall_map. auto.
    + apply Forall_map. auto.
  - intros K. destruct (A1 K) as (a & b & E1 & E2). exists a, b. split; auto. rewrite E2. apply names_words.
    + rewrite TR. apply Forall_map. auto.
    + rewrite TR. discriminate.
Qed.

Lemma pf_C66_long_value_refuted :
  forall (V : Type) (showe : V -> string) (table : list string -> string) (banner : string) (h : list (call V)) a b g out,
  perform_all showe table banner new_logger (h ++ [Monitors [a] [b] []]) = Next g out ->
  is_enabled h -> wanted h LWarning -> no_blank (showe (snd a)) -> no_blank (showe (snd b)) ->
  (13 <= String.length (showe (snd b)))%nat ->
  exists g' before d, perform showe table banner g Update = Next g' (before ++ [d]) /\
    row_words (r_text (d_record d)) = [(showe (snd a) ++ showe (snd b))%string].
Proof.
  intros V showe table banner h a b g out E EN W A B L.
  destruct (update_row showe table banner h [a] [b] [] g out E EN W) as (g' & an & hd & d & P & D & _); [discriminate|].
  exists g', (an ++ hd), d. rewrite <- List.app_assoc. split; auto. rewrite D. cbn [app map]. apply row_merge; auto.
Qed.

Definition no_blankb (s : string) : bool :=
  negb (String.eqb s "") && (fix f s := match s with EmptyString => true | String c s' => negb (Ascii.eqb c " ") && f s' end) s.
Lemma no_blank_b s : no_blankb s = true -> no_blank s.
Proof.
  unfold no_blankb. intros B. apply andb_true_iff in B as (B1 & B2). split.
  - intros E. subst. discriminate.
  - clear B1. induction s as [|c s IH]; intros n; [destruct n; discriminate|]. apply andb_true_iff in B2 as (C & B2). destruct n; cbn [String.get]; auto.
    intros X. injection X as ->. discriminate.
Qed.
Definition ex_long (x : Z) : string := if x <? 0 then "-1.00000e-100" else "1.00000e+00".
Lemma ex_long_row : exists g out,
  perform_all ex_long (fun _ => "") "madgicart" new_logger ([InitFile "a.log" LInfo] ++ [Monitors [("time", 1)] [("res", -1)] []]) = Next g out /\
  is_enabled [InitFile (V := Z) "a.log" LInfo] /\ wanted [InitFile (V := Z) "a.log" LInfo] LWarning /\ no_blank (ex_long 1) /\ no_blank (ex_long (-1)) /\
  (13 <= String.length (ex_long (-1)))%nat.
Proof.
  eexists. eexists. split; [reflexivity|]. split; [|split; [|split; [|split]]].
  - intros h1 h2 E. destruct h1 as [|c1 h1]; [discriminate|]. injection E as _ E. destruct h1; discriminate.
  - cbv. discriminate.
  - apply no_blank_b. reflexivity.
  - apply no_blank_b. reflexivity.
  - apply Nat.leb_le. reflexivity.
Qed.

Lemma pf_C66_no_monitor_refuted :
  forall (V : Type) (showe : V -> string) (table : list string -> string) (banner : string),
  perform showe table banner (new_logger : logger V) Update = Undefined.
Proof. reflexivity. Qed.

Definition ex_quiet : list (call Z) := [InitFile "a.log" LInfo].
Definition ex_time : list (string * Z) := [("iter", 7); ("time", 12)].
Definition ex_resid : list (string * Z) := [("res", 100)].
Definition ex_solution : list (string * Z) := [("min", 3); ("max", 5)].
Lemma ex_row : exists g out,
  perform_all ex_showe ex_lognames "madgicart" new_logger (ex_quiet ++ [Monitors ex_time ex_resid ex_solution]) = Next g out /\
  is_enabled ex_quiet /\ wanted ex_quiet LWarning /\
  ex_time ++ ex_resid ++ ex_solution = ("iter", 7) :: [("time", 12)] ++ ex_resid ++ ex_solution /\
  Forall (fun p => no_blank (fst p)) (ex_time ++ ex_resid ++ ex_solution) /\
  Forall (fun p => no_blank (ex_showe (snd p))) (ex_time ++ ex_resid ++ ex_solution) /\
  Forall (fun p => (String.length (ex_showe (snd p)) <= 12)%nat) ([("time", 12)] ++ ex_resid ++ ex_solution).
Proof.
  eexists. eexists. split; [reflexivity|]. split; [|split; [|split; [reflexivity|split; [|split]]]].
  - intros h1 h2 E. unfold ex_quiet in E. destruct h1 as [|c1 h1]; [discriminate|]. injection E as _ E. destruct h1; discriminate.
  - cbv. discriminate.
  - repeat constructor; apply no_blank_b; reflexivity.
  - repeat constructor; apply no_blank_b; reflexivity.
  - cbn [app ex_resid ex_solution snd ex_showe].
    repeat (apply Forall_cons; [cbn [snd]; apply Nat.leb_le; reflexivity|]). apply Forall_nil.
Qed.

Lemma pf_C67_counts :
  forall (V : Type) (N : Num V) (h : list (event V)),
  NoDup (map fst (profile_all h)) /\ (forall n, In n (map fst (profile_all h)) <-> In n (map event_name h)) /\
  forall n c t, In (n, (c, t)) (profile_all h) ->
    c = Z.of_nat (calls_of n h) /\ t = fold_left nadd (times_of n h) (nint 0).
Proof.
  intros V N h. destruct (profile_spec h) as (A & B & C). split; auto. split; auto. intros n c t I.
  apply entry_in in I; auto. specialize (C n). rewrite I in C. exact C.
Qed.

Lemma pf_C67_report :
  forall (order : list (profile R) -> list (profile R)) (sort : (report R -> report R -> bool) -> list (report R) -> list (report R)) l,
  (forall x, Permutation x (order x)) -> is_sort sort -> (forall n c t, In (n, (c, t)) l -> (0 <= t)%R) ->
  let rows := report_rows order sort l in
  Permutation l (map (fun r => (p_name r, (p_calls r, p_time r))) rows) /\
  StronglySorted (fun a b => (p_percent b <= p_percent a)%R) rows /\
  ((exists n c t, In (n, (c, t)) l /\ (0 < t)%R) ->
    exists top, (0 < top)%R /\ (forall r, In r rows -> p_percent r = (p_time r / top * 100)%R /\ (0 <= p_percent r <= 100)%R) /\
      exists first rest, rows = first :: rest /\ p_percent first = 100%R /\ p_time first = top).
Proof.
  intros order sort l PO IS POS rows. destruct (report_spec order sort l PO IS) as (A & B & C).
  - intros (n & (c & t)) I. exact (POS n c t I).
  - split; [|split; [exact B|]].
    + rewrite map_ext with (g := fun p => p) in A by (intros (n & x); reflexivity). rewrite map_id in A. exact A.
    + intros (n & c & t & I & P). apply C. exists (n, (c, t)). auto.
Qed.

Definition ex_events : list (event Z) := [Tic "rhs"; Tic "norm"; Toc "norm" 2; Toc "rhs" 5; Tic "rhs"; Toc "rhs" 4].
Lemma ex_counts : calls_of "rhs" ex_events = 2%nat /\ times_of "rhs" ex_events = [5; 4] /\ calls_of "norm" ex_events = 1%nat.
Proof. repeat split. Qed.

(** Insertion sort meets the description of std::sort. *)
Section Sort.
  Context {A : Type}.
  Fixpoint insert (lt : A -> A -> bool) (a : A) (l : list A) : list A :=
    match l with [] => [a] | b :: l' => if lt b a then b :: insert lt a l' else a :: b :: l' end.
  Definition isort (lt : A -> A -> bool) (l : list A) : list A := fold_right (insert lt) [] l.
  Lemma insert_perm lt a l : Permutation (a :: l) (insert lt a l).
  Proof.
    induction l as [|b l IH]; cbn; auto. destruct (lt b a); auto. eapply perm_trans; [apply perm_swap|]. constructor. auto.
  Qed.
  Lemma insert_sorted lt a l : strict_weak lt -> StronglySorted (fun a b => lt b a = false) l ->
    StronglySorted (fun a b => lt b a = false) (insert lt a l).
  Proof.
    intros (IR & TR & NT) S. induction S as [|b l S IH F]; cbn; [repeat constructor|]. destruct (lt b a) eqn:E.
    - constructor; auto. apply (Permutation_Forall (insert_perm lt a l)). constructor; auto.
      destruct (lt a b) eqn:E2; auto. pose proof (TR _ _ _ E E2) as X. rewrite IR in X. discriminate.
    - constructor; [constructor; auto|]. constructor; auto. revert F. apply Forall_impl. intros c F. exact (NT _ _ _ F E).
  Qed.
  Lemma isort_ok : is_sort isort.
  Proof.
    intros lt l W. induction l as [|a l (P & S)]; [split; constructor|]. cbn [isort fold_right]. split.
    - eapply perm_trans; [constructor; exact P|]. apply insert_perm.
    - apply insert_sorted; auto.
  Qed.
End Sort.

Lemma ex_times : forall n c t, In (n, (c, t)) [("rhs", (2%Z, 3%R)); ("norm", (1%Z, 0%R))] -> (0 <= t)%R.
Proof. intros n c t [E|[E|[]]]; injection E as _ _ <-; lra. Qed.
