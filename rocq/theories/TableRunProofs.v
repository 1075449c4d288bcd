(** The logs of runs read as tables. *)
From Coq Require Import String Reals.
From Verif Require Import ModelLogger ModelOptions Outcome ZList Num ModelDisc3D ModelDisc2D ModelVTK ModelProgram ModelMG ModelMGCH ModelImplicit SpecGrid SpecField SpecRestart SpecMon
  SpecMG SpecLogger SpecProgram SpecImplicit SpecTable TableProofs Program6Proofs Program10Proofs.
From Coq Require Import ZArith List Lia.
Import ListNotations.
Local Open Scope list_scope.
Local Open Scope Z_scope.

Lemma requests_entries {V} (file : string) messages (rows : list (list (string * V) * list (string * V) * list (string * V))) goodbye :
  exists es, log_requests file messages rows ++ map (Message LInfo) goodbye = InitFile file LTrace :: flat_map entry_calls es /\
    rows_of es = map columns_of rows.
Proof.
  exists (map (Says LInfo) messages ++ map (fun r => let '(a, b, c) := r in Row a b c) rows ++ map (Says LInfo) goodbye).
  assert (M : forall l, flat_map (@entry_calls V) (map (Says LInfo) l) = map (Message LInfo) l).
  { induction l as [|x l IH]; auto. cbn. rewrite IH. reflexivity. }
  assert (Z : forall l, rows_of (map (@Says V LInfo) l) = []) by (induction l; auto).
  unfold log_requests, rows_of in *. rewrite !flat_map_app, !M, !Z, app_nil_r. cbn [app]. split.
  - f_equal. rewrite <- app_assoc. do 2 f_equal. induction rows as [|((a, b), c) rows IH]; auto. cbn. rewrite IH. reflexivity.
  - induction rows as [|((a, b), c) rows IH]; auto. cbn [map flat_map]. rewrite IH. reflexivity.
Qed.

Lemma requests_table {V} (showe : V -> string) table banner stamp file messages rows goodbye names g out :
  (forall n, one_line (stamp n)) -> (forall header, all_comment (table header)) -> all_comment banner ->
  names <> [] -> Forall is_word names -> rows <> [] -> Forall (legible showe names) (map columns_of rows) ->
  perform_all showe table banner new_logger (log_requests file messages rows ++ map (Message LInfo) goodbye) = Next g out ->
  table_in (file_text file stamp 0 out) = names :: map (fun r => printed showe (columns_of r)) rows.
Proof.
  intros S T B N W NR L P. destruct (requests_entries file messages rows goodbye) as (es & E & R). rewrite E in P.
  rewrite (log_table showe table banner file LTrace stamp S T B ltac:(cbn; lia) names es N W) with (g := g) (out := out); auto; rewrite R; auto.
  rewrite map_map. destruct rows; [congruence|reflexivity].
Qed.

Lemma word_in : Forall is_word (run_columns []).
Proof.
  unfold run_columns. cbn [app]. repeat constructor; try discriminate;
    intros n; do 11 (destruct n as [|n]; [cbn; discriminate|]); cbn; discriminate.
Qed.
Lemma columns_words names : Forall is_word names -> Forall is_word (run_columns names).
Proof.
  intros F. pose proof word_in as W. unfold run_columns in *. rewrite !Forall_app in *. tauto.
Qed.
Lemma every_some {A} q (l : list A) : q <> 0 -> l <> [] -> every q l <> [].
Proof.
  intros Q N. unfold every. rewrite (proj2 (Z.eqb_neq _ _) Q). destruct l as [|x l]; [congruence|]. cbn [length seq combine filter fst].
  rewrite Zmod_0_l. discriminate.
Qed.

Section Runs.
  Variables (pl : platform R) (s : settings R) (dom : domain R) (names messages : list string) (stamp : nat -> string).
  Hypothesis Hstamp : forall n, one_line (stamp n).
  Hypothesis Htable : forall header, all_comment (pl_table pl header).
  Hypothesis Hbanner : all_comment (pl_banner pl).
  Hypothesis Hnames : Forall is_word names.
  Hypothesis Hlog : s_log_every s <> 0.

  Lemma rows_table (rows : list (list (string * R) * list (string * R) * list (string * R))) goodbye g out :
    rows <> [] -> Forall (fun r => map fst (columns_of r) = run_columns names) rows ->
    perform_all (pl_showe pl) (pl_table pl) (pl_banner pl) new_logger (log_requests (s_log_file s) messages rows ++ map (Message LInfo) goodbye) = Next g out ->
    Forall (readable (pl_showe pl)) (map columns_of rows) ->
    table_in (file_text (s_log_file s) stamp 0 out) = run_columns names :: map (fun r => printed (pl_showe pl) (columns_of r)) rows.
  Proof.
    intros N F P L. apply (requests_table _ (pl_table pl) (pl_banner pl) stamp (s_log_file s) messages rows goodbye (run_columns names) g out); auto.
    - discriminate.
    - apply columns_words; auto.
    - clear - F L. induction rows as [|r rows IH]; [constructor|]. cbn [map] in *. apply Forall_cons_iff in F as (F1 & F2).
      apply Forall_cons_iff in L as (L1 & L2). constructor; auto. split; auto.
  Qed.

  Lemma story_table3 rel abs start proposes next rate u0 w : story3_with pl s rel abs dom names messages start proposes next rate u0 w -> reduces pl ->
    exists rows goodbye,
      perform_all (pl_showe pl) (pl_table pl) (pl_banner pl) new_logger (log_requests (s_log_file s) messages rows ++ map (Message LInfo) goodbye) = Next (w_logger w) (w_out w) /\
      rows <> [] /\
      (Forall (readable (pl_showe pl)) (map columns_of rows) ->
       table_in (file_text (s_log_file s) stamp 0 (w_out w)) = run_columns names :: map (fun r => printed (pl_showe pl) (columns_of r)) rows).
  Proof.
    destruct start as ((i0, t0), dt0). intros (steps & e & files & fin & limit & _ & _ & _ & _ & (before & i & t & dt & u & RE & _) & LG & _) RD.
    destruct (LG RD) as (rows & goodbye & P & L & K & _). exists rows, goodbye. split; [exact P|].
    assert (NR : rows <> []).
    { intros ->. cbn [length] in L. symmetry in L. apply length_zero_iff_nil in L. revert L. apply every_some; auto.
      intros Z. apply (f_equal (@length _)) in Z. rewrite reached_length in Z. apply (f_equal (@length _)) in RE.
      rewrite reached_length, app_length in RE. cbn [length] in *. lia. }
    split; [exact NR|]. intros RR. apply (rows_table rows goodbye (w_logger w)); auto.
    apply Forall_forall. intros row IN. apply In_nth_error in IN as (n & IN).
    destruct (nth_error (every (s_log_every s) (reached (fun _ dt x => (next dt (fst x), rate dt (fst x))) i0 (u0, u0) steps)) n) as [x|] eqn:X.
    2: { apply nth_error_None in X. rewrite <- L in X. apply nth_error_None in X. congruence. }
    pose proof (K n x row X IN) as G. destruct x as (((i', t'), dt'), (u', v')). destruct row as ((a, b), c).
    destruct G as ((more & G1 & ->) & (A & Rel & top & -> & _) & (lo & hi & gm & -> & _)).
    cbn [columns_of]. rewrite !map_app, G1. cbn. rewrite <- ?app_assoc. reflexivity.
  Qed.
  Lemma story_table2 rel abs start proposes next rate u0 w : story2_with pl s rel abs dom names messages start proposes next rate u0 w -> reduces pl ->
    exists rows goodbye,
      perform_all (pl_showe pl) (pl_table pl) (pl_banner pl) new_logger (log_requests (s_log_file s) messages rows ++ map (Message LInfo) goodbye) = Next (w_logger w) (w_out w) /\
      rows <> [] /\
      (Forall (readable (pl_showe pl)) (map columns_of rows) ->
       table_in (file_text (s_log_file s) stamp 0 (w_out w)) = run_columns names :: map (fun r => printed (pl_showe pl) (columns_of r)) rows).
  Proof.
    destruct start as ((i0, t0), dt0). intros (steps & e & files & fin & limit & _ & _ & _ & _ & (before & i & t & dt & u & RE & _) & LG & _) RD.
    destruct (LG RD) as (rows & goodbye & P & L & K & _). exists rows, goodbye. split; [exact P|].
    assert (NR : rows <> []).
    { intros ->. cbn [length] in L. symmetry in L. apply length_zero_iff_nil in L. revert L. apply every_some; auto.
      intros Z. apply (f_equal (@length _)) in Z. rewrite reached_length in Z. apply (f_equal (@length _)) in RE.
      rewrite reached_length, app_length in RE. cbn [length] in *. lia. }
    split; [exact NR|]. intros RR. apply (rows_table rows goodbye (w_logger w)); auto.
    apply Forall_forall. intros row IN. apply In_nth_error in IN as (n & IN).
    destruct (nth_error (every (s_log_every s) (reached (fun _ dt x => (next dt (fst x), rate dt (fst x))) i0 (u0, u0) steps)) n) as [x|] eqn:X.
    2: { apply nth_error_None in X. rewrite <- L in X. apply nth_error_None in X. congruence. }
    pose proof (K n x row X IN) as G. destruct x as (((i', t'), dt'), (u', v')). destruct row as ((a, b), c).
    destruct G as ((more & G1 & ->) & (A & Rel & top & -> & _) & (lo & hi & gm & -> & _)).
    cbn [columns_of]. rewrite !map_app, G1. cbn. rewrite <- ?app_assoc. reflexivity.
  Qed.
  Lemma implicit_table q level step start u0 w : implicit_story pl q s dom level step messages start u0 w -> names = [] ->
    exists rows,
      perform_all (pl_showe pl) (pl_table pl) (pl_banner pl) new_logger (log_requests (s_log_file s) messages rows) = Next (w_logger w) (w_out w) /\
      rows <> [] /\
      (Forall (readable (pl_showe pl)) (map columns_of rows) ->
       table_in (file_text (s_log_file s) stamp 0 (w_out w)) = run_columns names :: map (fun r => printed (pl_showe pl) (columns_of r)) rows).
  Proof.
    destruct start as ((i0, t0), dt0). intros (prol & steps & e & rated & files & fin & _ & _ & _ & _ & _ & (before & i & t & dt & u & RE & _) & (rows & P & L & K)) NN.
    exists rows. split; [exact P|].
    assert (NR : rows <> []).
    { intros ->. cbn [length] in L. symmetry in L. apply length_zero_iff_nil in L. revert L. apply every_some; auto.
      intros ->. cbn [map] in RE. destruct before; discriminate. }
    split; [exact NR|]. intros RR. apply (rows_table rows [] (w_logger w)); auto.
    2: { cbn [map]. rewrite app_nil_r. exact P. }
    apply Forall_forall. intros row IN. apply In_nth_error in IN as (n & IN).
    destruct (nth_error (every (s_log_every s) rated) n) as [x|] eqn:X.
    2: { apply nth_error_None in X. rewrite <- L in X. apply nth_error_None in X. congruence. }
    pose proof (K n x row X IN) as G. destruct x as (((i', t'), dt'), (u', v')). destruct row as ((a, b), c).
    destruct G as ((more & G1 & ->) & (A & Rel & top & -> & _) & (lo & hi & gm & -> & _)).
    cbn [columns_of]. rewrite !map_app, G1, NN. cbn. rewrite <- ?app_assoc. reflexivity.
  Qed.
End Runs.
