(** Proofs about the banner. *)
From Coq Require Import ZArith String Ascii Bool Lia List.
Import ListNotations.
From Verif Require Import Outcome Num ModelText TextProofs ModelLogger SpecLogger LoggerProofs Logger2Proofs ModelBanner SpecTable TableProofs.
Local Open Scope list_scope.
Local Open Scope Z_scope.

Lemma one_line_plus c s : c <> "010"%char -> one_line s -> one_line (String c s).
Proof. intros C S [|n]; cbn; [congruence|apply S]. Qed.
Lemma one_line_nil : one_line "".
Proof. intros n. destruct n; discriminate. Qed.

Lemma digit_plain d : 0 <= d < 10 -> digit_char d <> "010"%char.
Proof.
  intros H E. apply (f_equal N_of_ascii) in E. unfold digit_char in E. rewrite N_ascii_embedding in E by lia. change (N_of_ascii "010") with 10%N in E. lia.
Qed.
Lemma dec_digits_plain fuel : forall n acc, one_line acc -> one_line (dec_digits fuel n acc).
Proof.
  induction fuel as [|k IH]; intros n acc A; cbn [dec_digits]; auto.
  assert (B : one_line (String (digit_char (n mod 10)) acc)).
  { apply one_line_plus; auto. apply digit_plain. apply Z.mod_pos_bound. lia. }
  destruct (n <? 10); auto.
Qed.
Lemma dec_plain n : one_line (dec n).
Proof.
  unfold dec. destruct (n <? 0); [apply one_line_plus; [discriminate|]|]; apply dec_digits_plain, one_line_nil.
Qed.

Lemma getlines_plain s : forall cur, one_line cur -> Forall one_line (getlines cur s).
Proof.
  induction s as [|c s IH]; intros cur C; cbn [getlines].
  - destruct cur; auto.
  - destruct (Ascii.eqb c "010") eqn:E.
    + constructor; auto. apply IH, one_line_nil.
    + apply IH. apply one_line_app; auto. apply Ascii.eqb_neq in E. apply one_line_plus; auto. apply one_line_nil.
Qed.
Lemma split_blanks_plain s : forall cur, one_line cur -> one_line s -> Forall one_line (split_blanks cur s).
Proof.
  induction s as [|c s IH]; intros cur C S; cbn [split_blanks]; auto. apply one_line_cons in S as (S1 & S2).
  destruct (Ascii.eqb c " ").
  - constructor; auto. apply IH; auto. apply one_line_nil.
  - apply IH; auto. apply one_line_app; auto. apply one_line_plus; auto. apply one_line_nil.
Qed.
Lemma joined_plain ws : forall w, one_line w -> Forall one_line ws -> one_line (fold_left (fun s x => s ++ " " ++ x)%string ws w).
Proof.
  induction ws as [|x ws IH]; intros w W F; cbn [fold_left]; auto. apply Forall_cons_iff in F as (F1 & F2). apply IH; auto.
  apply one_line_app; auto. apply one_line_plus; auto. discriminate.
Qed.
Lemma processor_plain c : one_line (processor_model c).
Proof.
  assert (N : one_line "not found") by (intros n; do 10 (destruct n as [|n]; [discriminate|]); discriminate).
  destruct c as [text|]; cbn [processor_model]; auto. destruct (find is_model (getlines "" text)) as [l|] eqn:E; auto.
  apply find_some in E as (E & _). pose proof (proj1 (Forall_forall _ _) (getlines_plain text "" one_line_nil) l E) as L.
  unfold from_third. pose proof (split_blanks_plain l "" one_line_nil L) as F.
  destruct (split_blanks "" l) as [|a [|b [|w ws]]]; auto. do 3 apply Forall_cons_iff in F as (? & F). apply joined_plain; auto.
Qed.

Lemma split_blanks_word a : (forall n, String.get n a <> Some " "%char) -> forall cur s,
  split_blanks cur (a ++ String " " s) = (cur ++ a)%string :: split_blanks "" s.
Proof.
  induction a as [|c a IH]; intros H cur s; cbn [append split_blanks].
  - rewrite Ascii.eqb_refl, append_nil. reflexivity.
  - assert (C : c <> " "%char) by (intros ->; exact (H O eq_refl)). apply Ascii.eqb_neq in C. rewrite C, IH.
    + rewrite append_assoc. reflexivity.
    + intros n. exact (H (S n)).
Qed.
Lemma split_blanks_join s : forall cur, exists w ws, split_blanks cur s = w :: ws /\
  fold_left (fun s x => s ++ " " ++ x)%string ws w = (cur ++ s)%string.
Proof.
  induction s as [|c s IH]; intros cur; cbn [split_blanks].
  - exists cur, []. split; auto. symmetry. apply append_nil.
  - destruct (Ascii.eqb c " ") eqn:E.
    + apply Ascii.eqb_eq in E. subst c. destruct (IH ""%string) as (w & ws & E1 & E2). rewrite E1. exists cur, (w :: ws). split; auto.
      cbn [fold_left]. assert (G : forall l p, fold_left (fun s x => s ++ " " ++ x)%string l (cur ++ " " ++ p)%string =
        (cur ++ " " ++ fold_left (fun s x => s ++ " " ++ x)%string l p)%string).
      { induction l as [|x l IHl]; intros p; cbn [fold_left]; auto. rewrite <- IHl, !append_assoc. reflexivity. }
      rewrite G, E2. reflexivity.
    + destruct (IH (cur ++ String c "")%string) as (w & ws & E1 & E2). exists w, ws. split; auto. rewrite E2, append_assoc. reflexivity.
Qed.
Lemma from_third_ok a b rest : (forall n, String.get n a <> Some " "%char) -> (forall n, String.get n b <> Some " "%char) ->
  from_third (a ++ " " ++ b ++ " " ++ rest)%string = rest.
Proof.
  intros A B. unfold from_third. cbn [append]. rewrite (split_blanks_word a A), (split_blanks_word b B).
  destruct (split_blanks_join rest "") as (w & ws & E1 & E2). rewrite E1. exact E2.
Qed.
Lemma getlines_join ls s : forall cur, Forall one_line ls ->
  getlines "" (fold_right (fun l r => l ++ nl ++ r)%string s ls) = ls ++ getlines "" s /\
  (forall a, one_line a -> getlines cur (a ++ nl ++ s)%string = (cur ++ a)%string :: getlines "" s).
Proof.
  assert (W : forall t a cur, one_line a -> getlines cur (a ++ nl ++ t)%string = (cur ++ a)%string :: getlines "" t).
  { intros t. induction a as [|c a IH]; intros cur A.
    - cbn [append getlines nl]. rewrite Ascii.eqb_refl, append_nil. reflexivity.
    - apply one_line_cons in A as (A1 & A2). change (String c a ++ nl ++ t)%string with (String c (a ++ nl ++ t)). cbn [getlines].
      apply Ascii.eqb_neq in A1. rewrite A1, IH by auto. rewrite append_assoc. reflexivity. }
  intros cur F. split; auto. induction F as [|l ls F1 F2 IH]; cbn [fold_right app]; auto. rewrite W by auto. rewrite IH. reflexivity.
Qed.

Lemma comment_app a b : all_comment a -> all_comment b -> all_comment (a ++ nl ++ b)%string.
Proof. unfold all_comment. intros A B. rewrite lines_app. apply Forall_app. auto. Qed.
Lemma label_comment p v : one_line p -> one_line v -> all_comment (String "#" p ++ v)%string.
Proof.
  intros P W. unfold all_comment. rewrite one_line_lines; [constructor; cbn; eauto|]. apply one_line_app; auto. apply one_line_plus; auto. discriminate.
Qed.
Ltac shorttext := let n := fresh in intros n; do 50 (destruct n as [|n]; [cbn; discriminate|]); cbn; discriminate.

Lemma openmp_plain t : one_line (openmp_info t).
Proof. destruct t; [apply dec_plain|]. cbn [openmp_info]. shorttext. Qed.

Definition after_dir (e : surroundings) : list string := [
    "#     Processor model    " ++ processor_model (e_cpuinfo e);
    "#     GPU model          " ++ device_model (e_gpu e);
    "#     GPUs per node      " ++ dec (e_gpus e);
    "#     OpenMP max threads " ++ openmp_info (e_threads e);
    "#     System time        " ++ e_clock e;
    "#     git branch         " ++ e_branch e;
    "#     git commit hash    " ++ e_hash e;
    "#     C++ compiler       " ++ e_compiler e;
    "#                        "]%string.
Definition before_dir (e : surroundings) : list string :=
  drawing ++ ["#     Hostname           " ++ e_host e; "#     Username           " ++ username (e_user e)]%string.

Lemma banner_parts e b : make_banner e = Ok b ->
  b = fold_right (fun l s => l ++ nl ++ s)%string "#"%string (before_dir e ++ ("#     Work directory     " ++ e_directory e)%string :: after_dir e).
Proof.
  unfold make_banner, hostname. destruct (_ <? 64); [|discriminate]. cbn [rbind]. intros E. injection E as <-.
  unfold before_dir. rewrite <- app_assoc. reflexivity.
Qed.
Lemma parts_comment e : plain_surroundings e -> Forall all_comment (before_dir e) /\ Forall all_comment (after_dir e).
Proof.
  intros (U & G & F). do 5 apply Forall_cons_iff in F as (? & F). unfold before_dir, after_dir, drawing. split.
  - apply Forall_app. split.
    + repeat (constructor; [unfold all_comment; cbn; repeat constructor; eauto|]). constructor.
    + repeat (constructor; [apply label_comment; auto; shorttext|]). constructor.
  - do 8 (apply Forall_cons; [apply label_comment; [shorttext|auto using processor_plain, dec_plain, openmp_plain]|]).
    constructor; [unfold all_comment; cbn; repeat constructor; eauto|constructor].
Qed.
Lemma lines_of_banner l : text_lines (fold_right (fun l s => l ++ nl ++ s)%string "#"%string l) = flat_map text_lines l ++ ["#"%string].
Proof. induction l as [|x l IH]; [reflexivity|]. cbn [fold_right flat_map]. rewrite lines_app, IH, app_assoc. reflexivity. Qed.

Lemma banner_comment e b : make_banner e = Ok b -> plain_surroundings e -> one_line (e_directory e) -> all_comment b.
Proof.
  intros M P D. rewrite (banner_parts e b M). unfold all_comment. rewrite lines_of_banner. destruct (parts_comment e P) as (A & B).
  apply Forall_app. split; [|repeat constructor; eauto]. rewrite flat_map_app. cbn [flat_map]. rewrite !Forall_app.
  assert (K : forall l, Forall all_comment l -> Forall (fun l => exists rest, l = String "#" rest) (flat_map text_lines l)).
  { intros l. induction 1 as [|x l H1 H2 IH]; cbn [flat_map]; [constructor|]. apply Forall_app. split; auto. }
  repeat split; auto. apply (label_comment "     Work directory     "); auto. shorttext.
Qed.
Lemma banner_shows e b : make_banner e = Ok b -> plain_surroundings e -> one_line (e_directory e) ->
  Forall (fun l => In l (text_lines b)) [
    ("#     Hostname           " ++ e_host e)%string; ("#     Username           " ++ username (e_user e))%string;
    ("#     Work directory     " ++ e_directory e)%string; ("#     Processor model    " ++ processor_model (e_cpuinfo e))%string].
Proof.
  intros M P D. rewrite (banner_parts e b M), lines_of_banner. destruct P as (U & G & F). do 5 apply Forall_cons_iff in F as (? & F).
  assert (K : forall x l, one_line x -> In x l -> In x (flat_map text_lines l ++ ["#"%string])).
  { intros x l X I. apply in_app_iff. left. apply in_flat_map. exists x. split; auto. rewrite one_line_lines by auto. left. reflexivity. }
  apply Forall_cons; [|apply Forall_cons; [|apply Forall_cons; [|apply Forall_cons; [|constructor]]]];
    (apply K; [apply one_line_app; [shorttext|auto using processor_plain]|]).
  - apply in_or_app. left. apply in_or_app. right. left. reflexivity.
  - apply in_or_app. left. apply in_or_app. right. right. left. reflexivity.
  - apply in_or_app. right. left. reflexivity.
  - apply in_or_app. right. right. left. reflexivity.
Qed.
Lemma banner_broken e b a w : make_banner e = Ok b -> plain_surroundings e -> one_line a -> is_word w ->
  e_directory e = (a ++ nl ++ w)%string -> table_in b = [[w]].
Proof.
  intros M P A W D. rewrite (banner_parts e b M), D. destruct (parts_comment e P) as (B1 & B2).
  assert (T : forall l, table_in (fold_right (fun l s => l ++ nl ++ s)%string "#"%string l) = flat_map table_in l).
  { induction l as [|x l IH]; [reflexivity|]. cbn [fold_right flat_map]. rewrite table_app, IH. reflexivity. }
  assert (Z : forall l, Forall all_comment l -> flat_map table_in l = []).
  { induction 1 as [|x l H1 H2 IH]; auto. cbn [flat_map]. rewrite comment_table, IH by auto. reflexivity. }
  rewrite T, flat_map_app. cbn [flat_map]. rewrite !Z by auto. rewrite app_nil_r. cbn [app].
  change ("#     Work directory     " ++ a ++ nl ++ w)%string with (("#     Work directory     " ++ a) ++ nl ++ w)%string.
  rewrite table_app, comment_table by (apply (label_comment "     Work directory     "); auto; shorttext). cbn [app].
  destruct W as (NB & O & H). unfold table_in. rewrite one_line_lines by auto. cbn [map].
  assert (U : uncommented w = w).
  { clear - H. induction w as [|c w IH]; auto. cbn [uncommented]. assert (C : c <> "#"%char) by (intros ->; exact (H O eq_refl)).
    apply Ascii.eqb_neq in C. rewrite C, IH; auto. intros n. exact (H (S n)). }
  rewrite U. pose proof (no_blank_solid w NB) as SW. cbn [filter]. destruct (only_blanks w) eqn:E.
  - apply blanks_text, words_of_blanks in E. rewrite words_last in E by auto. discriminate.
  - cbn [negb map]. rewrite (words_split w [w]); auto; [apply words_last; auto|discriminate].
Qed.

Lemma substring_prefix p : forall l, String.substring 0 (String.length p) l = p <-> exists r, l = (p ++ r)%string.
Proof.
  induction p as [|c p IH]; intros l; cbn [String.length append].
  - split; [eauto|]. intros _. destruct l; reflexivity.
  - destruct l as [|d l]; cbn [String.substring]; [split; [discriminate|intros (r & E); discriminate]|].
    split.
    + intros E. injection E as -> E. apply IH in E as (r & ->). eauto.
    + intros (r & E). injection E as -> ->. f_equal. apply IH. eauto.
Qed.
Lemma is_model_iff l : is_model l = true <-> exists r, l = ("model name" ++ r)%string.
Proof. unfold is_model. rewrite String.eqb_eq. apply (substring_prefix "model name"). Qed.
Lemma processor_ok before b rest more :
  Forall one_line before -> Forall (fun l => forall r, l <> ("model name" ++ r)%string) before ->
  (forall n, String.get n b <> Some " "%char) -> one_line b -> one_line rest ->
  processor_model (Some (fold_right (fun l r => l ++ nl ++ r) ("model name" ++ b ++ " " ++ rest ++ nl ++ more) before)%string) = rest.
Proof.
  intros F M B O R. cbn [processor_model]. rewrite (proj1 (getlines_join before _ "" F)).
  replace ("model name" ++ b ++ " " ++ rest ++ nl ++ more)%string with (("model name" ++ b ++ " " ++ rest) ++ nl ++ more)%string
    by (rewrite !append_assoc; reflexivity).
  rewrite (proj2 (getlines_join [] more ""%string (Forall_nil _)) ("model name" ++ b ++ " " ++ rest)%string).
  2: { apply one_line_app; [shorttext|]. apply one_line_app; auto. apply one_line_plus; [discriminate|auto]. }
  assert (E : find is_model (before ++ ("" ++ "model name" ++ b ++ " " ++ rest)%string :: getlines "" more) = Some ("model name" ++ b ++ " " ++ rest)%string).
  { clear F. induction M as [|x l H1 H2 IH]; cbn [app find].
    - rewrite (proj2 (is_model_iff _)); [reflexivity|]. cbn [append]. eauto.
    - destruct (is_model x) eqn:X; [|exact IH]. apply is_model_iff in X as (r & X). congruence. }
  rewrite E. apply (from_third_ok "model" ("name" ++ b) rest).
  - intros n. do 6 (destruct n as [|n]; [cbn; discriminate|]). cbn. discriminate.
  - intros n. do 4 (destruct n as [|n]; [cbn; discriminate|]). cbn. apply B.
Qed.
