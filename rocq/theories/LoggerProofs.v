(** Proofs about the logger and the profiler. *)
From Coq Require Import ZArith Reals Lra String Ascii Bool Lia Permutation Sorted List.
Import ListNotations.
From Verif Require Import Outcome Num ModelText TextProofs ModelLogger SpecLogger.
Local Open Scope list_scope.
Local Open Scope Z_scope.

(** ** Prefixes *)
Lemma get_every (P : ascii -> Prop) s : (forall n c, String.get n s = Some c -> P c) -> every P s.
Proof.
  induction s as [|d s IH]; intros H; cbn [every]; auto. split; [apply (H O); reflexivity|].
  apply IH. intros n c E. apply (H (S n)). exact E.
Qed.
Lemma one_line_every s : one_line s -> every (fun c => c <> "010"%char) s.
Proof. intros H. apply get_every. intros n c E N. subst. exact (H n E). Qed.
Lemma after_app t a b : after_newlines t (a ++ b) = (after_newlines t a ++ after_newlines t b)%string.
Proof.
  induction a as [|c a IH]; cbn [append after_newlines]; auto. rewrite IH. destruct (Ascii.eqb c "010"); cbn [append]; [rewrite append_assoc|]; reflexivity.
Qed.
Lemma after_line t s : one_line s -> after_newlines t s = s.
Proof.
  intros H. apply one_line_every in H. induction s as [|c s IH]; cbn [after_newlines every] in *; auto.
  destruct H as (A & B). apply Ascii.eqb_neq in A. rewrite A, IH by auto. reflexivity.
Qed.
Lemma after_join t ls : Forall one_line ls -> ls <> [] ->
  (t ++ after_newlines t (join_lines ls))%string = join_lines (map (append t) ls).
Proof.
  induction 1 as [|s ls Hs H IH]; [congruence|]. intros _. destruct ls as [|s2 ls].
  - cbn. rewrite after_line by auto. reflexivity.
  - change (join_lines (map (append t) (s :: s2 :: ls))) with ((t ++ s) ++ nl ++ join_lines (map (append t) (s2 :: ls)))%string.
    change (join_lines (s :: s2 :: ls)) with (s ++ nl ++ join_lines (s2 :: ls))%string. rewrite <- IH by discriminate.
    rewrite !after_app, (after_line t s) by auto.
    assert (E : after_newlines t nl = (nl ++ t)%string) by (cbn; rewrite append_nil; reflexivity).
    rewrite E. rewrite !append_assoc. reflexivity.
Qed.
Lemma join_app a b : a <> [] -> b <> [] -> join_lines (a ++ b) = (join_lines a ++ nl ++ join_lines b)%string.
Proof.
  intros A B. induction a as [|s a IH]; [congruence|]. destruct a as [|s2 a].
  - cbn [List.app join_lines]. destruct b; [congruence|]. reflexivity.
  - cbn [List.app join_lines] in *. rewrite IH by discriminate. rewrite !append_assoc. reflexivity.
Qed.
Lemma split_lines s : exists ls, ls <> [] /\ Forall one_line ls /\ s = join_lines ls.
Proof.
  induction s as [|c s (ls & NE & F & E)].
  - exists [""%string]. split; [discriminate|]. split; [constructor; [|constructor]|reflexivity]. intros n X. destruct n; discriminate.
  - destruct (Ascii.eqb c "010") eqn:C.
    + apply Ascii.eqb_eq in C. subst c. exists (""%string :: ls). split; [discriminate|]. split.
      * constructor; auto. intros n X. destruct n; discriminate.
      * cbn [join_lines]. destruct ls; [congruence|]. rewrite E. reflexivity.
    + apply Ascii.eqb_neq in C. destruct ls as [|l ls]; [congruence|]. exists (String c l :: ls). split; [discriminate|].
      apply Forall_cons_iff in F as (F1 & F2). split.
      * constructor; auto. intros [|n] X; cbn in X; [congruence|exact (F1 n X)].
      * rewrite E. cbn [join_lines]. destruct ls; reflexivity.
Qed.
Lemma stars_line : one_line stars.
Proof. intros n X. do 40 (destruct n as [|n]; [discriminate X|]). destruct n; discriminate X. Qed.
Lemma empty_line : one_line "". Proof. intros n X. destruct n; discriminate X. Qed.

(** ** Histories *)
Section Hist.
  Context {V : Type}.
  Variables (showe : V -> string) (table : list string -> string) (banner : string).
  Local Notation perform := (perform showe table banner).
  Local Notation perform_all := (perform_all showe table banner).

  Lemma perform_snoc h : forall g c, perform_all g (h ++ [c]) =
    match perform_all g h with
    | Next g' out => match perform g' c with Next g'' o2 => Next g'' (out ++ o2) | Aborted o2 => Aborted (out ++ o2) | Undefined => Undefined end
    | e => e
    end.
  Proof.
    induction h as [|d h IH]; intros g c; cbn [List.app ModelLogger.perform_all].
    - destruct (perform g c); rewrite ?List.app_nil_r; reflexivity.
    - destruct (perform g d) as [g' o|o|]; auto. rewrite IH. destruct (perform_all g' h) as [g'' o'|o'|]; auto.
      destruct (perform g'' c); auto; rewrite List.app_assoc; reflexivity.
  Qed.
  Lemma last_set_snoc (h : list (call V)) c : last_set_level (h ++ [c]) = match c with SetLevel l => Some l | _ => last_set_level h end.
  Proof.
    induction h as [|d h IH]; cbn [List.app last_set_level].
    - destruct c; reflexivity.
    - rewrite IH. destruct c, d; try reflexivity; cbn; destruct (last_set_level h); reflexivity.
  Qed.
  Lemma first_file_snoc (h : list (call V)) c : first_file_level (h ++ [c]) =
    match first_file_level h with Some l => Some l | None => match c with InitFile _ l => Some l | _ => None end end.
  Proof. induction h as [|d h IH]; cbn [List.app first_file_level]; [destruct c; reflexivity|]. destruct d; auto. Qed.
  Lemma updates_snoc (h : list (call V)) c : updates_since_close (h ++ [c]) =
    match c with Close => O | Update => S (updates_since_close h) | _ => updates_since_close h end.
  Proof. unfold updates_since_close. rewrite fold_left_app. reflexivity. Qed.
  Lemma snoc_split {A} (h h1 h2 : list A) c d : h ++ [c] = h1 ++ d :: h2 ->
    (h2 = [] /\ h1 = h /\ d = c) \/ exists h3, h2 = h3 ++ [c] /\ h = h1 ++ d :: h3.
  Proof.
    intros E. destruct h2 as [|x h2] using rev_ind.
    - left. apply app_inj_tail in E as (E1 & E2). auto.
    - right. clear IHh2. exists h2. change (h1 ++ d :: h2 ++ [x]) with (h1 ++ (d :: h2) ++ [x]) in E. rewrite List.app_assoc in E.
      apply app_inj_tail in E as (E1 & E2). subst. auto.
  Qed.
  Lemma enabled_snoc (h : list (call V)) c : is_enabled (h ++ [c]) <->
    match c with Enable => True | Disable => False | _ => is_enabled h end.
  Proof.
    assert (G : c <> Disable -> c <> Enable -> (is_enabled (h ++ [c]) <-> is_enabled h)).
    { intros N1 N2. unfold is_enabled. split.
      - intros H h1 h2 E. assert (I : In Enable (h2 ++ [c])) by (apply (H h1); rewrite E, <- List.app_assoc; reflexivity).
        apply in_app_iff in I as [I|[I|[]]]; auto. congruence.
      - intros H h1 h2 E. apply snoc_split in E as [(-> & -> & E)|(h3 & -> & E)]; [congruence|].
        apply in_app_iff. left. eapply H; eauto. }
    destruct c; try (apply G; discriminate).
    - split; auto. intros _ h1 h2 E. apply snoc_split in E as [(_ & _ & E)|(h3 & -> & E)]; [discriminate|].
      apply in_app_iff. right. left. reflexivity.
    - split; [|tauto]. intros H. apply (H h []). reflexivity.
  Qed.
  Lemma file_snoc (h : list (call V)) c f : log_file (h ++ [c]) f <->
    match c with InitFile g _ => f = g | Close => False | _ => log_file h f end.
  Proof.
    assert (G : c <> Close -> (forall g k, c <> InitFile g k) -> (log_file (h ++ [c]) f <-> log_file h f)).
    { intros N1 N2. unfold log_file. split.
      - intros (h1 & h2 & l & E & C & D). apply snoc_split in E as [(_ & _ & E)|(h3 & -> & E)]; [exfalso; eapply N2; eauto|].
        exists h1, h3, l. split; auto. split; [intros X; apply C; apply in_app_iff; auto|].
        intros g k X. apply (D g k). apply in_app_iff. auto.
      - intros (h1 & h2 & l & E & C & D). exists h1, (h2 ++ [c]), l. split; [rewrite E, <- List.app_assoc; reflexivity|].
        split; [intros X; apply in_app_iff in X as [X|[X|[]]]; auto|]. intros g k X. apply in_app_iff in X as [X|[X|[]]]; [eapply D; eauto|eapply N2; eauto]. }
    destruct c as [l| | |g l| |t r s| |l s]; try (apply G; [discriminate|intros; discriminate]).
    - split.
      + intros (h1 & h2 & k & E & C & D). apply snoc_split in E as [(_ & _ & E)|(h3 & -> & E)]; [congruence|].
        exfalso. apply (D g l). apply in_app_iff. right. left. reflexivity.
      + intros ->. exists h, [], l. split; [reflexivity|]. split; [intros []|intros g' k' []].
    - split; [|tauto]. intros (h1 & h2 & k & E & C & D). apply snoc_split in E as [(_ & _ & E)|(h3 & -> & E)]; [discriminate|].
      apply C. apply in_app_iff. right. left. reflexivity.
  Qed.

  Definition agrees (h : list (call V)) (g : logger V) : Prop :=
    l_filter g = level_in_force h /\ (l_overridden g = true <-> level_in_force h <> None) /\
    (l_enabled g = true <-> is_enabled h) /\ (l_console g = true <-> ~ In Close h) /\
    (forall f, l_file g = Some f <-> log_file h f) /\ l_updates g = Z.of_nat (updates_since_close h).

  Lemma agrees_all h : forall g out, perform_all new_logger h = Next g out -> agrees h g.
  Proof.
    induction h as [|c h IH] using rev_ind; intros g out E.
    - cbn in E. injection E as <- <-. unfold agrees. cbn. split; [reflexivity|]. split; [intuition congruence|].
      split; [split; auto; intros _ h1 h2 E; destruct h1; discriminate|]. split; [tauto|]. split; [|reflexivity].
      intros f. split; [discriminate|]. intros (h1 & h2 & l & E & _). destruct h1; discriminate.
    - rewrite perform_snoc in E. destruct (perform_all new_logger h) as [g1 o1|o1|] eqn:P; try discriminate.
      specialize (IH g1 o1 eq_refl). destruct IH as (I1 & I2 & I3 & I4 & I5 & I6).
      destruct (perform g1 c) as [g2 o2|o2|] eqn:PC; try discriminate. injection E as <- <-.
      unfold agrees, level_in_force in *. rewrite last_set_snoc, first_file_snoc, enabled_snoc, updates_snoc.
      assert (CL : ~ In Close (h ++ [c]) <-> ~ In Close h /\ c <> Close).
      { rewrite in_app_iff. cbn [In]. intuition congruence. }
      rewrite CL. assert (FS : forall f, log_file (h ++ [c]) f <-> match c with InitFile g _ => f = g | Close => False | _ => log_file h f end)
        by (intros f; apply file_snoc).
      destruct c as [l| | |f l| |t r s| |l s]; cbn [ModelLogger.perform] in PC.
      + injection PC as <- <-. cbn. split; [reflexivity|]. split; [split; [intros _; discriminate|reflexivity]|].
        split; [exact I3|]. split; [rewrite I4; intuition discriminate|]. split; [intros f; rewrite FS; auto|auto].
      + injection PC as <- <-. cbn. split; [rewrite I1; destruct (last_set_level h), (first_file_level h); reflexivity|].
        split; [rewrite I2; destruct (last_set_level h), (first_file_level h); intuition congruence|].
        split; [tauto|]. split; [rewrite I4; intuition discriminate|]. split; [intros f; rewrite FS; auto|auto].
      + injection PC as <- <-. cbn. split; [rewrite I1; destruct (last_set_level h), (first_file_level h); reflexivity|].
        split; [rewrite I2; destruct (last_set_level h), (first_file_level h); intuition congruence|].
        split; [intuition discriminate|]. split; [rewrite I4; intuition discriminate|]. split; [intros f; rewrite FS; auto|auto].
      + injection PC as <- <-. cbn [l_overridden open_file].
        destruct (l_overridden g1) eqn:OV; cbn.
        * assert (X : match last_set_level h with Some l => Some l | None => first_file_level h end <> None) by (apply I2; auto).
          split; [rewrite I1; destruct (last_set_level h), (first_file_level h); congruence|].
          split; [split; [intros _; destruct (last_set_level h), (first_file_level h); congruence|intros _; auto]|].
          split; [auto|]. split; [rewrite I4; intuition discriminate|]. split; [intros k; rewrite FS; intuition congruence|auto].
        * assert (X : match last_set_level h with Some l => Some l | None => first_file_level h end = None).
          { destruct (match last_set_level h with Some l => Some l | None => first_file_level h end) eqn:Z; auto.
            assert (false = true) by (apply I2; discriminate). discriminate. }
          destruct (last_set_level h); [discriminate|]. rewrite X.
          split; [reflexivity|]. split; [intuition congruence|]. split; [auto|]. split; [rewrite I4; intuition discriminate|].
          split; [intros k; rewrite FS; intuition congruence|auto].
      + injection PC as <- <-. cbn. split; [rewrite I1; destruct (last_set_level h), (first_file_level h); reflexivity|].
        split; [rewrite I2; destruct (last_set_level h), (first_file_level h); intuition congruence|].
        split; [auto|]. split; [intuition discriminate|]. split; [intros f; rewrite FS; intuition discriminate|auto].
      + injection PC as <- <-. cbn. split; [rewrite I1; destruct (last_set_level h), (first_file_level h); reflexivity|].
        split; [rewrite I2; destruct (last_set_level h), (first_file_level h); intuition congruence|].
        split; [auto|]. split; [rewrite I4; intuition discriminate|]. split; [intros f; rewrite FS; auto|auto].
      + unfold update_log in PC. destruct (_ && _) in PC; [discriminate|]. injection PC as <- <-. cbn.
        split; [rewrite I1; destruct (last_set_level h), (first_file_level h); reflexivity|].
        split; [rewrite I2; destruct (last_set_level h), (first_file_level h); intuition congruence|].
        split; [auto|]. split; [rewrite I4; intuition discriminate|]. split; [intros f; rewrite FS; auto|lia].
      + assert (g2 = g1) by (destruct l; congruence). subst g2.
        split; [rewrite I1; destruct (last_set_level h), (first_file_level h); reflexivity|].
        split; [rewrite I2; destruct (last_set_level h), (first_file_level h); intuition congruence|].
        split; [auto|]. split; [rewrite I4; intuition discriminate|]. split; [intros f; rewrite FS; auto|auto].
  Qed.

  Lemma deliver_after h g out r : perform_all new_logger h = Next g out ->
    (is_enabled h -> wanted h (r_level r) ->
      exists d, deliver g r = [d] /\ d_record d = r /\ (d_console d = true <-> ~ In Close h) /\
        (forall f, d_file d = Some f <-> log_file h f) /\
        (d_default d = true <-> In Close h /\ forall f, ~ log_file h f)) /\
    (~ is_enabled h \/ ~ wanted h (r_level r) -> deliver g r = []).
  Proof.
    intros E. apply agrees_all in E as (I1 & I2 & I3 & I4 & I5 & I6). unfold deliver, wanted. rewrite <- I1. split.
    - intros A B. apply I3 in A. rewrite A. replace (match l_filter g with Some l => rank l <=? rank (r_level r) | None => true end) with true.
      2:{ destruct (l_filter g); auto. symmetry. apply Z.leb_le. auto. }
      cbn [andb]. eexists. split; [reflexivity|]. cbn. split; [auto|]. split; [auto|]. split; [auto|].
      assert (D : l_console g = false <-> In Close h).
      { destruct (l_console g) eqn:C.
        - split; [discriminate|]. intros X. exfalso. apply I4; auto.
        - split; auto. intros _.
          destruct (existsb (fun c => match c with Close => true | _ => false end) h) eqn:X.
          + apply existsb_exists in X as (c & Ic & X). destruct c; try discriminate. auto.
          + exfalso. assert (false = true); [|discriminate]. apply I4. intros Ic.
            assert (existsb (fun c => match c with Close => true | _ => false end) h = true) by (apply existsb_exists; exists Close; auto). congruence. }
      rewrite andb_true_iff, negb_true_iff, D. split.
      + intros (X & Y). split; auto. intros f L. apply I5 in L. rewrite L in Y. discriminate.
      + intros (X & Y). split; auto. destruct (l_file g) as [f|] eqn:F; auto. exfalso. apply (Y f). apply I5. auto.
    - intros [A|A].
      + destruct (l_enabled g) eqn:L; [exfalso; apply A; apply I3; auto|reflexivity].
      + destruct (l_filter g) as [t|]; [|tauto]. replace (rank t <=? rank (r_level r)) with false; [rewrite andb_false_r; reflexivity|].
        symmetry. apply Z.leb_gt. lia.
  Qed.
End Hist.
