(** Proofs about log rows and the profiler. *)
From Coq Require Import ZArith Reals Lra String Ascii Bool Lia Permutation Sorted List.
Import ListNotations.
From Verif Require Import Outcome Num ModelText TextProofs ModelLogger SpecLogger LoggerProofs.
Local Open Scope list_scope.
Local Open Scope Z_scope.

Local Notation sp := (any_of " ").
Lemma sp_other c : c <> " "%char -> sp c = false.
Proof. intros H. cbn [any_of]. rewrite orb_false_r. apply Ascii.eqb_neq. congruence. Qed.
Lemma no_blank_solid s : no_blank s -> solid sp s.
Proof.
  intros (NE & H). split; auto. apply get_every. intros n c E. apply sp_other. intros X. subst. exact (H n E).
Qed.
Lemma repeat_blank n : blank_text sp (repeat_char " " n "").
Proof. induction n; cbn; auto. Qed.
Lemma column_split s : column s = (repeat_char " " (13 - String.length s) "" ++ s)%string.
Proof. apply repeat_char_app. Qed.

Lemma words_columns ts : forall cur, Forall no_blank ts -> Forall (fun t => (String.length t <= 12)%nat) ts ->
  words sp cur (fold_right append ""%string (map column ts)) = TextProofs.close cur ts.
Proof.
  induction ts as [|t ts IH]; intros cur F L; cbn [map fold_right].
  - reflexivity.
  - apply Forall_cons_iff in F as (F1 & F2). apply Forall_cons_iff in L as (L1 & L2).
    rewrite column_split, append_assoc. pose proof (no_blank_solid t F1) as (NE & S).
    rewrite words_close.
    + rewrite words_solid by auto. cbn [append]. rewrite IH by auto. destruct t; [congruence|reflexivity].
    + intros E. apply (f_equal String.length) in E. rewrite length_repeat in E. cbn [String.length] in E. lia.
    + apply repeat_blank.
Qed.
Lemma words_split s l : words sp "" s = l -> l <> [] -> row_words s = l.
Proof. intros E N. unfold row_words. rewrite split_compress_words by congruence. auto. Qed.
Lemma row_ok t ts : no_blank t -> Forall no_blank ts -> Forall (fun x => (String.length x <= 12)%nat) ts ->
  row_words (" " ++ fold_right append "" (map column (t :: ts)))%string = t :: ts.
Proof.
  intros F1 F2 L. apply words_split; [|discriminate]. cbn [map fold_right].
  change (" " ++ column t ++ fold_right append "" (map column ts))%string with ((" " ++ column t ++ fold_right append "" (map column ts)))%string.
  rewrite words_blank by (split; [reflexivity|exact I]). rewrite column_split, append_assoc, words_blank by apply repeat_blank.
  pose proof (no_blank_solid t F1) as (NE & S). rewrite words_solid by auto. cbn [append]. rewrite words_columns by auto.
  destruct t; [congruence|reflexivity].
Qed.
Lemma row_merge a b : no_blank a -> no_blank b -> (13 <= String.length b)%nat ->
  row_words (" " ++ fold_right append "" (map column [a; b]))%string = [(a ++ b)%string].
Proof.
  intros F1 F2 L. apply words_split; [|discriminate]. cbn [map fold_right].
  rewrite words_blank by (split; [reflexivity|exact I]). rewrite column_split, append_assoc, words_blank by apply repeat_blank.
  unfold column. replace (13 - String.length b)%nat with O by lia. cbn [repeat_char]. rewrite append_nil.
  apply words_last. pose proof (no_blank_solid a F1) as (NE & S). pose proof (no_blank_solid b F2) as (NE2 & S2).
  split; [destruct a; [congruence|discriminate]|]. apply every_app. auto.
Qed.
Lemma names_words ns : Forall no_blank ns -> ns <> [] ->
  row_words (fold_right append ""%string (map (fun n => n ++ " ")%string ns)) = ns.
Proof.
  intros F NE. apply words_split; auto. clear NE. induction F as [|n ns F1 F2 IH]; cbn [map fold_right]; auto.
  rewrite append_assoc, words_token; [rewrite IH; reflexivity|apply no_blank_solid; auto|discriminate|split; [reflexivity|exact I]].
Qed.

Section Update.
  Context {V : Type}.
  Variables (showe : V -> string) (table : list string -> string) (banner : string).

  Lemma deliver_enabled h (g : logger V) out r : perform_all showe table banner new_logger h = Next g out ->
    is_enabled h -> wanted h (r_level r) -> exists d, deliver g r = [d] /\ d_record d = r.
  Proof.
    intros E A B. destruct (deliver_after showe table banner h g out r E) as (H & _). destruct (H A B) as (d & D1 & D2 & _). eauto.
  Qed.

  Lemma update_row h t r s (g : logger V) out :
    perform_all showe table banner new_logger (h ++ [Monitors t r s]) = Next g out ->
    is_enabled h -> wanted h LWarning -> t ++ r ++ s <> [] ->
    exists g' announce head d,
      perform showe table banner g Update = Next g' (announce ++ head ++ [d]) /\
      r_text (d_record d) = (" " ++ fold_right append "" (map column (map (fun p => showe (snd p)) (t ++ r ++ s))))%string /\
      (updates_since_close h = O -> exists a b, announce = [a; b] /\
         r_text (d_record b) = fold_right append ""%string (map (fun n => n ++ " ")%string (map fst (t ++ r ++ s)))) /\
      (updates_since_close h <> O -> announce = []) /\
      (Nat.modulo (updates_since_close h) 50 = O -> exists x names, head = [x] /\ r_text (d_record x) = table names /\
         (updates_since_close h = O -> names = map fst (t ++ r ++ s))) /\
      (Nat.modulo (updates_since_close h) 50 <> O -> head = []).
  Proof.
    intros E EN W NE. pose proof (agrees_all showe table banner _ _ _ E) as (_ & _ & _ & _ & _ & U).
    rewrite updates_snoc in U. set (k := updates_since_close h) in *.
    assert (EN' : is_enabled (h ++ [Monitors t r s])) by (apply enabled_snoc; auto).
    assert (W' : wanted (h ++ [Monitors t r s]) LWarning).
    { unfold wanted, level_in_force in *. rewrite last_set_snoc, first_file_snoc.
      destruct (last_set_level h); auto. destruct (first_file_level h); auto. }
    assert (DL : forall x, exists d, deliver g (warning x) = [d] /\ d_record d = warning x).
    { intros x. eapply deliver_enabled; eauto. }
    assert (M : l_time g = t /\ l_residual g = r /\ l_solution g = s).
    { rewrite perform_snoc in E. destruct (perform_all _ _ _ _ h); try discriminate. cbn in E. injection E as <- _. auto. }
    destruct M as (M1 & M2 & M3). cbn [perform]. unfold update_log, row. rewrite M1, M2, M3, U.
    assert (NM : map fst (t ++ r ++ s) <> []) by (destruct (t ++ r ++ s); [congruence|discriminate]).
    destruct (DL (" " ++ fold_right append "" (map (fun p => column (showe (snd p))) (t ++ r ++ s)))%string) as (d & D1 & D2).
    rewrite D1.
    replace (Z.of_nat k =? 0) with (Nat.eqb k 0) by (destruct k; [reflexivity|symmetry; apply Z.eqb_neq; lia]).
    replace (Nat.eqb k 0 && match map fst (t ++ r ++ s) with [] => true | _ => false end) with false
      by (destruct (map fst (t ++ r ++ s)); [congruence|rewrite andb_false_r; reflexivity]).
    rewrite Z.rem_mod_nonneg by lia. change 50 with (Z.of_nat 50). rewrite <- Nat2Z.inj_mod.
    replace (Z.of_nat (k mod 50) =? 0) with (Nat.eqb (k mod 50) 0)
      by (destruct (k mod 50)%nat; [reflexivity|symmetry; apply Z.eqb_neq; lia]).
    destruct (DL ("#" ++ nl ++ "# Logger outputs: ")%string) as (a & A1 & A2).
    destruct (DL (fold_right append "" (map (fun n => n ++ " ") (map fst (t ++ r ++ s))))%string) as (b & B1 & B2).
    rewrite A1, B1.
    set (header := if Nat.eqb k 0 then map fst (t ++ r ++ s) else l_header g).
    destruct (DL (table header)) as (x & X1 & X2). rewrite X1.
    exists (counted g header), (if Nat.eqb k 0 then [a; b] else []), (if Nat.eqb (k mod 50) 0 then [x] else []), d.
    split; [destruct (Nat.eqb k 0), (Nat.eqb (k mod 50) 0); reflexivity|].
    split; [rewrite D2, map_map; reflexivity|]. split; [|split; [|split]].
    - intros K. rewrite K. exists a, b. split; [reflexivity|]. rewrite B2. reflexivity.
    - intros K. apply Nat.eqb_neq in K. rewrite K. reflexivity.
    - intros K. rewrite K. exists x, header. split; [reflexivity|]. rewrite X2. split; [reflexivity|].
      intros K0. unfold header. rewrite K0. reflexivity.
    - intros K. apply Nat.eqb_neq in K. rewrite K. reflexivity.
  Qed.
End Update.

(** ** The profiler *)
Section Profile.
  Context {V : Type} `{Num V}.
  Fixpoint entry (l : list (profile V)) (n : string) : option (Z * V) :=
    match l with [] => None | (k, x) :: l' => if String.eqb k n then Some x else entry l' n end.
  Lemma entry_upd l n f k : entry (upd l n f) k =
    if String.eqb n k then Some (f (match entry l n with Some x => x | None => (0, nint 0) end)) else entry l k.
  Proof.
    induction l as [|(a & x) l IH]; cbn [upd entry].
    - destruct (String.eqb n k); reflexivity.
    - destruct (String.eqb a n) eqn:E.
      + apply String.eqb_eq in E. subst a. cbn [entry]. destruct (String.eqb n k); reflexivity.
      + cbn [entry]. rewrite IH. destruct (String.eqb a k) eqn:Ek; auto.
        apply String.eqb_eq in Ek. subst a. replace (String.eqb n k) with false; auto. symmetry. rewrite String.eqb_sym. auto.
  Qed.
  Lemma upd_names l n f : map fst (upd l n f) = map fst l \/ (map fst (upd l n f) = map fst l ++ [n] /\ ~ In n (map fst l)).
  Proof.
    induction l as [|(a & x) l IH]; cbn [upd map].
    - right. split; [reflexivity|intros []].
    - destruct (String.eqb a n) eqn:E; [left; reflexivity|]. apply String.eqb_neq in E. cbn [map fst].
      destruct IH as [IH|(IH & N)]; [left; rewrite IH; reflexivity|right]. rewrite IH. split; [reflexivity|]. intros [X|X]; auto.
  Qed.
  Lemma upd_in l n f : In n (map fst (upd l n f)).
  Proof.
    induction l as [|(a & x) l IH]; cbn [upd map]; [left; reflexivity|].
    destruct (String.eqb a n) eqn:E; [apply String.eqb_eq in E; subst; left; reflexivity|right; exact IH].
  Qed.
  Lemma entry_in l n x : NoDup (map fst l) -> (entry l n = Some x <-> In (n, x) l).
  Proof.
    induction l as [|(a & y) l IH]; cbn [entry map In]; [intuition discriminate|]. intros ND. apply NoDup_cons_iff in ND as (N & ND).
    destruct (String.eqb a n) eqn:E.
    - apply String.eqb_eq in E. subst a. split.
      + intros X. injection X as ->. left. reflexivity.
      + intros [X|X]; [congruence|]. exfalso. apply N. apply (in_map fst) in X. exact X.
    - apply String.eqb_neq in E. rewrite IH by auto. split; [auto|]. intros [X|X]; [congruence|auto].
  Qed.

  Lemma profile_snoc h e : profile_all (h ++ [e]) = profile_event (profile_all h) e.
  Proof. unfold profile_all. rewrite fold_left_app. reflexivity. Qed.
  Lemma calls_snoc n h (e : event V) : calls_of n (h ++ [e]) = (calls_of n h + match e with Tic k => if String.eqb k n then 1 else 0 | _ => 0 end)%nat.
  Proof.
    unfold calls_of. rewrite filter_app, app_length. cbn [filter]. destruct e; [destruct (String.eqb n0 n)|]; cbn; lia.
  Qed.
  Lemma times_snoc n h (e : event V) : times_of n (h ++ [e]) = times_of n h ++ match e with Toc k x => if String.eqb k n then [x] else [] | _ => [] end.
  Proof. unfold times_of. rewrite flat_map_app. cbn [flat_map]. rewrite List.app_nil_r. reflexivity. Qed.
  Lemma profile_spec h :
    NoDup (map fst (profile_all h)) /\ (forall n, In n (map fst (profile_all h)) <-> In n (map event_name h)) /\
    forall n, match entry (profile_all h) n with
              | Some (c, t) => c = Z.of_nat (calls_of n h) /\ t = fold_left nadd (times_of n h) (nint 0)
              | None => calls_of n h = O /\ times_of n h = []
              end.
  Proof.
    induction h as [|e h (ND & IN & IH)] using rev_ind.
    - cbn. split; [constructor|]. split; [tauto|auto].
    - rewrite profile_snoc.
      assert (G : exists f, profile_event (profile_all h) e = upd (profile_all h) (event_name e) f /\
         forall c t, f (c, t) = (c + (match e with Tic _ => 1 | _ => 0 end), match e with Toc _ x => nadd t x | _ => t end)).
      { destruct e; cbn [profile_event event_name]; eexists; (split; [reflexivity|]); intros; cbn; f_equal; lia. }
      destruct G as (f & -> & Ff). split; [|split].
      + destruct (upd_names (profile_all h) (event_name e) f) as [E|(E & N)]; rewrite E; auto.
        apply Permutation_NoDup with (l := event_name e :: map fst (profile_all h)); [apply Permutation_cons_append|constructor; auto].
      + intros n. rewrite map_app, in_app_iff, <- IN. cbn [map In].
        destruct (upd_names (profile_all h) (event_name e) f) as [E|(E & N)].
        * rewrite E. split; [tauto|]. intros [X|[X|[]]]; auto. subst. rewrite <- E. apply upd_in.
        * rewrite E, in_app_iff. cbn [In]. tauto.
      + intros n. rewrite entry_upd, calls_snoc, times_snoc. destruct (String.eqb (event_name e) n) eqn:En.
        * apply String.eqb_eq in En. subst n. specialize (IH (event_name e)). destruct (entry (profile_all h) (event_name e)) as [[c t]|].
          -- destruct IH as (-> & ->). rewrite Ff. destruct e; cbn [event_name]; rewrite String.eqb_refl; rewrite fold_left_app; cbn [fold_left];
               (split; [lia|reflexivity]).
          -- destruct IH as (-> & ->). rewrite Ff. destruct e; cbn [event_name]; rewrite String.eqb_refl; cbn; (split; reflexivity).
        * specialize (IH n). destruct e; cbn [event_name] in En; rewrite En, Nat.add_0_r, List.app_nil_r; exact IH.
  Qed.
End Profile.

Section Report.
  Local Open Scope R_scope.
  Lemma nltb_R a b : nltb (Num := Num_R) a b = true <-> a < b.
  Proof. change (Rltb a b = true <-> a < b). unfold Rltb. destruct (Rlt_dec a b); split; intros; auto; try lra; discriminate. Qed.
  Lemma nltb_R_false a b : nltb (Num := Num_R) a b = false <-> b <= a.
  Proof. change (Rltb a b = false <-> b <= a). unfold Rltb. destruct (Rlt_dec a b); split; intros; auto; try lra; discriminate. Qed.
  Lemma nmax_R a b : nmax (H := Num_R) a b = Rmax a b.
  Proof.
    unfold nmax. destruct (nltb a b) eqn:E.
    - apply nltb_R in E. rewrite Rmax_right; lra.
    - apply nltb_R_false in E. rewrite Rmax_left; lra.
  Qed.
  Lemma fold_max (l : list (profile R)) : forall m,
    let top := fold_left (fun m p => nmax (H := Num_R) m (snd (snd p))) l m in
    m <= top /\ (forall p, In p l -> snd (snd p) <= top) /\ (top = m \/ exists p, In p l /\ snd (snd p) = top).
  Proof.
    induction l as [|p l IH]; intros m; cbn [fold_left].
    - cbn. split; [lra|]. split; [intros p []|auto].
    - destruct (IH (nmax (H := Num_R) m (snd (snd p)))) as (A & B & C). cbn zeta. rewrite nmax_R in *.
      pose proof (Rmax_l m (snd (snd p))). pose proof (Rmax_r m (snd (snd p))). split; [lra|]. split.
      + intros q [E|I]; [subst; lra|auto].
      + destruct C as [C|(q & I & C)]; [|right; exists q; cbn [In]; auto].
        unfold Rmax in C at 2. destruct (Rle_dec m (snd (snd p))); [right; exists p; cbn [In]; auto|left; auto].
  Qed.
  Lemma percent_order : strict_weak (fun a b : report R => nltb (Num := Num_R) (p_percent b) (p_percent a)).
  Proof.
    split; [|split].
    - intros a. apply nltb_R_false. lra.
    - intros a b c A B. apply nltb_R in A. apply nltb_R in B. apply nltb_R. lra.
    - intros a b c A B. apply nltb_R_false in A. apply nltb_R_false in B. apply nltb_R_false. lra.
  Qed.
  Lemma report_spec (order : list (profile R) -> list (profile R)) sort l :
    (forall x, Permutation x (order x)) -> is_sort sort -> (forall p, In p l -> 0 <= snd (snd p)) ->
    let rows := report_rows (H := Num_R) order sort l in
    Permutation (map (fun p => (fst p, snd p)) l) (map (fun r => (p_name r, (p_calls r, p_time r))) rows) /\
    StronglySorted (fun a b => p_percent b <= p_percent a) rows /\
    ((exists p, In p l /\ 0 < snd (snd p)) ->
      exists top, 0 < top /\ (forall r, In r rows -> p_percent r = p_time r / top * 100 /\ 0 <= p_percent r <= 100) /\
        exists first rest, rows = first :: rest /\ p_percent first = 100 /\ p_time first = top).
  Proof.
    intros PO IS POS rows. unfold report_rows in rows.
    set (lo := order l) in *. set (top := fold_left (fun m p => nmax (H := Num_R) m (snd (snd p))) lo (nint (Num := Num_R) 0)) in *.
    set (mk := fun p : profile R => {| p_name := fst p; p_calls := fst (snd p); p_time := snd (snd p);
                        p_percent := nmul (Num := Num_R) (ndiv (Num := Num_R) (snd (snd p)) top) (nint (Num := Num_R) 100) |}) in *.
    destruct (IS _ (map mk lo) percent_order) as (P1 & P2). change (sort _ (map mk lo)) with rows in P1, P2.
    assert (PL : Permutation l lo) by apply PO. split; [|split].
    - eapply perm_trans; [|apply Permutation_map; exact P1]. rewrite map_map. cbn [p_name p_calls p_time mk].
      eapply perm_trans; [apply Permutation_map; exact PL|]. apply Permutation_refl'. apply map_ext. intros (n & (c & t)). reflexivity.
    - clearbody rows. clear - P2. induction P2 as [|a r S IH F]; constructor; auto. revert F. apply Forall_impl. intros b E. apply nltb_R_false in E. auto.
    - intros (p & Ip & Pp). destruct (fold_max lo (nint (Num := Num_R) 0)) as (M1 & M2 & M3). fold top in M1, M2, M3. cbn zeta in *.
      change (nint (Num := Num_R) 0) with 0 in *.
      assert (T : 0 < top). { pose proof (M2 p (Permutation_in _ PL Ip)). lra. }
      exists top. split; auto.
      assert (RW : forall r, In r rows -> p_percent r = p_time r / top * 100 /\ 0 <= p_percent r <= 100).
      { intros r I. apply (Permutation_in _ (Permutation_sym P1)) in I. apply in_map_iff in I as (q & E & I). subst r. cbn [mk p_percent p_time].
        change (nmul (Num := Num_R) (ndiv (Num := Num_R) (snd (snd q)) top) (nint (Num := Num_R) 100)) with (snd (snd q) / top * 100).
        split; auto. pose proof (M2 q I) as A. pose proof (POS q (Permutation_in _ (Permutation_sym PL) I)) as B.
        assert (snd (snd q) / top <= 1) by (apply Rmult_le_reg_r with top; auto; unfold Rdiv; rewrite Rmult_assoc, Rinv_l by lra; lra).
        assert (0 <= snd (snd q) / top) by (apply Rmult_le_pos; [auto|left; apply Rinv_0_lt_compat; auto]). lra. }
      split; [exact RW|].
      destruct M3 as [M3|(q & Iq & Eq)]; [lra|].
      assert (IR : In (mk q) rows) by (apply (Permutation_in _ P1); apply in_map; auto).
      assert (Q100 : p_percent (mk q) = 100).
      { destruct (RW _ IR) as (E & _). rewrite E. cbn [mk p_time]. rewrite Eq. field. lra. }
      destruct rows as [|f rest]; [destruct IR|]. exists f, rest. split; auto.
      destruct (RW f (or_introl eq_refl)) as (E & B).
      assert (F100 : p_percent f = 100).
      { destruct IR as [X|X]; [rewrite X; auto|]. apply StronglySorted_inv in P2 as (_ & F). rewrite Forall_forall in F. apply F in X.
        apply nltb_R_false in X. lra. }
      split; auto. rewrite F100 in E. assert (Q : p_time f / top = 1) by lra.
      replace (p_time f) with (p_time f / top * top) by (field; lra). rewrite Q. lra.
  Qed.
End Report.
