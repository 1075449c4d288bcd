(** Runs of the whole program: the files and the log of a list of steps. *)
From Coq Require Import String.
From Verif Require Import ModelLogger ModelOptions Outcome ZList ZListProofs Num ModelInt32 ModelDisc3D ModelDisc2D ModelCH ModelObs
  ModelTime ModelRun ModelMon ModelVTK ModelMain ModelProgram SpecGrid SpecField SpecTime SpecRestart SpecProgram ProgramProofs.
From Coq Require Import Lia ZifyBool ZifyNat List.
Local Open Scope string_scope.
Local Open Scope list_scope.
Local Open Scope Z_scope.

(** Elements of a list whose first element has number k. *)
Fixpoint pick {A} (n k : Z) (l : list A) : list A :=
  match l with
  | [] => []
  | a :: l' => (if negb (n =? 0) && (Z.rem k n =? 0) then [a] else []) ++ pick n (k + 1) l'
  end.

Lemma rem_mod0 k n : n <> 0 -> (Z.rem k n =? 0) = (k mod n =? 0).
Proof.
  intros H. destruct (Z.eqb_spec (Z.rem k n) 0) as [E|E]; destruct (Z.eqb_spec (k mod n) 0) as [F|F]; auto; exfalso.
  - apply F. apply Z.mod_divide; auto. apply Z.rem_divide; auto.
  - apply E. apply Z.rem_divide; auto. apply Z.mod_divide; auto.
Qed.

Lemma pick_none {A} k (l : list A) : pick 0 k l = [].
Proof. revert k. induction l; intros; cbn; auto. Qed.

Lemma every_pick {A} n (l : list A) : every n l = pick n 0 l.
Proof.
  unfold every. destruct (Z.eqb_spec n 0) as [->|H]; [symmetry; apply pick_none|].
  change 0 with (Z.of_nat O) at 2. generalize O as s. induction l as [|a l IH]; intros s; [reflexivity|].
  cbn [length seq combine filter pick fst].
  replace (negb (n =? 0)) with true by lia. cbn [andb]. rewrite rem_mod0 by auto.
  replace (Z.of_nat s + 1) with (Z.of_nat (S s)) by lia. rewrite <- IH.
  destruct (Z.of_nat s mod n =? 0); reflexivity.
Qed.

Lemma pick_forall2 {A B} (R : A -> B -> Prop) n l l' : Forall2 R l l' -> forall k, Forall2 R (pick n k l) (pick n k l').
Proof.
  induction 1 as [|a b l l' H HF IH]; intros k; [constructor|]. cbn [pick]. apply Forall2_app; auto.
  destruct (negb (n =? 0) && (Z.rem k n =? 0)); auto.
Qed.
Lemma pick_map {A B} (f : A -> B) n l : forall k, pick n k (map f l) = map f (pick n k l).
Proof.
  induction l as [|a l IH]; intros k; [reflexivity|]. cbn [map pick]. rewrite map_app, IH.
  destruct (negb (n =? 0) && (Z.rem k n =? 0)); reflexivity.
Qed.
Lemma pick_forall {A} (R : A -> Prop) n l : Forall R l -> forall k, Forall R (pick n k l).
Proof.
  induction 1 as [|a l H HF IH]; intros k; [constructor|]. cbn [pick]. apply Forall_app. split; auto.
  destruct (negb (n =? 0) && (Z.rem k n =? 0)); auto.
Qed.

Lemma collect_total {A} (f : Z -> res A) l : (forall q, In q l -> exists a, f q = Ok a) -> exists r, collect f l = Ok r.
Proof.
  induction l as [|q l IH]; intros H; [eexists; reflexivity|].
  destruct (H q) as (a & E); [left; auto|]. destruct IH as (r & F); [intros; apply H; right; auto|].
  cbn [collect]. rewrite E. cbn [rbind]. rewrite F. eexists. reflexivity.
Qed.

Section World.
  Context {V : Type} `{N : Num V} (pl : platform V) (sn : scene V) (base : string) (size : Z) (nm : string -> Z -> string).
  Variables (L S : Z).
  Hypothesis HL : L <> 0.
  Hypothesis Hname : forall b i, sn_name sn b i = Ok (nm b i).
  Hypothesis Hmon : forall c, zlen c = size -> exists m, sn_monitor sn c = Ok m.
  Hypothesis Hdoc : forall st c, zlen c = size -> exists doc, sn_write sn st c = Ok doc.
  Hypothesis Hidx : forall q, In q (sn_idx sn) -> 0 <= q < size.

  Lemma residual_total st r : zlen r = size ->
    exists st' m, residual_calculator (red_sum (pl_red pl)) ["c"] 1 (sn_idx sn) st [r] = Ok (st', m).
  Proof.
    intros LR. unfold residual_calculator. cbn [seq fold_left map]. unfold norm_step. cbn [rbind nth_error of_opt].
    unfold residual_norm.
    destruct (collect_total (square_cell (sn_idx sn) r) (zrange 0 (zlen (sn_idx sn)))) as (l & E).
    { intros q Hq. apply in_zrange in Hq.
      destruct (zget_some (sn_idx sn) q ltac:(lia)) as (v & Ev). unfold square_cell. rewrite Ev. cbn [of_opt rbind].
      destruct (zget_some r v) as (b & Eb). { rewrite LR. apply Hidx. eapply zget_in; eauto. }
      rewrite Eb. eexists. reflexivity. }
    rewrite E. cbn [rbind upd nth_error of_opt]. do 2 eexists. reflexivity.
  Qed.

  (** What the solution file and the log line of a step contain. *)
  Definition step_file (b : string) (y : Z * V * V * list V * list V * list (string * V)) (f : string * list xml) : Prop :=
    let '(i, t, dt, c, _, _) := y in
    fst f = nm b i /\ sn_write sn {| fs_iter := i; fs_time := t; fs_dt := dt |} c = Ok (snd f).
  Definition step_row (y : Z * V * V * list V * list V * list (string * V)) (m : list (string * V) * list (string * V)) : Prop :=
    let '(i, t, dt, c, _, ex) := y in
    fst m = [("iter", nint i); ("time", t); ("dt", dt)] ++ ex /\ sn_monitor sn c = Ok (snd m).
  Definition log_calls (rows : list (list (string * V) * list (string * V))) (rms : list (list (string * V))) : list (call V) :=
    flat_map (fun x => [Monitors (fst (fst x)) (snd x) (snd (fst x)); Update]) (combine rows rms).

  Lemma group_ok k i t dt c r ex w : zlen c = size -> zlen r = size ->
    exists w', group pl sn base L S k (i, t, dt, c, r, ex) w = Ok w' /\
    (exists f, step_file base (i, t, dt, c, r, ex) f /\
      w_files w' = w_files w ++ (if negb (S =? 0) && (Z.rem k S =? 0) then [f] else [])) /\
    (if Z.rem k L =? 0 then
       exists m rm out, step_row (i, t, dt, c, r, ex) m /\
         residual_calculator (red_sum (pl_red pl)) ["c"] 1 (sn_idx sn) (w_stats w) [r] = Ok (w_stats w', rm) /\
         perform_all (pl_showe pl) (pl_table pl) (pl_banner pl) (w_logger w) [Monitors (fst m) rm (snd m); Update]
           = Next (w_logger w') out /\ w_out w' = w_out w ++ out
     else w_stats w' = w_stats w /\ w_logger w' = w_logger w /\ w_out w' = w_out w).
  Proof.
    intros LC LR. destruct (residual_total (w_stats w) r LR) as (st' & rm & ER).
    destruct (Hmon c LC) as (m & EM). destruct (Hdoc {| fs_iter := i; fs_time := t; fs_dt := dt |} c LC) as (doc & ED).
    assert (WF : forall w1, write_file sn base i t dt [c] w1 =
      Ok {| w_logger := w_logger w1; w_out := w_out w1; w_stats := w_stats w1; w_files := w_files w1 ++ [(nm base i, doc)] |}).
    { intros w1. unfold write_file. rewrite Hname. cbn [rbind nth_error of_opt]. rewrite ED. reflexivity. }
    set (tm := [("iter", nint i); ("time", t); ("dt", dt)] ++ ex).
    set (lg := set_monitors (w_logger w) tm rm m).
    assert (exists lg' out, update_log (pl_showe pl) (pl_table pl) lg = Ok (lg', out)) as (lg' & out & EU).
    { unfold update_log. cbn [lg tm l_time set_monitors app map fst]. rewrite Bool.andb_false_r. do 2 eexists. reflexivity. }
    unfold group, calls_at. rewrite calls_app.
    destruct (Z.rem k L =? 0).
    - unfold log_group. cbn [calls driver_callback]. rewrite ER. cbn [rbind nth_error of_opt]. rewrite EM. cbn [rbind].
      unfold with_logger. cbn [w_logger w_out w_stats w_files l_time l_residual l_solution set_monitors].
      change (set_monitors _ _ _ _) with lg at 1. rewrite EU. cbn [rbind].
      destruct (negb (S =? 0) && (Z.rem k S =? 0)).
      + cbn [calls driver_callback]. rewrite WF. cbn [rbind]. eexists. split; [reflexivity|].
        cbn [w_logger w_out w_stats w_files]. split.
        * exists (nm base i, doc). split; [split; auto|reflexivity].
        * exists (tm, m), rm, out. split; [split; auto|]. split; [first [exact ER|reflexivity]|]. cbn [fst snd perform_all perform].
          fold lg. rewrite EU. rewrite !app_nil_r. split; reflexivity.
      + cbn [calls]. eexists. split; [reflexivity|]. cbn [w_logger w_out w_stats w_files]. split.
        * exists (nm base i, doc). split; [split; auto|]. rewrite app_nil_r. reflexivity.
        * exists (tm, m), rm, out. split; [split; auto|]. split; [first [exact ER|reflexivity]|]. cbn [fst snd perform_all perform].
          fold lg. rewrite EU. rewrite !app_nil_r. split; reflexivity.
    - cbn [calls rbind]. destruct (negb (S =? 0) && (Z.rem k S =? 0)).
      + cbn [calls driver_callback]. rewrite WF. cbn [rbind]. eexists. split; [reflexivity|].
        cbn [w_logger w_out w_stats w_files]. split; [|auto].
        exists (nm base i, doc). split; [split; auto|reflexivity].
      + cbn [calls]. eexists. split; [reflexivity|]. split; [|auto].
        exists (nm base i, doc). split; [split; auto|]. rewrite app_nil_r. reflexivity.
  Qed.

  Lemma group_total k i t dt c r ex w : zlen c = size -> zlen r = size ->
    exists w', group pl sn base L S k (i, t, dt, c, r, ex) w = Ok w'.
  Proof. intros A B. destruct (group_ok k i t dt c r ex w A B) as (w' & E & _). eauto. Qed.

  Lemma perform_app g c1 c2 g1 o1 g2 o2 :
    perform_all (pl_showe pl) (pl_table pl) (pl_banner pl) g c1 = Next g1 o1 ->
    perform_all (pl_showe pl) (pl_table pl) (pl_banner pl) g1 c2 = Next g2 o2 ->
    perform_all (pl_showe pl) (pl_table pl) (pl_banner pl) g (c1 ++ c2) = Next g2 (o1 ++ o2).
  Proof.
    revert g o1. induction c1 as [|c c1 IH]; intros g o1 E1 E2.
    - cbn in E1. injection E1 as <- <-. exact E2.
    - cbn [perform_all app] in *. destruct (perform _ _ _ g c) as [g' o| |]; try discriminate.
      destruct (perform_all _ _ _ g' c1) as [g'' o'| |] eqn:E; try discriminate.
      assert (g'' = g1) as -> by congruence. assert (o ++ o' = o1) as <- by congruence.
      rewrite (IH g' o' E E2). rewrite app_assoc. reflexivity.
  Qed.

  Definition sized (y : Z * V * V * list V * list V * list (string * V)) : Prop := let '(_, _, _, c, r, _) := y in zlen c = size /\ zlen r = size.
  Definition residual_of (y : Z * V * V * list V * list V * list (string * V)) : state V := let '(_, _, _, _, r, _) := y in [r].

  Lemma steps_ok tr : Forall sized tr -> forall k w, exists w', world_steps pl sn base L S k tr w = Ok w' /\
    (exists docs, Forall2 (step_file base) tr docs /\ w_files w' = w_files w ++ pick S k docs) /\
    exists rows rms out, Forall2 step_row (pick L k tr) rows /\
      residual_history (red_sum (pl_red pl)) ["c"] 1 (sn_idx sn) (w_stats w) (map residual_of (pick L k tr)) = Ok (w_stats w', rms) /\
      perform_all (pl_showe pl) (pl_table pl) (pl_banner pl) (w_logger w) (log_calls rows rms) = Next (w_logger w') out /\
      w_out w' = w_out w ++ out.
  Proof.
    induction 1 as [|y tr HY HT IH]; intros k w.
    - exists w. split; [reflexivity|]. split; [exists []; split; [constructor|cbn; rewrite app_nil_r; reflexivity]|].
      exists [], [], []. cbn. rewrite app_nil_r. repeat split. constructor.
    - destruct y as [[[[[i t] dt] c] r] ex]. destruct HY as (LC & LR).
      destruct (group_ok k i t dt c r ex w LC LR) as (w1 & E1 & (f & F1 & F2) & G1).
      destruct (IH (k + 1) w1) as (w' & E' & (docs & D1 & D2) & rows & rms & out & R1 & R2 & R3 & R4).
      exists w'. cbn [world_steps]. rewrite E1. cbn [rbind]. split; [exact E'|]. split.
      + exists (f :: docs). split; [constructor; auto|]. rewrite D2, F2, <- app_assoc. reflexivity.
      + cbn [pick]. replace (negb (L =? 0)) with true by lia. cbn [andb].
        destruct (Z.rem k L =? 0).
        * destruct G1 as (m & rm & o1 & M1 & M2 & M3 & M4).
          exists (m :: rows), (rm :: rms), (o1 ++ out). split; [cbn [app]; constructor; auto|].
          split. { cbn [app map residual_history]. change (residual_of (i, t, dt, c, r, ex)) with [r]. rewrite M2. cbn [rbind].
                   rewrite R2. reflexivity. }
          split. { change (log_calls (m :: rows) (rm :: rms)) with ([Monitors (fst m) rm (snd m); Update] ++ log_calls rows rms).
                   eapply perform_app; eauto. }
          rewrite R4, M4, app_assoc. reflexivity.
        * destruct G1 as (M1 & M2 & M3). rewrite M1 in *. rewrite M2, M3 in *.
          exists rows, rms, out. split; [exact R1|]. split; [exact R2|]. split; [exact R3|exact R4].
  Qed.

  (** The residuals the logger holds. *)
  Lemma update_keeps g g' out : update_log (pl_showe pl) (pl_table pl) g = Ok (g', out) -> l_residual g' = l_residual g.
  Proof.
    unfold update_log. intros E.
    repeat match type of E with context [match ?x with _ => _ end] => destruct x; try discriminate end;
    injection E as <- _; reflexivity.
  Qed.

  Lemma pair_sets g a b c g' out :
    perform_all (pl_showe pl) (pl_table pl) (pl_banner pl) g [Monitors a b c; Update] = Next g' out -> l_residual g' = b.
  Proof.
    cbn [perform_all perform]. destruct (update_log (pl_showe pl) (pl_table pl) (set_monitors g a b c)) as [(g1, o1)| | |] eqn:E; try discriminate.
    intros [= <- _]. rewrite (update_keeps _ _ _ E). reflexivity.
  Qed.

  Lemma last_head {A} (l : list A) : forall a d, last (a :: l) d = last l a.
  Proof. induction l as [|b l IH]; intros a d; [reflexivity|]. change (last (a :: b :: l) d) with (last (b :: l) d). rewrite !IH. reflexivity. Qed.

  Lemma history_last tr : Forall sized tr -> forall k w w', world_steps pl sn base L S k tr w = Ok w' ->
    exists st rms, residual_history (red_sum (pl_red pl)) ["c"] 1 (sn_idx sn) (w_stats w) (map residual_of (pick L k tr)) = Ok (st, rms) /\
      l_residual (w_logger w') = last rms (l_residual (w_logger w)) /\ List.length rms = List.length (pick L k tr).
  Proof.
    induction 1 as [|y tr HY HT IH]; intros k w w' E.
    - cbn in E. injection E as <-. exists (w_stats w), []. repeat split.
    - destruct y as [[[[[i t] dt] c] r] ex]. destruct HY as (LC & LR).
      destruct (group_ok k i t dt c r ex w LC LR) as (w1 & E1 & _ & G1). cbn [world_steps] in E. rewrite E1 in E. cbn [rbind] in E.
      destruct (IH (k + 1) w1 w' E) as (st & rms & R2 & R3 & R4).
      cbn [pick]. replace (negb (L =? 0)) with true by lia. cbn [andb]. destruct (Z.rem k L =? 0).
      + destruct G1 as (m & rm & o1 & M1 & M2 & M3 & M4). exists st, (rm :: rms).
        split. { cbn [app map residual_history]. change (residual_of (i, t, dt, c, r, ex)) with [r]. rewrite M2. cbn [rbind]. rewrite R2. reflexivity. }
        split; [|cbn [app List.length]; congruence]. rewrite R3, (pair_sets _ _ _ _ _ _ M3), last_head. reflexivity.
      + destruct G1 as (M1 & M2 & M3). rewrite M1, M2 in *. exists st, rms. split; [exact R2|]. split; [exact R3|exact R4].
  Qed.

  Lemma monitors_named st s st' rm : residual_calculator (red_sum (pl_red pl)) ["c"] 1 (sn_idx sn) st s = Ok (st', rm) -> rm <> [].
  Proof.
    unfold residual_calculator. intros E.
    destruct (fold_left _ _ _) as [ps| | |]; cbn [rbind] in E; try discriminate.
    destruct (of_opt _) as [p0| | |]; cbn [rbind] in E; try discriminate.
    injection E as _ <-. destruct ps; discriminate.
  Qed.

  Lemma group_reports k y w w' : sized y -> group pl sn base L S k y w = Ok w' ->
    k = 0 \/ l_residual (w_logger w) <> [] -> l_residual (w_logger w') <> [].
  Proof.
    destruct y as [[[[[i t] dt] c] r] ex]. intros (LC & LR) E H.
    destruct (group_ok k i t dt c r ex w LC LR) as (w1 & E1 & _ & G1). rewrite E1 in E. injection E as ->.
    destruct (Z.eq_dec (Z.rem k L) 0) as [Z0|Z0].
    - replace (Z.rem k L =? 0) with true in G1 by lia. destruct G1 as (m & rm & o1 & M1 & M2 & M3 & M4).
      rewrite (pair_sets _ _ _ _ _ _ M3). exact (monitors_named _ _ _ _ M2).
    - replace (Z.rem k L =? 0) with false in G1 by lia. destruct G1 as (M1 & M2 & M3). rewrite M2.
      destruct H as [->|H]; [rewrite Z.rem_0_l in Z0 by lia; lia|exact H].
  Qed.
End World.
