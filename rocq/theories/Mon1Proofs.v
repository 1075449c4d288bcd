(** The residual calculator and the solution monitors. *)
From Verif Require Import Outcome ZList ZListProofs Num Kernel KernelProofs Gather Loop
  ModelIndex IndexProofs ModelDisc3D ModelDisc2D ModelCH SpecGrid Disc3DProofs Stencil3Proofs Make3Proofs
  BC3Proofs Disc2DProofs Make2Proofs CHProofs SpecField SumProofs ModelReduce ReduceProofs ModelTime ModelMon SpecMon.
From Coq Require Import Reals String Lra Permutation ZifyBool ZifyNat List.
Local Open Scope list_scope.
Local Open Scope Z_scope.

Fixpoint sequence {A} (l : list (res A)) : res (list A) :=
  match l with
  | [] => Ok []
  | x :: l' => rbind x (fun a => rbind (sequence l') (fun r => Ok (a :: r)))
  end.

Lemma collect_sequence {A} (f : Z -> res A) l : collect f l = sequence (map f l).
Proof. induction l; cbn; auto. rewrite IHl. reflexivity. Qed.

Lemma collect_over {A} (f : Z -> res A) (g : Z -> A) (idx : list Z) :
  (forall q, In q idx -> f q = Ok (g q)) ->
  collect (fun ii => rbind (of_opt (zget idx ii)) f) (zrange 0 (zlen idx)) = Ok (map g idx).
Proof.
  intros H. rewrite collect_sequence.
  rewrite (map_over_list (fun o => rbind (of_opt o) f)).
  change (sequence (map f idx) = Ok (map g idx)).
  induction idx as [|q idx IH]; cbn [map sequence]; auto.
  rewrite H by (left; auto). cbn [rbind]. rewrite IH; auto. intros; apply H; right; auto.
Qed.

Lemma Rsum_flat_map {A} (f : A -> list R) l : Rsum (flat_map f l) = Rsum (map (fun x => Rsum (f x)) l).
Proof. induction l; cbn; auto. rewrite Rsum_app, IHl. reflexivity. Qed.

Lemma Rsum_interior3 (d : disc3 R) g : wf3 d ->
  Rsum (map g (d3_interior d)) = total3 (d3_domain d) (fun i j k => g (slot3 (d3_domain d) i j k)).
Proof.
  intros W. rewrite (wf_interior _ W), map_map. unfold box3, total3, sum3, sum2, sum1.
  rewrite map_flat_map, Rsum_flat_map. apply Rsum_map_ext. intros i _.
  rewrite map_flat_map, Rsum_flat_map. apply Rsum_map_ext. intros j _.
  rewrite map_map. reflexivity.
Qed.

Lemma Rsum_interior2 (d : disc2 R) g : wf2 d ->
  Rsum (map g (d2_interior d)) = total2 (d2_domain d) (fun i j => g (slot2 (d2_domain d) i j)).
Proof.
  intros W. rewrite (wf2_interior _ W), map_map. unfold box2, total2, sum2, sum1.
  rewrite map_flat_map, Rsum_flat_map. apply Rsum_map_ext. intros i _.
  rewrite map_map. reflexivity.
Qed.

Lemma zlen_interior_3 (d : disc3 R) : wf3 d ->
  zlen (d3_interior d) = nx (d3_domain d) * ny (d3_domain d) * nz (d3_domain d).
Proof.
  intros W. rewrite (wf_interior _ W). unfold zlen. rewrite map_length.
  change (zlen (box3 0 (nx (d3_domain d)) 0 (ny (d3_domain d)) 0 (nz (d3_domain d))) = nx (d3_domain d) * ny (d3_domain d) * nz (d3_domain d)).
  destruct (wf_valid _ W) as (A & B & C & D). rewrite zlen_box3; lia.
Qed.

Lemma zlen_interior_2 (d : disc2 R) : wf2 d ->
  zlen (d2_interior d) = nx (d2_domain d) * nx (d2_domain d).
Proof.
  intros W. rewrite (wf2_interior _ W). unfold zlen. rewrite map_length.
  change (zlen (box2 0 (nx (d2_domain d)) 0 (nx (d2_domain d))) = nx (d2_domain d) * nx (d2_domain d)).
  destruct (wf2_valid _ W) as (A & B). rewrite zlen_box2; lia.
Qed.

Section Residual.
  Local Open Scope R_scope.
  Variables (rsum : R -> list R -> R) (HS : sum_reducer rsum) (idx : list Z).

  Lemma rsum_eq l : rsum 0 l = Rsum l.
  Proof. apply reduction_sum. apply HS. Qed.

  Definition rms_of (g : Z -> R) : R := sqrt (Rsum (map (fun q => g q ^ 2) idx) / IZR (zlen idx)).

  Lemma residual_norm_spec (a : list R) g :
    (forall q, In q idx -> zget a q = Some (g q)) -> residual_norm rsum idx a = Ok (rms_of g).
  Proof.
    intros H. unfold residual_norm, square_cell.
    rewrite (collect_over (fun q => rbind (of_opt (zget a q)) (fun v => Ok (npow2 v))) (fun q => g q ^ 2)).
    - cbn [rbind]. change (nint 0 : R) with 0. rewrite rsum_eq. reflexivity.
    - intros q Hq. rewrite H by auto. cbn. f_equal. ring.
  Qed.

  Lemma norm_fold (s : state R) (w : nat -> Z -> R) (names : list string) : forall k pairs,
    (k <= length names)%nat ->
    (forall e, (e < length names)%nat -> exists a, nth_error s e = Some a /\ forall q, In q idx -> zget a q = Some (w e q)) ->
    pairs = map (fun n => (append "res_" n, 1)) names ->
    fold_left (norm_step rsum idx s) (seq 0 k) (Ok pairs) =
    Ok (map (fun '(e, n) => (append "res_" n, if (e <? k)%nat then rms_of (w e) else 1))
            (combine (seq 0 (length names)) names)).
  Proof.
    induction k as [|k IH]; intros pairs Hk HW ->.
    - cbn [seq fold_left]. f_equal. 
      assert (G : forall b, map (fun n => (append "res_" n, 1)) names =
        map (fun '(e, n) => (append "res_" n, if (e <? 0)%nat then rms_of (w e) else 1))
          (combine (seq b (length names)) names)).
      { clear. induction names as [|n l IH]; intros b; cbn [map length seq combine]; auto.
        rewrite <- (IH (S b)). reflexivity. }
      apply G.
    - rewrite seq_S, fold_left_app. rewrite (IH _ ltac:(lia) HW eq_refl). cbn [fold_left Nat.add].
      unfold norm_step at 1. cbn [rbind].
      destruct (HW k ltac:(lia)) as (a & Ea & Ha). rewrite Ea. cbn [of_opt rbind].
      rewrite (residual_norm_spec a (w k) Ha). cbn [rbind].
      destruct (nth_error names k) as [nm|] eqn:En; [|apply nth_error_None in En; lia].
      assert (NC : nth_error (combine (seq 0 (length names)) names) k = Some (k, nm)).
      { assert (G : forall b (l : list string) k, nth_error (combine (seq b (length l)) l) k =
                      match nth_error l k with Some n => Some ((b + k)%nat, n) | None => None end).
        { clear. intros b l. revert b. induction l as [|x l IH]; intros b [|k]; cbn; auto.
          - f_equal. f_equal. lia.
          - rewrite IH. destruct (nth_error l k); auto. f_equal. f_equal. lia. }
        rewrite G, En. reflexivity. }
      rewrite nth_error_map, NC. cbn [option_map of_opt rbind fst].
      f_equal.
      apply nth_error_ext. intros e. rewrite nth_error_map.
      destruct (Nat.eq_dec e k) as [->|NE].
      + rewrite NC. cbn [option_map].
        destruct (Nat.ltb_spec k (S k)); try lia.
        rewrite nth_error_upd_same; [reflexivity|].
        rewrite map_length. eapply nth_error_lt; eauto.
      + rewrite nth_error_upd_other by auto. rewrite nth_error_map.
        destruct (nth_error (combine (seq 0 (length names)) names) e) as [[e' n']|] eqn:Ee; auto.
        cbn [option_map]. f_equal. f_equal.
        assert (e' = e).
        { apply nth_error_In in Ee as I.
          assert (G : forall b (l : list string) k x, nth_error (combine (seq b (length l)) l) k = Some x -> fst x = (b + k)%nat).
          { clear. intros b l. revert b. induction l as [|y l IH]; intros b [|k] x E; cbn in E; try discriminate.
            - injection E as <-. cbn. lia.
            - apply IH in E. lia. }
          apply G in Ee. cbn in Ee. lia. }
        subst e'. destruct (Nat.ltb_spec e k), (Nat.ltb_spec e (S k)); auto; lia.
  Qed.
End Residual.

Section History.
  Local Open Scope R_scope.
  Variables (rsum : R -> list R -> R) (HS : sum_reducer rsum) (idx : list Z) (names : list string).
  Hypothesis (NE : (1 <= length names)%nat).

  (** The residual state s holds w on the index list. *)
  Definition res_holds (s : state R) (w : nat -> Z -> R) : Prop :=
    forall e, (e < length names)%nat ->
      exists a, nth_error s e = Some a /\ forall q, In q idx -> zget a q = Some (w e q).

  Definition res_entries (w : nat -> Z -> R) : list (string * R) :=
    map (fun '(e, n) => (append "res_" n, rms_of idx (w e))) (combine (seq 0 (length names)) names).

  Lemma res_calc_spec st s w : res_holds s w ->
    let n := rms_of idx (w 0%nat) in
    let M := Rmax (rs_max st) n in
    residual_calculator rsum names (length names) idx st s =
    Ok (if Req_EM_T M 0 then {| rs_abs := 1; rs_max := M; rs_rel := 1 |}
        else {| rs_abs := n; rs_max := M; rs_rel := n / M |},
        res_entries w ++ (if Req_EM_T M 0 then [("abs_res"%string, 1); ("rel_res"%string, 1)]
                          else [("abs_res"%string, n); ("rel_res"%string, n / M)])).
  Proof.
    intros H n M. unfold residual_calculator. change (@nint R Num_R 1) with 1.
    rewrite (norm_fold rsum HS idx s w names (length names) _ (le_n _) H eq_refl). cbn [rbind].
    assert (E : map (fun '(e, n0) => (append "res_" n0, if (e <? length names)%nat then rms_of idx (w e) else 1))
                  (combine (seq 0 (length names)) names) = res_entries w).
    { apply map_ext_in. intros [e nm] I. apply in_combine_l in I. apply in_seq in I.
      destruct (Nat.ltb_spec e (length names)); auto; lia. }
    rewrite E. clear E.
    assert (E0 : exists nm, nth_error (res_entries w) 0 = Some (nm, n)).
    { unfold res_entries. destruct names as [|nm l]; cbn in NE |- *; [lia|]. eexists; reflexivity. }
    destruct E0 as (nm & E0). rewrite E0. cbn [of_opt rbind snd].
    rewrite nmax_R. fold M. cbn [neqb nint nadd ndiv Num_R]. unfold Reqb.
    destruct (Req_EM_T M 0); reflexivity.
  Qed.

  Definition rel_ok (prev : list R) (w : nat -> Z -> R) (m : list (string * R)) : Prop :=
    exists A Rel M, m = res_entries w ++ [("abs_res"%string, A); ("rel_res"%string, Rel)] /\
      greatest_of (prev ++ [rms_of idx (w 0%nat)]) M /\
      (M <> 0 -> A = rms_of idx (w 0%nat) /\ Rel = rms_of idx (w 0%nat) / M) /\
      (M = 0 -> A = 1 /\ Rel = 1) /\ 0 <= Rel <= 1.

  Lemma greatest_app prev M n : 0 <= n -> (prev = [] /\ M = 0) \/ greatest_of prev M ->
    greatest_of (prev ++ [n]) (Rmax M n).
  Proof.
    intros Hn [(-> & ->)|(I & B)].
    - rewrite Rmax_right by lra. split; [left; auto|]. intros x [->|[]]. lra.
    - split.
      + apply in_or_app. unfold Rmax. destruct (Rle_dec M n); [right; left; auto|left; auto].
      + intros x Hx. apply in_app_or in Hx as [Hx|[<-|[]]].
        * eapply Rle_trans; [apply B; auto|apply Rmax_l].
        * apply Rmax_r.
  Qed.

  Lemma rms_of_nonneg g : 0 <= rms_of idx g.
  Proof. apply sqrt_pos. Qed.

  Lemma history_spec hist ws : Forall2 res_holds hist ws -> forall st prev,
    ((prev = [] /\ rs_max st = 0) \/ greatest_of prev (rs_max st)) -> 0 <= rs_max st ->
    exists st' ms, residual_history rsum names (length names) idx st hist = Ok (st', ms) /\
      length ms = length hist /\
      forall k w m, nth_error ws k = Some w -> nth_error ms k = Some m ->
        rel_ok (prev ++ map (fun w => rms_of idx (w 0%nat)) (firstn k ws)) w m.
  Proof.
    induction 1 as [|s w hist ws Hs HF IH]; intros st prev HP H0.
    - exists st, []. split; [reflexivity|]. split; [reflexivity|]. intros [|k]; discriminate.
    - cbn [residual_history]. rewrite (res_calc_spec st s w Hs).
      set (n := rms_of idx (w 0%nat)). set (M := Rmax (rs_max st) n).
      assert (Hn : 0 <= n) by apply rms_of_nonneg.
      assert (GM : greatest_of (prev ++ [n]) M) by (apply greatest_app; auto).
      assert (M0 : 0 <= M) by (eapply Rle_trans; [exact H0|apply Rmax_l]).
      assert (nM : n <= M) by apply Rmax_r.
      cbn [rbind].
      set (st1 := if Req_EM_T M 0 then _ else _).
      assert (E1 : rs_max st1 = M) by (unfold st1; destruct (Req_EM_T M 0); reflexivity).
      destruct (IH st1 (prev ++ [n])) as (st' & ms & E & L & P).
      { right. rewrite E1. auto. }
      { rewrite E1. auto. }
      rewrite E. cbn [rbind].
      eexists st', (_ :: ms). split; [reflexivity|]. split; [cbn; auto|].
      intros [|k] w' m Hw Hm; cbn in Hw, Hm.
      + injection Hw as <-. injection Hm as <-. cbn [firstn map]. rewrite app_nil_r.
        destruct (Req_EM_T M 0) as [Z|NZ].
        * exists 1, 1, M. split; [reflexivity|]. split; [exact GM|]. split; [contradiction|]. split; [auto|lra].
        * exists n, (n / M), M. split; [reflexivity|]. split; [exact GM|]. split; [auto|]. split; [contradiction|].
          assert (0 < M) by lra.
          split; [apply Rmult_le_pos; [auto|left; apply Rinv_0_lt_compat; auto]|].
          apply (Rmult_le_reg_r M); auto. unfold Rdiv. rewrite Rmult_assoc, Rinv_l by lra. lra.
      + specialize (P k w' m Hw Hm). cbn [firstn map]. rewrite <- app_assoc in P. exact P.
  Qed.
End History.

(** The monitors. *)
Lemma DBL_MIN_pos : (0 < DBL_MIN)%R.
Proof. unfold DBL_MIN. apply Rinv_0_lt_compat, IZR_lt. reflexivity. Qed.

Lemma DBL_MAX_pos : (0 < DBL_MAX)%R.
Proof. unfold DBL_MAX. apply IZR_lt. reflexivity. Qed.

Lemma DBL_MIN_MAX : (DBL_MIN <= DBL_MAX)%R.
Proof.
  unfold DBL_MIN, DBL_MAX. apply Rle_trans with 1%R.
  - rewrite <- Rinv_1. apply Rinv_le_contravar; [lra|]. apply IZR_le. apply Z.leb_le. reflexivity.
  - apply IZR_le. apply Z.leb_le. reflexivity.
Qed.

Lemma monitor_min red l : proper_reducers red -> l <> [] -> (forall x, In x l -> finite_double x) ->
  is_min l (red_min red DBL_MAX l).
Proof.
  intros (P & _) NE F. destruct (P DBL_MAX l) as (n & l' & Q & H).
  apply combines_min in H as (I & B).
  assert (B' : forall x, In x l -> (red_min red DBL_MAX l <= x)%R).
  { intros x Hx. apply B. apply (reduction_in _ _ _ _ _ x Q). auto. }
  split; auto. apply (reduction_in _ _ _ _ _ _ Q) in I.
  assert (M : red_min red DBL_MAX l = DBL_MAX -> In (red_min red DBL_MAX l) l).
  { intros E. destruct l as [|x l0]; [congruence|]. left.
    pose proof (B' x (or_introl eq_refl)). pose proof (F x (or_introl eq_refl)) as (_ & F2). rewrite E in *. lra. }
  destruct I as [E|[I|I]]; auto. apply repeat_spec in I. auto.
Qed.

Lemma monitor_max red l lo : proper_reducers red -> (forall x, In x l -> finite_double x) ->
  finite_double lo -> is_max (lo :: l) (red_max red lo l).
Proof.
  intros (_ & P & _) F F0. destruct (P lo l) as (n & l' & Q & H).
  apply combines_max in H as (I & B).
  assert (B' : forall x, In x (lo :: l) -> (x <= red_max red lo l)%R).
  { intros x Hx. apply B. apply (reduction_in _ _ _ _ _ x Q). destruct Hx; auto. }
  split; auto. apply (reduction_in _ _ _ _ _ _ Q) in I.
  destruct I as [E|[I|I]]; [left; auto| |right; auto].
  apply repeat_spec in I. left. pose proof (B' lo (or_introl eq_refl)). destruct F0. lra.
Qed.
