(** The solution monitors on a grid. *)
From Verif Require Import Outcome ZList ZListProofs Num Kernel KernelProofs Gather Loop
  ModelIndex IndexProofs ModelDisc3D ModelDisc2D ModelCH SpecGrid Disc3DProofs Stencil3Proofs Make3Proofs
  BC3Proofs Disc2DProofs Make2Proofs CHProofs SpecField SumProofs ModelReduce ReduceProofs ModelTime ModelMon SpecMon
  Mon1Proofs.
From Coq Require Import Reals String Lra Permutation ZifyBool ZifyNat List.
Local Open Scope list_scope.
Local Open Scope Z_scope.

(** The difference the code takes in one direction. *)
Definition code_slope (n : Z) (h : R) (w : Z -> R) (i : Z) : R :=
  (if (i =? 0)%Z then (w (i + 1)%Z - w i) / h
   else if (i =? n - 1)%Z then (w i - w (i - 1)%Z) / h
   else (w (i + 1)%Z - w (i - 1)%Z) / (2 * h))%R.

Lemma code_slope_line n h w i : code_slope n h w i = line_slope n h w i.
Proof.
  unfold code_slope, line_slope. destruct (Z.eqb_spec i 0) as [->|]; [reflexivity|].
  destruct (Z.eqb_spec i (n - 1)) as [->|]; [|reflexivity].
  replace (n - 1 - 1) with (n - 2) by lia. reflexivity.
Qed.

Lemma slope_spec n (h : R) (w : Z -> R) i (fwd bwd : res R) :
  (i = 0 \/ i <> n - 1 -> fwd = Ok (w (i + 1))) -> (i <> 0 -> bwd = Ok (w (i - 1))) ->
  slope n h (w i) i fwd bwd = Ok (code_slope n h w i).
Proof.
  intros A B. unfold slope, code_slope. destruct (Z.eqb_spec i 0).
  - rewrite A by lia. reflexivity.
  - destruct (Z.eqb_spec i (n - 1)).
    + rewrite B by lia. reflexivity.
    + rewrite A, B by lia. reflexivity.
Qed.

Section M3.
  Variables (d : disc3 R) (W : wf3 d) (f : list R) (u : Z -> Z -> Z -> R).
  Local Notation dom := (d3_domain d).

  (** The contribution of a cell to the gradient sum. *)
  Definition cell_grad3 (i j k : Z) : R :=
    (sqrt (code_slope (nx dom) (d3_dx d) (fun a => u a j k) i * code_slope (nx dom) (d3_dx d) (fun a => u a j k) i
           + code_slope (nx dom) (d3_dx d) (fun a => u i a k) j * code_slope (nx dom) (d3_dx d) (fun a => u i a k) j
           + code_slope (nx dom) (d3_dx d) (fun a => u i j a) k * code_slope (nx dom) (d3_dx d) (fun a => u i j a) k)
     * d3_dx d * d3_dx d)%R.

  (** Every cell the code reads holds u: either the halo is there, or the grid is a cube. *)
  Hypothesis RD : (1 <= nhalo dom /\ holds3 dom f u) \/
    (2 <= nx dom /\ ny dom = nx dom /\ nz dom = nx dom /\ holds_inside3 dom f u).

  Lemma monitor_collect3 :
    collect (monitor_cell3 d f) (zrange 0 (zlen (d3_interior d))) =
    Ok (map (fun c => let '(i, j, k) := c in (u i j k, cell_grad3 i j k)) (interior_box d)).
  Proof.
    assert (RD1 : forall i j k, inside3 dom i j k -> zget f (ix3 d i j k) = Some (u i j k)).
    { intros i j k I. rewrite ix3_slot by auto. destruct (wf_valid _ W) as (v1 & v2 & v3 & v4).
      destruct RD as [(_ & (_ & H))|(_ & _ & _ & (_ & H))]; apply H; auto. apply inside_padded3; auto. }
    assert (RDn : forall i j k i' j' k', inside3 dom i j k ->
       Z.abs (i' - i) + Z.abs (j' - j) + Z.abs (k' - k) <= 1 ->
       (i' <= i \/ i <> nx dom - 1 \/ i = 0) -> (i <= i' \/ i <> 0) ->
       (j' <= j \/ j <> nx dom - 1 \/ j = 0) -> (j <= j' \/ j <> 0) ->
       (k' <= k \/ k <> nx dom - 1 \/ k = 0) -> (k <= k' \/ k <> 0) ->
       zget f (ix3 d i' j' k') = Some (u i' j' k')).
    { intros i j k i' j' k' I C C1 C2 C3 C4 C5 C6.
      destruct RD as [(NH & (_ & H))|(N2 & EY & EZ & (_ & H))].
      - rewrite ix3_slot by auto. apply H. unfold inside3, padded3 in *. lia.
      - apply RD1. unfold inside3 in *. lia. }
    rewrite collect_sequence.
    assert (E : map (monitor_cell3 d f) (zrange 0 (zlen (d3_interior d))) =
                map (fun c => let '(i, j, k) := c in Ok (u i j k, cell_grad3 i j k)) (interior_box d)).
    { unfold monitor_cell3.
      rewrite (map_over_list (fun o => rbind (of_opt o) (fun q => let '(i, j, k) := getIJK3 d q in _))).
      rewrite (wf_interior _ W), map_map. apply map_ext_in. intros [[i j] k] H.
      apply in_interior_box in H. cbn [of_opt rbind].
      rewrite getIJK3_slot by auto. rewrite (RD1 i j k H). cbn [of_opt rbind].
      rewrite (wf_ni _ W).
      rewrite (slope_spec (nx dom) (d3_dx d) (fun a => u a j k) i).
      2:{ intros. erewrite (RDn i j k); [reflexivity|auto|lia..]. }
      2:{ intros. erewrite (RDn i j k); [reflexivity|auto|lia..]. }
      cbn [rbind].
      rewrite (slope_spec (nx dom) (d3_dx d) (fun a => u i a k) j).
      2:{ intros. erewrite (RDn i j k); [reflexivity|auto|lia..]. }
      2:{ intros. erewrite (RDn i j k); [reflexivity|auto|lia..]. }
      cbn [rbind].
      rewrite (slope_spec (nx dom) (d3_dx d) (fun a => u i j a) k).
      2:{ intros. erewrite (RDn i j k); [reflexivity|auto|lia..]. }
      2:{ intros. erewrite (RDn i j k); [reflexivity|auto|lia..]. }
      reflexivity. }
    rewrite E. clear. induction (interior_box d) as [|[[i j] k] l IH]; cbn [map sequence]; auto.
    rewrite IH. reflexivity.
  Qed.

  Variables (red : reducers R) (HR : proper_reducers red).
  Hypothesis FIN : forall i j k, inside3 dom i j k -> finite_double (u i j k).

  Lemma monitor3_spec :
    exists a b g, solution_monitor3 red DBL_MAX DBL_MIN d f =
        Ok [("min_c"%string, a); ("max_c"%string, b); ("grad_c_mag"%string, g)] /\
      least3 dom u a /\
      ((exists i j k, inside3 dom i j k /\ (DBL_MIN <= u i j k)%R) -> greatest3 dom u b) /\
      ((forall i j k, inside3 dom i j k -> (u i j k <= DBL_MIN)%R) -> b = DBL_MIN) /\
      g = total3 dom cell_grad3.
  Proof.
    unfold solution_monitor3. rewrite monitor_collect3. cbn [rbind]. unfold monitor_values.
    rewrite !map_map.
    set (l := map (fun c => fst (let '(i, j, k) := c in (u i j k, cell_grad3 i j k))) (interior_box d)).
    assert (IL : forall x, In x l <-> exists i j k, inside3 dom i j k /\ u i j k = x).
    { intros x. unfold l. rewrite in_map_iff. split.
      - intros ([[i j] k] & E & I). apply in_interior_box in I. exists i, j, k. auto.
      - intros (i & j & k & I & E). exists (i, j, k). rewrite in_interior_box. auto. }
    assert (F : forall x, In x l -> finite_double x).
    { intros x Hx. apply IL in Hx as (i & j & k & I & <-). apply FIN; auto. }
    assert (I0 : inside3 dom 0 0 0).
    { destruct (wf_valid _ W) as (v1 & v2 & v3 & v4). unfold inside3. lia. }
    assert (NE : l <> []).
    { intros E. apply (in_nil (a := u 0 0 0)). rewrite <- E. apply IL. eauto. }
    pose proof (monitor_min red l HR NE F) as (MI & MB).
    assert (F0 : finite_double DBL_MIN).
    { split; [pose proof DBL_MIN_pos; pose proof DBL_MAX_pos; lra|apply DBL_MIN_MAX]. }
    pose proof (monitor_max red l DBL_MIN HR F F0) as (XI & XB).
    eexists _, _, _. split; [reflexivity|]. split; [|split; [|split]].
    - split; [apply IL; auto|]. intros i j k I. apply MB. apply IL. eauto.
    - intros (i & j & k & I & H). split.
      + apply IL. destruct XI as [E|XI]; auto. rewrite <- E.
        assert (u i j k <= DBL_MIN)%R. { rewrite E. apply XB. right. apply IL. eauto. }
        assert (EQ : u i j k = DBL_MIN) by lra. apply IL. eauto.
      + intros i' j' k' I'. apply XB. right. apply IL. eauto.
    - intros H. destruct XI as [E|XI]; auto. apply IL in XI as (i & j & k & I & E).
      specialize (H i j k I). pose proof (XB DBL_MIN (or_introl eq_refl)). lra.
    - destruct HR as (_ & _ & SR). rewrite (rsum_eq _ SR).
      unfold interior_box, box3, total3, sum3, sum2, sum1.
      rewrite map_flat_map, Rsum_flat_map. apply Rsum_map_ext. intros i _.
      rewrite map_flat_map, Rsum_flat_map. apply Rsum_map_ext. intros j _.
      rewrite map_map. reflexivity.
  Qed.

  Lemma cell_grad3_cube i j k : ny dom = nx dom -> nz dom = nx dom ->
    cell_grad3 i j k = (d3_dx d ^ 2 * grad_length3 dom (d3_dx d) u i j k)%R.
  Proof.
    intros EY EZ. unfold cell_grad3, grad_length3. rewrite !code_slope_line, EY, EZ.
    replace (d3_dx d ^ 2)%R with (d3_dx d * d3_dx d)%R by ring.
    match goal with |- (sqrt ?a * _ * _ = _ * sqrt ?b)%R => replace b with a by ring end. ring.
  Qed.
End M3.

Section M2.
  Variables (d : disc2 R) (W : wf2 d) (f : list R) (u : Z -> Z -> R).
  Local Notation dom := (d2_domain d).

  Definition cell_grad2 (i j : Z) : R :=
    (sqrt (code_slope (nx dom) (d2_dx d) (fun a => u a j) i * code_slope (nx dom) (d2_dx d) (fun a => u a j) i
           + code_slope (nx dom) (d2_dx d) (fun a => u i a) j * code_slope (nx dom) (d2_dx d) (fun a => u i a) j)
     * d2_dx d * d2_dx d)%R.

  Hypothesis RD : (1 <= nhalo dom /\ holds2 dom f u) \/ (2 <= nx dom /\ holds_inside2 dom f u).

  Lemma monitor_collect2 :
    collect (monitor_cell2 d f) (zrange 0 (zlen (d2_interior d))) =
    Ok (map (fun c => let '(i, j) := c in (u i j, cell_grad2 i j)) (box2 0 (nx dom) 0 (nx dom))).
  Proof.
    assert (RD1 : forall i j, inside2 dom i j -> zget f (ix2 d i j) = Some (u i j)).
    { intros i j I. rewrite ix2_slot by auto. destruct (wf2_valid _ W) as (v1 & v4).
      destruct RD as [(_ & (_ & H))|(_ & (_ & H))]; apply H; auto. unfold inside2, padded2 in *. lia. }
    assert (RDn : forall i j i' j', inside2 dom i j ->
       Z.abs (i' - i) + Z.abs (j' - j) <= 1 ->
       (i' <= i \/ i <> nx dom - 1 \/ i = 0) -> (i <= i' \/ i <> 0) ->
       (j' <= j \/ j <> nx dom - 1 \/ j = 0) -> (j <= j' \/ j <> 0) ->
       zget f (ix2 d i' j') = Some (u i' j')).
    { intros i j i' j' I C C1 C2 C3 C4.
      destruct RD as [(NH & (_ & H))|(N2 & (_ & H))].
      - rewrite ix2_slot by auto. apply H. unfold inside2, padded2 in *. lia.
      - apply RD1. unfold inside2 in *. lia. }
    rewrite collect_sequence.
    assert (E : map (monitor_cell2 d f) (zrange 0 (zlen (d2_interior d))) =
                map (fun c => let '(i, j) := c in Ok (u i j, cell_grad2 i j)) (box2 0 (nx dom) 0 (nx dom))).
    { unfold monitor_cell2.
      rewrite (map_over_list (fun o => rbind (of_opt o) (fun q => let '(i, j) := getIJ2 d q in _))).
      rewrite (wf2_interior _ W), map_map. apply map_ext_in. intros [i j] H.
      assert (H' : inside2 dom i j) by (apply in_box2 in H; exact H).
      cbn [of_opt rbind]. unfold pslot2. cbn [fst snd].
      rewrite getIJ2_slot by auto. rewrite (RD1 i j H'). cbn [of_opt rbind].
      rewrite (wf2_ni _ W).
      rewrite (slope_spec (nx dom) (d2_dx d) (fun a => u a j) i).
      2:{ intros. erewrite (RDn i j); [reflexivity|auto|lia..]. }
      2:{ intros. erewrite (RDn i j); [reflexivity|auto|lia..]. }
      cbn [rbind].
      rewrite (slope_spec (nx dom) (d2_dx d) (fun a => u i a) j).
      2:{ intros. erewrite (RDn i j); [reflexivity|auto|lia..]. }
      2:{ intros. erewrite (RDn i j); [reflexivity|auto|lia..]. }
      reflexivity. }
    rewrite E. clear. induction (box2 0 (nx dom) 0 (nx dom)) as [|[i j] l IH]; cbn [map sequence]; auto.
    rewrite IH. reflexivity.
  Qed.

  Variables (red : reducers R) (HR : proper_reducers red).
  Hypothesis FIN : forall i j, inside2 dom i j -> finite_double (u i j).

  Lemma monitor2_spec :
    exists a b g, solution_monitor2 red DBL_MAX DBL_MIN d f =
        Ok [("min_c"%string, a); ("max_c"%string, b); ("grad_c_mag"%string, g)] /\
      least2 dom u a /\
      ((exists i j, inside2 dom i j /\ (DBL_MIN <= u i j)%R) -> greatest2 dom u b) /\
      ((forall i j, inside2 dom i j -> (u i j <= DBL_MIN)%R) -> b = DBL_MIN) /\
      g = (d2_dx d ^ 2 * total2 dom (grad_length2 dom (d2_dx d) u))%R.
  Proof.
    unfold solution_monitor2. rewrite monitor_collect2. cbn [rbind]. unfold monitor_values.
    rewrite !map_map.
    set (l := map (fun c => fst (let '(i, j) := c in (u i j, cell_grad2 i j))) (box2 0 (nx dom) 0 (nx dom))).
    assert (IL : forall x, In x l <-> exists i j, inside2 dom i j /\ u i j = x).
    { intros x. unfold l. rewrite in_map_iff. split.
      - intros ([i j] & E & I). apply in_box2 in I. exists i, j. auto.
      - intros (i & j & I & E). exists (i, j). rewrite in_box2. auto. }
    assert (F : forall x, In x l -> finite_double x).
    { intros x Hx. apply IL in Hx as (i & j & I & <-). apply FIN; auto. }
    assert (I0 : inside2 dom 0 0).
    { destruct (wf2_valid _ W) as (v1 & v4). unfold inside2. lia. }
    assert (NE : l <> []).
    { intros E. apply (in_nil (a := u 0 0)). rewrite <- E. apply IL. eauto. }
    pose proof (monitor_min red l HR NE F) as (MI & MB).
    assert (F0 : finite_double DBL_MIN).
    { split; [pose proof DBL_MIN_pos; pose proof DBL_MAX_pos; lra|apply DBL_MIN_MAX]. }
    pose proof (monitor_max red l DBL_MIN HR F F0) as (XI & XB).
    eexists _, _, _. split; [reflexivity|]. split; [|split; [|split]].
    - split; [apply IL; auto|]. intros i j I. apply MB. apply IL. eauto.
    - intros (i & j & I & H). split.
      + apply IL. destruct XI as [E|XI]; auto. rewrite <- E.
        assert (u i j <= DBL_MIN)%R. { rewrite E. apply XB. right. apply IL. eauto. }
        assert (EQ : u i j = DBL_MIN) by lra. apply IL. eauto.
      + intros i' j' I'. apply XB. right. apply IL. eauto.
    - intros H. destruct XI as [E|XI]; auto. apply IL in XI as (i & j & I & E).
      specialize (H i j I). pose proof (XB DBL_MIN (or_introl eq_refl)). lra.
    - destruct HR as (_ & _ & SR). rewrite (rsum_eq _ SR).
      unfold total2. rewrite <- sum2_scal.
      unfold box2, sum2, sum1.
      rewrite map_flat_map, Rsum_flat_map. apply Rsum_map_ext. intros i _.
      rewrite map_map. apply Rsum_map_ext. intros j _. cbn [snd].
      unfold cell_grad2, grad_length2. rewrite !code_slope_line.
      replace (d2_dx d ^ 2)%R with (d2_dx d * d2_dx d)%R by ring.
      match goal with |- (sqrt ?a * _ * _ = _ * sqrt ?b)%R => replace b with a by ring end. ring.
  Qed.
End M2.
