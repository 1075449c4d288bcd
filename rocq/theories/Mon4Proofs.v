(** Interior cells by position, arrays for given fields, reducers. *)
From Verif Require Import Outcome ZList ZListProofs Num Kernel KernelProofs Gather Loop
  ModelIndex IndexProofs ModelDisc3D ModelDisc2D ModelCH SpecGrid Disc3DProofs Stencil3Proofs Make3Proofs
  BC3Proofs Disc2DProofs Make2Proofs CHProofs SpecField SumProofs ModelReduce ReduceProofs ModelTime Step1Proofs
  ModelMon SpecMon Mon1Proofs Mon2Proofs Mon3Proofs.
From Coq Require Import Reals String Lra Permutation ZifyBool ZifyNat List.
Local Open Scope list_scope.
Local Open Scope Z_scope.

Section Pos.
  Context {V : Type} `{N : Num V}.

  Definition pos3 (dom : domain V) (i j k : Z) : nat := Z.to_nat ((i * ny dom + j) * nz dom + k).
  Definition pos2 (dom : domain V) (i j : Z) : nat := Z.to_nat (i * nx dom + j).

  Lemma zget_nth {A} (l : list A) i : 0 <= i -> zget l i = nth_error l (Z.to_nat i).
  Proof. intros H. unfold zget. destruct (i <? 0) eqn:E; auto. lia. Qed.

  Lemma pos3_nonneg (dom : domain V) i j k : inside3 dom i j k -> 0 <= (i * ny dom + j) * nz dom + k.
  Proof.
    intros (I & J & K). assert (0 <= i * ny dom) by (apply Z.mul_nonneg_nonneg; lia).
    assert (0 <= (i * ny dom + j) * nz dom) by (apply Z.mul_nonneg_nonneg; lia). lia.
  Qed.
  Lemma pos2_nonneg (dom : domain V) i j : inside2 dom i j -> 0 <= i * nx dom + j.
  Proof. intros (I & J). assert (0 <= i * nx dom) by (apply Z.mul_nonneg_nonneg; lia). lia. Qed.

  Lemma interior_len3 (d : disc3 V) : wf3 d ->
    zlen (d3_interior d) = nx (d3_domain d) * ny (d3_domain d) * nz (d3_domain d).
  Proof.
    intros W. rewrite (wf_interior _ W). rewrite zlen_map.
    destruct (wf_valid _ W) as (A & B & C & D). rewrite zlen_box3; lia.
  Qed.

  Lemma interior_len2 (d : disc2 V) : wf2 d -> zlen (d2_interior d) = nx (d2_domain d) * nx (d2_domain d).
  Proof.
    intros W. rewrite (wf2_interior _ W). rewrite zlen_map.
    destruct (wf2_valid _ W) as (A & B). rewrite zlen_box2; lia.
  Qed.

  Lemma interior_at3 (d : disc3 V) i j k : wf3 d -> inside3 (d3_domain d) i j k ->
    nth_error (d3_interior d) (pos3 (d3_domain d) i j k) = Some (slot3 (d3_domain d) i j k).
  Proof.
    intros W II. pose proof (pos3_nonneg _ _ _ _ II). destruct II as (I & J & K). unfold pos3. rewrite <- zget_nth by auto.
    rewrite (wf_interior _ W), zget_map.
    pose proof (zget_box3 0 (nx (d3_domain d)) 0 (ny (d3_domain d)) 0 (nz (d3_domain d)) i j k I J K) as E.
    replace ((i - 0) * ((ny (d3_domain d) - 0) * (nz (d3_domain d) - 0)) + ((j - 0) * (nz (d3_domain d) - 0) + (k - 0)))
      with ((i * ny (d3_domain d) + j) * nz (d3_domain d) + k) in E by ring.
    rewrite E. reflexivity.
  Qed.

  Lemma interior_at2 (d : disc2 V) i j : wf2 d -> inside2 (d2_domain d) i j ->
    nth_error (d2_interior d) (pos2 (d2_domain d) i j) = Some (slot2 (d2_domain d) i j).
  Proof.
    intros W II. pose proof (pos2_nonneg _ _ _ II). destruct II as (I & J). unfold pos2. rewrite <- zget_nth by auto.
    rewrite (wf2_interior _ W), zget_map.
    pose proof (zget_box2 0 (nx (d2_domain d)) 0 (nx (d2_domain d)) i j I J) as E.
    replace ((i - 0) * (nx (d2_domain d) - 0) + (j - 0)) with (i * nx (d2_domain d) + j) in E by ring.
    rewrite E. reflexivity.
  Qed.

  Lemma array3 (dom : domain V) u : 1 <= nx dom /\ 1 <= ny dom /\ 1 <= nz dom /\ 0 <= nhalo dom ->
    exists f, holds3 dom f u.
  Proof.
    intros H. exists (map (of3 dom u 0) (zrange 0 (cells3 dom))).
    assert (P : 0 < cells3 dom) by (unfold cells3; apply Z.mul_pos_pos; [apply Z.mul_pos_pos|]; lia).
    split; [rewrite zlen_map, zlen_zrange; lia|].
    intros i j k HP. pose proof (slot3_range dom i j k HP). rewrite zget_map, zget_zrange by lia. simpl.
    rewrite of3_slot; auto.
  Qed.

  Lemma array2 (dom : domain V) u : 1 <= nx dom /\ 0 <= nhalo dom -> exists f, holds2 dom f u.
  Proof.
    intros H. exists (map (of2 dom u 0) (zrange 0 (cells2 dom))).
    assert (P : 0 < cells2 dom) by (unfold cells2; apply Z.mul_pos_pos; lia).
    split; [rewrite zlen_map, zlen_zrange; lia|].
    intros i j HP. pose proof (slot2_range dom i j HP). rewrite zget_map, zget_zrange by lia. simpl.
    rewrite of2_slot; auto.
  Qed.

  (** The copies as copies of fields. *)
  Lemma copy_from3 (d : disc3 V) s x v : wf3 d -> zlen s = cells3 (d3_domain d) -> vec_holds3 (d3_domain d) x v ->
    exists s', copy_from_vec (d3_interior d) s x = Ok (s', x) /\
      holds_inside3 (d3_domain d) s' v /\ same_halo3 (d3_domain d) s s'.
  Proof.
    intros W L (LX & HX).
    destruct (copy_from_vec_spec (d3_interior d) s x (interior_nodup d W)) as (s' & E & L' & IN & OUT).
    - intros q Hq. rewrite L. apply (interior_range d q W Hq).
    - rewrite interior_len3 by auto. lia.
    - exists s'. split; auto. split; [split; [congruence|]|split; [congruence|]].
      + intros i j k I. rewrite (IN _ _ (interior_at3 d i j k W I)). unfold pos3. rewrite <- zget_nth.
        * apply HX; auto.
        * apply pos3_nonneg; auto.
      + intros i j k P I. symmetry. apply OUT. apply slot_not_interior; auto.
  Qed.

  Lemma copy_from2 (d : disc2 V) s x v : wf2 d -> zlen s = cells2 (d2_domain d) -> vec_holds2 (d2_domain d) x v ->
    exists s', copy_from_vec (d2_interior d) s x = Ok (s', x) /\
      holds_inside2 (d2_domain d) s' v /\ same_halo2 (d2_domain d) s s'.
  Proof.
    intros W L (LX & HX).
    destruct (copy_from_vec_spec (d2_interior d) s x (interior_nodup2 d W)) as (s' & E & L' & IN & OUT).
    - intros q Hq. rewrite L. apply (interior_range2 d q W Hq).
    - rewrite interior_len2 by auto. lia.
    - exists s'. split; auto. split; [split; [congruence|]|split; [congruence|]].
      + intros i j I. rewrite (IN _ _ (interior_at2 d i j W I)). unfold pos2. rewrite <- zget_nth.
        * apply HX; auto.
        * apply pos2_nonneg; auto.
      + intros i j P I. symmetry. apply OUT. apply slot_not_interior2; auto.
  Qed.

  Lemma copy_to3 (d : disc3 V) s x u : wf3 d -> holds_inside3 (d3_domain d) s u ->
    zlen x = nx (d3_domain d) * ny (d3_domain d) * nz (d3_domain d) ->
    exists x', copy_to_vec (d3_interior d) s x = Ok x' /\ vec_holds3 (d3_domain d) x' u.
  Proof.
    intros W (L & H) LX.
    destruct (copy_to_vec_spec (d3_interior d) s x) as (x' & E & L' & IN & _).
    - intros q Hq. rewrite L. apply (interior_range d q W Hq).
    - rewrite interior_len3 by auto. lia.
    - exists x'. split; auto. split; [congruence|]. intros i j k I.
      rewrite zget_nth by (apply pos3_nonneg; auto).
      fold (pos3 (d3_domain d) i j k). rewrite (IN _ _ (interior_at3 d i j k W I)). apply H; auto.
  Qed.

  Lemma copy_to2 (d : disc2 V) s x u : wf2 d -> holds_inside2 (d2_domain d) s u ->
    zlen x = nx (d2_domain d) * nx (d2_domain d) ->
    exists x', copy_to_vec (d2_interior d) s x = Ok x' /\ vec_holds2 (d2_domain d) x' u.
  Proof.
    intros W (L & H) LX.
    destruct (copy_to_vec_spec (d2_interior d) s x) as (x' & E & L' & IN & _).
    - intros q Hq. rewrite L. apply (interior_range2 d q W Hq).
    - rewrite interior_len2 by auto. lia.
    - exists x'. split; auto. split; [congruence|]. intros i j I.
      rewrite zget_nth by (apply pos2_nonneg; auto).
      fold (pos2 (d2_domain d) i j). rewrite (IN _ _ (interior_at2 d i j W I)). apply H; auto.
  Qed.

  Lemma vec_unique3 (dom : domain V) (x y : list V) u : valid_domain3 dom ->
    vec_holds3 dom x u -> vec_holds3 dom y u -> x = y.
  Proof.
    intros (A & B & C & _) (LX & X) (LY & Y). apply unread_eq; [congruence|]. intros q.
    destruct (Z_lt_dec q 0) as [Hn|Hn]; [unfold zget; destruct (q <? 0) eqn:Q; auto; lia|].
    destruct (Z_lt_dec q (zlen x)) as [Hm|Hm].
    - set (k := q mod nz dom). set (r := q / nz dom). set (j := r mod ny dom). set (i := r / ny dom).
      assert (Eq : q = (i * ny dom + j) * nz dom + k).
      { pose proof (Z.div_mod q (nz dom) ltac:(lia)). pose proof (Z.div_mod r (ny dom) ltac:(lia)). unfold k, j, i, r in *. nia. }
      pose proof (Z.mod_pos_bound q (nz dom) ltac:(lia)). pose proof (Z.mod_pos_bound r (ny dom) ltac:(lia)).
      assert (0 <= r) by (apply Z.div_pos; lia).
      assert (r < nx dom * ny dom) by (apply Z.div_lt_upper_bound; nia).
      assert (I : inside3 dom i j k).
      { split; [split; [apply Z.div_pos; lia|apply Z.div_lt_upper_bound; nia]|split; auto]. }
      rewrite Eq, X, Y; auto.
    - rewrite !zget_nth by lia. unfold zlen in *. assert (length x = length y) by lia.
      transitivity (@None V); [|symmetry]; apply nth_error_None; lia.
  Qed.

  Lemma vec_unique2 (dom : domain V) (x y : list V) u : valid_domain2 dom ->
    vec_holds2 dom x u -> vec_holds2 dom y u -> x = y.
  Proof.
    intros (A & _) (LX & X) (LY & Y). apply unread_eq; [congruence|]. intros q.
    destruct (Z_lt_dec q 0) as [Hn|Hn]; [unfold zget; destruct (q <? 0) eqn:Q; auto; lia|].
    destruct (Z_lt_dec q (zlen x)) as [Hm|Hm].
    - pose proof (Z.div_mod q (nx dom) ltac:(lia)). pose proof (Z.mod_pos_bound q (nx dom) ltac:(lia)).
      assert (I : inside2 dom (q / nx dom) (q mod nx dom)).
      { split; [split; [apply Z.div_pos; lia|apply Z.div_lt_upper_bound; nia]|auto]. }
      replace q with (q / nx dom * nx dom + q mod nx dom) by lia. rewrite X, Y; auto.
    - rewrite !zget_nth by lia. unfold zlen in *. assert (length x = length y) by lia.
      transitivity (@None V); [|symmetry]; apply nth_error_None; lia.
  Qed.

  Lemma vec_of3 (dom : domain V) (x : list V) : valid_domain3 dom -> zlen x = nx dom * ny dom * nz dom ->
    exists v, vec_holds3 dom x v.
  Proof.
    intros (A & B & C & _) L. destruct (zget_some x 0 ltac:(nia)) as (z & _).
    exists (fun i j k => match zget x ((i * ny dom + j) * nz dom + k) with Some v => v | None => z end).
    split; auto. intros i j k (I & J & K).
    destruct (zget_some x ((i * ny dom + j) * nz dom + k)) as (v & ->); auto. rewrite L.
    assert (i * ny dom + j < nx dom * ny dom) by nia. nia.
  Qed.

  Lemma vec_of2 (dom : domain V) (x : list V) : valid_domain2 dom -> zlen x = nx dom * nx dom ->
    exists v, vec_holds2 dom x v.
  Proof.
    intros (A & _) L. destruct (zget_some x 0 ltac:(nia)) as (z & _).
    exists (fun i j => match zget x (i * nx dom + j) with Some v => v | None => z end).
    split; auto. intros i j (I & J).
    destruct (zget_some x (i * nx dom + j)) as (v & ->); auto. nia.
  Qed.
End Pos.

Lemma combines_fold {A} (op : A -> A -> A) i l : combines op (l ++ [i]) (fold_right op i l).
Proof.
  induction l as [|a l IH]; [apply comb_one|]. exact (comb_two op [a] (l ++ [i]) a _ (comb_one op a) IH).
Qed.

Lemma reduction_fold {A} (op : A -> A -> A) e i l : reduction op e i l (fold_right op i l).
Proof.
  exists 0%nat, (l ++ [i]). split; [apply Permutation_cons_append|apply combines_fold].
Qed.

(** The reductions of one thread. *)
Definition serial_reducers : reducers R :=
  {| red_min := fun i l => fold_right nmin i l; red_max := fun i l => fold_right nmax i l;
     red_sum := fun i l => fold_right Rplus i l |}.

Lemma serial_proper : proper_reducers serial_reducers.
Proof. split; [|split]; [intros ? ?|intros ? ?|intros ?]; apply reduction_fold. Qed.
