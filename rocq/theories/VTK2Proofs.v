(** Round trip of solution files. *)
From Coq Require Import ZArith List String Ascii Bool Lia ZifyBool.
From Verif Require Import Outcome ZList ZListProofs Num Kernel Gather ModelIndex ModelDisc3D ModelDisc2D SpecGrid
  Disc3DProofs Disc2DProofs Make3Proofs Make2Proofs CHProofs ModelText TextProofs ModelVTK SpecVTK VTKProofs.
Import ListNotations.
Local Open Scope string_scope.
Local Open Scope list_scope.
Local Open Scope Z_scope.

Section RoundTrip.
  Context {V : Type} `{N : Num V}.
  Variables (show show6 : V -> string) (read : string -> res V).

  Lemma min_element_ok (l : list V) : l <> [] -> exists m, min_element l = Ok m /\ In m l.
  Proof.
    destruct l as [|x l]; [congruence|]. intros _. cbn [min_element].
    enough (H : forall l x, In (fold_left (fun m v => if nltb v m then v else m) l x) (x :: l)) by (eexists; split; [reflexivity|apply H]).
    clear. induction l as [|y l IH]; intros x; cbn [fold_left]; [left; auto|].
    destruct (nltb y x); [right; apply IH|]. destruct (IH x) as [E|E]; [left; auto|right; right; auto].
  Qed.
  Lemma max_element_ok (l : list V) : l <> [] -> exists m, max_element l = Ok m /\ In m l.
  Proof.
    destruct l as [|x l]; [congruence|]. intros _. cbn [max_element].
    enough (H : forall l x, In (fold_left (fun m v => if nltb m v then v else m) l x) (x :: l)) by (eexists; split; [reflexivity|apply H]).
    clear. induction l as [|y l IH]; intros x; cbn [fold_left]; [left; auto|].
    destruct (nltb x y); [right; apply IH|]. destruct (IH x) as [E|E]; [left; auto|right; right; auto].
  Qed.

  (** *** 3D *)
  Definition value3 (u : Z -> Z -> Z -> V) (p : Z * Z * Z) : V := let '(i, j, k) := p in u i j k.
  Definition px3 (dom : domain V) (dx : V) (p : Z * Z * Z) : V := let '(i, _, _) := p in corner_at (xbeg dom) dx i.
  Definition py3 (dom : domain V) (dx : V) (p : Z * Z * Z) : V := let '(_, j, _) := p in corner_at (ybeg dom) dx j.
  Definition pz3 (dom : domain V) (dx : V) (p : Z * Z * Z) : V := let '(_, _, k) := p in corner_at (zbeg dom) dx k.
  Definition line3 (dom : domain V) (dx : V) (p : Z * Z * Z) : string :=
    (show (px3 dom dx p) ++ " " ++ show (py3 dom dx p) ++ " " ++ show (pz3 dom dx p) ++ nl)%string.
  Definition doc3 (dom : domain V) (dx : V) (st : file_status V) (u : Z -> Z -> Z -> V) : list xml :=
    [vts_document show6 (extent_text (nx dom) (ny dom) (nz dom)) st
       (cells_text show (map (value3 u) (file_order3 (nx dom) (ny dom) (nz dom))))
       (points_text (map (line3 dom dx) (file_order3 (nx dom + 1) (ny dom + 1) (nz dom + 1))))].

  Lemma corners3 (dom : domain V) d i j k : valid_domain3 dom -> make3 dom = Ok d ->
    0 <= i < nx dom + 1 -> 0 <= j < ny dom + 1 -> 0 <= k < nz dom + 1 ->
    let q := get1DindexFrom3D i j k (nhalo dom) (ny dom + 1 + 2 * nhalo dom) (nz dom + 1 + 2 * nhalo dom) in
    zget (d3_xv d) q = Some (corner_at (xbeg dom) (d3_dx d) i) /\
    zget (d3_yv d) q = Some (corner_at (ybeg dom) (d3_dx d) j) /\
    zget (d3_zv d) q = Some (corner_at (zbeg dom) (d3_dx d) k).
  Proof.
    intros HV E Hi Hj Hk. destruct (make3_ok dom HV) as (d' & E' & _ & _ & HX & HY & HZ & _).
    rewrite E in E'. injection E' as <-.
    pose proof (slot3_eq (corner_domain3 dom) i j k) as S. cbn [corner_domain3 nhalo nx ny nz] in S.
    assert (P : padded3 (corner_domain3 dom) i j k)
      by (destruct HV as (_ & _ & _ & ?); unfold padded3; cbn [corner_domain3 nhalo nx ny nz]; lia).
    cbn zeta. change (ny dom + 1 + 2 * nhalo dom) with ((ny dom + 1) + 2 * nhalo dom). rewrite S.
    split; [exact (proj2 HX i j k P)|]. split; [exact (proj2 HY i j k P)|exact (proj2 HZ i j k P)].
  Qed.

  Lemma write3_ok (dom : domain V) d st c u : valid_domain3 dom -> make3 dom = Ok d -> holds_inside3 dom c u ->
    write3 show show6 st d c = Ok (doc3 dom (d3_dx d) st u).
  Proof.
    intros HV E HC. destruct (make3_inv dom d HV E) as (W & D). unfold write3.
    pose proof HV as (H1 & H2 & H3 & Hh).
    rewrite (wf_ni _ W), (wf_nj _ W), (wf_nk _ W), (wf_nh _ W), D.
    rewrite (mapM_ok _ (value3 u)).
    2:{ intros [[i j] k] H. apply file_order3_in in H as (A & B & C). cbn [value3].
        rewrite (ix3_slot d i j k W), D, (proj2 HC i j k) by (split; auto). reflexivity. }
    cbn [rbind]. rewrite (mapM_ok _ (line3 dom (d3_dx d))).
    2:{ intros [[i j] k] H. apply file_order3_in in H as (A & B & C).
        destruct (corners3 dom d i j k HV E A B C) as (X & Y & Z). rewrite X, Y, Z. reflexivity. }
    reflexivity.
  Qed.

  Local Notation corners_print dom d := (vertices_print3 show read dom (d3_dx d)).

  Lemma corner_prints (dom : domain V) d p : valid_domain3 dom -> make3 dom = Ok d -> corners_print dom d ->
    In p (file_order3 (nx dom + 1) (ny dom + 1) (nz dom + 1)) ->
    prints show read (px3 dom (d3_dx d) p) /\ prints show read (py3 dom (d3_dx d) p) /\ prints show read (pz3 dom (d3_dx d) p).
  Proof.
    intros HV E HP H. destruct p as [[i j] k]. apply file_order3_in in H as (A & B & C).
    destruct HP as (X & Y & Z). cbn [px3 py3 pz3]. split; [apply X; lia|]. split; [apply Y; lia|apply Z; lia].
  Qed.

  Lemma read_domain3 (dom : domain V) d st u raw : valid_domain3 dom -> make3 dom = Ok d -> corners_print dom d ->
    nx dom <= 2147483647 -> ny dom <= 2147483647 -> nz dom <= 2147483647 ->
    let pts := file_order3 (nx dom + 1) (ny dom + 1) (nz dom + 1) in
    exists x0 x1 y0 z0, min_element (map (px3 dom (d3_dx d)) pts) = Ok x0 /\ max_element (map (px3 dom (d3_dx d)) pts) = Ok x1 /\
      min_element (map (py3 dom (d3_dx d)) pts) = Ok y0 /\ min_element (map (pz3 dom (d3_dx d)) pts) = Ok z0 /\
      read_domain read (doc3 dom (d3_dx d) st u) raw =
      Ok ({| nx := nx dom; ny := ny dom; nz := nz dom; xbeg := x0; xend := x1; ybeg := y0; yend := yend raw;
             zbeg := z0; zend := zend raw; xbc := xbc raw; ybc := ybc raw; zbc := zbc raw; nhalo := nhalo raw |}, 3).
  Proof.
    intros HV E HP L1 L2 L3 pts. pose proof HV as (H1 & H2 & H3 & Hh).
    assert (PL : zlen pts = (nx dom + 1) * (ny dom + 1) * (nz dom + 1)) by (unfold pts; apply zlen_order3; lia).
    assert (P0 : In (0, 0, 0) pts) by (apply file_order3_in; lia).
    assert (NE : forall f : Z * Z * Z -> V, map f pts <> []) by (intros f; destruct pts; [contradiction|discriminate]).
    destruct (min_element_ok _ (NE (px3 dom (d3_dx d)))) as (x0 & X0 & _).
    destruct (max_element_ok _ (NE (px3 dom (d3_dx d)))) as (x1 & X1 & _).
    destruct (min_element_ok _ (NE (py3 dom (d3_dx d)))) as (y0 & Y0 & _).
    destruct (min_element_ok _ (NE (pz3 dom (d3_dx d)))) as (z0 & Z0 & _).
    exists x0, x1, y0, z0. do 4 (split; [assumption|]).
    pose (toks := flat_map (fun p => [show (px3 dom (d3_dx d) p); show (py3 dom (d3_dx d) p); show (pz3 dom (d3_dx d) p)]) pts).
    assert (LT : zlen toks = 3 * ((nx dom + 1) * (ny dom + 1) * (nz dom + 1))) by (unfold toks; rewrite flat_len; lia).
    assert (NT : toks <> []).
    { unfold toks. destruct pts; [contradiction|discriminate]. }
    replace 3 with (if nz dom =? 0 then 2 else 3) by (destruct (Z.eqb_spec (nz dom) 0); [lia|reflexivity]).
    eapply (read_domain_document show6 read (nx dom) (ny dom) (nz dom) st _ _ raw toks); try assumption; try lia.
    - unfold cells_text. discriminate.
    - unfold points_text. discriminate.
    - apply points_words. intros p HIP. destruct (corner_prints dom d p HV E HP HIP) as ((A1 & _) & (A2 & _) & (A3 & _)).
      apply three_line; apply word_solid; auto.
    - apply mapM_flat. intros p HIP. destruct (corner_prints dom d p HV E HP HIP) as ((_ & A1) & (_ & A2) & (_ & A3)).
      split; [exact A1|]. split; [exact A2|exact A3].
    - apply triples_flat.
    - exact X0.
    - exact X1.
    - exact Y0.
    - exact Z0.
  Qed.

  Lemma set_solution3 (dom dom' : domain V) d d' st u c0 raw :
    valid_domain3 dom -> make3 dom = Ok d -> corners_print dom d ->
    (forall i j k, inside3 dom i j k -> prints show read (u i j k)) ->
    nx dom <= 2147483647 -> ny dom <= 2147483647 -> nz dom <= 2147483647 ->
    valid_domain3 dom' -> make3 dom' = Ok d' -> nx dom' = nx dom -> ny dom' = ny dom -> nz dom' = nz dom ->
    zlen c0 = cells3 dom' ->
    exists c1, set_solution read (doc3 dom (d3_dx d) st u) raw (Target3 d' c0) = Ok (Target3 d' c1) /\
      holds_inside3 dom' c1 u /\ same_halo3 dom' c0 c1.
  Proof.
    intros HV E HP HU L1 L2 L3 HV' E' N1 N2 N3 LC. pose proof HV as (H1 & H2 & H3 & Hh).
    destruct (make3_inv dom' d' HV' E') as (W & D).
    destruct (read_domain3 dom d st u raw HV E HP L1 L2 L3) as (x0 & x1 & y0 & z0 & _ & _ & _ & _ & RD).
    unfold set_solution. rewrite RD.
    set (order := file_order3 (nx dom) (ny dom) (nz dom)).
    set (vals := map (value3 u) order).
    assert (WV : forall v, In v vals -> prints show read v).
    { intros v HI. apply in_map_iff in HI as ([[i j] k] & <- & HI). apply file_order3_in in HI. apply HU. exact HI. }
    assert (WT : words blank "" (cells_text show vals) = map show vals) by (apply cells_words; intros v HI; apply WV; auto).
    assert (TK : tokens_of (cells_text show vals) = map show vals).
    { rewrite tokens_words; rewrite WT; auto. unfold vals, order.
      assert (P0 : In (0, 0, 0) (file_order3 (nx dom) (ny dom) (nz dom))) by (apply file_order3_in; lia).
      destruct (file_order3 (nx dom) (ny dom) (nz dom)); [contradiction|discriminate]. }
    change (descend (doc3 dom (d3_dx d) st u) cells_path no_elem) with
      (Ok (Elem "DataArray" [("type", "Float64"); ("Name", "c"); ("format", "ascii")]%string (cells_text show vals) [])).
    cbn [rbind].
    assert (GT : get_text (Elem "DataArray" [("type", "Float64"); ("Name", "c"); ("format", "ascii")]%string (cells_text show vals) [])
                 = Ok (cells_text show vals)) by reflexivity.
    rewrite GT. cbn [rbind]. rewrite TK, mapM_read by (intros v HI; apply WV; auto). cbn [rbind nx ny nz].
    destruct (Z.eqb_spec (nz dom) 0) as [?|_]; [lia|]. fold order.
    destruct (fill (fun p => let '(i, j, k) := p in slot3 dom' i j k) (value3 u) vals
      (fun '(c, solidx) '(i, j, k) => rbind (of_opt (zget vals solidx)) (fun v =>
         rbind (of_opt (zset c (ix3 d' i j k) v)) (fun c => Ok (c, solidx + 1))))) with (order := order) (c := c0)
      as (c1 & n & F & L & G1 & G2).
    - intros c n [[i j] k]. rewrite (ix3_slot d' i j k W), D. reflexivity.
    - reflexivity.
    - apply nodup_map_inj; [apply nodup_order3|]. intros [[i j] k] [[i' j'] k'] A B C.
      apply file_order3_in in A. apply file_order3_in in B. destruct HV' as (? & ? & ? & ?).
      destruct (slot3_inj dom' i j k i' j' k') as (-> & -> & ->); auto; apply inside_padded3; auto; unfold inside3; lia.
    - intros [[i j] k] A. apply file_order3_in in A. rewrite LC. apply slot3_range. destruct HV' as (? & ? & ? & ?).
      apply inside_padded3; auto; unfold inside3; lia.
    - rewrite F. cbn [rbind]. exists c1. split; auto. split; [|split; [auto|]].
      + split; [congruence|]. intros i j k I. apply (G1 (i, j, k)). apply file_order3_in. unfold inside3 in I. lia.
      + intros i j k P NI. symmetry. apply G2. intros HI. apply in_map_iff in HI as ([[i' j'] k'] & S & HI).
        apply file_order3_in in HI. destruct HV' as (? & ? & ? & ?).
        destruct (slot3_inj dom' i' j' k' i j k) as (-> & -> & ->); auto; [apply inside_padded3; auto; unfold inside3; lia|].
        apply NI. unfold inside3. lia.
  Qed.

  Lemma wrong_target3 (dom : domain V) d st u raw d2 c0 :
    valid_domain3 dom -> make3 dom = Ok d -> corners_print dom d ->
    (forall i j k, inside3 dom i j k -> prints show read (u i j k)) ->
    nx dom <= 2147483647 -> ny dom <= 2147483647 -> nz dom <= 2147483647 ->
    set_solution read (doc3 dom (d3_dx d) st u) raw (Target2 d2 c0) = Throw.
  Proof.
    intros HV E HP HU L1 L2 L3. pose proof HV as (H1 & H2 & H3 & Hh).
    destruct (read_domain3 dom d st u raw HV E HP L1 L2 L3) as (x0 & x1 & y0 & z0 & _ & _ & _ & _ & RD).
    unfold set_solution. rewrite RD.
    set (order := file_order3 (nx dom) (ny dom) (nz dom)).
    set (vals := map (value3 u) order).
    assert (WV : forall v, In v vals -> prints show read v).
    { intros v HI. apply in_map_iff in HI as ([[i j] k] & <- & HI). apply file_order3_in in HI. apply HU. exact HI. }
    assert (WT : words blank "" (cells_text show vals) = map show vals) by (apply cells_words; intros v HI; apply WV; auto).
    assert (TK : tokens_of (cells_text show vals) = map show vals).
    { rewrite tokens_words; rewrite WT; auto. unfold vals, order.
      assert (P0 : In (0, 0, 0) (file_order3 (nx dom) (ny dom) (nz dom))) by (apply file_order3_in; lia).
      destruct (file_order3 (nx dom) (ny dom) (nz dom)); [contradiction|discriminate]. }
    change (descend (doc3 dom (d3_dx d) st u) cells_path no_elem) with
      (Ok (Elem "DataArray" [("type", "Float64"); ("Name", "c"); ("format", "ascii")]%string (cells_text show vals) [])).
    cbn [rbind].
    assert (GT : get_text (Elem "DataArray" [("type", "Float64"); ("Name", "c"); ("format", "ascii")]%string (cells_text show vals) [])
                 = Ok (cells_text show vals)) by reflexivity.
    rewrite GT. cbn [rbind]. rewrite TK, mapM_read by (intros v HI; apply WV; auto). cbn [rbind nx ny nz].
    destruct (Z.eqb_spec (nz dom) 0) as [?|_]; [lia|]. reflexivity.
  Qed.

  (** *** 2D *)
  Variable zero_value : V.
  Hypothesis zero_text : read "0.0" = Ok zero_value.

  Definition value2 (u : Z -> Z -> V) (p : Z * Z) : V := let '(i, j) := p in u i j.
  Definition px2 (dom : domain V) (dx : V) (p : Z * Z) : V := let '(i, _) := p in corner_at (xbeg dom) dx i.
  Definition py2 (dom : domain V) (dx : V) (p : Z * Z) : V := let '(_, j) := p in corner_at (ybeg dom) dx j.
  Definition line2 (dom : domain V) (dx : V) (p : Z * Z) : string :=
    (show (px2 dom dx p) ++ " " ++ show (py2 dom dx p) ++ " " ++ "0.0" ++ nl)%string.
  Definition doc2 (dom : domain V) (dx : V) (st : file_status V) (u : Z -> Z -> V) : list xml :=
    [vts_document show6 (extent_text (nx dom) (nx dom) 0) st
       (cells_text show (map (value2 u) (file_order2 (nx dom))))
       (points_text (map (line2 dom dx) (file_order2 (nx dom + 1))))].

  Lemma corners2 (dom : domain V) d i j : valid_domain2 dom -> make2 dom = Ok d ->
    0 <= i < nx dom + 1 -> 0 <= j < nx dom + 1 ->
    let q := get1Dindex i j (nhalo dom) (nx dom + 1 + 2 * nhalo dom) in
    zget (d2_xv d) q = Some (corner_at (xbeg dom) (d2_dx d) i) /\
    zget (d2_yv d) q = Some (corner_at (ybeg dom) (d2_dx d) j).
  Proof.
    intros HV E Hi Hj. destruct (make2_ok dom HV) as (d' & E' & _ & _ & HX & HY & _).
    rewrite E in E'. injection E' as <-.
    pose proof (slot2_eq (corner_domain2 dom) i j) as S. cbn [corner_domain2 nhalo nx ny nz] in S.
    assert (P : padded2 (corner_domain2 dom) i j)
      by (destruct HV as (_ & ?); unfold padded2; cbn [corner_domain2 nhalo nx ny nz]; lia).
    cbn zeta. rewrite S. split; [exact (proj2 HX i j P)|exact (proj2 HY i j P)].
  Qed.

  Lemma write2_ok (dom : domain V) d st c u : valid_domain2 dom -> make2 dom = Ok d -> holds_inside2 dom c u ->
    write2 show show6 st d c = Ok (doc2 dom (d2_dx d) st u).
  Proof.
    intros HV E HC. destruct (make2_inv dom d HV E) as (W & D). unfold write2. pose proof HV as (H1 & Hh).
    rewrite (wf2_ni _ W), (wf2_nh _ W), D.
    rewrite (mapM_ok _ (value2 u)).
    2:{ intros [i j] H. apply file_order2_in in H as (A & B). cbn [value2].
        rewrite (ix2_slot d i j W), D, (proj2 HC i j) by (split; auto). reflexivity. }
    cbn [rbind]. rewrite (mapM_ok _ (line2 dom (d2_dx d))).
    2:{ intros [i j] H. apply file_order2_in in H as (A & B).
        destruct (corners2 dom d i j HV E A B) as (X & Y). rewrite X, Y. reflexivity. }
    reflexivity.
  Qed.

  Local Notation corners_print2 dom d :=
    (vertices_print2 show read dom (d2_dx d)).

  Lemma corner_prints2 (dom : domain V) d p : valid_domain2 dom -> make2 dom = Ok d -> corners_print2 dom d ->
    In p (file_order2 (nx dom + 1)) ->
    prints show read (px2 dom (d2_dx d) p) /\ prints show read (py2 dom (d2_dx d) p).
  Proof.
    intros HV E HP H. destruct p as [i j]. apply file_order2_in in H as (A & B).
    destruct HP as (X & Y). cbn [px2 py2]. split; [apply X; lia|apply Y; lia].
  Qed.

  Lemma read_domain2 (dom : domain V) d st u raw : valid_domain2 dom -> make2 dom = Ok d -> corners_print2 dom d ->
    nx dom <= 2147483647 ->
    let pts := file_order2 (nx dom + 1) in
    exists x0 x1 y0 z0, min_element (map (px2 dom (d2_dx d)) pts) = Ok x0 /\ max_element (map (px2 dom (d2_dx d)) pts) = Ok x1 /\
      min_element (map (py2 dom (d2_dx d)) pts) = Ok y0 /\ z0 = zero_value /\
      read_domain read (doc2 dom (d2_dx d) st u) raw =
      Ok ({| nx := nx dom; ny := nx dom; nz := 0; xbeg := x0; xend := x1; ybeg := y0; yend := yend raw;
             zbeg := z0; zend := zend raw; xbc := xbc raw; ybc := ybc raw; zbc := zbc raw; nhalo := nhalo raw |}, 2).
  Proof.
    intros HV E HP L1 pts. pose proof HV as (H1 & Hh).
    assert (PL : zlen pts = (nx dom + 1) * (nx dom + 1)) by (unfold pts; apply zlen_order2; lia).
    assert (P0 : In (0, 0) pts) by (apply file_order2_in; lia).
    assert (NE : forall f : Z * Z -> V, map f pts <> []) by (intros f; destruct pts; [contradiction|discriminate]).
    destruct (min_element_ok _ (NE (px2 dom (d2_dx d)))) as (x0 & X0 & _).
    destruct (max_element_ok _ (NE (px2 dom (d2_dx d)))) as (x1 & X1 & _).
    destruct (min_element_ok _ (NE (py2 dom (d2_dx d)))) as (y0 & Y0 & _).
    destruct (min_element_ok _ (NE (fun _ => zero_value))) as (z0 & Z0 & IZ).
    assert (z0 = zero_value) by (apply in_map_iff in IZ as (? & ? & _); congruence). subst z0.
    exists x0, x1, y0, zero_value. do 4 (split; [assumption || reflexivity|]).
    pose (toks := flat_map (fun p => [show (px2 dom (d2_dx d) p); show (py2 dom (d2_dx d) p); "0.0"%string]) pts).
    assert (LT : zlen toks = 3 * ((nx dom + 1) * (nx dom + 1) * (0 + 1)))
      by (unfold toks; rewrite (flat_len (fun p => show (px2 dom (d2_dx d) p)) (fun p => show (py2 dom (d2_dx d) p)) (fun _ => "0.0"%string)); lia).
    assert (NT : toks <> []).
    { unfold toks. destruct pts; [contradiction|discriminate]. }
    change 2 with (if 0 =? 0 then 2 else 3).
    eapply (read_domain_document show6 read (nx dom) (nx dom) 0 st _ _ raw toks); try assumption; try lia.
    - unfold cells_text. discriminate.
    - unfold points_text. discriminate.
    - apply points_words. intros p HIP. destruct (corner_prints2 dom d p HV E HP HIP) as ((A1 & _) & (A2 & _)).
      apply three_line; [apply word_solid; auto|apply word_solid; auto|split; [discriminate|repeat split]].
    - apply (mapM_flat read (px2 dom (d2_dx d)) (py2 dom (d2_dx d)) (fun _ => zero_value)).
      intros p HIP. destruct (corner_prints2 dom d p HV E HP HIP) as ((_ & A1) & (_ & A2)).
      split; [exact A1|]. split; [exact A2|exact zero_text].
    - apply triples_flat.
    - exact X0.
    - exact X1.
    - exact Y0.
    - exact Z0.
  Qed.

  Lemma solution_text2 (dom : domain V) dx st u : valid_domain2 dom ->
    (forall i j, inside2 dom i j -> prints show read (u i j)) ->
    exists t, rbind (descend (doc2 dom dx st u) cells_path no_elem) get_text = Ok t /\
      mapM read (tokens_of t) = Ok (map (value2 u) (file_order2 (nx dom))).
  Proof.
    intros HV HU. pose proof HV as (H1 & Hh).
    set (order := file_order2 (nx dom)).
    set (vals := map (value2 u) order).
    assert (WV : forall v, In v vals -> prints show read v).
    { intros v HI. apply in_map_iff in HI as ([i j] & <- & HI). apply file_order2_in in HI. apply HU. exact HI. }
    assert (WT : words blank "" (cells_text show vals) = map show vals) by (apply cells_words; intros v HI; apply WV; auto).
    assert (TK : tokens_of (cells_text show vals) = map show vals).
    { rewrite tokens_words; rewrite WT; auto. unfold vals, order.
      assert (P0 : In (0, 0) (file_order2 (nx dom))) by (apply file_order2_in; lia).
      destruct (file_order2 (nx dom)); [contradiction|discriminate]. }
    exists (cells_text show vals). split; [reflexivity|]. rewrite TK. apply mapM_read. intros v HI; apply WV; auto.
  Qed.

  Lemma set_solution2 (dom dom' : domain V) d d' st u c0 raw :
    valid_domain2 dom -> make2 dom = Ok d -> corners_print2 dom d ->
    (forall i j, inside2 dom i j -> prints show read (u i j)) ->
    nx dom <= 2147483647 ->
    valid_domain2 dom' -> make2 dom' = Ok d' -> nx dom' = nx dom -> zlen c0 = cells2 dom' ->
    (exists c1, set_solution read (doc2 dom (d2_dx d) st u) raw (Target2 d' c0) = Ok (Target2 d' c1) /\
      holds_inside2 dom' c1 u /\ same_halo2 dom' c0 c1) /\
    (forall d3 c3, set_solution read (doc2 dom (d2_dx d) st u) raw (Target3 d3 c3) = Throw).
  Proof.
    intros HV E HP HU L1 HV' E' N1 LC. pose proof HV as (H1 & Hh).
    destruct (make2_inv dom' d' HV' E') as (W & D).
    destruct (read_domain2 dom d st u raw HV E HP L1) as (x0 & x1 & y0 & z0 & _ & _ & _ & _ & RD).
    destruct (solution_text2 dom (d2_dx d) st u HV HU) as (t & ET & EV).
    unfold set_solution. rewrite RD.
    destruct (descend (doc2 dom (d2_dx d) st u) cells_path no_elem) as [e| | |]; try discriminate.
    cbn [rbind] in *. rewrite ET. cbn [rbind]. rewrite EV. cbn [rbind nx ny nz Z.eqb].
    split; [|reflexivity].
    set (order := file_order2 (nx dom)).
    set (vals := map (value2 u) order).
    change (flat_map (fun j => map (fun i => (i, j)) (zrange 0 (nx dom))) (zrange 0 (nx dom))) with order.
    destruct (fill (fun p => let '(i, j) := p in slot2 dom' i j) (value2 u) vals
      (fun '(c, solidx) '(i, j) => rbind (of_opt (zget vals solidx)) (fun v =>
         rbind (of_opt (zset c (ix2 d' i j) v)) (fun c => Ok (c, solidx + 1))))) with (order := order) (c := c0)
      as (c1 & n & F & L & G1 & G2).
    - intros c n [i j]. rewrite (ix2_slot d' i j W), D. reflexivity.
    - reflexivity.
    - apply nodup_map_inj; [apply nodup_order2|]. intros [i j] [i' j'] A B C.
      apply file_order2_in in A. apply file_order2_in in B. destruct HV' as (? & ?).
      destruct (slot2_inj dom' i j i' j') as (-> & ->); auto; apply inside_padded2; auto; unfold inside2; lia.
    - intros [i j] A. apply file_order2_in in A. rewrite LC. apply slot2_range. destruct HV' as (? & ?).
      apply inside_padded2; auto; unfold inside2; lia.
    - rewrite F. cbn [rbind]. exists c1. split; auto. split; [|split; [auto|]].
      + split; [congruence|]. intros i j I. apply (G1 (i, j)). apply file_order2_in. unfold inside2 in I. lia.
      + intros i j P NI. symmetry. apply G2. intros HI. apply in_map_iff in HI as ([i' j'] & S & HI).
        apply file_order2_in in HI. destruct HV' as (? & ?).
        destruct (slot2_inj dom' i' j' i j) as (-> & ->); auto; [apply inside_padded2; auto; unfold inside2; lia|].
        apply NI. unfold inside2. lia.
  Qed.
End RoundTrip.
