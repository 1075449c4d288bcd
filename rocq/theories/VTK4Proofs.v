(** What the reader makes of files with other numbers of values than they should have. *)
From Coq Require Import ZArith List String Ascii Bool Lia ZifyBool.
From Verif Require Import Outcome ZList ZListProofs Num Kernel Gather ModelIndex ModelDisc3D ModelDisc2D SpecGrid Disc3DProofs Disc2DProofs
  Make3Proofs Make2Proofs ModelText TextProofs ModelVTK SpecVTK VTKProofs VTK2Proofs.
Import ListNotations.
Local Open Scope string_scope.
Local Open Scope list_scope.
Local Open Scope Z_scope.

Lemma gap_blank s : gap s -> blank_text blank s.
Proof.
  unfold gap, blank_text. induction s as [|c s IH]; intros H; cbn [every]; [exact I|]. split.
  - destruct (H O c eq_refl) as [->|[->| ->]]; reflexivity.
  - apply IH. intros n d E. exact (H (S n) d E).
Qed.
Lemma listing_words l s : listing l s -> words blank "" s = l.
Proof.
  induction 1 as [b B|b w B W|b w g l s B W G NG L IH].
  - rewrite <- (append_nil b), words_blank by (apply gap_blank; auto). reflexivity.
  - rewrite words_blank by (apply gap_blank; auto). apply words_last, word_solid, W.
  - rewrite words_blank by (apply gap_blank; auto). rewrite words_token; auto using word_solid, gap_blank. rewrite IH. reflexivity.
Qed.
Lemma listing_tokens l s : listing l s -> l <> [] -> tokens_of s = l /\ s <> "".
Proof.
  intros H NE. pose proof (listing_words l s H) as W. split; [rewrite tokens_words; congruence|].
  intros ->. cbn in W. congruence.
Qed.

(** The same for the separators of an attribute. *)
Lemma one_line_app a b : one_line (a ++ b) -> one_line a /\ one_line b.
Proof.
  induction a as [|c a IH]; cbn [append]; intros H.
  - split; [intros n E; destruct n; discriminate|exact H].
  - destruct IH as (A & B); [intros n E; exact (H (S n) E)|]. split; auto. intros [|n] E; [exact (H O E)|exact (A n E)].
Qed.
Lemma gap_blank_attr s : gap s -> one_line s -> blank_text blank_attr s.
Proof.
  unfold gap, blank_text. induction s as [|c s IH]; intros H O; cbn [every]; [exact I|]. split.
  - destruct (H 0%nat c eq_refl) as [->|[->| ->]]; [reflexivity|reflexivity|]. exfalso. exact (O 0%nat eq_refl).
  - apply IH; intros n; [intros d E; exact (H (S n) d E)|exact (O (S n))].
Qed.
Lemma word_solid_attr w : word w -> solid blank_attr w.
Proof.
  intros (NE & H). split; auto. clear NE. induction w as [|c w IH]; cbn [every]; [exact I|]. split.
  - destruct (H 0%nat c eq_refl) as (A & B & _). unfold blank_attr, any_of. cbn [list_ascii_of_string existsb]. rewrite !(proj2 (Ascii.eqb_neq _ _)) by (auto; congruence). reflexivity.
  - apply IH. intros n d E. exact (H (S n) d E).
Qed.
Lemma listing_words_attr l s : listing l s -> one_line s -> words blank_attr "" s = l.
Proof.
  induction 1 as [b B|b w B W|b w g l s B W G NG L IH]; intros O.
  - rewrite <- (append_nil b), words_blank by (apply gap_blank_attr; auto). reflexivity.
  - apply one_line_app in O as (O1 & O2). rewrite words_blank by (apply gap_blank_attr; auto). apply words_last, word_solid_attr, W.
  - apply one_line_app in O as (O1 & O2). apply one_line_app in O2 as (_ & O2). apply one_line_app in O2 as (O2 & O3).
    rewrite words_blank by (apply gap_blank_attr; auto). rewrite words_token; auto using word_solid_attr, gap_blank_attr. rewrite IH by auto. reflexivity.
Qed.
Lemma listing_tokens_attr l s : listing l s -> one_line s -> l <> [] -> tokens_of_attr (" " ++ s) = l.
Proof.
  intros H O NE. assert (W : words blank_attr "" (" " ++ s) = l).
  { rewrite words_blank; [exact (listing_words_attr l s H O)|]. split; [reflexivity|exact I]. }
  unfold tokens_of_attr. rewrite split_compress_words; [exact W|rewrite W; exact NE].
Qed.

Lemma mapM_readable {V} (read : string -> res V) l : readable read l -> exists vals, mapM read l = Ok vals /\ zlen vals = zlen l.
Proof.
  induction l as [|w l IH]; intros H; cbn [mapM].
  - exists []. split; reflexivity.
  - destruct (H w (or_introl eq_refl)) as (v & ->). destruct IH as (vals & -> & E); [intros x I; apply H; right; auto|].
    exists (v :: vals). split; [reflexivity|]. unfold zlen in *. cbn [List.length]. lia.
Qed.
Lemma mapM_bad {V} (read : string -> res V) l : first_bad read l -> mapM read l = Throw.
Proof.
  intros (p & w & q & -> & R & T). induction p as [|x p IH]; cbn [mapM List.app].
  - rewrite T. reflexivity.
  - destruct (R x (or_introl eq_refl)) as (v & ->). cbn [rbind]. rewrite IH by (intros y I; apply R; right; auto). reflexivity.
Qed.
Lemma mapM_forall2 {V} (read : string -> res V) l vals : Forall2 (fun w v => read w = Ok v) l vals -> mapM read l = Ok vals.
Proof. induction 1 as [|w v l vals E F IH]; cbn [mapM]; [reflexivity|]. rewrite E, IH. reflexivity. Qed.

Lemma forall2_zlen {A B} (R : A -> B -> Prop) l m : Forall2 R l m -> zlen l = zlen m.
Proof. unfold zlen. induction 1; cbn [List.length]; lia. Qed.

Lemma list3_ind {A} (P : list A -> Prop) : P [] -> (forall x, P [x]) -> (forall x y, P [x; y]) ->
  (forall x y z l, P l -> P (x :: y :: z :: l)) -> forall l, P l.
Proof.
  intros P0 P1 P2 P3. fix F 1. intros [|x [|y [|z l]]]; [exact P0|exact (P1 x)|exact (P2 x y)|exact (P3 x y z l (F l))].
Qed.
Lemma triples_cases {V} (l : list V) :
  if (zlen l mod 3 =? 0)%Z then exists xs ys zs, triples l = Ok (xs, ys, zs) /\ zlen xs = zlen l / 3 /\ zlen ys = zlen l / 3 /\ zlen zs = zlen l / 3
  else triples l = UB.
Proof.
  induction l as [|x|x y|x y z l IH] using list3_ind; try reflexivity.
  - exists [], [], []. repeat split; reflexivity.
  - assert (L : zlen (x :: y :: z :: l) = zlen l + 1 * 3) by (unfold zlen; cbn [List.length]; lia).
    rewrite L, Z.mod_add, Z.div_add by lia. destruct (zlen l mod 3 =? 0).
    + destruct IH as (xs & ys & zs & E & A & B & C). exists (x :: xs), (y :: ys), (z :: zs). cbn [triples]. rewrite E.
      split; [reflexivity|]. unfold zlen in *. cbn [List.length]. lia.
    + cbn [triples]. rewrite IH. reflexivity.
Qed.

Lemma vertices_bounds a b c : 0 <= a -> 0 <= b -> 0 <= c -> vertices a b c <= 2147483647 ->
  1 <= vertices a b c /\ a <= 2147483646 /\ b <= 2147483646 /\ c <= 2147483646.
Proof. intros A B C. unfold vertices. destruct (Z.eqb_spec c 0); nia. Qed.

Section Damage.
  Context {V : Type} `{N : Num V}.
  Variables (show6 : V -> string) (read : string -> res V).
  Notation document a b c st cells points := [vts_document show6 (extent_text a b c) st cells points].

  Lemma read_points a b c st cells points pts raw :
    0 <= a <= 2147483647 -> 0 <= b <= 2147483647 -> 0 <= c <= 2147483647 ->
    cells <> "" -> listing pts points -> pts <> [] ->
    read_domain read (document a b c st cells points) raw =
      if zlen pts / 3 =? vertices a b c then
        rbind (mapM read pts) (fun vals => rbind (triples vals) (fun '(xs, ys, zs) =>
          rbind (min_element xs) (fun x0 => rbind (max_element xs) (fun x1 => rbind (min_element ys) (fun y0 =>
          rbind (min_element zs) (fun z0 =>
          Ok ({| nx := a; ny := b; nz := c; xbeg := x0; xend := x1; ybeg := y0; yend := yend raw;
                 zbeg := z0; zend := zend raw; xbc := xbc raw; ybc := ybc raw; zbc := zbc raw; nhalo := nhalo raw |},
              if c =? 0 then 2 else 3)))))))
      else Fatal.
  Proof.
    intros HA HB HC NC LP NT. destruct (listing_tokens pts points LP NT) as (TP & NP).
    assert (GC : get_text (Elem "DataArray" [("type", "Float64"); ("Name", "c"); ("format", "ascii")]%string cells []) = Ok cells)
      by (destruct cells; [congruence|reflexivity]).
    assert (GP : get_text (Elem "DataArray" [("type", "Float64"); ("Name", "Points"); ("NumberOfComponents", "3"); ("format", "ascii")]%string points []) = Ok points)
      by (destruct points; [congruence|reflexivity]).
    unfold read_domain.
    change (descend (document a b c st cells points) piece_path no_elem) with
      (Ok (Elem "Piece" [("Extent"%string, " " ++ extent_text a b c)%string] "" [
          Elem "PointData" [] "" [];
          Elem "CellData" [] "" [
            Elem "DataArray" [("type", "Float64"); ("Name", "c"); ("format", "ascii")]%string cells []];
          Elem "Points" [] "" [
            Elem "DataArray" [("type", "Float64"); ("Name", "Points"); ("NumberOfComponents", "3"); ("format", "ascii")]%string
              points []]])).
    change (descend (document a b c st cells points) cells_path no_elem) with
      (Ok (Elem "DataArray" [("type", "Float64"); ("Name", "c"); ("format", "ascii")]%string cells [])).
    change (descend (document a b c st cells points) points_path no_elem) with
      (Ok (Elem "DataArray" [("type", "Float64"); ("Name", "Points"); ("NumberOfComponents", "3"); ("format", "ascii")]%string points [])).
    cbn [rbind]. rewrite GC, GP. cbn [rbind].
    unfold first_attribute. cbn [elem_attrs rbind]. rewrite extent_tokens by lia.
    change (token ["0"; dec a; "0"; dec b; "0"; dec c]%string 0) with (Ok "0"%string).
    change (token ["0"; dec a; "0"; dec b; "0"; dec c]%string 1) with (Ok (dec a)).
    change (token ["0"; dec a; "0"; dec b; "0"; dec c]%string 2) with (Ok "0"%string).
    change (token ["0"; dec a; "0"; dec b; "0"; dec c]%string 3) with (Ok (dec b)).
    change (token ["0"; dec a; "0"; dec b; "0"; dec c]%string 4) with (Ok "0"%string).
    change (token ["0"; dec a; "0"; dec b; "0"; dec c]%string 5) with (Ok (dec c)).
    cbn [rbind]. change (lexical_int "0") with (Ok 0). cbn [rbind].
    rewrite (lexical_dec a HA), (lexical_dec b HB), (lexical_dec c HC). cbn [rbind negb Z.eqb].
    rewrite TP. unfold vertices. destruct (Z.eqb_spec c 0) as [->|NZ].
    - cbn [Z.eqb Pos.eqb andb]. destruct (_ =? _); reflexivity.
    - change (3 =? 2) with false. change (3 =? 3) with true. cbn [andb]. destruct (_ =? _); reflexivity.
  Qed.

  Lemma read_empty a b c st cells points raw :
    0 <= a <= 2147483647 -> 0 <= b <= 2147483647 -> 0 <= c <= 2147483647 -> cells = "" \/ points = "" ->
    read_domain read (document a b c st cells points) raw = UB.
  Proof.
    intros HA HB HC E. unfold read_domain.
    change (descend (document a b c st cells points) piece_path no_elem) with
      (Ok (Elem "Piece" [("Extent"%string, " " ++ extent_text a b c)%string] "" [
          Elem "PointData" [] "" [];
          Elem "CellData" [] "" [
            Elem "DataArray" [("type", "Float64"); ("Name", "c"); ("format", "ascii")]%string cells []];
          Elem "Points" [] "" [
            Elem "DataArray" [("type", "Float64"); ("Name", "Points"); ("NumberOfComponents", "3"); ("format", "ascii")]%string
              points []]])).
    change (descend (document a b c st cells points) cells_path no_elem) with
      (Ok (Elem "DataArray" [("type", "Float64"); ("Name", "c"); ("format", "ascii")]%string cells [])).
    change (descend (document a b c st cells points) points_path no_elem) with
      (Ok (Elem "DataArray" [("type", "Float64"); ("Name", "Points"); ("NumberOfComponents", "3"); ("format", "ascii")]%string points [])).
    unfold first_attribute. cbn [elem_attrs rbind]. rewrite extent_tokens by lia.
    change (token ["0"; dec a; "0"; dec b; "0"; dec c]%string 0) with (Ok "0"%string).
    change (token ["0"; dec a; "0"; dec b; "0"; dec c]%string 1) with (Ok (dec a)).
    change (token ["0"; dec a; "0"; dec b; "0"; dec c]%string 2) with (Ok "0"%string).
    change (token ["0"; dec a; "0"; dec b; "0"; dec c]%string 3) with (Ok (dec b)).
    change (token ["0"; dec a; "0"; dec b; "0"; dec c]%string 4) with (Ok "0"%string).
    change (token ["0"; dec a; "0"; dec b; "0"; dec c]%string 5) with (Ok (dec c)).
    cbn [rbind]. change (lexical_int "0") with (Ok 0). cbn [rbind].
    rewrite (lexical_dec a HA), (lexical_dec b HB), (lexical_dec c HC). cbn [rbind negb Z.eqb].
    unfold get_text. cbn [rbind]. destruct E as [-> | ->]; destruct (c =? 0); try reflexivity; destruct cells; reflexivity.
  Qed.

  Lemma read_points_ok a b c st cells points pts raw :
    0 <= a <= 2147483647 -> 0 <= b <= 2147483647 -> 0 <= c <= 2147483647 ->
    cells <> "" -> listing pts points -> zlen pts = 3 * vertices a b c -> readable read pts ->
    exists dom, read_domain read (document a b c st cells points) raw = Ok (dom, if c =? 0 then 2 else 3) /\
      nx dom = a /\ ny dom = b /\ nz dom = c.
  Proof.
    intros HA HB HC NC LP LN R.
    assert (VP : 1 <= vertices a b c) by (unfold vertices; destruct (c =? 0); nia).
    assert (NT : pts <> []) by (intros ->; change (zlen (@nil string)) with 0 in LN; lia).
    rewrite (read_points a b c st cells points pts raw) by auto. rewrite LN, Z.mul_comm, Z.div_mul, Z.eqb_refl by lia.
    destruct (mapM_readable read pts R) as (vals & -> & LV). cbn [rbind].
    pose proof (triples_cases vals) as T. rewrite LV, LN, Z.mul_comm, Z.mod_mul, Z.div_mul in T by lia. cbn [Z.eqb] in T.
    destruct T as (xs & ys & zs & -> & X & Y & Z). cbn [rbind].
    assert (NE : forall l : list V, zlen l = vertices a b c -> l <> []) by (intros l E ->; change (zlen (@nil V)) with 0 in E; lia).
    destruct (min_element_ok xs (NE _ X)) as (x0 & -> & _). destruct (max_element_ok xs (NE _ X)) as (x1 & -> & _).
    destruct (min_element_ok ys (NE _ Y)) as (y0 & -> & _). destruct (min_element_ok zs (NE _ Z)) as (z0 & -> & _).
    cbn [rbind]. eexists. split; [reflexivity|]. split; [reflexivity|split; reflexivity].
  Qed.

  (** Other extents. *)
  Lemma extent_stops ext ws st cells points raw m r : tokens_of_attr (" " ++ ext) = ws -> 0 <= m < 6 ->
    (forall i, 0 <= i < m -> exists w v, token ws i = Ok w /\ lexical_int w = Ok v) ->
    (token ws m = UB /\ r = UB \/ exists w, token ws m = Ok w /\ lexical_int w = Throw /\ r = Throw) ->
    read_domain read [vts_document show6 ext st cells points] raw = r.
  Proof.
    intros T Hm P Q. unfold read_domain.
    change (descend [vts_document show6 ext st cells points] piece_path no_elem) with
      (Ok (Elem "Piece" [("Extent"%string, " " ++ ext)%string] "" [
          Elem "PointData" [] "" [];
          Elem "CellData" [] "" [
            Elem "DataArray" [("type", "Float64"); ("Name", "c"); ("format", "ascii")]%string cells []];
          Elem "Points" [] "" [
            Elem "DataArray" [("type", "Float64"); ("Name", "Points"); ("NumberOfComponents", "3"); ("format", "ascii")]%string
              points []]])).
    unfold first_attribute. cbn [elem_attrs rbind]. rewrite T. clear T.
    assert (C : m = 0 \/ m = 1 \/ m = 2 \/ m = 3 \/ m = 4 \/ m = 5) by lia.
    destruct C as [->|[->|[->|[->|[->| ->]]]]];
      repeat match goal with
      | |- rbind (token ws ?k) _ = _ =>
          first [destruct (P k) as (? & ? & -> & E); [lia|]; cbn [rbind]; rewrite E; clear E; cbn [rbind]
                |destruct Q as [(-> & ->)|(? & -> & E & ->)]; [reflexivity|cbn [rbind]; rewrite E; reflexivity]]
      end.
  Qed.
  Lemma token_get ws i w : zget ws i = Some w -> token ws i = Ok w.
  Proof. unfold token. intros ->. reflexivity. Qed.

  Lemma read_extent ext ws st cells points raw : listing ws ext -> one_line ext -> ws <> [] ->
    let out := read_domain read [vts_document show6 ext st cells points] raw in
    (zlen ws < 6 -> readable lexical_int ws -> out = UB) /\
    (first_bad lexical_int (firstn 6 ws) -> out = Throw) /\
    (forall a b c d e f x0 x1 y0 y1 z0 z1 rest, ws = a :: b :: c :: d :: e :: f :: rest ->
       lexical_int a = Ok x0 -> lexical_int b = Ok x1 -> lexical_int c = Ok y0 -> lexical_int d = Ok y1 ->
       lexical_int e = Ok z0 -> lexical_int f = Ok z1 -> ~ (x0 = 0 /\ y0 = 0 /\ z0 = 0) -> out = Fatal).
  Proof.
    intros L O NE out. pose proof (listing_tokens_attr ws ext L O NE) as T. subst out. split; [|split].
    - intros S R. apply (extent_stops ext ws st cells points raw (zlen ws) UB T); [unfold zlen in *; lia| |].
      + intros i I. destruct (zget ws i) as [w|] eqn:G.
        * unfold zget in G. destruct (i <? 0) eqn:?; [discriminate|]. destruct (R w (nth_error_In _ _ G)) as (v & E).
          exists w, v. split; auto. apply token_get. unfold zget. rewrite Heqb. exact G.
        * exfalso. unfold zget in G. destruct (Z.ltb_spec i 0); [lia|]. apply nth_error_None in G. unfold zlen in I. lia.
      + left. unfold token, zget. destruct (Z.ltb_spec (zlen ws) 0); [split; reflexivity|].
        rewrite (proj2 (nth_error_None ws _)) by (unfold zlen; lia). split; reflexivity.
    - intros (p & w & q & F & R & B).
      assert (LP : (List.length p < 6)%nat).
      { pose proof (firstn_le_length 6 ws) as Q. rewrite F, app_length in Q. cbn [List.length] in Q. lia. }
      assert (EW : ws = p ++ (w :: q) ++ skipn 6 ws) by (rewrite app_assoc, <- F; symmetry; apply firstn_skipn).
      apply (extent_stops ext ws st cells points raw (zlen p) Throw T); [unfold zlen; lia| |].
      + intros i I. destruct (nth_error p (Z.to_nat i)) as [x|] eqn:G.
        * destruct (R x (nth_error_In _ _ G)) as (v & E). exists x, v. split; auto. apply token_get.
          unfold zget. destruct (Z.ltb_spec i 0); [lia|]. rewrite EW, nth_error_app1; auto. apply nth_error_Some. congruence.
        * exfalso. apply nth_error_None in G. unfold zlen in I. lia.
      + right. exists w. split; [|split; auto]. apply token_get. unfold zget. destruct (Z.ltb_spec (zlen p) 0); [unfold zlen in *; lia|].
        rewrite EW, nth_error_app2 by (unfold zlen; lia). replace (Z.to_nat (zlen p) - List.length p)%nat with 0%nat by (unfold zlen; lia). reflexivity.
    - intros a b c d e f x0 x1 y0 y1 z0 z1 rest -> E0 E1 E2 E3 E4 E5 NZ. unfold read_domain.
      change (descend [vts_document show6 ext st cells points] piece_path no_elem) with
      (Ok (Elem "Piece" [("Extent"%string, " " ++ ext)%string] "" [
          Elem "PointData" [] "" [];
          Elem "CellData" [] "" [
            Elem "DataArray" [("type", "Float64"); ("Name", "c"); ("format", "ascii")]%string cells []];
          Elem "Points" [] "" [
            Elem "DataArray" [("type", "Float64"); ("Name", "Points"); ("NumberOfComponents", "3"); ("format", "ascii")]%string
              points []]])).
      unfold first_attribute. cbn [elem_attrs rbind]. rewrite T.
      set (l := a :: b :: c :: d :: e :: f :: rest).
      change (token l 0) with (Ok a). change (token l 1) with (Ok b). change (token l 2) with (Ok c).
      change (token l 3) with (Ok d). change (token l 4) with (Ok e). change (token l 5) with (Ok f). cbn [rbind].
      rewrite E0. cbn [rbind]. rewrite E1. cbn [rbind]. rewrite E2. cbn [rbind]. rewrite E3. cbn [rbind]. rewrite E4. cbn [rbind].
      rewrite E5. cbn [rbind]. destruct (Z.eqb_spec x0 0) as [->|]; [|reflexivity]. destruct (Z.eqb_spec y0 0) as [->|]; [|reflexivity].
      destruct (Z.eqb_spec z0 0) as [->|]; [|reflexivity]. exfalso. apply NZ. repeat split.
  Qed.
End Damage.

(** ** Filling cells from a list of another length *)
Section FillAny.
  Context {V K : Type}.
  Variables (sl : K -> Z) (vals : list V) (F : list V * Z -> K -> res (list V * Z)).
  Hypothesis HF : forall c n k, F (c, n) k =
    rbind (of_opt (zget vals n)) (fun v => rbind (of_opt (zset c (sl k) v)) (fun c' => Ok (c', n + 1))).

  Lemma zget_none {A} (l : list A) i : zlen l <= i -> zget l i = None.
  Proof.
    unfold zlen, zget. intros H. destruct (Z.ltb_spec i 0); [reflexivity|]. apply nth_error_None. lia.
  Qed.

  Lemma fill_short : forall order n c, 0 <= n -> (forall k, In k order -> 0 <= sl k < zlen c) ->
    n <= zlen vals < n + zlen order -> foldM F order (c, n) = UB.
  Proof.
    induction order as [|k order IH]; intros n c Hn HR H.
    - unfold zlen in *. cbn [List.length] in H. lia.
    - cbn [foldM]. rewrite HF. destruct (Z.eq_dec n (zlen vals)) as [E|E].
      + rewrite zget_none by lia. reflexivity.
      + destruct (zget vals n) as [v|] eqn:G.
        2:{ exfalso. unfold zget in G. destruct (Z.ltb_spec n 0); [lia|]. apply nth_error_None in G. unfold zlen in *. lia. }
        cbn [of_opt rbind].
        destruct (zset c (sl k) v) as [c1|] eqn:E1; [|rewrite zset_some in E1 by (apply HR; left; auto); discriminate].
        cbn [of_opt rbind]. apply IH; [lia| |].
        * intros k' I. rewrite (zlen_zset _ _ _ _ E1). apply HR. right; auto.
        * unfold zlen in *. cbn [List.length] in H. lia.
  Qed.

  Lemma fill_enough : forall order n c, 0 <= n -> NoDup (map sl order) -> (forall k, In k order -> 0 <= sl k < zlen c) ->
    n + zlen order <= zlen vals ->
    exists c', foldM F order (c, n) = Ok (c', n + zlen order) /\ zlen c' = zlen c /\
      (forall m k, zget order m = Some k -> zget c' (sl k) = zget vals (n + m)) /\
      (forall q, ~ In q (map sl order) -> zget c' q = zget c q).
  Proof.
    induction order as [|k order IH]; intros n c Hn ND HR H.
    - exists c. cbn [foldM]. split; [f_equal; f_equal; unfold zlen; cbn; lia|]. split; auto. split; [|auto].
      intros m k E. unfold zget in E. destruct (m <? 0); [discriminate|]. destruct (Z.to_nat m); discriminate.
    - cbn [map] in *. apply NoDup_cons_iff in ND as (NI & ND'). cbn [foldM]. rewrite HF.
      destruct (zget vals n) as [v|] eqn:G.
      2:{ exfalso. unfold zget in G. destruct (Z.ltb_spec n 0); [lia|]. apply nth_error_None in G. unfold zlen in *. cbn [List.length] in H. lia. }
      cbn [of_opt rbind].
      destruct (zset c (sl k) v) as [c1|] eqn:E1; [|rewrite zset_some in E1 by (apply HR; left; auto); discriminate].
      cbn [of_opt rbind]. destruct (IH (n + 1) c1) as (c' & E & L & G1 & G2); auto.
      { lia. }
      { intros k' I. rewrite (zlen_zset _ _ _ _ E1). apply HR. right; auto. }
      { unfold zlen in *. cbn [List.length] in H. lia. }
      exists c'. split; [rewrite E; f_equal; f_equal; unfold zlen; cbn [List.length]; lia|].
      split; [rewrite L; apply (zlen_zset _ _ _ _ E1)|]. split.
      + intros m k' E'. unfold zget in E'. destruct (Z.ltb_spec m 0); [discriminate|].
        destruct (Z.to_nat m) as [|m'] eqn:EM.
        * injection E' as <-. rewrite G2 by auto. replace (n + m) with n by lia. rewrite G. exact (zget_zset_same _ _ _ _ E1).
        * rewrite (G1 (m - 1) k').
          -- f_equal. lia.
          -- unfold zget. destruct (Z.ltb_spec (m - 1) 0); [lia|]. replace (Z.to_nat (m - 1)) with m' by lia. exact E'.
      + intros q NQ. rewrite G2 by (intros ?; apply NQ; right; auto).
        apply (zget_zset_other _ _ _ _ _ E1). intros EQ. apply NQ. left; exact EQ.
  Qed.
End FillAny.

(** The place of a cell in the order of the file. *)
Lemma zget_app_l {A} (l r : list A) i : i < zlen l -> zget (l ++ r) i = zget l i.
Proof. unfold zlen, zget. intros H. destruct (Z.ltb_spec i 0); [reflexivity|]. apply nth_error_app1. lia. Qed.
Lemma zget_app_r {A} (l r : list A) i : zlen l <= i -> zget (l ++ r) i = zget r (i - zlen l).
Proof.
  unfold zlen, zget. intros H. destruct (Z.ltb_spec i 0); [lia|]. destruct (Z.ltb_spec (i - Z.of_nat (List.length l)) 0); [lia|].
  rewrite nth_error_app2 by lia. f_equal. lia.
Qed.
Lemma zget_flat {A B} (f : A -> list B) m : forall l q r a, (forall x, In x l -> zlen (f x) = m) -> 0 <= r < m ->
  zget l q = Some a -> zget (flat_map f l) (q * m + r) = zget (f a) r.
Proof.
  induction l as [|x l IH]; intros q r a HL Hr E.
  - unfold zget in E. destruct (q <? 0); [discriminate|]. destruct (Z.to_nat q); discriminate.
  - cbn [flat_map]. pose proof (HL x (or_introl eq_refl)) as LX. unfold zget in E. destruct (Z.ltb_spec q 0) as [?|Q]; [discriminate|].
    destruct (Z.to_nat q) as [|q'] eqn:EQ.
    + injection E as ->. assert (q = 0) as -> by lia. rewrite Z.mul_0_l, Z.add_0_l. apply zget_app_l. lia.
    + rewrite zget_app_r by nia. replace (q * m + r - zlen (f x)) with ((q - 1) * m + r) by lia.
      apply IH; [intros y I; apply HL; right; auto|lia|]. unfold zget. destruct (Z.ltb_spec (q - 1) 0); [lia|].
      replace (Z.to_nat (q - 1)) with q' by lia. exact E.
Qed.
Lemma zget_map {A B} (f : A -> B) l i : zget (map f l) i = option_map f (zget l i).
Proof. unfold zget. destruct (i <? 0); [reflexivity|]. apply nth_error_map. Qed.
Lemma zlen_map {A B} (f : A -> B) l : zlen (map f l) = zlen l.
Proof. unfold zlen. rewrite map_length. reflexivity. Qed.

Lemma row_get {B} (f : Z -> B) n i : 0 <= i < n -> zget (map f (zrange 0 n)) i = Some (f i).
Proof. intros H. rewrite zget_map, zget_zrange by lia. reflexivity. Qed.
Lemma plane_get {B} (f : Z -> Z -> B) a b i j : 0 <= i < a -> 0 <= j < b ->
  zget (flat_map (fun j => map (fun i => f i j) (zrange 0 a)) (zrange 0 b)) (j * a + i) = Some (f i j).
Proof.
  intros Hi Hj. rewrite (zget_flat _ a _ j i j); [apply (row_get (fun i => f i j)); lia| |lia|rewrite zget_zrange by lia; reflexivity].
  intros x _. rewrite zlen_map, zlen_zrange. lia.
Qed.
Lemma order3_get a b c i j k : 0 <= i < a -> 0 <= j < b -> 0 <= k < c ->
  zget (file_order3 a b c) (k * (b * a) + (j * a + i)) = Some (i, j, k).
Proof.
  intros Hi Hj Hk. unfold file_order3. rewrite (zget_flat _ (b * a) _ k (j * a + i) k).
  - apply (plane_get (fun i j => (i, j, k))); lia.
  - intros x _. rewrite (zlen_flat_const _ a); [rewrite zlen_zrange; lia|]. intros y _. rewrite zlen_map, zlen_zrange. lia.
  - nia.
  - rewrite zget_zrange by lia. reflexivity.
Qed.

Section Values.
  Context {V : Type} `{N : Num V}.
  Variables (show6 : V -> string) (read : string -> res V).
  Notation document a b c st cells points := [vts_document show6 (extent_text a b c) st cells points].

  Lemma solution_tokens a b c st cells points vs raw (t : target V) : listing vs cells -> vs <> [] ->
    set_solution read (document a b c st cells points) raw t =
    rbind (mapM read vs) (fun solution => rbind (read_domain read (document a b c st cells points) raw) (fun '(dom, _) =>
      if nz dom =? 0 then
        match t with
        | Target2 d c =>
            rbind (foldM (fun '(c, solidx) '(i, j) =>
                         rbind (of_opt (zget solution solidx)) (fun v =>
                         rbind (of_opt (zset c (ix2 d i j) v)) (fun c => Ok (c, solidx + 1))))
                      (flat_map (fun j => map (fun i => (i, j)) (zrange 0 (nx dom))) (zrange 0 (ny dom))) (c, 0)) (fun '(c, _) =>
            Ok (Target2 d c))
        | Target3 _ _ => Throw
        end
      else
        match t with
        | Target2 _ _ => Throw
        | Target3 d c =>
            rbind (foldM (fun '(c, solidx) '(i, j, k) =>
                         rbind (of_opt (zget solution solidx)) (fun v =>
                         rbind (of_opt (zset c (ix3 d i j k) v)) (fun c => Ok (c, solidx + 1))))
                      (file_order3 (nx dom) (ny dom) (nz dom)) (c, 0)) (fun '(c, _) =>
            Ok (Target3 d c))
        end)).
  Proof.
    intros L NE. destruct (listing_tokens vs cells L NE) as (T & NC).
    unfold set_solution.
    change (descend (document a b c st cells points) cells_path no_elem) with
      (Ok (Elem "DataArray" [("type", "Float64"); ("Name", "c"); ("format", "ascii")]%string cells [])).
    assert (GC : get_text (Elem "DataArray" [("type", "Float64"); ("Name", "c"); ("format", "ascii")]%string cells []) = Ok cells)
      by (destruct cells; [congruence|reflexivity]).
    cbn [rbind]. rewrite GC. cbn [rbind]. rewrite T. reflexivity.
  Qed.

  Lemma solution_bad a b c st cells points vs raw (t : target V) : listing vs cells -> first_bad read vs ->
    set_solution read (document a b c st cells points) raw t = Throw.
  Proof.
    intros L B. rewrite (solution_tokens a b c st cells points vs raw t) by (auto; destruct B as (p & w & q & -> & _); destruct p; discriminate).
    rewrite mapM_bad by exact B. reflexivity.
  Qed.

  Lemma values3 (dom : domain V) d st cells points vs vals pts raw c0 :
    valid_domain3 dom -> make3 dom = Ok d -> zlen c0 = cells3 dom ->
    vertices (nx dom) (ny dom) (nz dom) <= 2147483647 ->
    listing pts points -> zlen pts = 3 * vertices (nx dom) (ny dom) (nz dom) -> readable read pts ->
    listing vs cells -> vs <> [] -> Forall2 (fun w v => read w = Ok v) vs vals ->
    let out := set_solution read (document (nx dom) (ny dom) (nz dom) st cells points) raw (Target3 d c0) in
    (zlen vs < nx dom * ny dom * nz dom -> out = UB) /\
    (nx dom * ny dom * nz dom <= zlen vs -> exists c1, out = Ok (Target3 d c1) /\
       (forall u, (forall i j k, inside3 dom i j k -> zget vals (i + nx dom * (j + ny dom * k)) = Some (u i j k)) -> holds_inside3 dom c1 u) /\
       same_halo3 dom c0 c1).
  Proof.
    intros HV E LC VB LP LN RP LV NE RV out. pose proof HV as (H1 & H2 & H3 & Hh).
    destruct (vertices_bounds (nx dom) (ny dom) (nz dom)) as (V1 & B1 & B2 & B3); try lia.
    destruct (make3_inv dom d HV E) as (W & D).
    assert (LVV : zlen vs = zlen vals) by (exact (forall2_zlen _ _ _ RV)).
    destruct (listing_tokens vs cells LV NE) as (_ & NC).
    destruct (read_points_ok show6 read (nx dom) (ny dom) (nz dom) st cells points pts raw) as (dr & RD & N1 & N2 & N3); try assumption; try lia.
    unfold out. rewrite (solution_tokens _ _ _ st cells points vs raw) by assumption.
    rewrite (mapM_forall2 read vs vals RV), RD. cbn [rbind]. rewrite N1, N2, N3.
    destruct (Z.eqb_spec (nz dom) 0) as [?|_]; [lia|].
    set (order := file_order3 (nx dom) (ny dom) (nz dom)).
    assert (LO : zlen order = nx dom * ny dom * nz dom) by (apply zlen_order3; lia).
    assert (RG : forall k, In k order -> 0 <= (let '(i, j, k) := k in slot3 dom i j k) < zlen c0).
    { intros [[i j] k] A. apply file_order3_in in A. rewrite LC. apply slot3_range. apply inside_padded3; auto; unfold inside3; lia. }
    assert (HF : forall c n k, (fun '(c, solidx) '(i, j, k) =>
         rbind (of_opt (zget vals solidx)) (fun v => rbind (of_opt (zset c (ix3 d i j k) v)) (fun c => Ok (c, solidx + 1)))) (c, n) k =
       rbind (of_opt (zget vals n)) (fun v => rbind (of_opt (zset c (let '(i, j, k) := k in slot3 dom i j k) v)) (fun c' => Ok (c', n + 1)))).
    { intros c n [[i j] k]. rewrite (ix3_slot d i j k W), D. reflexivity. }
    split; intros LL.
    - rewrite (fill_short _ vals _ HF order 0 c0); [reflexivity|lia|exact RG|]. rewrite <- LVV. unfold zlen in *. lia.
    - destruct (fill_enough _ vals _ HF order 0 c0) as (c1 & F & L & G1 & G2); [lia| |exact RG|lia|].
      { apply nodup_map_inj; [apply nodup_order3|]. intros [[i j] k] [[i' j'] k'] A B C.
        apply file_order3_in in A. apply file_order3_in in B.
        destruct (slot3_inj dom i j k i' j' k') as (-> & -> & ->); auto; apply inside_padded3; auto; unfold inside3; lia. }
      rewrite F. cbn [rbind]. exists c1. split; [reflexivity|]. split; [|split; [auto|]].
      + intros u HU. split; [congruence|]. intros i j k I. rewrite <- (HU i j k I). unfold inside3 in I.
        rewrite (G1 (k * (ny dom * nx dom) + (j * nx dom + i)) (i, j, k)) by (apply order3_get; lia). f_equal. ring.
      + intros i j k P NI. symmetry. apply G2. intros HI. apply in_map_iff in HI as ([[i' j'] k'] & S & HI).
        apply file_order3_in in HI.
        assert (PI : padded3 dom i' j' k') by (apply inside_padded3; auto; unfold inside3; lia).
        destruct (slot3_inj dom i' j' k' i j k PI P S) as (Q1 & Q2 & Q3). apply NI. unfold inside3. lia.
  Qed.

  Lemma values2 (dom : domain V) d st cells points vs vals pts raw c0 :
    valid_domain2 dom -> make2 dom = Ok d -> zlen c0 = cells2 dom ->
    vertices (nx dom) (nx dom) 0 <= 2147483647 ->
    listing pts points -> zlen pts = 3 * vertices (nx dom) (nx dom) 0 -> readable read pts ->
    listing vs cells -> vs <> [] -> Forall2 (fun w v => read w = Ok v) vs vals ->
    let out := set_solution read (document (nx dom) (nx dom) 0 st cells points) raw (Target2 d c0) in
    (zlen vs < nx dom * nx dom -> out = UB) /\
    (nx dom * nx dom <= zlen vs -> exists c1, out = Ok (Target2 d c1) /\
       (forall u, (forall i j, inside2 dom i j -> zget vals (i + nx dom * j) = Some (u i j)) -> holds_inside2 dom c1 u) /\
       same_halo2 dom c0 c1).
  Proof.
    intros HV E LC VB LP LN RP LV NE RV out. pose proof HV as (H1 & Hh).
    destruct (vertices_bounds (nx dom) (nx dom) 0) as (V1 & B1 & B2 & B3); try lia.
    destruct (make2_inv dom d HV E) as (W & D).
    assert (LVV : zlen vs = zlen vals) by (exact (forall2_zlen _ _ _ RV)).
    destruct (listing_tokens vs cells LV NE) as (_ & NC).
    destruct (read_points_ok show6 read (nx dom) (nx dom) 0 st cells points pts raw) as (dr & RD & N1 & N2 & N3); try assumption; try lia.
    unfold out. rewrite (solution_tokens _ _ _ st cells points vs raw) by assumption.
    rewrite (mapM_forall2 read vs vals RV), RD. cbn [rbind]. rewrite N1, N2, N3. cbn [Z.eqb].
    set (order := flat_map (fun j => map (fun i => (i, j)) (zrange 0 (nx dom))) (zrange 0 (nx dom))).
    change order with (file_order2 (nx dom)) in *. clear order. set (order := file_order2 (nx dom)).
    assert (LO : zlen order = nx dom * nx dom) by (apply zlen_order2; lia).
    assert (RG : forall k, In k order -> 0 <= (let '(i, j) := k in slot2 dom i j) < zlen c0).
    { intros [i j] A. apply file_order2_in in A. rewrite LC. apply slot2_range. apply inside_padded2; auto; unfold inside2; lia. }
    assert (HF : forall c n k, (fun '(c, solidx) '(i, j) =>
         rbind (of_opt (zget vals solidx)) (fun v => rbind (of_opt (zset c (ix2 d i j) v)) (fun c => Ok (c, solidx + 1)))) (c, n) k =
       rbind (of_opt (zget vals n)) (fun v => rbind (of_opt (zset c (let '(i, j) := k in slot2 dom i j) v)) (fun c' => Ok (c', n + 1)))).
    { intros c n [i j]. rewrite (ix2_slot d i j W), D. reflexivity. }
    split; intros LL.
    - rewrite (fill_short _ vals _ HF order 0 c0); [reflexivity|lia|exact RG|]. rewrite <- LVV. unfold zlen in *. lia.
    - destruct (fill_enough _ vals _ HF order 0 c0) as (c1 & F & L & G1 & G2); [lia| |exact RG|lia|].
      { apply nodup_map_inj; [apply nodup_order2|]. intros [i j] [i' j'] A B C.
        apply file_order2_in in A. apply file_order2_in in B.
        destruct (slot2_inj dom i j i' j') as (-> & ->); auto; apply inside_padded2; auto; unfold inside2; lia. }
      rewrite F. cbn [rbind]. exists c1. split; [reflexivity|]. split; [|split; [auto|]].
      + intros u HU. split; [congruence|]. intros i j I. rewrite <- (HU i j I). unfold inside2 in I.
        rewrite (G1 (j * nx dom + i) (i, j)) by (apply (plane_get (fun i j => (i, j))); lia). f_equal. ring.
      + intros i j P NI. symmetry. apply G2. intros HI. apply in_map_iff in HI as ([i' j'] & S & HI).
        apply file_order2_in in HI.
        assert (PI : padded2 dom i' j') by (apply inside_padded2; auto; unfold inside2; lia).
        destruct (slot2_inj dom i' j' i j PI P S) as (Q1 & Q2). apply NI. unfold inside2. lia.
  Qed.

  (** A file without field data. *)
  Lemma no_field_data attrs text rest sg_attrs sg_text kids (o : restart V) :
    (forall e, In e kids -> elem_name e <> "FieldData") ->
    set_initial_time_step read [Elem "VTKFile" attrs text (Elem "StructuredGrid" sg_attrs sg_text kids :: rest)] o = Ok o.
  Proof.
    intros H. unfold set_initial_time_step.
    change (descend [Elem "VTKFile" attrs text (Elem "StructuredGrid" sg_attrs sg_text kids :: rest)] field_path no_elem)
      with (Ok (Elem "StructuredGrid" sg_attrs sg_text kids)).
    cbn [rbind elem_kids].
    replace (first_child "FieldData" kids) with (@None xml); [reflexivity|]. symmetry. unfold first_child.
    destruct (find _ kids) as [e|] eqn:E; [|reflexivity]. exfalso. apply find_some in E as (I & E).
    apply String.eqb_eq in E. apply (H e I). congruence.
  Qed.
End Values.
