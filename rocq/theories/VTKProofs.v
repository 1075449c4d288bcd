(** Proofs about writing and reading solution files. *)
From Coq Require Import ZArith List String Ascii Bool Lia ZifyBool.
From Verif Require Import Outcome ZList ZListProofs Num Kernel Gather ModelIndex ModelDisc3D ModelDisc2D SpecGrid
  Disc3DProofs Disc2DProofs Make3Proofs Make2Proofs CHProofs ModelText TextProofs ModelVTK SpecVTK.
Import ListNotations.
Local Open Scope string_scope.
Local Open Scope list_scope.
Local Open Scope Z_scope.

(** ** Tokens *)
Lemma word_solid s : word s -> solid blank s.
Proof.
  intros (NE & H). split; auto. clear NE. induction s as [|c s IH]; cbn [every]; auto. split.
  - destruct (H 0%nat c eq_refl) as (A & B & C).
    destruct c as [[] [] [] [] [] [] [] []]; try reflexivity; congruence.
  - apply IH. intros n d E. apply (H (S n) d). exact E.
Qed.

Lemma digit_not_blank c : is_digit c -> blank c = false.
Proof. intros (v & E). destruct c as [[] [] [] [] [] [] [] []]; first [reflexivity|discriminate E]. Qed.
Lemma digit_not_blank_attr c : is_digit c -> blank_attr c = false.
Proof. intros (v & E). destruct c as [[] [] [] [] [] [] [] []]; first [reflexivity|discriminate E]. Qed.

Lemma dec_solid n : 0 <= n -> solid blank (dec n).
Proof.
  intros H. destruct (dec_spec n H) as (NE & _). split; auto. apply (every_impl is_digit); [apply digit_not_blank|].
  apply dec_every; auto.
Qed.
Lemma dec_solid_attr n : 0 <= n -> solid blank_attr (dec n).
Proof.
  intros H. destruct (dec_spec n H) as (NE & _). split; auto. apply (every_impl is_digit); [apply digit_not_blank_attr|].
  apply dec_every; auto.
Qed.

Lemma tokens_words s : words blank "" s <> [] -> tokens_of s = words blank "" s.
Proof. intros. apply split_compress_words; auto. Qed.

Lemma extent_words a b c : 0 <= a -> 0 <= b -> 0 <= c ->
  words blank_attr "" (" " ++ extent_text a b c)%string = ["0"; dec a; "0"; dec b; "0"; dec c]%string.
Proof.
  intros A B C. unfold extent_text.
  rewrite words_blank by (split; [reflexivity|exact I]).
  change ("0 " ++ dec a ++ " 0 " ++ dec b ++ " 0 " ++ dec c)%string
    with ("0" ++ " " ++ (dec a ++ " " ++ "0" ++ " " ++ (dec b ++ " " ++ "0" ++ " " ++ dec c)))%string.
  assert (Z0 : solid blank_attr "0") by (split; [discriminate|split; [reflexivity|exact I]]).
  assert (B1 : blank_text blank_attr " ") by (split; [reflexivity|exact I]).
  assert (N1 : " "%string <> "") by discriminate.
  rewrite !words_token; auto using dec_solid_attr. rewrite words_last by auto using dec_solid_attr. reflexivity.
Qed.

Lemma extent_tokens a b c : 0 <= a -> 0 <= b -> 0 <= c ->
  tokens_of_attr (" " ++ extent_text a b c) = ["0"; dec a; "0"; dec b; "0"; dec c]%string.
Proof.
  intros A B C. unfold tokens_of_attr. rewrite split_compress_words; rewrite extent_words by auto; [reflexivity|discriminate].
Qed.

(** ** Loops *)
Lemma mapM_ok {A B} (f : A -> res B) (g : A -> B) l :
  (forall a, In a l -> f a = Ok (g a)) -> mapM f l = Ok (map g l).
Proof.
  induction l as [|a l IH]; intros H; cbn [mapM map]; auto.
  rewrite H by (left; auto). cbn [rbind]. rewrite IH by (intros; apply H; right; auto). reflexivity.
Qed.

Section Fill.
  Context {V K : Type}.
  Variables (sl : K -> Z) (val : K -> V) (vals : list V)
    (F : list V * Z -> K -> res (list V * Z)).
  Hypothesis HF : forall c n k, F (c, n) k =
    rbind (of_opt (zget vals n)) (fun v => rbind (of_opt (zset c (sl k) v)) (fun c' => Ok (c', n + 1))).

  Lemma fill_from : forall order pre c,
    vals = pre ++ map val order -> NoDup (map sl order) -> (forall k, In k order -> 0 <= sl k < zlen c) ->
    exists c', foldM F order (c, zlen pre) = Ok (c', zlen pre + zlen order) /\ zlen c' = zlen c /\
      (forall k, In k order -> zget c' (sl k) = Some (val k)) /\
      (forall q, ~ In q (map sl order) -> zget c' q = zget c q).
  Proof.
    induction order as [|k order IH]; intros pre c HV ND HR.
    - exists c. cbn [foldM]. split; [f_equal; f_equal; unfold zlen; cbn; lia|]. split; auto. split; [intros ? []|auto].
    - cbn [map] in *. apply NoDup_cons_iff in ND as (NI & ND').
      cbn [foldM]. rewrite HF.
      assert (G : zget vals (zlen pre) = Some (val k)).
      { rewrite HV. unfold zget, zlen. destruct (Z.ltb_spec (Z.of_nat (List.length pre)) 0); [lia|].
        rewrite Nat2Z.id, nth_error_app2, Nat.sub_diag by lia. reflexivity. }
      rewrite G. cbn [of_opt rbind].
      destruct (zset c (sl k) (val k)) as [c1|] eqn:E1; [|rewrite zset_some in E1 by (apply HR; left; auto); discriminate]. cbn [of_opt rbind].
      destruct (IH (pre ++ [val k]) c1) as (c' & E & L & G1 & G2); auto.
      { rewrite HV, <- app_assoc. reflexivity. }
      { intros k' H. rewrite (zlen_zset _ _ _ _ E1). apply HR. right; auto. }
      exists c'. split.
      { replace (zlen pre + 1) with (zlen (pre ++ [val k])) by (unfold zlen; rewrite app_length; cbn [List.length]; lia).
        rewrite E. f_equal. f_equal. unfold zlen. rewrite app_length. cbn [List.length]. lia. }
      split; [rewrite L; apply (zlen_zset _ _ _ _ E1)|]. split.
      + intros k' [<-|H].
        * rewrite G2 by auto. exact (zget_zset_same _ _ _ _ E1).
        * auto.
      + intros q NQ. rewrite G2 by (intros ?; apply NQ; right; auto).
        apply (zget_zset_other _ _ _ _ _ E1). intros EQ. apply NQ. left; exact EQ.
  Qed.

  Lemma fill order c :
    vals = map val order -> NoDup (map sl order) -> (forall k, In k order -> 0 <= sl k < zlen c) ->
    exists c' n, foldM F order (c, 0) = Ok (c', n) /\ zlen c' = zlen c /\
      (forall k, In k order -> zget c' (sl k) = Some (val k)) /\
      (forall q, ~ In q (map sl order) -> zget c' q = zget c q).
  Proof.
    intros HV ND HR. destruct (fill_from order [] c HV ND HR) as (c' & E & R). exists c', (zlen (@nil V) + zlen order). split; auto.
  Qed.
End Fill.

(** ** Texts of values *)
Section Texts.
  Context {V : Type}.
  Variables (show : V -> string) (read : string -> res V).

  Definition line_of (line : string) (toks : list string) : Prop :=
    forall s, words blank "" (line ++ s) = toks ++ words blank "" s.

  Lemma cat_lines {A} (f : A -> string) (g : A -> list string) l s :
    (forall a, In a l -> line_of (f a) (g a)) ->
    words blank "" (cat (map f l) ++ s) = flat_map g l ++ words blank "" s.
  Proof.
    induction l as [|a l IH]; intros H; cbn [cat map fold_right flat_map append List.app]; auto.
    change (fold_right append "" (map f l)) with (cat (map f l)).
    rewrite append_assoc, (H a (or_introl eq_refl)), IH by (intros; apply H; right; auto). rewrite app_assoc. reflexivity.
  Qed.

  Lemma nl_blank : blank_text blank nl.
  Proof. split; [reflexivity|exact I]. Qed.
  Lemma nl_nonempty : nl <> "".
  Proof. discriminate. Qed.
  Lemma sp_blank : blank_text blank " ".
  Proof. split; [reflexivity|exact I]. Qed.

  Lemma value_line t : solid blank t -> line_of (t ++ nl) [t].
  Proof. intros H s. rewrite append_assoc, words_token; auto using nl_blank, nl_nonempty. Qed.

  Lemma three_line a b c : solid blank a -> solid blank b -> solid blank c ->
    line_of (a ++ " " ++ b ++ " " ++ c ++ nl) [a; b; c].
  Proof.
    intros HA HB HC s. rewrite !append_assoc.
    assert (N1 : " "%string <> "") by discriminate.
    rewrite !words_token by auto using sp_blank, nl_blank, nl_nonempty. reflexivity.
  Qed.

  Lemma cells_words vals : (forall v, In v vals -> word (show v)) ->
    words blank "" (cells_text show vals) = map show vals.
  Proof.
    intros H. unfold cells_text. rewrite words_blank by apply nl_blank.
    rewrite (cat_lines (fun v => show v ++ nl)%string (fun v => [show v])) by (intros v IV; apply value_line, word_solid; auto).
    change (words blank "" (nl ++ "    ")) with (@nil string). rewrite app_nil_r.
    clear H. induction vals as [|v vals IH]; cbn [flat_map map List.app]; [reflexivity|rewrite IH; reflexivity].
  Qed.

  Lemma points_words {A} (f : A -> string) (g : A -> list string) l :
    (forall a, In a l -> line_of (f a) (g a)) ->
    words blank "" (points_text (map f l)) = flat_map g l.
  Proof.
    intros H. unfold points_text. rewrite words_blank by apply nl_blank. rewrite (cat_lines f g) by auto.
    change (words blank "" "        ") with (@nil string). apply app_nil_r.
  Qed.

  Lemma mapM_read vals : (forall v, In v vals -> read (show v) = Ok v) -> mapM read (map show vals) = Ok vals.
  Proof.
    induction vals as [|v vals IH]; intros H; cbn [map mapM]; auto.
    rewrite H by (left; auto). cbn [rbind]. rewrite IH by (intros; apply H; right; auto). reflexivity.
  Qed.

  Lemma triples_flat {A} (x y z : A -> V) l :
    triples (flat_map (fun a => [x a; y a; z a]) l) = Ok (map x l, map y l, map z l).
  Proof.
    induction l as [|a l IH]; cbn [flat_map triples map List.app]; auto. rewrite IH. reflexivity.
  Qed.
  Lemma mapM_flat {A} (x y z : A -> V) (tx ty tz : A -> string) l :
    (forall a, In a l -> read (tx a) = Ok (x a) /\ read (ty a) = Ok (y a) /\ read (tz a) = Ok (z a)) ->
    mapM read (flat_map (fun a => [tx a; ty a; tz a]) l) = Ok (flat_map (fun a => [x a; y a; z a]) l).
  Proof.
    induction l as [|a l IH]; intros H; cbn [flat_map mapM List.app]; auto.
    destruct (H a (or_introl eq_refl)) as (A1 & A2 & A3). rewrite A1. cbn [rbind]. rewrite A2. cbn [rbind]. rewrite A3. cbn [rbind].
    rewrite IH by (intros; apply H; right; auto). reflexivity.
  Qed.
  Lemma flat_len {A} (x y z : A -> string) l :
    zlen (flat_map (fun a => [x a; y a; z a]) l) = 3 * zlen l.
  Proof. unfold zlen. induction l as [|a l IH]; cbn [flat_map List.length List.app]; [reflexivity|lia]. Qed.
End Texts.

(** ** Orders *)
Lemma file_order2_in n i j : In (i, j) (file_order2 n) <-> 0 <= i < n /\ 0 <= j < n.
Proof.
  unfold file_order2. rewrite in_flat_map. split.
  - intros (j' & HJ & HI). apply in_map_iff in HI as (i' & E & HI). injection E as -> ->.
    apply in_zrange in HJ, HI. lia.
  - intros (HI & HJ). exists j. split; [apply in_zrange; lia|]. apply in_map_iff. exists i. split; auto. apply in_zrange; lia.
Qed.
Lemma file_order3_in a b c i j k : In (i, j, k) (file_order3 a b c) <-> 0 <= i < a /\ 0 <= j < b /\ 0 <= k < c.
Proof.
  unfold file_order3. rewrite in_flat_map. split.
  - intros (k' & HK & H). apply in_flat_map in H as (j' & HJ & HI).
    apply in_map_iff in HI as (i' & E & HI). injection E as -> -> ->.
    apply in_zrange in HK. apply in_zrange in HJ. apply in_zrange in HI. lia.
  - intros (HI & HJ & HK). exists k. split; [apply in_zrange; lia|]. apply in_flat_map. exists j. split; [apply in_zrange; lia|].
    apply in_map_iff. exists i. split; auto. apply in_zrange; lia.
Qed.

Lemma nodup_order2 n : NoDup (file_order2 n).
Proof.
  apply nodup_flat_map.
  - apply nodup_zrange.
  - intros x _. apply nodup_map_inj; [apply nodup_zrange|congruence].
  - intros x y b _ _ H1 H2. apply in_map_iff in H1 as (? & <- & _).
    apply in_map_iff in H2 as (? & E & _). congruence.
Qed.
Lemma nodup_order3 a b c : NoDup (file_order3 a b c).
Proof.
  apply nodup_flat_map.
  - apply nodup_zrange.
  - intros x _. apply nodup_flat_map; [apply nodup_zrange| |].
    + intros y _. apply nodup_map_inj; [apply nodup_zrange|congruence].
    + intros y y' q _ _ H1 H2. apply in_map_iff in H1 as (? & <- & _).
      apply in_map_iff in H2 as (? & E & _). congruence.
  - intros x y q _ _ H1 H2. apply in_flat_map in H1 as (? & _ & H1).
    apply in_map_iff in H1 as (? & <- & _).
    apply in_flat_map in H2 as (? & _ & H2). apply in_map_iff in H2 as (? & E & _). congruence.
Qed.
Lemma zlen_flat_const {A B} (f : A -> list B) m l : (forall a, In a l -> zlen (f a) = m) -> zlen (flat_map f l) = zlen l * m.
Proof.
  unfold zlen. induction l as [|a l IH]; intros H; cbn [flat_map List.length]; [lia|].
  rewrite app_length. pose proof (H a (or_introl eq_refl)). rewrite Nat2Z.inj_add, IH by (intros; apply H; right; auto). lia.
Qed.
Lemma zlen_order2 n : 0 <= n -> zlen (file_order2 n) = n * n.
Proof.
  intros H. unfold file_order2. rewrite (zlen_flat_const _ n).
  - rewrite zlen_zrange. f_equal. lia.
  - intros j _. rewrite zlen_map, zlen_zrange. lia.
Qed.
Lemma zlen_order3 a b c : 0 <= a -> 0 <= b -> 0 <= c -> zlen (file_order3 a b c) = a * b * c.
Proof.
  intros A B C. unfold file_order3. rewrite (zlen_flat_const _ (b * a)).
  - rewrite zlen_zrange. rewrite Z.max_r by lia. rewrite Z.sub_0_r. ring.
  - intros k _. rewrite (zlen_flat_const _ a); [rewrite zlen_zrange; f_equal; lia|].
    intros j _. rewrite zlen_map, zlen_zrange. lia.
Qed.

(** ** Reading a document *)
Section Read.
  Context {V : Type} `{N : Num V}.
  Variables (show6 : V -> string) (read : string -> res V).
  Implicit Types (raw : domain V).

  Lemma read_domain_document a b c st cells points raw ptoks vals xs ys zs x0 x1 y0 z0 :
    0 <= a <= 2147483647 -> 0 <= b <= 2147483647 -> 0 <= c <= 2147483647 ->
    cells <> "" -> points <> "" -> words blank "" points = ptoks -> ptoks <> [] ->
    zlen ptoks = 3 * ((a + 1) * (b + 1) * (c + 1)) ->
    mapM read ptoks = Ok vals -> triples vals = Ok (xs, ys, zs) ->
    min_element xs = Ok x0 -> max_element xs = Ok x1 -> min_element ys = Ok y0 -> min_element zs = Ok z0 ->
    read_domain read [vts_document show6 (extent_text a b c) st cells points] raw =
      Ok ({| nx := a; ny := b; nz := c; xbeg := x0; xend := x1; ybeg := y0; yend := yend raw;
             zbeg := z0; zend := zend raw; xbc := xbc raw; ybc := ybc raw; zbc := zbc raw; nhalo := nhalo raw |},
          if c =? 0 then 2 else 3).
  Proof.
    intros HA HB HC NC NP EP NT LP EV ET M1 M2 M3 M4.
    assert (TP : tokens_of points = ptoks) by (rewrite tokens_words; congruence).
    assert (GC : get_text (Elem "DataArray" [("type", "Float64"); ("Name", "c"); ("format", "ascii")]%string cells []) = Ok cells)
      by (destruct cells; [congruence|reflexivity]).
    assert (GP : get_text (Elem "DataArray" [("type", "Float64"); ("Name", "Points"); ("NumberOfComponents", "3"); ("format", "ascii")]%string points []) = Ok points)
      by (destruct points; [congruence|reflexivity]).
    unfold read_domain.
    change (descend [vts_document show6 (extent_text a b c) st cells points] piece_path no_elem) with
      (Ok (Elem "Piece" [("Extent"%string, " " ++ extent_text a b c)%string] "" [
          Elem "PointData" [] "" [];
          Elem "CellData" [] "" [
            Elem "DataArray" [("type", "Float64"); ("Name", "c"); ("format", "ascii")]%string cells []];
          Elem "Points" [] "" [
            Elem "DataArray" [("type", "Float64"); ("Name", "Points"); ("NumberOfComponents", "3"); ("format", "ascii")]%string
              points []]])).
    change (descend [vts_document show6 (extent_text a b c) st cells points] cells_path no_elem) with
      (Ok (Elem "DataArray" [("type", "Float64"); ("Name", "c"); ("format", "ascii")]%string cells [])).
    change (descend [vts_document show6 (extent_text a b c) st cells points] points_path no_elem) with
      (Ok (Elem "DataArray" [("type", "Float64"); ("Name", "Points"); ("NumberOfComponents", "3"); ("format", "ascii")]%string points [])).
    cbn [rbind]. rewrite GC, GP. cbn [rbind].
    unfold first_attribute. cbn [elem_attrs rbind]. rewrite extent_tokens by lia.
    change (token ["0"; dec a; "0"; dec b; "0"; dec c]%string 0) with (Ok "0"%string).
    change (token ["0"; dec a; "0"; dec b; "0"; dec c]%string 1) with (Ok (dec a)).
    change (token ["0"; dec a; "0"; dec b; "0"; dec c]%string 2) with (Ok "0"%string).
    change (token ["0"; dec a; "0"; dec b; "0"; dec c]%string 3) with (Ok (dec b)).
    change (token ["0"; dec a; "0"; dec b; "0"; dec c]%string 4) with (Ok "0"%string).
    change (token ["0"; dec a; "0"; dec b; "0"; dec c]%string 5) with (Ok (dec c)).
    cbn [rbind]. change (lexical_int "0") with (Ok 0). cbn [rbind].
    rewrite (lexical_dec a HA), (lexical_dec b HB), (lexical_dec c HC). cbn [rbind negb Z.eqb].
    rewrite TP, LP.
    replace (3 * ((a + 1) * (b + 1) * (c + 1)) / 3) with ((a + 1) * (b + 1) * (c + 1))
      by (rewrite (Z.mul_comm 3), Z.div_mul by lia; reflexivity).
    destruct (Z.eqb_spec c 0) as [->|NZ].
    - cbn [Z.eqb Pos.eqb andb]. replace ((a + 1) * (b + 1) * (0 + 1)) with ((a + 1) * (b + 1)) by ring.
      rewrite Z.eqb_refl. cbn [negb andb]. rewrite EV. cbn [rbind]. rewrite ET. cbn [rbind]. rewrite M1, M2, M3, M4. reflexivity.
    - change (3 =? 2) with false. change (3 =? 3) with true. rewrite Z.eqb_refl. cbn [negb andb].
      rewrite EV. cbn [rbind]. rewrite ET. cbn [rbind]. rewrite M1, M2, M3, M4. reflexivity.
  Qed.

  (** The field data. *)
  Lemma restart_document ext st cells points (o : restart V) t dt :
    word (show6 (fs_time st)) -> word (show6 (fs_dt st)) ->
    read (show6 (fs_time st)) = Ok t -> read (show6 (fs_dt st)) = Ok dt -> 0 <= fs_iter st <= 2147483647 ->
    set_initial_time_step read [vts_document show6 ext st cells points] o =
      Ok {| rs_t0 := t; rs_step := fs_iter st; rs_dt := dt |}.
  Proof.
    intros W1 W2 R1 R2 HI.
    assert (T : forall s, solid blank s -> tokens_of (nl ++ s ++ nl ++ "     ") = [s]).
    { intros s HS.
      assert (E : words blank "" (nl ++ s ++ nl ++ "     ") = [s]).
      { rewrite words_blank by apply nl_blank. rewrite words_token by auto using nl_blank, nl_nonempty. reflexivity. }
      rewrite tokens_words; rewrite E; [reflexivity|discriminate]. }
    unfold set_initial_time_step.
    change (descend [vts_document show6 ext st cells points] field_path no_elem) with
      (Ok (match elem_kids (vts_document show6 ext st cells points) with x :: _ => x | [] => no_elem end)).
    cbn [rbind]. unfold vts_document. cbn [elem_kids].
    cbn [first_child find elem_name String.eqb Ascii.eqb Bool.eqb elem_kids].
    cbn [foldM].
    cbn [elem_name String.eqb Ascii.eqb Bool.eqb negb elem_attrs find fst].
    unfold get_text. change (nl ++ show6 (fs_time st) ++ nl ++ "     ")%string with (String "010" (show6 (fs_time st) ++ nl ++ "     ")).
    change (nl ++ show6 (fs_dt st) ++ nl ++ "     ")%string with (String "010" (show6 (fs_dt st) ++ nl ++ "     ")).
    change (nl ++ dec (fs_iter st) ++ nl ++ "     ")%string with (String "010" (dec (fs_iter st) ++ nl ++ "     ")).
    cbn [rbind].
    change (String "010" (show6 (fs_time st) ++ nl ++ "     "))%string with (nl ++ show6 (fs_time st) ++ nl ++ "     ")%string.
    change (String "010" (show6 (fs_dt st) ++ nl ++ "     "))%string with (nl ++ show6 (fs_dt st) ++ nl ++ "     ")%string.
    change (String "010" (dec (fs_iter st) ++ nl ++ "     "))%string with (nl ++ dec (fs_iter st) ++ nl ++ "     ")%string.
    rewrite !T by (first [apply word_solid; assumption|apply dec_solid; lia]).
    change (token [show6 (fs_time st)] 0) with (Ok (show6 (fs_time st))).
    change (token [show6 (fs_dt st)] 0) with (Ok (show6 (fs_dt st))).
    change (token [dec (fs_iter st)] 0) with (Ok (dec (fs_iter st))).
    cbn [rbind]. rewrite R1. cbn [rbind]. rewrite (lexical_dec _ HI). cbn [rbind rs_t0 rs_step rs_dt]. rewrite R2. reflexivity.
  Qed.
End Read.
