(** Proofs of the solution file properties. *)
From Coq Require Import ZArith QArith List String Ascii Bool Lia Reals Lra.
From Verif Require Import Outcome ZList ZListProofs Num Kernel ModelDisc3D ModelDisc2D SpecGrid Disc3DProofs Disc2DProofs
  Make3Proofs Make2Proofs ExampleNum ModelText TextProofs ModelVTK SpecVTK VTKProofs VTK2Proofs VTK3Proofs.
Import ListNotations.
Local Open Scope string_scope.
Local Open Scope list_scope.
Local Open Scope Z_scope.

(** Numbers as fractions, for the examples. *)
Definition ex_show (q : Q) : string := (dec (Qnum q) ++ "/" ++ dec (Zpos (Qden q)))%string.
Definition ex_read (s : string) : res Q :=
  if String.eqb s "0.0" then Ok 0%Q else
  match split_compress (any_of "/") s with
  | [a; b] => rbind (lexical_int a) (fun n => rbind (lexical_int b) (fun m =>
      match m with Zpos p => Ok (Qmake n p) | _ => Throw end))
  | _ => Throw
  end.
Fixpoint wordb (s : string) : bool :=
  match s with EmptyString => true | String c s' => negb (blank c) && wordb s' end.
Lemma wordb_word s : s <> "" -> wordb s = true -> word s.
Proof.
  intros NE H. split; auto. clear NE. induction s as [|c s IH]; intros n d E; cbn [String.get wordb] in *; [destruct n; discriminate|].
  apply andb_true_iff in H as (H1 & H2). destruct n; [|eauto]. injection E as <-.
  split; [|split]; intros ->; discriminate H1.
Qed.
Lemma ex_prints q : (ex_show q <> "") -> wordb (ex_show q) = true -> ex_read (ex_show q) = Ok q -> prints ex_show ex_read q.
Proof. intros A B C. split; auto. apply wordb_word; auto. Qed.
Definition ex_grid3 : domain Q := ex_dom 0%Q 2%Q 2 1 3 1 Periodic Periodic Periodic.
Definition ex_grid2 : domain Q := ex_dom 0%Q 1%Q 2 0 0 1 Periodic Periodic Periodic.
Definition ex_field3 (i j k : Z) : Q := (i - 5 * j + 7 * k) # 3.
Definition ex_field2 (i j : Z) : Q := (i - 5 * j) # 3.
Definition ex_raw : domain Q := ex_dom 7%Q 9%Q 8 8 8 8 Neumann Neumann Neumann.
Definition ex_status : file_status Q := {| fs_iter := 1250; fs_time := 5 # 2; fs_dt := 1 # 64 |}.

Lemma ex_vertices3 : vertices_print3 (H:=Num_Q) ex_show ex_read ex_grid3 1%Q.
Proof.
  split; [|split]; intros i H; cbn [nx ny nz ex_grid3 ex_dom] in H.
  - assert (C : i = 0 \/ i = 1 \/ i = 2) by lia. destruct C as [C|[C|C]]; subst i; (apply ex_prints; [discriminate|reflexivity|reflexivity]).
  - assert (C : i = 0 \/ i = 1) by lia. destruct C as [C|C]; subst i; (apply ex_prints; [discriminate|reflexivity|reflexivity]).
  - assert (C : i = 0 \/ i = 1 \/ i = 2 \/ i = 3) by lia. destruct C as [C|[C|[C|C]]]; subst i; (apply ex_prints; [discriminate|reflexivity|reflexivity]).
Qed.
Lemma ex_values3 : forall i j k, inside3 ex_grid3 i j k -> prints ex_show ex_read (ex_field3 i j k).
Proof.
  intros i j k (A & B & C). cbn [nx ny nz ex_grid3 ex_dom] in *. assert (j = 0) by lia. subst j.
  assert (D : i = 0 \/ i = 1) by lia. assert (E : k = 0 \/ k = 1 \/ k = 2) by lia.
  destruct D as [D|D], E as [E|[E|E]]; subst i k; (apply ex_prints; [discriminate|reflexivity|reflexivity]).
Qed.
Lemma ex_vertices2 : vertices_print2 (H:=Num_Q) ex_show ex_read ex_grid2 (1 # 2)%Q.
Proof.
  split; intros i H; cbn [nx ny nz ex_grid2 ex_dom] in H;
  (assert (C : i = 0 \/ i = 1 \/ i = 2) by lia); destruct C as [C|[C|C]]; subst i; (apply ex_prints; [discriminate|reflexivity|reflexivity]).
Qed.
Lemma ex_values2 : forall i j, inside2 ex_grid2 i j -> prints ex_show ex_read (ex_field2 i j).
Proof.
  intros i j (A & B). cbn [nx ny nz ex_grid2 ex_dom] in *.
  assert (D : i = 0 \/ i = 1) by lia. assert (E : j = 0 \/ j = 1) by lia.
  destruct D as [D|D], E as [E|E]; subst i j; (apply ex_prints; [discriminate|reflexivity|reflexivity]).
Qed.

Lemma pf_C55_round_trip_3d :
  forall (V : Type) (N : Num V) (show show6 : V -> string) (read : string -> res V)
    (dom dom' : domain V) (d d' : disc3 V) (st : file_status V) (c c0 : list V) (u : Z -> Z -> Z -> V) (raw : domain V),
  valid_domain3 dom -> make3 dom = Ok d -> holds_inside3 dom c u ->
  nx dom <= 2147483647 -> ny dom <= 2147483647 -> nz dom <= 2147483647 ->
  vertices_print3 show read dom (d3_dx d) ->
  (forall i j k, inside3 dom i j k -> prints show read (u i j k)) ->
  valid_domain3 dom' -> make3 dom' = Ok d' -> nx dom' = nx dom -> ny dom' = ny dom -> nz dom' = nz dom ->
  zlen c0 = cells3 dom' ->
  exists doc, write3 show show6 st d c = Ok doc /\
    (exists c1, set_solution read doc raw (Target3 d' c0) = Ok (Target3 d' c1) /\
      holds_inside3 dom' c1 u /\ same_halo3 dom' c0 c1) /\
    (forall d2 c2, set_solution read doc raw (Target2 d2 c2) = Throw).
Proof.
  intros V N show show6 read dom dom' d d' st c c0 u raw HV E HC L1 L2 L3 HP HU HV' E' N1 N2 N3 LC.
  exists (doc3 show show6 dom (d3_dx d) st u). split; [apply write3_ok; auto|]. split.
  - exact (set_solution3 show show6 read dom dom' d d' st u c0 raw HV E HP HU L1 L2 L3 HV' E' N1 N2 N3 LC).
  - intros d2 c2. exact (wrong_target3 show show6 read dom d st u raw d2 c2 HV E HP HU L1 L2 L3).
Qed.

Lemma pf_C55_round_trip_2d :
  forall (V : Type) (N : Num V) (show show6 : V -> string) (read : string -> res V) (zero : V)
    (dom dom' : domain V) (d d' : disc2 V) (st : file_status V) (c c0 : list V) (u : Z -> Z -> V) (raw : domain V),
  read "0.0"%string = Ok zero ->
  valid_domain2 dom -> make2 dom = Ok d -> holds_inside2 dom c u -> nx dom <= 2147483647 ->
  vertices_print2 show read dom (d2_dx d) ->
  (forall i j, inside2 dom i j -> prints show read (u i j)) ->
  valid_domain2 dom' -> make2 dom' = Ok d' -> nx dom' = nx dom -> zlen c0 = cells2 dom' ->
  exists doc, write2 show show6 st d c = Ok doc /\
    (exists c1, set_solution read doc raw (Target2 d' c0) = Ok (Target2 d' c1) /\
      holds_inside2 dom' c1 u /\ same_halo2 dom' c0 c1) /\
    (forall d3 c3, set_solution read doc raw (Target3 d3 c3) = Throw).
Proof.
  intros V N show show6 read zero dom dom' d d' st c c0 u raw HZ HV E HC L1 HP HU HV' E' N1 LC.
  exists (doc2 show show6 dom (d2_dx d) st u). split; [exact (write2_ok show show6 zero dom d st c u HV E HC)|].
  exact (set_solution2 show show6 read zero HZ dom dom' d d' st u c0 raw HV E HP HU L1 HV' E' N1 LC).
Qed.

Lemma pf_C55_domain_3d :
  forall (show show6 : R -> string) (read : string -> res R)
    (dom raw : domain R) (d : disc3 R) (st : file_status R) (c : list R) (u : Z -> Z -> Z -> R),
  valid_domain3 dom -> make3 dom = Ok d -> holds_inside3 dom c u -> (xbeg dom < xend dom)%R ->
  nx dom <= 2147483647 -> ny dom <= 2147483647 -> nz dom <= 2147483647 ->
  vertices_print3 show read dom (d3_dx d) ->
  exists doc, write3 show show6 st d c = Ok doc /\
    read_domain read doc raw =
      Ok ({| nx := nx dom; ny := ny dom; nz := nz dom; xbeg := xbeg dom; xend := xend dom;
             ybeg := ybeg dom; yend := yend raw; zbeg := zbeg dom; zend := zend raw;
             xbc := xbc raw; ybc := ybc raw; zbc := zbc raw; nhalo := nhalo raw |}, 3).
Proof.
  intros show show6 read dom raw d st c u HV E HC HX L1 L2 L3 HP.
  exists (doc3 show show6 dom (d3_dx d) st u). split; [apply write3_ok; auto|].
  destruct (make3_inv dom d HV E) as (W & D).
  destruct (read_domain3 show show6 read dom d st u raw HV E HP L1 L2 L3) as (x0 & x1 & y0 & z0 & X0 & X1 & Y0 & Z0 & RD).
  pose proof HV as (H1 & H2 & H3 & _).
  assert (DX : d3_dx d = ((xend dom - xbeg dom) / IZR (nx dom))%R) by (rewrite (wf_dx _ W), D; reflexivity).
  pose proof (spacing_pos _ _ (nx dom) HX H1) as DP. rewrite <- DX in DP.
  assert (EX0 : x0 = xbeg dom).
  { rewrite <- (corner_zero (xbeg dom) (d3_dx d)).
    apply (min_of (px3 dom (d3_dx d)) _ _ (0, 0, 0) X0); [apply file_order3_in; lia|].
    intros [[i j] k] HI. apply file_order3_in in HI. apply corner_mono; [exact DP|lia]. }
  assert (EX1 : x1 = xend dom).
  { rewrite <- (corner_end (xbeg dom) (xend dom) (nx dom) H1). rewrite <- DX.
    apply (max_of (px3 dom (d3_dx d)) _ _ (nx dom, 0, 0) X1); [apply file_order3_in; lia|].
    intros [[i j] k] HI. apply file_order3_in in HI. apply corner_mono; [exact DP|lia]. }
  assert (EY0 : y0 = ybeg dom).
  { rewrite <- (corner_zero (ybeg dom) (d3_dx d)).
    apply (min_of (py3 dom (d3_dx d)) _ _ (0, 0, 0) Y0); [apply file_order3_in; lia|].
    intros [[i j] k] HI. apply file_order3_in in HI. apply corner_mono; [exact DP|lia]. }
  assert (EZ0 : z0 = zbeg dom).
  { rewrite <- (corner_zero (zbeg dom) (d3_dx d)).
    apply (min_of (pz3 dom (d3_dx d)) _ _ (0, 0, 0) Z0); [apply file_order3_in; lia|].
    intros [[i j] k] HI. apply file_order3_in in HI. apply corner_mono; [exact DP|lia]. }
  rewrite RD, EX0, EX1, EY0, EZ0. reflexivity.
Qed.

Lemma pf_C55_domain_2d :
  forall (show show6 : R -> string) (read : string -> res R)
    (dom raw : domain R) (d : disc2 R) (st : file_status R) (c : list R) (u : Z -> Z -> R),
  read "0.0"%string = Ok 0%R ->
  valid_domain2 dom -> make2 dom = Ok d -> holds_inside2 dom c u -> (xbeg dom < xend dom)%R ->
  nx dom <= 2147483647 -> vertices_print2 show read dom (d2_dx d) ->
  exists doc, write2 show show6 st d c = Ok doc /\
    read_domain read doc raw =
      Ok ({| nx := nx dom; ny := nx dom; nz := 0; xbeg := xbeg dom; xend := xend dom;
             ybeg := ybeg dom; yend := yend raw; zbeg := 0%R; zend := zend raw;
             xbc := xbc raw; ybc := ybc raw; zbc := zbc raw; nhalo := nhalo raw |}, 2).
Proof.
  intros show show6 read dom raw d st c u HZ HV E HC HX L1 HP.
  exists (doc2 show show6 dom (d2_dx d) st u). split; [exact (write2_ok show show6 0%R dom d st c u HV E HC)|].
  destruct (make2_inv dom d HV E) as (W & D).
  destruct (read_domain2 show show6 read 0%R HZ dom d st u raw HV E HP L1) as (x0 & x1 & y0 & z0 & X0 & X1 & Y0 & Z0 & RD).
  pose proof HV as (H1 & _).
  assert (DX : d2_dx d = ((xend dom - xbeg dom) / IZR (nx dom))%R) by (rewrite (wf2_dx _ W), D; reflexivity).
  pose proof (spacing_pos _ _ (nx dom) HX H1) as DP. rewrite <- DX in DP.
  assert (EX0 : x0 = xbeg dom).
  { rewrite <- (corner_zero (xbeg dom) (d2_dx d)).
    apply (min_of (px2 dom (d2_dx d)) _ _ (0, 0) X0); [apply file_order2_in; lia|].
    intros [i j] HI. apply file_order2_in in HI. apply corner_mono; [exact DP|lia]. }
  assert (EX1 : x1 = xend dom).
  { rewrite <- (corner_end (xbeg dom) (xend dom) (nx dom) H1). rewrite <- DX.
    apply (max_of (px2 dom (d2_dx d)) _ _ (nx dom, 0) X1); [apply file_order2_in; lia|].
    intros [i j] HI. apply file_order2_in in HI. apply corner_mono; [exact DP|lia]. }
  assert (EY0 : y0 = ybeg dom).
  { rewrite <- (corner_zero (ybeg dom) (d2_dx d)).
    apply (min_of (py2 dom (d2_dx d)) _ _ (0, 0) Y0); [apply file_order2_in; lia|].
    intros [i j] HI. apply file_order2_in in HI. apply corner_mono; [exact DP|lia]. }
  rewrite RD, EX0, EX1, EY0, Z0. reflexivity.
Qed.

Lemma pf_C55_restart :
  forall (V : Type) (N : Num V) (show show6 : V -> string) (read : string -> res V)
    (st : file_status V) (t dt : V) (o : restart V) (doc : list xml),
  0 <= fs_iter st <= 2147483647 ->
  word (show6 (fs_time st)) -> read (show6 (fs_time st)) = Ok t ->
  word (show6 (fs_dt st)) -> read (show6 (fs_dt st)) = Ok dt ->
  (exists d c, write3 show show6 st d c = Ok doc) \/ (exists d c, write2 show show6 st d c = Ok doc) ->
  set_initial_time_step read doc o = Ok {| rs_t0 := t; rs_step := fs_iter st; rs_dt := dt |}.
Proof.
  intros V N show show6 read st t dt o doc HI W1 R1 W2 R2 H.
  assert (D : exists ext cells points, doc = [vts_document show6 ext st cells points]).
  { destruct H as [(d & c & E)|(d & c & E)]; unfold write3, write2 in E.
    - destruct (mapM _ _) as [vals| | |]; try discriminate. cbn [rbind] in E.
      destruct (mapM _ _) as [pts| | |]; try discriminate. cbn [rbind] in E. injection E as <-. eauto.
    - destruct (mapM _ _) as [vals| | |]; try discriminate. cbn [rbind] in E.
      destruct (mapM _ _) as [pts| | |]; try discriminate. cbn [rbind] in E. injection E as <-. eauto. }
  destruct D as (ext & cells & points & ->). apply restart_document; auto.
Qed.

Lemma pf_C56_width :
  forall (max_time_steps w : Z),
  (iter_width2 max_time_steps = Ok w <-> 1 <= w /\ 10 ^ (w - 1) <= max_time_steps < 10 ^ w) /\
  (iter_width3 max_time_steps = Ok w <->
     1 <= max_time_steps /\ 4 <= w /\ max_time_steps < 10 ^ w /\ (w = 4 \/ 10 ^ (w - 1) <= max_time_steps)) /\
  (max_time_steps <= 0 -> iter_width2 max_time_steps = UB /\ iter_width3 max_time_steps = UB).
Proof.
  intros m w. unfold iter_width2, iter_width3. destruct (Z.leb_spec m 0).
  - split; [|split; [|auto]].
    + split; [discriminate|]. intros (A & B). assert (0 < 10 ^ (w - 1)) by (apply Z.pow_pos_nonneg; lia). lia.
    + split; [discriminate|]. lia.
  - destruct (ndigits_spec m ltac:(lia)) as (S & S1). split; [|split; [|lia]].
    + split.
      * intros E. injection E as <-. auto.
      * intros (A & B). rewrite (ndigits_unique m w) by lia. reflexivity.
    + split.
      * intros E. assert (E2 : Z.max (ndigits m) 4 = w) by congruence. rewrite <- E2.
        split; [lia|]. split; [lia|]. split.
        -- eapply Z.lt_le_trans; [apply S|]. apply Z.pow_le_mono_r; lia.
        -- destruct (Z_le_gt_dec (ndigits m) 4); [left; lia|right]. rewrite Z.max_l by lia. lia.
      * intros (_ & A & B & C). f_equal.
        destruct (Z_le_gt_dec (ndigits m) 4) as [L|G].
        -- destruct C as [->|C]; [lia|]. destruct (Z.eq_dec w 4) as [->|]; [lia|].
           assert (10 ^ ndigits m <= 10 ^ (w - 1)) by (apply Z.pow_le_mono_r; lia). lia.
        -- rewrite Z.max_l by lia. destruct C as [->|C].
           ++ assert (10 ^ 4 <= 10 ^ (ndigits m - 1)) by (apply Z.pow_le_mono_r; lia). lia.
           ++ apply ndigits_unique; lia.
Qed.

Lemma pf_C56_names_3d :
  forall (base : string) (w i j : Z), 0 <= i -> 0 <= j ->
  vts_name3 base w i = vts_name3 base w j -> i = j.
Proof. intros base w i j. apply name3_inj. Qed.

Lemma pf_C56_order_3d :
  forall (base : string) (max_time_steps w i j : Z), iter_width3 max_time_steps = Ok w ->
  0 <= i < j -> j <= max_time_steps -> before (vts_name3 base w i) (vts_name3 base w j).
Proof.
  intros base m w i j E H L. apply (proj1 (proj1 (proj2 (pf_C56_width m w)))) in E as (A & B & C & _).
  apply name_before; lia.
Qed.

Lemma pf_C56_names_2d :
  forall (base : string) (w i j : Z), 0 <= i < 1000000 -> 0 <= j ->
  vts_name2 base w i = vts_name2 base w j -> i = j.
Proof. intros base w i j. apply name2_inj. Qed.

Lemma pf_C56_order_2d :
  forall (base : string) (max_time_steps w i j : Z), iter_width2 max_time_steps = Ok w ->
  0 <= i < j -> j <= max_time_steps -> j < 1000000 -> before (vts_name2 base w i) (vts_name2 base w j).
Proof.
  intros base m w i j E H L LM. apply (proj1 (proj1 (pf_C56_width m w))) in E as (A & B).
  unfold vts_name2. rewrite !show_small by lia. apply name_before; lia.
Qed.

Lemma pf_C56_names_2d_refuted :
  forall (base : string) (w a r : Z), 100000 <= a < 1000000 -> 0 <= r < 5 ->
  vts_name2 base w (10 * a + r) = vts_name2 base w (10 * a).
Proof. intros base w a r HA HR. unfold vts_name2. rewrite show_tail by auto. reflexivity. Qed.

Lemma strip_zeros_spec s : exists zs, s = (strip_zeros s ++ zs)%string /\ (forall i a, String.get i zs = Some a -> a = "0"%char) /\
  (forall f, strip_zeros s <> (f ++ "0")%string).
Proof.
  unfold strip_zeros. induction s as [|c s IH].
  - exists ""%string. split; [reflexivity|]. split; [intros i a E; destruct i; discriminate|]. intros [|? f]; discriminate.
  - destruct IH as (zs & E & Z & NE). cbn [trim_right]. destruct (trim_right _ s) as [|d t] eqn:T.
    + cbn [append] in E. destruct (Ascii.eqb_spec c "0").
      * exists (String c zs). subst. split; [reflexivity|]. split; [|intros [|? f]; discriminate].
        intros [|i] a G; cbn in G; [congruence|]. exact (Z i a G).
      * exists zs. subst. split; [reflexivity|]. split; [exact Z|].
        intros [|e f]; cbn [append]; intros Q; [congruence|]. injection Q as _ Q. destruct f; discriminate.
    + exists zs. rewrite E. split; [reflexivity|]. split; [exact Z|].
      intros [|e f]; cbn [append]; intros Q; [discriminate|]. injection Q as _ Q. exact (NE f Q).
Qed.

Lemma large_name n : 1000000 <= n -> exists m k c frac zs,
  show_g6 n = (String c (match frac with EmptyString => "" | _ => "." ++ frac end) ++ "e+" ++ pad0 2 (dec (k + 5)))%string /\
  100000 <= m < 1000000 /\ 1 <= k /\ 2 * Z.abs (n - m * 10 ^ k) <= 10 ^ k /\ (2 * Z.abs (n - m * 10 ^ k) = 10 ^ k -> Z.even m = true) /\
  digits_value 0 (String c (frac ++ zs)) = Some m /\ (forall i a, String.get i zs = Some a -> a = "0"%char) /\
  (forall f, frac <> (f ++ "0")%string).
Proof.
  intros H. unfold show_g6. destruct (Z.ltb_spec n 1000000); [lia|].
  destruct (ndigits_spec n ltac:(lia)) as ((A & B) & S1). set (e := ndigits n - 1) in *. set (q := 10 ^ (e - 5)).
  assert (E6 : 6 <= e).
  { destruct (Z_lt_le_dec e 6); [|lia].
    assert (10 ^ ndigits n <= 10 ^ 6) by (apply Z.pow_le_mono_r; lia). change (10 ^ 6) with 1000000 in *. lia. }
  assert (Q : 0 < q) by (apply Z.pow_pos_nonneg; lia).
  assert (EA : 10 ^ e = 100000 * q) by (unfold q; replace e with (5 + (e - 5)) at 1 by lia; rewrite Z.pow_add_r by lia; reflexivity).
  assert (EB : 10 ^ ndigits n = 1000000 * q).
  { unfold q. replace (ndigits n) with (6 + (e - 5)) by lia. rewrite Z.pow_add_r by lia. reflexivity. }
  rewrite EA in A. rewrite EB in B.
  destruct (Z.div_eucl n q) as [m0 r] eqn:ED.
  assert (DM : n = q * m0 + r /\ 0 <= r < q).
  { pose proof (Z.div_mod n q ltac:(lia)) as X. pose proof (Z.mod_pos_bound n q Q) as Y. unfold Z.div, Z.modulo in *. rewrite ED in *. auto. }
  destruct DM as (DM & RB).
  assert (M0 : 100000 <= m0 < 1000000) by nia.
  set (m := if _ || _ then m0 + 1 else m0).
  assert (M : 100000 <= m <= 1000000 /\ 2 * Z.abs (n - m * q) <= q /\ (2 * Z.abs (n - m * q) = q -> Z.even m = true)).
  { unfold m. destruct (Z.ltb_spec q (2 * r)); cbn [orb].
    - split; [lia|]. replace (n - (m0 + 1) * q) with (r - q) by lia. split; lia.
    - replace (n - (m0 + 1) * q) with (r - q) by lia. destruct (Z.eqb_spec q (2 * r)); cbn [andb].
      + destruct (Z.odd m0) eqn:O.
        * split; [lia|]. replace (n - (m0 + 1) * q) with (r - q) by lia. split; [lia|]. intros _.
          rewrite Z.even_add. rewrite <- Z.negb_odd, O. reflexivity.
        * split; [lia|]. replace (n - m0 * q) with r by lia. split; [lia|]. intros _. rewrite <- Z.negb_odd, O. reflexivity.
      + split; [lia|]. replace (n - m0 * q) with r by lia. split; lia. }
  clearbody m. destruct M as (MB & NEAR & TIE).
  assert (G : forall m', 0 <= m' -> exists c frac zs, dec m' = String c (frac ++ zs) /\ frac = strip_zeros (frac ++ zs) /\
    digits_value 0 (String c (frac ++ zs)) = Some m' /\ (forall i a, String.get i zs = Some a -> a = "0"%char) /\ (forall f, frac <> (f ++ "0")%string)).
  { intros m' P. destruct (dec_spec m' P) as (NE & _). pose proof (dec_value m' P) as DV. destruct (dec m') as [|c s] eqn:ES; [congruence|].
    destruct (strip_zeros_spec s) as (zs & E & Z & F). exists c, (strip_zeros s), zs. rewrite <- E. auto. }
  destruct (Z.eqb_spec m 1000000) as [EM|NM].
  - destruct (G 100000 ltac:(lia)) as (c & frac & zs & ES & EF & DV & Z & F). rewrite ES. cbv zeta. rewrite <- EF.
    exists 100000, (e - 4), c, frac, zs. replace (e - 4 + 5) with (e + 1) by lia.
    assert (EQ : 10 ^ (e - 4) = 10 * q) by (unfold q; replace (e - 4) with (1 + (e - 5)) by lia; rewrite Z.pow_add_r by lia; reflexivity).
    split; [reflexivity|]. split; [lia|]. split; [lia|]. rewrite EQ. subst m.
    replace (n - 100000 * (10 * q)) with (n - 1000000 * q) by ring. split; [lia|]. split; [lia|]. auto.
  - destruct (G m ltac:(lia)) as (c & frac & zs & ES & EF & DV & Z & F). rewrite ES. cbv zeta. rewrite <- EF.
    exists m, (e - 5), c, frac, zs. replace (e - 5 + 5) with e by lia. fold q.
    split; [reflexivity|]. split; [lia|]. split; [lia|]. split; [exact NEAR|]. split; [exact TIE|]. auto.
Qed.

Lemma pf_C56_rounded_2d :
  forall (base : string) (w n : Z), 1000000 <= n ->
  exists (m k : Z) (c : ascii) (frac zeros : string),
    vts_name2 base w n = (base ++ "_step_" ++
      pad0 w (String c (match frac with EmptyString => "" | _ => "." ++ frac end) ++ "e+" ++ pad0 2 (dec (k + 5))) ++ ".vts")%string /\
    100000 <= m < 1000000 /\ 1 <= k /\ 2 * Z.abs (n - m * 10 ^ k) <= 10 ^ k /\
    (2 * Z.abs (n - m * 10 ^ k) = 10 ^ k -> Z.even m = true) /\
    digits_value 0 (String c (frac ++ zeros)) = Some m /\
    (forall i a, String.get i zeros = Some a -> a = "0"%char) /\ (forall f, frac <> (f ++ "0")%string).
Proof.
  intros base w n H. destruct (large_name n H) as (m & k & c & frac & zs & E & P). exists m, k, c, frac, zs.
  split; [unfold vts_name2; rewrite E; reflexivity|exact P].
Qed.

Lemma pf_C56_final_distinct :
  forall (base : string) (w w' i j : Z),
  vts_name3 (base ++ "_final") w i <> vts_name3 base w' j /\ vts_name2 (base ++ "_final") w i <> vts_name2 base w' j.
Proof.
  intros base w w' i j. unfold vts_name3, vts_name2. split; rewrite append_assoc; apply final_distinct.
Qed.

Lemma ex_hypotheses3 :
  valid_domain3 ex_grid3 /\ (exists d : disc3 Q, make3 (N:=Num_Q) ex_grid3 = Ok d /\
    vertices_print3 (H:=Num_Q) ex_show ex_read ex_grid3 (d3_dx d) /\
    holds_inside3 ex_grid3 (tabulate3 ex_grid3 ex_field3) ex_field3 /\
    (forall i j k, inside3 ex_grid3 i j k -> prints ex_show ex_read (ex_field3 i j k)) /\
    ex_show (ex_field3 1 0 2) = "15/3"%string).
Proof.
  assert (HV : valid_domain3 ex_grid3) by (vm_compute; repeat split; discriminate).
  split; auto. destruct (make3_ok (N:=Num_Q) ex_grid3 HV) as (d & E & W & D & _).
  exists d. split; auto. split.
  { rewrite (wf_dx _ W), D. apply ex_vertices3. }
  split; [|split; [apply ex_values3|reflexivity]].
  split; [reflexivity|]. intros i j k (A & B & C). cbn [nx ny nz ex_grid3 ex_dom] in *. assert (j = 0) by lia. subst j.
  assert (F : i = 0 \/ i = 1) by lia. assert (G : k = 0 \/ k = 1 \/ k = 2) by lia.
  destruct F as [F|F], G as [G|[G|G]]; subst i k; reflexivity.
Qed.
Lemma ex_hypotheses2 :
  ex_read "0.0"%string = Ok 0%Q /\
  valid_domain2 ex_grid2 /\ (exists d : disc2 Q, make2 (N:=Num_Q) ex_grid2 = Ok d /\
    vertices_print2 (H:=Num_Q) ex_show ex_read ex_grid2 (d2_dx d) /\
    holds_inside2 ex_grid2 (tabulate2 ex_grid2 ex_field2) ex_field2 /\
    (forall i j, inside2 ex_grid2 i j -> prints ex_show ex_read (ex_field2 i j)) /\
    ex_show (ex_field2 0 1) = "-5/3"%string).
Proof.
  assert (HV : valid_domain2 ex_grid2) by (vm_compute; repeat split; discriminate).
  split; [reflexivity|]. split; auto. destruct (make2_ok (N:=Num_Q) ex_grid2 HV) as (d & E & W & D & _).
  exists d. split; auto. split.
  { rewrite (wf2_dx _ W), D. apply ex_vertices2. }
  split; [|split; [apply ex_values2|reflexivity]].
  split; [reflexivity|]. intros i j (A & B). cbn [nx ny nz ex_grid2 ex_dom] in *.
  assert (F : i = 0 \/ i = 1) by lia. assert (G : j = 0 \/ j = 1) by lia.
  destruct F as [F|F], G as [G|G]; subst i j; reflexivity.
Qed.

(** Integers as reals. *)
Definition ex_showR (v : R) : string := dec (Int_part v).
Definition ex_readR (s : string) : res R :=
  if String.eqb s "0.0" then Ok 0%R else rbind (lexical_int s) (fun n => Ok (IZR n)).
Lemma int_part_IZR n : Int_part (IZR n) = n.
Proof.
  unfold Int_part. assert (E : (n + 1 = up (IZR n))%Z) by (apply tech_up; rewrite plus_IZR; lra). lia.
Qed.
Lemma ex_printsR n : 0 <= n <= 2147483647 -> prints ex_showR ex_readR (IZR n).
Proof.
  intros H. unfold prints, ex_showR, ex_readR. rewrite int_part_IZR.
  pose proof (dec_spec n ltac:(lia)) as (NE & _). pose proof (dec_every n ltac:(lia)) as EV. split.
  - apply wordb_word; auto. clear NE. induction (dec n) as [|c s IH]; cbn [wordb]; auto.
    destruct EV as (A & B). rewrite (digit_not_blank c A), IH by auto. reflexivity.
  - destruct (String.eqb_spec (dec n) "0.0") as [E|_].
    + exfalso. rewrite E in EV. destruct EV as (_ & (x & A) & _). discriminate A.
    + rewrite lexical_dec by auto. reflexivity.
Qed.
Lemma ex_vertexR dx i m : dx = 1%R -> 0 <= i <= m -> m <= 2147483647 -> prints ex_showR ex_readR (0 + dx * IZR i)%R.
Proof. intros -> H M. replace (0 + 1 * IZR i)%R with (IZR i) by ring. apply ex_printsR. lia. Qed.
Lemma ex_domain3 :
  let dom := ex_dom 0%R 2%R 2 1 3 1 Periodic Neumann Periodic in
  valid_domain3 dom /\ (xbeg dom < xend dom)%R /\
  exists (show : R -> string) (read : string -> res R) (d : disc3 R), make3 dom = Ok d /\
    vertices_print3 show read dom (d3_dx d).
Proof.
  cbn zeta. assert (HV : valid_domain3 (ex_dom 0%R 2%R 2 1 3 1 Periodic Neumann Periodic)) by (vm_compute; repeat split; discriminate).
  split; auto. split; [cbn [xbeg xend ex_dom]; lra|]. destruct (make3_ok _ HV) as (d & E & W & D & _).
  exists ex_showR, ex_readR, d. split; auto.
  assert (DX : d3_dx d = 1%R) by (rewrite (wf_dx _ W), D; cbn [nsub ndiv nint Num_R xend xbeg nx ex_dom]; field).
  split; [|split]; intros i H; cbn [nx ny nz ex_dom] in H; (eapply ex_vertexR; [exact DX|exact H|lia]).
Qed.
Lemma ex_domain2 :
  let dom := ex_dom 0%R 2%R 2 0 0 1 Periodic Periodic Periodic in
  valid_domain2 dom /\ (xbeg dom < xend dom)%R /\
  exists (show : R -> string) (read : string -> res R) (d : disc2 R), make2 dom = Ok d /\
    read "0.0"%string = Ok 0%R /\ vertices_print2 show read dom (d2_dx d).
Proof.
  cbn zeta. assert (HV : valid_domain2 (ex_dom 0%R 2%R 2 0 0 1 Periodic Periodic Periodic)) by (vm_compute; repeat split; discriminate).
  split; auto. split; [cbn [xbeg xend ex_dom]; lra|]. destruct (make2_ok _ HV) as (d & E & W & D & _).
  exists ex_showR, ex_readR, d. split; auto. split; [reflexivity|].
  assert (DX : d2_dx d = 1%R) by (rewrite (wf2_dx _ W), D; cbn [nsub ndiv nint Num_R xend xbeg nx ex_dom]; field).
  split; intros i H; cbn [nx ny nz ex_dom] in H; (eapply ex_vertexR; [exact DX|exact H|lia]).
Qed.
Lemma ex_restart :
  word (ex_show (fs_time ex_status)) /\ ex_read (ex_show (fs_time ex_status)) = Ok (5 # 2)%Q /\
  word (ex_show (fs_dt ex_status)) /\ ex_read (ex_show (fs_dt ex_status)) = Ok (1 # 64)%Q /\
  exists (d : disc3 Q) (doc : list xml), make3 (N:=Num_Q) ex_grid3 = Ok d /\
    write3 ex_show ex_show ex_status d (tabulate3 ex_grid3 ex_field3) = Ok doc.
Proof.
  split; [apply wordb_word; [discriminate|reflexivity]|]. split; [reflexivity|].
  split; [apply wordb_word; [discriminate|reflexivity]|]. split; [reflexivity|].
  destruct ex_hypotheses3 as (HV & d & E & _ & HC & _). exists d. eexists. split; [exact E|].
  apply (write3_ok (N:=Num_Q) ex_show ex_show ex_grid3 d ex_status _ ex_field3 HV E HC).
Qed.
