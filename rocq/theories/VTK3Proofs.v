(** Names of solution files; the domain read back in exact arithmetic. *)
From Coq Require Import ZArith List String Ascii Bool Lia ZifyBool Reals Lra.
From Verif Require Import Outcome ZList ZListProofs Num Kernel ModelDisc3D ModelDisc2D SpecGrid Make3Proofs
  ModelText TextProofs ModelVTK SpecVTK VTKProofs VTK2Proofs.
Import ListNotations.
Local Open Scope string_scope.
Local Open Scope list_scope.
Local Open Scope Z_scope.

Lemma compare_before : forall a b, String.compare a b = Lt -> before a b.
Proof.
  induction a as [|c a IH]; intros [|d b] H; cbn [String.compare] in H; try discriminate.
  - exists "". right. split; [reflexivity|exists d, b; reflexivity].
  - destruct (Ascii.compare c d) eqn:E; try discriminate.
    + apply Ascii.compare_eq_iff in E. subst d. destruct (IH b H) as (p & HP). exists (String c p).
      destruct HP as [(x & y & s & t & -> & -> & L)|(-> & y & t & ->)].
      * left. exists x, y, s, t. split; [reflexivity|split; [reflexivity|exact L]].
      * right. split; [reflexivity|exists y, t; reflexivity].
    + exists "". left. exists c, d, a, b. split; [reflexivity|split; [reflexivity|]]. unfold Ascii.compare in E. apply N.compare_lt_iff in E. exact E.
Qed.

Lemma ndigits_spec n : 1 <= n -> 10 ^ (ndigits n - 1) <= n < 10 ^ ndigits n /\ 1 <= ndigits n.
Proof.
  intros H. destruct (dec_spec n ltac:(lia)) as (NE & V & L). unfold ndigits.
  specialize (V 0). apply digits_value_bounds in V. specialize (L H).
  split; [lia|]. destruct (dec n); [congruence|cbn [String.length]; lia].
Qed.

Lemma ndigits_unique n w : 1 <= n -> 1 <= w -> 10 ^ (w - 1) <= n < 10 ^ w -> ndigits n = w.
Proof.
  intros H W B. destruct (ndigits_spec n H) as (S & S1).
  destruct (Z.lt_trichotomy (ndigits n) w) as [L|[L|L]]; auto; exfalso.
  - assert (10 ^ ndigits n <= 10 ^ (w - 1)) by (apply Z.pow_le_mono_r; lia). lia.
  - assert (10 ^ w <= 10 ^ (ndigits n - 1)) by (apply Z.pow_le_mono_r; lia). lia.
Qed.

Lemma dec_length n w : 0 <= n < 10 ^ w -> 1 <= w -> Z.of_nat (String.length (dec n)) <= w.
Proof.
  intros H W. destruct (Z.eq_dec n 0) as [->|N]; [cbn; lia|].
  destruct (ndigits_spec n ltac:(lia)) as (S & S1). unfold ndigits in *.
  destruct (Z_le_gt_dec (Z.of_nat (String.length (dec n))) w); auto. exfalso.
  assert (10 ^ w <= 10 ^ (Z.of_nat (String.length (dec n)) - 1)) by (apply Z.pow_le_mono_r; lia). lia.
Qed.

(** ** Names *)
Lemma name_cancel base w s t :
  (base ++ "_step_" ++ pad0 w s ++ ".vts" = base ++ "_step_" ++ pad0 w t ++ ".vts")%string -> pad0 w s = pad0 w t.
Proof. intros H. do 2 apply append_cancel in H. apply append_cancel_r in H. exact H. Qed.

Lemma name3_inj base w i j : 0 <= i -> 0 <= j -> vts_name3 base w i = vts_name3 base w j -> i = j.
Proof.
  intros Hi Hj E. apply name_cancel in E.
  pose proof (pad0_value w (dec i)) as A. rewrite E, pad0_value, !dec_value in A by auto. congruence.
Qed.

Lemma name_before base w i j : 0 <= i < j -> j < 10 ^ w -> 1 <= w ->
  before (base ++ "_step_" ++ pad0 w (dec i) ++ ".vts") (base ++ "_step_" ++ pad0 w (dec j) ++ ".vts").
Proof.
  intros H HW W. apply compare_before. rewrite !compare_prefix.
  assert (Li : Z.of_nat (String.length (pad0 w (dec i))) = w) by (apply pad0_length, dec_length; lia).
  assert (Lj : Z.of_nat (String.length (pad0 w (dec j))) = w) by (apply pad0_length, dec_length; lia).
  apply compare_suffix; [lia|].
  apply (compare_digits _ _ 0 i j); [lia| | |lia]; rewrite pad0_value; apply dec_value; lia.
Qed.

Lemma show_small n : n < 1000000 -> show_g6 n = dec n.
Proof. intros H. unfold show_g6. destruct (Z.ltb_spec n 1000000); [reflexivity|lia]. Qed.

Lemma digits_value_bad s c t : forall v, digit_value c = None -> digits_value v (s ++ String c t) = None.
Proof. intros v H. rewrite digits_value_app. destruct (digits_value v s); auto. cbn [digits_value]. rewrite H. reflexivity. Qed.

Lemma show_large n : 1000000 <= n -> digits_value 0 (show_g6 n) = None.
Proof.
  intros H. unfold show_g6. destruct (Z.ltb_spec n 1000000); [lia|].
  set (e := ndigits n - 1). set (q := 10 ^ (e - 5)).
  assert (Q : 0 < q).
  { apply Z.pow_pos_nonneg; [lia|]. destruct (ndigits_spec n ltac:(lia)) as (S & S1). unfold e.
    destruct (Z_lt_le_dec (ndigits n - 1) 5); [|lia].
    assert (10 ^ ndigits n <= 10 ^ 6) by (apply Z.pow_le_mono_r; lia). change (10 ^ 6) with 1000000 in *. lia. }
  destruct (Z.div_eucl n q) as [m0 r] eqn:ED.
  assert (M0 : 0 <= m0) by (pose proof (Z.div_pos n q ltac:(lia) Q) as D; unfold Z.div in D; rewrite ED in D; exact D).
  set (m := if _ || _ then m0 + 1 else m0).
  assert (M : 0 <= m) by (unfold m; destruct (_ || _); lia).
  assert (G : forall m e', 0 <= m -> digits_value 0 (match dec m with
    | String c s => (String c (match strip_zeros s with EmptyString => "" | _ => "." ++ strip_zeros s end) ++ "e+" ++ pad0 2 (dec e'))%string
    | EmptyString => ""%string end) = None).
  { clear. intros m e' M. destruct (dec_spec m M) as (NE & _). destruct (dec m) as [|c s]; [congruence|].
    apply digits_value_bad. reflexivity. }
  destruct (m =? 1000000); apply G; lia.
Qed.

Lemma name2_inj base w i j : 0 <= i < 1000000 -> 0 <= j -> vts_name2 base w i = vts_name2 base w j -> i = j.
Proof.
  intros Hi Hj E. apply name_cancel in E. pose proof (pad0_value w (show_g6 i)) as A.
  rewrite E, pad0_value in A. rewrite (show_small i), dec_value in A by lia.
  destruct (Z_lt_le_dec j 1000000).
  - rewrite show_small, dec_value in A by lia. congruence.
  - rewrite show_large in A by lia. discriminate.
Qed.

Lemma show_tail a r : 100000 <= a < 1000000 -> 0 <= r < 5 -> show_g6 (10 * a + r) = show_g6 (10 * a).
Proof.
  intros HA HR. unfold show_g6.
  destruct (Z.ltb_spec (10 * a + r) 1000000); [lia|]. destruct (Z.ltb_spec (10 * a) 1000000); [lia|].
  rewrite (ndigits_unique (10 * a + r) 7) by (try lia; change (10 ^ (7 - 1)) with 1000000; change (10 ^ 7) with 10000000; lia).
  rewrite (ndigits_unique (10 * a) 7) by (try lia; change (10 ^ (7 - 1)) with 1000000; change (10 ^ 7) with 10000000; lia).
  change (10 ^ (7 - 1 - 5)) with 10.
  assert (D : forall r, 0 <= r < 5 -> Z.div_eucl (10 * a + r) 10 = (a, r)).
  { intros r' HR'. pose proof (Z.div_mod (10 * a + r') 10 ltac:(lia)) as X. pose proof (Z.mod_pos_bound (10 * a + r') 10 ltac:(lia)) as Y.
    unfold Z.div, Z.modulo in *. destruct (Z.div_eucl (10 * a + r') 10) as [x y]. f_equal; lia. }
  rewrite (D r HR). replace (10 * a) with (10 * a + 0) by ring. rewrite (D 0) by lia.
  replace (10 <? 2 * r) with false by lia. replace (10 =? 2 * r) with false by lia.
  reflexivity.
Qed.

Lemma final_distinct base s t : (base ++ "_final" ++ "_step_" ++ s <> base ++ "_step_" ++ t)%string.
Proof. intros H. apply append_cancel in H. discriminate. Qed.

(** ** The domain in exact arithmetic *)
Section Real.
  Local Open Scope R_scope.

  Lemma min_fold (l : list R) : forall x, fold_left (fun m v => if nltb v m then v else m) l x <= x /\
    (forall v, In v l -> fold_left (fun m v => if nltb v m then v else m) l x <= v).
  Proof.
    induction l as [|y l IH]; intros x; cbn [fold_left]; [split; [lra|intros ? []]|].
    assert (B : (if nltb y x then y else x) <= x /\ (if nltb y x then y else x) <= y).
    { change (@nltb R Num_R y x) with (Rltb y x). unfold Rltb. destruct (Rlt_dec y x); lra. }
    destruct (IH (if nltb y x then y else x)) as (A & C). split; [lra|]. intros v [<-|H]; [lra|auto].
  Qed.
  Lemma max_fold (l : list R) : forall x, x <= fold_left (fun m v => if nltb m v then v else m) l x /\
    (forall v, In v l -> v <= fold_left (fun m v => if nltb m v then v else m) l x).
  Proof.
    induction l as [|y l IH]; intros x; cbn [fold_left]; [split; [lra|intros ? []]|].
    assert (B : x <= (if nltb x y then y else x) /\ y <= (if nltb x y then y else x)).
    { change (@nltb R Num_R x y) with (Rltb x y). unfold Rltb. destruct (Rlt_dec x y); lra. }
    destruct (IH (if nltb x y then y else x)) as (A & C). split; [lra|]. intros v [<-|H]; [lra|auto].
  Qed.

  Lemma min_element_is (l : list R) m lo : min_element l = Ok m -> In m l -> In lo l -> (forall v, In v l -> lo <= v) -> m = lo.
  Proof.
    destruct l as [|x l]; [discriminate|]. cbn [min_element]. intros E IM IL HL. match type of E with Ok ?a = Ok ?b => assert (E2 : a = b) by congruence end.
    destruct (min_fold l x) as (A & B). rewrite E2 in A, B. specialize (HL m IM). destruct IL as [<-|IL]; [lra|]. specialize (B lo IL). lra.
  Qed.
  Lemma max_element_is (l : list R) m hi : max_element l = Ok m -> In m l -> In hi l -> (forall v, In v l -> v <= hi) -> m = hi.
  Proof.
    destruct l as [|x l]; [discriminate|]. cbn [max_element]. intros E IM IL HL. match type of E with Ok ?a = Ok ?b => assert (E2 : a = b) by congruence end.
    destruct (max_fold l x) as (A & B). rewrite E2 in A, B. specialize (HL m IM). destruct IL as [<-|IL]; [lra|]. specialize (B hi IL). lra.
  Qed.
  Lemma min_of {K} (f : K -> R) pts m p : min_element (map f pts) = Ok m -> In p pts -> (forall q, In q pts -> f p <= f q) -> m = f p.
  Proof.
    intros E IP H. assert (NE : map f pts <> []) by (destruct pts; [contradiction|discriminate]).
    destruct (min_element_ok _ NE) as (m' & E' & IM). assert (m' = m) by congruence. subst m'.
    apply (min_element_is _ _ _ E IM); [apply in_map; auto|]. intros v HV. apply in_map_iff in HV as (q & <- & HQ). auto.
  Qed.
  Lemma max_of {K} (f : K -> R) pts m p : max_element (map f pts) = Ok m -> In p pts -> (forall q, In q pts -> f q <= f p) -> m = f p.
  Proof.
    intros E IP H. assert (NE : map f pts <> []) by (destruct pts; [contradiction|discriminate]).
    destruct (max_element_ok _ NE) as (m' & E' & IM). assert (m' = m) by congruence. subst m'.
    apply (max_element_is _ _ _ E IM); [apply in_map; auto|]. intros v HV. apply in_map_iff in HV as (q & <- & HQ). auto.
  Qed.

  Lemma corner_R (x0 dx : R) i : corner_at x0 dx i = x0 + dx * IZR i.
  Proof. reflexivity. Qed.

  Lemma corner_mono x0 dx i j : 0 < dx -> (i <= j)%Z -> corner_at (V:=R) x0 dx i <= corner_at x0 dx j.
  Proof. intros H L. rewrite !corner_R. apply IZR_le in L. nra. Qed.

  Lemma spacing_pos (x0 x1 : R) n : x0 < x1 -> (1 <= n)%Z -> 0 < (x1 - x0) / IZR n.
  Proof. intros H L. apply Rdiv_lt_0_compat; [lra|]. apply (IZR_lt 0). lia. Qed.
  Lemma corner_end (x0 x1 : R) n : (1 <= n)%Z -> corner_at x0 ((x1 - x0) / IZR n) n = x1.
  Proof. intros L. rewrite corner_R. field. apply not_0_IZR. lia. Qed.
  Lemma corner_zero (x0 dx : R) : corner_at x0 dx 0 = x0.
  Proof. rewrite corner_R. ring. Qed.
End Real.
