(** Proofs of C76 and C77. *)
From Coq Require Import Reals Lra ZArith Lia List Psatz String.
From Coq Require Import Floats.SpecFloat.
From Flocq Require Import Core BinarySingleNaN.
From Verif Require Import Outcome ZList ZListProofs Num Kernel Gather ModelIndex IndexProofs ModelDisc3D ModelDisc2D ModelCH
  SpecGrid Disc3DProofs BC3Proofs Make3Proofs Disc2DProofs Make2Proofs Stencil3Proofs CHProofs SpecField SumProofs FieldProofs
  ModelReduce ReduceProofs ModelTime ModelRun SpecTime Time1Proofs Time2Proofs Time3Proofs Step1Proofs ModelMon SpecMon Mon1Proofs
  ModelDouble SpecDouble SpecAccuracy AccuracyProofs Accuracy2Proofs Accuracy3Proofs Accuracy4Proofs Accuracy5Proofs Accuracy6Proofs Accuracy7Proofs Accuracy8Proofs.
Import ListNotations.
Local Open Scope string_scope.
Local Open Scope list_scope.
Local Open Scope Z_scope.

Local Existing Instance prec_positive.
Local Existing Instance prec_below_emax.

Lemma tiny_below : (tiny <= / 1024)%R.
Proof. unfold tiny. apply Rinv_le_contravar; [lra|]. apply Rle_trans with (2 ^ 10)%R; [lra|]. apply Rle_pow; [lra|lia]. Qed.

(** The arithmetic of the double model is such an arithmetic. *)
Lemma double_pow2 (x : double) : finite (Bmult mode_NE x x) -> finite x /\
  (Rabs (value_of (Bmult mode_NE x x) - value_of x ^ 2) <= unit_roundoff * (value_of x ^ 2 + tiny))%R.
Proof.
  intros F. destruct (mult_error x x F) as (FX & _ & E). split; [exact FX|]. replace (value_of x ^ 2)%R with (value_of x * value_of x)%R by ring.
  rewrite (Rabs_pos_eq (value_of x * value_of x)) in E by nra. exact E.
Qed.
Lemma double_pow3 (x : double) : finite (Bmult mode_NE (Bmult mode_NE x x) x) -> finite x /\
  (Rabs (value_of (Bmult mode_NE (Bmult mode_NE x x) x) - value_of x ^ 3) <= 4 * unit_roundoff * (Rabs (value_of x ^ 3) + tiny))%R.
Proof.
  intros F. destruct (mult_error _ x F) as (F2 & FX & E). destruct (double_pow2 x F2) as (_ & E2). split; [exact FX|].
  set (y := Bmult mode_NE x x) in *. set (v := value_of x) in *. pose proof tiny_pos as TP. pose proof u_pos as UP. pose proof u_small as US.
  set (a := Rabs v). assert (AP : (0 <= a)%R) by apply Rabs_pos.
  assert (V2 : (v ^ 2 = a * a)%R) by (unfold a; rewrite <- Rabs_mult, Rabs_pos_eq by nra; ring).
  assert (V3 : (Rabs (v ^ 3) = a * a * a)%R) by (unfold a; rewrite <- RPow_abs; ring).
  assert (YE : (Rabs (value_of y * v - v ^ 3) <= unit_roundoff * (2 * (a * a * a) + tiny))%R).
  { replace (value_of y * v - v ^ 3)%R with ((value_of y - v ^ 2) * v)%R by ring. rewrite Rabs_mult. fold a.
    apply Rle_trans with (unit_roundoff * (a * a + tiny) * a)%R; [apply Rmult_le_compat_r; [exact AP|rewrite <- V2; exact E2]|].
    replace (unit_roundoff * (a * a + tiny) * a)%R with (unit_roundoff * (a * a * a + tiny * a))%R by ring. apply Rmult_le_compat_l; [lra|].
    destruct (Rle_or_lt a 1) as [L|L].
    - assert (tiny * a <= tiny * 1)%R by (apply Rmult_le_compat_l; lra). assert (0 <= a * a * a)%R by (repeat apply Rmult_le_pos; lra). lra.
    - assert (tiny <= 1)%R by (pose proof tiny_below; lra). assert (tiny * a <= 1 * a)%R by (apply Rmult_le_compat_r; lra).
      assert (1 * a <= (a * a) * a)%R by (apply Rmult_le_compat_r; [lra|nra]). lra. }
  assert (A3 : (0 <= a * a * a)%R) by (repeat apply Rmult_le_pos; lra).
  assert (YB : (Rabs (value_of y * v) <= a * a * a + unit_roundoff * (2 * (a * a * a) + tiny))%R).
  { replace (value_of y * v)%R with ((value_of y * v - v ^ 3) + v ^ 3)%R by ring. eapply Rle_trans; [apply Rabs_triang|]. rewrite V3. lra. }
  rewrite V3. replace (value_of (Bmult mode_NE y x) - v ^ 3)%R with ((value_of (Bmult mode_NE y x) - value_of y * v) + (value_of y * v - v ^ 3))%R by ring.
  eapply Rle_trans; [apply Rabs_triang|].
  assert (unit_roundoff * (Rabs (value_of y * v) + tiny) <= unit_roundoff * (a * a * a + unit_roundoff * (2 * (a * a * a) + tiny) + tiny))%R by (apply Rmult_le_compat_l; lra).
  assert (unit_roundoff * (2 * (a * a * a) + tiny) <= / 1024 * (2 * (a * a * a) + tiny))%R by (apply Rmult_le_compat_r; lra).
  assert (unit_roundoff * (a * a * a + unit_roundoff * (2 * (a * a * a) + tiny) + tiny) <= unit_roundoff * (a * a * a + / 1024 * (2 * (a * a * a) + tiny) + tiny))%R by (apply Rmult_le_compat_l; lra).
  assert (0 <= unit_roundoff * (a * a * a))%R by (apply Rmult_le_pos; lra). assert (0 <= unit_roundoff * tiny)%R by (apply Rmult_le_pos; lra). lra.
Qed.
Lemma double_ieee : ieee Num_double.
Proof. repeat (split; [reflexivity|]). exact double_pow3. Qed.
Lemma double_ieee_norm : ieee_norm Num_double.
Proof.
  split; [reflexivity|]. intros x F. destruct (double_pow2 x F) as (FX & E). split; [exact FX|]. eapply Rle_trans; [exact E|].
  pose proof u_pos. pose proof tiny_pos. pose proof (pow2_ge_0 (value_of x)). assert (0 <= unit_roundoff * (value_of x ^ 2 + tiny))%R by (apply Rmult_le_pos; lra). lra.
Qed.

(** Values of concrete doubles. *)
Lemma value_SF (x : double) : value_of x = SF2R radix2 (B2SF x).
Proof. symmetry. apply SF2R_B2SF. Qed.
Definition ratio (p : Z) (q : positive) : double := nrat (Num := Num_double) p q.
Definition one : double := ratio 1 1.
Definition tick : double := ratio 1 (2 ^ 53).
Definition ex_terms : list double := [one; tick; tick].

Definition differs (x y : spec_float) : bool :=
  match x, y with S754_finite _ a _, S754_finite _ b _ => negb (Pos.eqb a b) | _, _ => false end.
Lemma differs_sound x y : differs x y = true -> x <> y.
Proof. intros H ->. destruct y; try discriminate. cbn in H. rewrite Pos.eqb_refl in H. discriminate. Qed.

(* two brackets of 1 + 2^-53 + 2^-53 *)
Lemma ex_two_orders : exists v w : double,
  reduction (V := double) (nadd (Num := Num_double)) (nint (Num := Num_double) 0) (nint (Num := Num_double) 0) ex_terms v /\
  reduction (V := double) (nadd (Num := Num_double)) (nint (Num := Num_double) 0) (nint (Num := Num_double) 0) ex_terms w /\
  finite v /\ finite w /\ B2SF v <> B2SF w.
Proof.
  set (z := nint (Num := Num_double) 0). set (p := nadd (Num := Num_double)).
  exists (p (p (p z one) tick) tick), (p (p z one) (p tick tick)). split; [|split; [|split; [|split]]].
  - exists O, [z; one; tick; tick]. split; [apply Permutation.Permutation_refl|].
    change [z; one; tick; tick] with ((([z] ++ [one]) ++ [tick]) ++ [tick]). repeat constructor.
  - exists O, [z; one; tick; tick]. split; [apply Permutation.Permutation_refl|].
    change [z; one; tick; tick] with (([z] ++ [one]) ++ ([tick] ++ [tick])). repeat constructor.
  - vm_compute. reflexivity.
  - vm_compute. reflexivity.
  - apply differs_sound. vm_compute. reflexivity.
Qed.

(** A box of 2 x 2 x 2 cells and a square of 2 x 2 cells, cell size 1, with a two-cell halo. *)
Definition acc_box : domain double := {| nx := 2; ny := 2; nz := 2; xbeg := ratio 0 1; xend := ratio 2 1; ybeg := ratio 0 1; yend := ratio 2 1;
  zbeg := ratio 0 1; zend := ratio 2 1; xbc := Periodic; ybc := Periodic; zbc := Periodic; nhalo := 2 |}.
Definition acc_square : domain double := {| nx := 2; ny := 1; nz := 1; xbeg := ratio 0 1; xend := ratio 2 1; ybeg := ratio 0 1; yend := ratio 2 1;
  zbeg := ratio 0 1; zend := ratio 2 1; xbc := Periodic; ybc := Periodic; zbc := Periodic; nhalo := 2 |}.
Definition half : double := ratio 1 2.
Definition low : double := ratio (-1) 3.
Definition acc_u3 (i j k : Z) : double := if Z.even (i + 2 * j + k) then half else low.
Definition acc_u2 (i j : Z) : double := if Z.even (i + 2 * j) then half else low.
Definition acc_c3 : list double := map (fun p => acc_u3 (fst (fst p)) (snd (fst p)) (snd p)) (box3 (-2) 4 (-2) 4 (-2) 4).
Definition acc_c2 : list double := map (fun p => acc_u2 (fst p) (snd p)) (box2 (-2) 4 (-2) 4).
Definition acc_params : ch_params double := {| ch_m := ratio 1 8; ch_sigma := one; ch_eps2 := ratio 1 10 |}.
Definition acc_dts : list double := [ratio 1 1000; ratio 1 500].
Definition zeros (n : Z) : list double := map (fun _ => ratio 0 1) (zrange 0 n).
Definition acc_world (n : Z) (c : list double) : rk3_world double (scratch double) unit :=
  {| k_int := {| r_k1 := [zeros n]; r_k2 := [zeros n]; r_k3 := [zeros n]; r_stage := [zeros n] |};
     k_sc := {| sc_lap := zeros n; sc_arg := zeros n; sc_bih := zeros n; sc_lin := zeros n |};
     k_u := [c]; k_du := [zeros n]; k_rest := tt |}.

(** A right-hand side that stops the run when an interior value is not finite or larger than 1. *)
Definition tame_value (v : double) : bool := is_finite v && Bleb (Babs v) one.
Definition tame_in {V} (get : V -> option double) (l : list V) : bool :=
  forallb (fun p => match get p with Some v => tame_value v | None => false end) l.
Definition tame3 (dom : domain double) (s : state double) : bool :=
  match s with
  | [c] => (zlen c =? cells3 dom) && tame_in (fun p => zget c (slot3 dom (fst (fst p)) (snd (fst p)) (snd p))) (box3 0 (nx dom) 0 (ny dom) 0 (nz dom))
  | _ => false
  end.
Definition tame2 (dom : domain double) (s : state double) : bool :=
  match s with
  | [c] => (zlen c =? cells2 dom) && tame_in (fun p => zget c (slot2 dom (fst p) (snd p))) (box2 0 (nx dom) 0 (nx dom))
  | _ => false
  end.
Definition guarded (ok : state double -> bool) (eval : rhs_fun double (scratch double)) : rhs_fun double (scratch double) :=
  fun sc s t r => if ok s then eval sc s t r else UB.
Definition guarded3 (d : disc3 double) : rhs_fun double (scratch double) := guarded (tame3 acc_box) (ch_rhs3 (N := Num_double) d 1 acc_params).
Definition guarded2 (d : disc2 double) : rhs_fun double (scratch double) := guarded (tame2 acc_square) (ch_rhs2 (N := Num_double) d acc_params).

Lemma le_true x y : Rle_bool x y = true -> (x <= y)%R.
Proof. intros H. destruct (Rle_bool_spec x y); [assumption|discriminate]. Qed.
Lemma one_value : finite one /\ value_of one = 1%R.
Proof.
  split; [vm_compute; reflexivity|]. rewrite value_SF.
  replace (B2SF one) with (S754_finite false (2 ^ 52) (-52)) by (vm_compute; reflexivity).
  unfold SF2R, F2R, cond_Zopp; cbn [Fnum Fexp]. rewrite bpow_powerRZ.
  change (powerRZ (IZR radix2) (-52)) with (/ (2 ^ 52))%R. change (Z.pos (2 ^ 52)) with (2 ^ 52). rewrite (pow_IZR 2 52). change (2 ^ Z.of_nat 52) with (2 ^ 52). apply Rinv_r. apply IZR_neq. discriminate.
Qed.
Lemma tame_value_ok v : tame_value v = true -> finite v /\ (Rabs (value_of v) <= 1)%R.
Proof.
  intros H. apply andb_prop in H as (F & L). split; [exact F|]. destruct one_value as (F1 & V1).
  rewrite Bleb_correct in L; [|rewrite is_finite_Babs; exact F|exact F1]. rewrite B2R_Babs in L. fold (value_of one) in L. rewrite V1 in L.
  apply le_true. exact L.
Qed.
Lemma inside_box3 dom i j k : inside3 (V := double) dom i j k -> In (i, j, k) (box3 0 (nx dom) 0 (ny dom) 0 (nz dom)).
Proof. intros (A & B & C). apply in_box3. lia. Qed.
Lemma tame3_ok dom s : valid_domain3 dom -> tame3 dom s = true -> bounded3 dom 1 s.
Proof.
  intros HV H. destruct s as [|c [|? ?]]; try discriminate. apply andb_prop in H as (L & T). apply Z.eqb_eq in L.
  destruct (holds3_exists dom c HV L) as (w & HW). exists c, w. split; [reflexivity|].
  assert (HI : holds_inside3 dom c w) by (split; [exact L|]; intros i j k I; apply HW; apply inside_padded3; [apply HV|exact I]).
  split; [exact HI|]. intros i j k I. apply tame_value_ok. unfold tame_in in T. rewrite forallb_forall in T. specialize (T (i, j, k) (inside_box3 dom i j k I)).
  cbn [fst snd] in T. rewrite (proj2 HI i j k I) in T. exact T.
Qed.
Lemma tame2_ok dom s : valid_domain2 dom -> tame2 dom s = true -> bounded2 dom 1 s.
Proof.
  intros HV H. destruct s as [|c [|? ?]]; try discriminate. apply andb_prop in H as (L & T). apply Z.eqb_eq in L.
  destruct (holds2_exists dom c HV L) as (w & HW). exists c, w. split; [reflexivity|].
  assert (HI : holds_inside2 dom c w) by (split; [exact L|]; intros i j I; apply HW; apply inside_padded2; [apply HV|exact I]).
  split; [exact HI|]. intros i j I. apply tame_value_ok. unfold tame_in in T. rewrite forallb_forall in T. specialize (T (i, j)).
  cbn [fst snd] in T. rewrite (proj2 HI i j I) in T. apply T. destruct I as (A & B). apply in_box2. lia.
Qed.
Lemma guarded_restricts ok eval (Q : state double -> Prop) : (forall s, ok s = true -> Q s) -> restricts (guarded ok eval) eval Q.
Proof. intros H sc s t r out E. unfold guarded in E. destruct (ok s) eqn:T; [|discriminate]. split; [exact E|apply H; exact T]. Qed.

Definition size_ok (h : double) : bool := is_finite h && Bleb half h && Bleb h (ratio 2 1).
Lemma size_ok_spec h : size_ok h = true -> finite h /\ (/ 2 ^ 250 <= value_of h <= 2 ^ 250)%R.
Proof.
  intros H. apply andb_prop in H as (H & L2). apply andb_prop in H as (F & L1). split; [exact F|].
  assert (FH : is_finite half = true) by (vm_compute; reflexivity). assert (F2 : is_finite (ratio 2 1) = true) by (vm_compute; reflexivity).
  rewrite Bleb_correct in L1, L2 by assumption.
  assert (VH : B2R half = (/ 2)%R).
  { fold (value_of half). rewrite value_SF. replace (B2SF half) with (S754_finite false (2 ^ 52) (-53)) by (vm_compute; reflexivity).
    unfold SF2R, F2R, cond_Zopp; cbn [Fnum Fexp]. rewrite bpow_powerRZ. change (powerRZ (IZR radix2) (-53)) with (/ (2 ^ 53))%R. change (Z.pos (2 ^ 52)) with (2 ^ 52). rewrite (pow_IZR 2 53). change (2 ^ Z.of_nat 53) with (2 * 2 ^ 52). rewrite mult_IZR, Rinv_mult. field. apply IZR_neq. discriminate. }
  assert (V2 : B2R (ratio 2 1) = 2%R).
  { fold (value_of (ratio 2 1)). rewrite value_SF. replace (B2SF (ratio 2 1)) with (S754_finite false (2 ^ 52) (-51)) by (vm_compute; reflexivity).
    unfold SF2R, F2R, cond_Zopp; cbn [Fnum Fexp]. rewrite bpow_powerRZ. change (powerRZ (IZR radix2) (-51)) with (/ (2 ^ 51))%R. change (Z.pos (2 ^ 52)) with (2 * 2 ^ 51). rewrite (pow_IZR 2 51). change (2 ^ Z.of_nat 51) with (2 ^ 51). rewrite mult_IZR. field. apply IZR_neq. discriminate. }
  rewrite VH in L1. rewrite V2 in L2. apply le_true in L1 as A. apply le_true in L2 as C.
  assert (2 <= 2 ^ 250)%R by (apply Rle_trans with (2 ^ 1)%R; [lra|apply Rle_pow; [lra|lia]]). unfold value_of. split; [|lra].
  apply Rle_trans with (/ 2)%R; [apply Rinv_le_contravar; lra|exact A].
Qed.

Lemma acc_box_valid : valid_domain3 acc_box. Proof. repeat split; cbn; lia. Qed.
Lemma acc_square_valid : valid_domain2 acc_square. Proof. repeat split; cbn; lia. Qed.
Lemma acc_field3 : holds_inside3 acc_box acc_c3 acc_u3.
Proof.
  split; [vm_compute; reflexivity|]. intros i j k (I & J & K). cbn in I, J, K.
  assert (HI : i = 0 \/ i = 1) by lia. assert (HJ : j = 0 \/ j = 1) by lia. assert (HK : k = 0 \/ k = 1) by lia. clear I J K.
  unfold acc_c3. rewrite zget_map.
  assert (E : zget (box3 (-2) 4 (-2) 4 (-2) 4) (slot3 acc_box i j k) = Some (i, j, k)) by (destruct HI as [->| ->], HJ as [->| ->], HK as [->| ->]; vm_compute; reflexivity).
  rewrite E. reflexivity.
Qed.
Lemma acc_field2 : holds_inside2 acc_square acc_c2 acc_u2.
Proof.
  split; [vm_compute; reflexivity|]. intros i j (I & J). cbn in I, J.
  assert (HI : i = 0 \/ i = 1) by lia. assert (HJ : j = 0 \/ j = 1) by lia. clear I J.
  unfold acc_c2. rewrite zget_map.
  assert (E : zget (box2 (-2) 4 (-2) 4) (slot2 acc_square i j) = Some (i, j)) by (destruct HI as [->| ->], HJ as [->| ->]; vm_compute; reflexivity).
  rewrite E. reflexivity.
Qed.
Lemma half_value : value_of half = (/ 2)%R.
Proof.
  rewrite value_SF. replace (B2SF half) with (S754_finite false (2 ^ 52) (-53)) by (vm_compute; reflexivity).
  unfold SF2R, F2R, cond_Zopp; cbn [Fnum Fexp]. rewrite bpow_powerRZ. change (powerRZ (IZR radix2) (-53)) with (/ (2 ^ 53))%R. change (Z.pos (2 ^ 52)) with (2 ^ 52). rewrite (pow_IZR 2 53). change (2 ^ Z.of_nat 53) with (2 * 2 ^ 52). rewrite mult_IZR, Rinv_mult. field. apply IZR_neq. discriminate.
Qed.
Lemma power_small : (/ 2 ^ 500 <= / 1024)%R.
Proof. apply Rinv_le_contravar; [lra|]. apply Rle_trans with (2 ^ 10)%R; [lra|]. apply Rle_pow; [lra|lia]. Qed.
Lemma acc_rms3 : (/ 2 ^ 500 <= true_rms3 acc_box acc_u3)%R.
Proof.
  eapply Rle_trans; [apply power_small|]. rewrite <- (sqrt_pow2 (/ 1024)) by lra. apply sqrt_le_1_alt.
  unfold sum3, sum2, sum1. change (zrange 0 (nx acc_box)) with [0; 1]. change (zrange 0 (ny acc_box)) with [0; 1]. change (zrange 0 (nz acc_box)) with [0; 1].
  change (IZR (nx acc_box)) with 2%R. change (IZR (ny acc_box)) with 2%R. change (IZR (nz acc_box)) with 2%R. unfold Rsum; cbn [map fold_right].
  change (acc_u3 0 0 0) with half. change (acc_u3 0 1 0) with half. change (acc_u3 1 0 1) with half. change (acc_u3 1 1 1) with half.
  change (acc_u3 0 0 1) with low. change (acc_u3 0 1 1) with low. change (acc_u3 1 0 0) with low. change (acc_u3 1 1 0) with low. rewrite half_value.
  pose proof (pow2_ge_0 (value_of low)). lra.
Qed.
Lemma acc_rms2 : (/ 2 ^ 500 <= true_rms2 acc_square acc_u2)%R.
Proof.
  eapply Rle_trans; [apply power_small|]. rewrite <- (sqrt_pow2 (/ 1024)) by lra. apply sqrt_le_1_alt.
  unfold sum2, sum1. change (zrange 0 (nx acc_square)) with [0; 1].
  change (IZR (nx acc_square)) with 2%R. unfold Rsum; cbn [map fold_right].
  change (acc_u2 0 0) with half. change (acc_u2 0 1) with half. change (acc_u2 1 0) with low. change (acc_u2 1 1) with low. rewrite half_value.
  pose proof (pow2_ge_0 (value_of low)). lra.
Qed.
(* the left-to-right sum is one of the parallel sums *)
Lemma combines_left {V} (op : V -> V -> V) l : forall z, combines op (z :: l) (fold_left op l z).
Proof.
  induction l as [|a l IH] using rev_ind; intros z; [constructor|]. rewrite fold_left_app. cbn [fold_left].
  change (z :: l ++ [a]) with ((z :: l) ++ [a]). constructor; [apply IH|constructor].
Qed.
Lemma acc_sum_ok : exists rsum, forall l, reduction (V := double) (nadd (Num := Num_double)) (nint (Num := Num_double) 0) (nint (Num := Num_double) 0) l (rsum (nint (Num := Num_double) 0) l).
Proof. exists (fun z l => fold_left (nadd (Num := Num_double)) l z). intros l. exists O, (nint (Num := Num_double) 0 :: l). split; [apply Permutation.Permutation_refl|apply combines_left]. Qed.

Definition checked {D X} (m : res D) (size : D -> bool) (run : D -> res (list X)) (tame : X -> bool) : bool :=
  match m with
  | Ok d => size d && match run d with Ok xs => forallb tame xs | _ => false end
  | _ => false
  end.
Lemma checked_inv {D X} (m : res D) size run (tame : X -> bool) : checked m size run tame = true ->
  exists d xs, m = Ok d /\ size d = true /\ run d = Ok xs /\ Forall (fun x => tame x = true) xs.
Proof.
  intros H. destruct m as [d| | |]; try discriminate. apply andb_prop in H as (A & B).
  destruct (run d) as [xs| | |] eqn:E; try discriminate.
  exists d, xs. split; [reflexivity|]. split; [exact A|]. split; [exact E|]. apply Forall_forall. rewrite forallb_forall in B. exact B.
Qed.
Definition run3 (d : disc3 double) : res (list (rk3_world double (scratch double) unit)) :=
  run_steps (N := Num_double) (rk3_do (N := Num_double) (guarded3 d)) (acc_world (cells3 acc_box) acc_c3) (ratio 0 1) acc_dts.
Definition run2 (d : disc2 double) : res (list (rk3_world double (scratch double) unit)) :=
  run_steps (N := Num_double) (rk3_do (N := Num_double) (guarded2 d)) (acc_world (cells2 acc_square) acc_c2) (ratio 0 1) acc_dts.
Lemma check3_true : checked (make3 (N := Num_double) acc_box) (fun d => size_ok (d3_dx d)) run3 (fun x => tame3 acc_box (k_u x)) = true. Proof. vm_compute. reflexivity. Qed.
Lemma check2_true : checked (make2 (N := Num_double) acc_square) (fun d => size_ok (d2_dx d)) run2 (fun x => tame2 acc_square (k_u x)) = true. Proof. vm_compute. reflexivity. Qed.

Lemma tiny_le_dt dt : (Bleb tick dt && Bleb dt one && is_finite dt)%bool = true -> (tiny <= value_of dt /\ value_of (ch_sigma acc_params) * value_of dt <= 1)%R.
Proof.
  intros H. apply andb_prop in H as (H & F). apply andb_prop in H as (L & U).
  assert (FT : is_finite tick = true) by (vm_compute; reflexivity).
  rewrite Bleb_correct in L, U by (assumption || apply one_value). fold (value_of one) in U. change (ch_sigma acc_params) with one. rewrite (proj2 one_value) in *.
  assert (VT : B2R tick = (/ 2 ^ 53)%R).
  { fold (value_of tick). rewrite value_SF. replace (B2SF tick) with (S754_finite false (2 ^ 52) (-105)) by (vm_compute; reflexivity).
    unfold SF2R, F2R, cond_Zopp; cbn [Fnum Fexp]. rewrite bpow_powerRZ. change (powerRZ (IZR radix2) (-105)) with (/ (2 ^ 105))%R. change (Z.pos (2 ^ 52)) with (2 ^ 52).
    change 105%nat with (53 + 52)%nat. rewrite pow_add, Rinv_mult. rewrite (pow_IZR 2 52). change (2 ^ Z.of_nat 52) with (2 ^ 52).
    rewrite (Rmult_comm (/ 2 ^ 53)), <- Rmult_assoc, Rinv_r by (apply IZR_neq; discriminate). lra. }
  rewrite VT in L. apply le_true in L as A. apply le_true in U as C.
  unfold value_of. split; [|lra]. eapply Rle_trans; [|exact A]. unfold tiny. apply Rinv_le_contravar; [apply pow_lt; lra|]. apply Rle_pow; [lra|lia].
Qed.
Lemma acc_dts_ok : Forall (fun dt => tiny <= value_of dt /\ value_of (ch_sigma acc_params) * value_of dt <= 1)%R acc_dts.
Proof. repeat (apply Forall_cons; [apply tiny_le_dt; vm_compute; reflexivity|]). apply Forall_nil. Qed.
Lemma zeros_len n : 0 <= n -> zlen (zeros n) = n.
Proof. intros H. unfold zeros, zlen. rewrite map_length. change (zlen (zrange 0 n) = n). rewrite zlen_zrange. lia. Qed.
Lemma acc_world_shapes n c : 0 <= n -> scratch_fits n (k_sc (acc_world n c)) /\ shaped 1 n (k_du (acc_world n c)) /\
  (forall k, In k [r_k1 (k_int (acc_world n c)); r_k2 (k_int (acc_world n c)); r_k3 (k_int (acc_world n c)); r_stage (k_int (acc_world n c))] -> shaped 1 n k).
Proof.
  intros H. assert (S1 : shaped 1 n [zeros n]).
  { split; [reflexivity|]. intros e a E. destruct e as [|[|e]]; cbn in E; try discriminate. injection E as <-. apply zeros_len. exact H. }
  split; [repeat split; apply zeros_len; exact H|]. split; [exact S1|]. intros k [<-|[<-|[<-|[<-|[]]]]]; exact S1.
Qed.
Lemma acc_small3 i j k : (Rabs (value_of (acc_u3 i j k)) <= 1)%R.
Proof. apply tame_value_ok. unfold acc_u3. destruct (Z.even _); vm_compute; reflexivity. Qed.
Lemma acc_small2 i j : (Rabs (value_of (acc_u2 i j)) <= 1)%R.
Proof. apply tame_value_ok. unfold acc_u2. destruct (Z.even _); vm_compute; reflexivity. Qed.
Lemma tiny_le_1 : (tiny <= 1)%R. Proof. pose proof tiny_below. lra. Qed.
Lemma sigma_pos : (0 <= value_of (ch_sigma acc_params))%R.
Proof. change (ch_sigma acc_params) with one. rewrite (proj2 one_value). lra. Qed.

Lemma acc_run3 : exists (d : disc3 double) (xs : list (rk3_world double (scratch double) unit)),
  let x := acc_world (cells3 acc_box) acc_c3 in
  (ieee Num_double /\ valid_domain3 acc_box /\ make3 (N := Num_double) acc_box = Ok d) /\
  (2 <= nhalo acc_box /\ nhalo acc_box <= nx acc_box /\ nhalo acc_box <= ny acc_box /\ nhalo acc_box <= nz acc_box /\ xbc acc_box <> Neumann /\ ybc acc_box <> Neumann /\ zbc acc_box <> Neumann) /\
  (forall k, In k [r_k1 (k_int x); r_k2 (k_int x); r_k3 (k_int x); r_stage (k_int x)] -> shaped 1 (cells3 acc_box) k) /\
  (scratch_fits (cells3 acc_box) (k_sc x) /\ shaped 1 (cells3 acc_box) (k_du x) /\ k_u x = [acc_c3] /\ holds_inside3 acc_box acc_c3 acc_u3) /\
  (tiny <= 1 /\ finite (d3_dx d) /\ / 2 ^ 250 <= value_of (d3_dx d) <= 2 ^ 250)%R /\
  ((0 <= value_of (ch_sigma acc_params))%R /\ Forall (fun dt => tiny <= value_of dt /\ value_of (ch_sigma acc_params) * value_of dt <= 1)%R acc_dts) /\
  restricts (guarded3 d) (ch_rhs3 (N := Num_double) d 1 acc_params) (bounded3 acc_box 1) /\
  run_steps (N := Num_double) (rk3_do (N := Num_double) (guarded3 d)) x (ratio 0 1) acc_dts = Ok xs /\ Forall (fun x' => finite3 acc_box (k_u x')) xs.
Proof.
  destruct (checked_inv _ _ _ _ check3_true) as (d & xs & E & S & R & T). exists d, xs. destruct (size_ok_spec _ S) as (F & H).
  destruct (acc_world_shapes (cells3 acc_box) acc_c3 ltac:(vm_compute; discriminate)) as (A1 & A2 & A3).
  split; [exact (conj double_ieee (conj acc_box_valid E))|]. split; [cbn; repeat split; (lia || discriminate)|].
  split; [exact A3|]. split; [exact (conj A1 (conj A2 (conj eq_refl acc_field3)))|]. split; [exact (conj tiny_le_1 (conj F H))|].
  split; [exact (conj sigma_pos acc_dts_ok)|]. split; [apply guarded_restricts; intros s; apply tame3_ok; exact acc_box_valid|]. split; [exact R|].
  eapply Forall_impl; [|exact T]. intros x Hx. destruct (tame3_ok _ _ acc_box_valid Hx) as (c & u & E1 & E2 & E3). exists c, u. split; [exact E1|]. split; [exact E2|]. intros i j k I. apply (E3 i j k I).
Qed.
Lemma acc_run2 : exists (d : disc2 double) (xs : list (rk3_world double (scratch double) unit)),
  let x := acc_world (cells2 acc_square) acc_c2 in
  (ieee Num_double /\ valid_domain2 acc_square /\ make2 (N := Num_double) acc_square = Ok d) /\
  (2 <= nhalo acc_square /\ nhalo acc_square <= nx acc_square) /\
  (forall k, In k [r_k1 (k_int x); r_k2 (k_int x); r_k3 (k_int x); r_stage (k_int x)] -> shaped 1 (cells2 acc_square) k) /\
  (scratch_fits (cells2 acc_square) (k_sc x) /\ shaped 1 (cells2 acc_square) (k_du x) /\ k_u x = [acc_c2] /\ holds_inside2 acc_square acc_c2 acc_u2) /\
  (tiny <= 1 /\ finite (d2_dx d) /\ / 2 ^ 250 <= value_of (d2_dx d) <= 2 ^ 250)%R /\
  ((0 <= value_of (ch_sigma acc_params))%R /\ Forall (fun dt => tiny <= value_of dt /\ value_of (ch_sigma acc_params) * value_of dt <= 1)%R acc_dts) /\
  restricts (guarded2 d) (ch_rhs2 (N := Num_double) d acc_params) (bounded2 acc_square 1) /\
  run_steps (N := Num_double) (rk3_do (N := Num_double) (guarded2 d)) x (ratio 0 1) acc_dts = Ok xs /\ Forall (fun x' => finite2 acc_square (k_u x')) xs.
Proof.
  destruct (checked_inv _ _ _ _ check2_true) as (d & xs & E & S & R & T). exists d, xs. destruct (size_ok_spec _ S) as (F & H).
  destruct (acc_world_shapes (cells2 acc_square) acc_c2 ltac:(vm_compute; discriminate)) as (A1 & A2 & A3).
  split; [exact (conj double_ieee (conj acc_square_valid E))|]. split; [cbn; repeat split; (lia || discriminate)|].
  split; [exact A3|]. split; [exact (conj A1 (conj A2 (conj eq_refl acc_field2)))|]. split; [exact (conj tiny_le_1 (conj F H))|].
  split; [exact (conj sigma_pos acc_dts_ok)|]. split; [apply guarded_restricts; intros s; apply tame2_ok; exact acc_square_valid|]. split; [exact R|].
  eapply Forall_impl; [|exact T]. intros x Hx. destruct (tame2_ok _ _ acc_square_valid Hx) as (c & u & E1 & E2 & E3). exists c, u. split; [exact E1|]. split; [exact E2|]. intros i j I. apply (E3 i j I).
Qed.
Lemma acc_rate3 : exists d : disc3 double,
  (ieee Num_double /\ valid_domain3 acc_box /\ make3 (N := Num_double) acc_box = Ok d) /\
  (scratch_fits (cells3 acc_box) (k_sc (acc_world (cells3 acc_box) acc_c3)) /\ zlen (zeros (cells3 acc_box)) = cells3 acc_box) /\
  holds_inside3 acc_box acc_c3 acc_u3 /\
  (tiny <= 1 /\ (forall i j k, inside3 acc_box i j k -> Rabs (value_of (acc_u3 i j k)) <= 1))%R /\
  (finite (d3_dx d) /\ / 2 ^ 250 <= value_of (d3_dx d) <= 2 ^ 250)%R.
Proof.
  destruct (checked_inv _ _ _ _ check3_true) as (d & xs & E & S & R & T). exists d. destruct (size_ok_spec _ S) as (F & H).
  destruct (acc_world_shapes (cells3 acc_box) acc_c3 ltac:(vm_compute; discriminate)) as (A1 & _).
  split; [exact (conj double_ieee (conj acc_box_valid E))|]. split; [exact (conj A1 (zeros_len (cells3 acc_box) ltac:(vm_compute; discriminate)))|].
  split; [exact acc_field3|]. split; [exact (conj tiny_le_1 (fun i j k _ => acc_small3 i j k))|]. exact (conj F H).
Qed.
Lemma acc_rate2 : exists d : disc2 double,
  (ieee Num_double /\ valid_domain2 acc_square /\ make2 (N := Num_double) acc_square = Ok d) /\
  (scratch_fits (cells2 acc_square) (k_sc (acc_world (cells2 acc_square) acc_c2)) /\ zlen (zeros (cells2 acc_square)) = cells2 acc_square) /\
  holds_inside2 acc_square acc_c2 acc_u2 /\
  (tiny <= 1 /\ (forall i j, inside2 acc_square i j -> Rabs (value_of (acc_u2 i j)) <= 1))%R /\
  (finite (d2_dx d) /\ / 2 ^ 250 <= value_of (d2_dx d) <= 2 ^ 250)%R.
Proof.
  destruct (checked_inv _ _ _ _ check2_true) as (d & xs & E & S & R & T). exists d. destruct (size_ok_spec _ S) as (F & H).
  destruct (acc_world_shapes (cells2 acc_square) acc_c2 ltac:(vm_compute; discriminate)) as (A1 & _).
  split; [exact (conj double_ieee (conj acc_square_valid E))|]. split; [exact (conj A1 (zeros_len (cells2 acc_square) ltac:(vm_compute; discriminate)))|].
  split; [exact acc_field2|]. split; [exact (conj tiny_le_1 (fun i j _ => acc_small2 i j))|]. exact (conj F H).
Qed.
Lemma acc_box_ok : valid_domain3 acc_box /\ (exists d, make3 (N := Num_double) acc_box = Ok d) /\ nx acc_box * ny acc_box * nz acc_box <= 2 ^ 24.
Proof. split; [exact acc_box_valid|]. split; [|vm_compute; discriminate]. destruct (checked_inv _ _ _ _ check3_true) as (d & xs & E & _). exists d. exact E. Qed.
Lemma acc_square_ok : valid_domain2 acc_square /\ (exists d, make2 (N := Num_double) acc_square = Ok d) /\ nx acc_square * nx acc_square <= 2 ^ 24.
Proof. split; [exact acc_square_valid|]. split; [|vm_compute; discriminate]. destruct (checked_inv _ _ _ _ check2_true) as (d & xs & E & _). exists d. exact E. Qed.
Definition acc_field_ok3 := conj acc_field3 acc_rms3.
Definition acc_field_ok2 := conj acc_field2 acc_rms2.

Lemma pf_C76_growth :
  forall k : nat, Z.of_nat k <= 2 ^ 25 -> (0 <= growth k <= INR (k + 1) * unit_roundoff)%R.
Proof. intros k H. split; [apply growth_pos|]. rewrite Nat.add_1_r. apply growth_linear. exact H. Qed.

Lemma pf_C76_sum :
  forall (N : Num double) (l : list double) (v : double),
  ieee N -> reduction nadd (nint 0) (nint 0) l v -> finite v ->
  Forall finite l /\
  (Rabs (value_of v - total (map value_of l)) <= growth (List.length l - 1) * total_abs (map value_of l))%R.
Proof.
  intros N l v IE R F. apply (reduction_error (nint 0)); [|eapply reduction_ext; [|exact R]; apply IE|exact F].
  destruct IE as (_ & _ & _ & _ & _ & I & _). rewrite I. apply (int_exact 0). lia.
Qed.

Lemma pf_C76_orders :
  forall (N : Num double) (l : list double) (v w : double),
  ieee N -> reduction nadd (nint 0) (nint 0) l v -> reduction nadd (nint 0) (nint 0) l w -> finite v -> finite w ->
  (Rabs (value_of v - value_of w) <= 2 * growth (List.length l - 1) * total_abs (map value_of l))%R.
Proof.
  intros N l v w IE R1 R2 F1 F2. destruct (pf_C76_sum N l v IE R1 F1) as (_ & E1). destruct (pf_C76_sum N l w IE R2 F2) as (_ & E2).
  replace (value_of v - value_of w)%R with ((value_of v - total (map value_of l)) + - (value_of w - total (map value_of l)))%R by ring.
  eapply Rle_trans; [apply Rabs_triang|]. rewrite Rabs_Ropp. lra.
Qed.

(** One equation's report. *)
Lemma one_report (V : Type) (N : Num V) rsum name idx st (a : list V) v : residual_norm rsum idx a = Ok v ->
  exists st' rest, residual_calculator rsum [name] 1 idx st [a] = Ok (st', (append "res_" name, v) :: rest).
Proof.
  intros E. unfold residual_calculator. cbn [seq fold_left map norm_step rbind nth_error of_opt upd fst snd]. unfold norm_step. cbn [rbind nth_error of_opt]. rewrite E.
  cbn [rbind nth_error of_opt upd fst snd]. do 2 eexists. reflexivity.
Qed.
Lemma norm_value (V : Type) (N : Num V) (rsum : V -> list V -> V) idx (a : list V) g :
  (forall q, In q idx -> zget a q = Some (g q)) ->
  residual_norm rsum idx a = Ok (nsqrt (rsum (nint 0) (map npow2 (map g idx)) / nint (zlen idx)))%num.
Proof.
  intros H. unfold residual_norm, square_cell.
  rewrite (collect_over (fun q => rbind (of_opt (zget a q)) (fun v => Ok (npow2 v))) (fun q => npow2 (g q))).
  - cbn [rbind]. rewrite map_map. reflexivity.
  - intros q Hq. rewrite H by auto. reflexivity.
Qed.
Lemma total_interior3 (N : Num double) (dom : domain double) (d : disc3 double) g : valid_domain3 dom -> wf3 d -> d3_domain d = dom ->
  total (map g (d3_interior d)) = sum3 (nx dom) (ny dom) (nz dom) (fun i j k => g (slot3 dom i j k)) /\ zlen (d3_interior d) = nx dom * ny dom * nz dom.
Proof.
  intros HV W <-. rewrite (wf_interior _ W). split.
  - rewrite map_map. change total with Rsum. unfold box3, sum3, sum2, sum1.
    rewrite map_flat_map, Rsum_flat_map. apply Rsum_map_ext. intros i _.
    rewrite map_flat_map, Rsum_flat_map. apply Rsum_map_ext. intros j _. rewrite map_map. reflexivity.
  - unfold zlen. rewrite map_length.
    change (zlen (box3 0 (nx (d3_domain d)) 0 (ny (d3_domain d)) 0 (nz (d3_domain d))) = nx (d3_domain d) * ny (d3_domain d) * nz (d3_domain d)).
    destruct HV as (A & B & C & D). rewrite zlen_box3; lia.
Qed.
Lemma total_interior2 (N : Num double) (dom : domain double) (d : disc2 double) g : valid_domain2 dom -> wf2 d -> d2_domain d = dom ->
  total (map g (d2_interior d)) = sum2 (nx dom) (nx dom) (fun i j => g (slot2 dom i j)) /\ zlen (d2_interior d) = nx dom * nx dom.
Proof.
  intros HV W <-. rewrite (wf2_interior _ W). split.
  - rewrite map_map. change total with Rsum. unfold box2, sum2, sum1.
    rewrite map_flat_map, Rsum_flat_map. apply Rsum_map_ext. intros i _. rewrite map_map. reflexivity.
  - unfold zlen. rewrite map_length.
    change (zlen (box2 0 (nx (d2_domain d)) 0 (nx (d2_domain d))) = nx (d2_domain d) * nx (d2_domain d)).
    destruct HV as (A & B). rewrite zlen_box2; lia.
Qed.

Lemma pf_C76_norm_3d :
  forall (N : Num double) (dom : domain double) (d : disc3 double) (name : string) (rsum : double -> list double -> double)
    (st : res_stats double) (a : list double) (w : Z -> Z -> Z -> double),
  ieee N -> ieee_norm N -> valid_domain3 dom -> make3 dom = Ok d -> nx dom * ny dom * nz dom <= 2 ^ 24 ->
  (forall l, reduction nadd (nint 0) (nint 0) l (rsum (nint 0) l)) -> holds_inside3 dom a w ->
  exists st' rest v, residual_calculator rsum [name] 1 (d3_interior d) st [a] = Ok (st', (append "res_" name, v) :: rest) /\
    (finite v ->
     (forall i j k, inside3 dom i j k -> finite (w i j k)) /\
     (/ 2 ^ 500 <= true_rms3 dom w -> Rabs (value_of v - true_rms3 dom w) <= (2 * IZR (nx dom * ny dom * nz dom) + 16) * unit_roundoff * true_rms3 dom w)%R).
Proof.
  intros N dom d name rsum st a w IE IN HV HM HZ HR HI. destruct (make3_inv dom d HV HM) as (W & ED).
  set (g := of3 dom w O).
  assert (HG : forall q, In q (d3_interior d) -> zget a q = Some (g q)).
  { intros q Hq. apply in_interior_slot in Hq as (i & j & k & I & ->); [|exact W]. rewrite ED in *. unfold g. rewrite of3_slot by (apply inside_padded3; [apply HV|exact I]). apply HI. exact I. }
  pose proof (norm_value double N rsum _ _ _ HG) as NV.
  destruct (one_report double N rsum name _ st a _ NV) as (st' & rest & E). exists st', rest. eexists. split; [exact E|]. intros F.
  destruct (total_interior3 N dom d (fun q => sq (g q)) HV W ED) as (TI & LI).
  assert (TR : true_rms3 dom w = sqrt (total (map sq (map g (d3_interior d))) / IZR (zlen (d3_interior d)))).
  { rewrite map_map, TI, LI, !mult_IZR. unfold true_rms3. f_equal. f_equal. apply sum3_ext. intros i j k Hi Hj Hk. unfold sq, g.
    rewrite of3_slot by (apply inside_padded3; [apply HV|repeat split; lia]). reflexivity. }
  assert (ZB : 1 <= zlen (d3_interior d) <= 2 ^ 24) by (rewrite LI; split; [destruct HV as (A & B & C & _); nia|exact HZ]).
  split.
  { intros i j k I. apply norm_finite in F; auto. rewrite Forall_forall in F. rewrite <- (of3_slot dom w O i j k) by (apply inside_padded3; [apply HV|exact I]). apply F. apply in_map. apply in_interior_slot; [exact W|]. rewrite ED. exists i, j, k. auto. }
  intros HB. rewrite TR in HB |- *. rewrite <- LI. apply norm_error; auto.
  unfold zlen. rewrite map_length. reflexivity.
Qed.

Lemma pf_C76_norm_2d :
  forall (N : Num double) (dom : domain double) (d : disc2 double) (name : string) (rsum : double -> list double -> double)
    (st : res_stats double) (a : list double) (w : Z -> Z -> double),
  ieee N -> ieee_norm N -> valid_domain2 dom -> make2 dom = Ok d -> nx dom * nx dom <= 2 ^ 24 ->
  (forall l, reduction nadd (nint 0) (nint 0) l (rsum (nint 0) l)) -> holds_inside2 dom a w ->
  exists st' rest v, residual_calculator rsum [name] 1 (d2_interior d) st [a] = Ok (st', (append "res_" name, v) :: rest) /\
    (finite v ->
     (forall i j, inside2 dom i j -> finite (w i j)) /\
     (/ 2 ^ 500 <= true_rms2 dom w -> Rabs (value_of v - true_rms2 dom w) <= (2 * IZR (nx dom * nx dom) + 16) * unit_roundoff * true_rms2 dom w)%R).
Proof.
  intros N dom d name rsum st a w IE IN HV HM HZ HR HI. destruct (make2_inv dom d HV HM) as (W & ED).
  set (g := of2 dom w O).
  assert (HG : forall q, In q (d2_interior d) -> zget a q = Some (g q)).
  { intros q Hq. apply in_interior_slot2 in Hq as (i & j & I & ->); [|exact W]. rewrite ED in *. unfold g. rewrite of2_slot by (apply inside_padded2; [apply HV|exact I]). apply HI. exact I. }
  pose proof (norm_value double N rsum _ _ _ HG) as NV.
  destruct (one_report double N rsum name _ st a _ NV) as (st' & rest & E). exists st', rest. eexists. split; [exact E|]. intros F.
  destruct (total_interior2 N dom d (fun q => sq (g q)) HV W ED) as (TI & LI).
  assert (TR : true_rms2 dom w = sqrt (total (map sq (map g (d2_interior d))) / IZR (zlen (d2_interior d)))).
  { rewrite map_map, TI, LI, !mult_IZR. unfold true_rms2. f_equal. f_equal. apply sum2_ext. intros i j Hi Hj. unfold sq, g.
    rewrite of2_slot by (apply inside_padded2; [apply HV|split; lia]). reflexivity. }
  assert (ZB : 1 <= zlen (d2_interior d) <= 2 ^ 24) by (rewrite LI; split; [destruct HV as (A & _); nia|exact HZ]).
  split.
  { intros i j I. apply norm_finite in F; auto. rewrite Forall_forall in F. rewrite <- (of2_slot dom w O i j) by (apply inside_padded2; [apply HV|exact I]). apply F. apply in_map. apply in_interior_slot2; [exact W|]. rewrite ED. exists i, j. auto. }
  intros HB. rewrite TR in HB |- *. rewrite <- LI. apply norm_error; auto.
  unfold zlen. rewrite map_length. reflexivity.
Qed.

Lemma pf_C77_rate_3d :
  forall (N : Num double) (dom : domain double) (d : disc3 double) (variant : Z) (p : ch_params double)
    (sc : scratch double) (c rhs : list double) (u : Z -> Z -> Z -> double) (b : R),
  ieee N -> valid_domain3 dom -> 2 <= nhalo dom -> nhalo dom <= nx dom /\ nhalo dom <= ny dom /\ nhalo dom <= nz dom ->
  make3 dom = Ok d -> 0 <= variant <= 2 -> scratch_fits (cells3 dom) sc -> zlen rhs = cells3 dom -> holds_inside3 dom c u ->
  (tiny <= b)%R -> (forall i j k, inside3 dom i j k -> Rabs (value_of (u i j k)) <= b)%R ->
  finite (d3_dx d) -> (/ 2 ^ 250 <= value_of (d3_dx d) <= 2 ^ 250)%R ->
  exists sc' c' rhs' r, eval_rhs3 d variant p sc c rhs = Ok (sc', c', rhs') /\ holds_inside3 dom rhs' r /\
    forall i j k, inside3 dom i j k -> finite (r i j k) ->
    let h := value_of (d3_dx d) in let m := value_of (ch_m p) in let sigma := value_of (ch_sigma p) in let eps2 := value_of (ch_eps2 p) in
    (Rabs (value_of (r i j k) - CH3 h m sigma eps2 (fun i j k => value_of (extend3 dom u i j k)) i j k)
       <= 31 * unit_roundoff * rate_size h m sigma eps2 b)%R.
Proof.
  intros N dom d variant p sc c rhs u b IE HV HN HT HM VR SF LR HI HB UB FH HH.
  destruct (make3_inv dom d HV HM) as (W & ED).
  destruct (holds3_exists dom c HV (proj1 HI)) as (w & HW).
  assert (AG : forall i j k, inside3 dom i j k -> w i j k = u i j k).
  { intros i j k I. pose proof (proj2 HI i j k I) as E. rewrite (proj2 HW) in E by (apply inside_padded3; [apply HV|exact I]). congruence. }
  rewrite <- ED in *. destruct (eval_rhs3_full d variant p sc c rhs w W HT HN VR HW LR SF) as (sc' & c' & r' & E & _ & _ & HR & _).
  set (r := ch_expr3 p (d3_dx d) (dx4_of variant (d3_dx d)) (extend3 (d3_domain d) w)) in *.
  exists sc', c', r', r. split; [exact E|]. split; [exact HR|]. intros i j k I F. cbv zeta.
  assert (EW : forall i j k, extend3 (d3_domain d) w i j k = extend3 (d3_domain d) u i j k) by (intros x y z; unfold extend3; apply AG; destruct HV as (A1 & A2 & A3 & _); repeat split; apply extend1_range; auto).
  assert (RE : r i j k = ch_expr3 p (d3_dx d) (dx4_of variant (d3_dx d)) (extend3 (d3_domain d) u) i j k) by (unfold r; apply ch_expr3_ext; exact EW).
  rewrite RE in F |- *.
  assert (BD : forall i j k, (Rabs (value_of (extend3 (d3_domain d) u i j k)) <= b)%R).
  { intros x y z. apply UB. destruct HV as (A1 & A2 & A3 & _). repeat split; apply extend1_range; auto. }
  destruct (rate3_near N IE b (d3_dx d) HB FH HH _ BD p variant i j k ltac:(lia) F) as (_ & _ & NE).
  eapply Rle_trans; [exact NE|]. apply Rmult_le_compat_r; [|apply g30].
  pose proof tiny_pos. assert (4 * tiny <= rate_size (value_of (d3_dx d)) (value_of (ch_m p)) (value_of (ch_sigma p)) (value_of (ch_eps2 p)) b)%R by (apply rate_size_pos; [apply h_pos; exact HH|lra]). lra.
Qed.

Lemma pf_C77_rate_2d :
  forall (N : Num double) (dom : domain double) (d : disc2 double) (p : ch_params double)
    (sc : scratch double) (c rhs : list double) (u : Z -> Z -> double) (b : R),
  ieee N -> valid_domain2 dom -> 2 <= nhalo dom -> nhalo dom <= nx dom ->
  make2 dom = Ok d -> scratch_fits (cells2 dom) sc -> zlen rhs = cells2 dom -> holds_inside2 dom c u ->
  (tiny <= b)%R -> (forall i j, inside2 dom i j -> Rabs (value_of (u i j)) <= b)%R ->
  finite (d2_dx d) -> (/ 2 ^ 250 <= value_of (d2_dx d) <= 2 ^ 250)%R ->
  exists sc' c' rhs' r, eval_rhs2 d p sc c rhs = Ok (sc', c', rhs') /\ holds_inside2 dom rhs' r /\
    forall i j, inside2 dom i j -> finite (r i j) ->
    let h := value_of (d2_dx d) in let m := value_of (ch_m p) in let sigma := value_of (ch_sigma p) in let eps2 := value_of (ch_eps2 p) in
    (Rabs (value_of (r i j) - CH2 h m sigma eps2 (fun i j => value_of (periodic2 dom u i j)) i j)
       <= 31 * unit_roundoff * rate_size h m sigma eps2 b)%R.
Proof.
  intros N dom d p sc c rhs u b IE HV HN HT HM SF LR HI HB UB FH HH.
  destruct (make2_inv dom d HV HM) as (W & ED).
  destruct (holds2_exists dom c HV (proj1 HI)) as (w & HW).
  assert (AG : forall i j, inside2 dom i j -> w i j = u i j).
  { intros i j I. pose proof (proj2 HI i j I) as E. rewrite (proj2 HW) in E by (apply inside_padded2; [apply HV|exact I]). congruence. }
  rewrite <- ED in *. destruct (eval_rhs2_full d p sc c rhs w W HT HN HW LR SF) as (sc' & c' & r' & E & _ & _ & HR & _).
  set (r := ch_expr2 p (d2_dx d) (periodic2 (d2_domain d) w)) in *.
  exists sc', c', r', r. split; [exact E|]. split; [exact HR|]. intros i j I F. cbv zeta.
  assert (EW : forall i j, periodic2 (d2_domain d) w i j = periodic2 (d2_domain d) u i j) by (intros x y; unfold periodic2; apply AG; destruct HV as (A1 & _); split; apply Z.mod_pos_bound; lia).
  assert (RE : r i j = ch_expr2 p (d2_dx d) (periodic2 (d2_domain d) u) i j) by (unfold r; apply ch_expr2_ext; exact EW).
  rewrite RE in F |- *.
  assert (BD : forall i j, (Rabs (value_of (periodic2 (d2_domain d) u i j)) <= b)%R).
  { intros x y. apply UB. destruct HV as (A1 & _). split; apply Z.mod_pos_bound; lia. }
  destruct (rate2_near N IE b (d2_dx d) HB FH HH _ BD p i j F) as (_ & _ & NE).
  eapply Rle_trans; [exact NE|]. apply Rmult_le_compat_r; [|apply g30].
  pose proof tiny_pos. assert (4 * tiny <= rate_size (value_of (d2_dx d)) (value_of (ch_m p)) (value_of (ch_sigma p)) (value_of (ch_eps2 p)) b)%R by (apply rate_size_pos; [apply h_pos; exact HH|lra]). lra.
Qed.

Lemma pf_C77_mean_3d :
  forall (N : Num double) (W : Type) (dom : domain double) (d : disc3 double) (variant : Z) (p : ch_params double)
    (eval' : rhs_fun double (scratch double)) (x : rk3_world double (scratch double) W) (c0 : list double) (u0 : Z -> Z -> Z -> double)
    (t0 : double) (dts : list double) (xs : list (rk3_world double (scratch double) W)) (b c : R),
  ieee N -> valid_domain3 dom -> 2 <= nhalo dom -> nhalo dom <= nx dom /\ nhalo dom <= ny dom /\ nhalo dom <= nz dom ->
  xbc dom <> Neumann /\ ybc dom <> Neumann /\ zbc dom <> Neumann ->
  make3 dom = Ok d -> 0 <= variant <= 2 ->
  (forall k, In k [r_k1 (k_int x); r_k2 (k_int x); r_k3 (k_int x); r_stage (k_int x)] -> shaped 1 (cells3 dom) k) ->
  scratch_fits (cells3 dom) (k_sc x) -> shaped 1 (cells3 dom) (k_du x) -> k_u x = [c0] -> holds_inside3 dom c0 u0 ->
  (tiny <= b)%R -> finite (d3_dx d) -> (/ 2 ^ 250 <= value_of (d3_dx d) <= 2 ^ 250)%R ->
  let h := value_of (d3_dx d) in let m := value_of (ch_m p) in let sigma := value_of (ch_sigma p) in let eps2 := value_of (ch_eps2 p) in
  (0 <= sigma)%R -> (sigma = 0%R \/ c = m) -> Forall (fun dt => tiny <= value_of dt /\ sigma * value_of dt <= 1)%R dts ->
  restricts eval' (ch_rhs3 d variant p) (bounded3 dom b) ->
  run_steps (rk3_do eval') x t0 dts = Ok xs -> Forall (fun x' => finite3 dom (k_u x')) xs ->
  forall x', In x' xs -> exists c' u', k_u x' = [c'] /\ holds_inside3 dom c' u' /\
    (Rabs (true_mean3 dom u' - c) <= Rabs (true_mean3 dom u0 - c)
       + 128 * unit_roundoff * total (map (fun dt => b + value_of dt * rate_size h m sigma eps2 b) dts))%R.
Proof.
  intros N W dom d variant p eval' x c0 u0 t0 dts xs b c IE HV HN HT NP HM VR SK SF SD EU HI HB FH HH h m sigma eps2 SG HC HD RS RUN FIN.
  eapply (run_drift3 N IE dom d variant p b c); eauto.
Qed.

Lemma pf_C77_mean_2d :
  forall (N : Num double) (W : Type) (dom : domain double) (d : disc2 double) (p : ch_params double)
    (eval' : rhs_fun double (scratch double)) (x : rk3_world double (scratch double) W) (c0 : list double) (u0 : Z -> Z -> double)
    (t0 : double) (dts : list double) (xs : list (rk3_world double (scratch double) W)) (b c : R),
  ieee N -> valid_domain2 dom -> 2 <= nhalo dom -> nhalo dom <= nx dom -> make2 dom = Ok d ->
  (forall k, In k [r_k1 (k_int x); r_k2 (k_int x); r_k3 (k_int x); r_stage (k_int x)] -> shaped 1 (cells2 dom) k) ->
  scratch_fits (cells2 dom) (k_sc x) -> shaped 1 (cells2 dom) (k_du x) -> k_u x = [c0] -> holds_inside2 dom c0 u0 ->
  (tiny <= b)%R -> finite (d2_dx d) -> (/ 2 ^ 250 <= value_of (d2_dx d) <= 2 ^ 250)%R ->
  let h := value_of (d2_dx d) in let m := value_of (ch_m p) in let sigma := value_of (ch_sigma p) in let eps2 := value_of (ch_eps2 p) in
  (0 <= sigma)%R -> (sigma = 0%R \/ c = m) -> Forall (fun dt => tiny <= value_of dt /\ sigma * value_of dt <= 1)%R dts ->
  restricts eval' (ch_rhs2 d p) (bounded2 dom b) ->
  run_steps (rk3_do eval') x t0 dts = Ok xs -> Forall (fun x' => finite2 dom (k_u x')) xs ->
  forall x', In x' xs -> exists c' u', k_u x' = [c'] /\ holds_inside2 dom c' u' /\
    (Rabs (true_mean2 dom u' - c) <= Rabs (true_mean2 dom u0 - c)
       + 128 * unit_roundoff * total (map (fun dt => b + value_of dt * rate_size h m sigma eps2 b) dts))%R.
Proof.
  intros N W dom d p eval' x c0 u0 t0 dts xs b c IE HV HN HT HM SK SF SD EU HI HB FH HH h m sigma eps2 SG HC HD RS RUN FIN.
  eapply (run_drift2 N IE dom d p b c); eauto.
Qed.

