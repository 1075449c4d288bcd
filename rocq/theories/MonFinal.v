(** Proofs of the monitor, initial-condition and vector-copy properties. *)
From Verif Require Import Outcome ZList ZListProofs Num Kernel KernelProofs Gather Loop
  ModelIndex IndexProofs ModelDisc3D ModelDisc2D ModelCH SpecGrid Disc3DProofs Stencil3Proofs Make3Proofs
  BC3Proofs Disc2DProofs Make2Proofs CHProofs SpecField SumProofs FieldProofs ModelReduce ReduceProofs ModelTime ModelRun SpecTime
  Step1Proofs ExampleNum ModelMon SpecMon Mon1Proofs Mon2Proofs Mon3Proofs Mon4Proofs.
From Coq Require Import Reals String Lra Lia ZArith ZifyBool ZifyNat List.
Import ListNotations.
Local Open Scope list_scope.
Local Open Scope Z_scope.

Lemma rms_of3 (d : disc3 R) (g : Z -> R) : wf3 d ->
  rms_of (d3_interior d) g = rms3 (d3_domain d) (fun i j k => g (slot3 (d3_domain d) i j k)).
Proof.
  intros W. unfold rms_of, rms3, mean3. rewrite (Rsum_interior3 d _ W), (zlen_interior_3 d W), !mult_IZR. reflexivity.
Qed.
Lemma rms_of2 (d : disc2 R) (g : Z -> R) : wf2 d ->
  rms_of (d2_interior d) g = rms2 (d2_domain d) (fun i j => g (slot2 (d2_domain d) i j)).
Proof.
  intros W. unfold rms_of, rms2, mean2. rewrite (Rsum_interior2 d _ W), (zlen_interior_2 d W), !mult_IZR. reflexivity.
Qed.

Lemma rms3_ext (dom : domain R) (f g : Z -> Z -> Z -> R) :
  (forall i j k, inside3 dom i j k -> f i j k = g i j k) -> rms3 dom f = rms3 dom g.
Proof.
  intros E. unfold rms3, mean3. f_equal. f_equal. apply sum3_ext. intros i j k I J K. rewrite E by (split; auto). reflexivity.
Qed.
Lemma rms2_ext (dom : domain R) (f g : Z -> Z -> R) :
  (forall i j, inside2 dom i j -> f i j = g i j) -> rms2 dom f = rms2 dom g.
Proof.
  intros E. unfold rms2, mean2. f_equal. f_equal. apply sum2_ext. intros i j I J. rewrite E by (split; auto). reflexivity.
Qed.

Lemma rms_field3 (d : disc3 R) (u : Z -> Z -> Z -> R) e : wf3 d ->
  rms_of (d3_interior d) (of3 (d3_domain d) u e) = rms3 (d3_domain d) u.
Proof.
  intros W. rewrite (rms_of3 d _ W). apply rms3_ext. intros i j k I. apply of3_slot.
  apply inside_padded3; auto. apply (wf_valid _ W).
Qed.
Lemma rms_field2 (d : disc2 R) (u : Z -> Z -> R) e : wf2 d ->
  rms_of (d2_interior d) (of2 (d2_domain d) u e) = rms2 (d2_domain d) u.
Proof.
  intros W. rewrite (rms_of2 d _ W). apply rms2_ext. intros i j I. apply of2_slot.
  apply inside_padded2; auto. apply (wf2_valid _ W).
Qed.

Lemma firstn_S_snoc {A} (l : list A) k a : nth_error l k = Some a -> firstn (S k) l = firstn k l ++ [a].
Proof.
  revert k. induction l as [|b l IH]; intros [|k] H; try discriminate.
  - injection H as ->. reflexivity.
  - cbn [firstn app]. f_equal. apply IH. exact H.
Qed.

(** The report after each update. *)
Definition report_ok {F : Type} (rms : F -> R) (names : list string) (ws : list (nat -> F)) (k : nat)
    (w : nat -> F) (m : list (string * R)) : Prop :=
  exists A Rel M : R,
    m = map (fun '(e, n) => (append "res_" n, rms (w e))) (combine (seq 0 (length names)) names)
        ++ [("abs_res"%string, A); ("rel_res"%string, Rel)] /\
    greatest_of (map (fun w => rms (w 0%nat)) (firstn (S k) ws)) M /\
    (M <> 0%R -> A = rms (w 0%nat) /\ Rel = (rms (w 0%nat) / M)%R) /\
    (M = 0%R -> A = 1%R /\ Rel = 1%R) /\ (0 <= Rel <= 1)%R.

Lemma report_general {F : Type} (rms : F -> R) (conv : F -> nat -> Z -> R) (idx : list Z) (names : list string) rsum hist
    (ws : list (nat -> F)) :
  (forall u e, rms_of idx (conv u e) = rms u) ->
  sum_reducer rsum -> names <> [] ->
  Forall2 (fun s w => res_holds idx names s (fun e => conv (w e) e)) hist ws ->
  exists st ms, residual_history rsum names (length names) idx res_stats0 hist = Ok (st, ms) /\
    length ms = length hist /\
    forall k w m, nth_error ws k = Some w -> nth_error ms k = Some m -> report_ok rms names ws k w m.
Proof.
  intros HR HS HN H2.
  assert (L1 : (1 <= length names)%nat) by (destruct names; [congruence|simpl; lia]).
  set (f := fun (w : nat -> F) (e : nat) => conv (w e) e).
  assert (H3 : Forall2 (res_holds idx names) hist (map f ws)) by (clear - H2; induction H2; cbn; constructor; auto).
  destruct (history_spec rsum HS idx names L1 hist (map f ws) H3 res_stats0 []) as (st & ms & E & L & K).
  { left. split; reflexivity. }
  { apply Rle_refl. }
  exists st, ms. split; auto. split; auto. intros k w m Hw Hm.
  destruct (K k (f w) m) as (A & Rel & M & Em & G & M1 & M2 & B); auto.
  { rewrite nth_error_map, Hw. reflexivity. }
  exists A, Rel, M. rewrite (firstn_S_snoc ws k w Hw). unfold f in *.
  rewrite HR in G, M1. split.
  { rewrite Em. f_equal. unfold res_entries. apply map_ext. intros (e & n). rewrite HR. reflexivity. }
  split; [|auto]. rewrite app_nil_l, firstn_map, map_map in G. rewrite map_app. cbn [map].
  erewrite map_ext; [exact G|]. intros w'. cbn. rewrite HR. reflexivity.
Qed.

Lemma pf_C58_residual_report_3d :
  forall (dom : domain R) (d : disc3 R) (names : list string) (rsum : R -> list R -> R) (hist : list (state R))
    (ws : list (nat -> Z -> Z -> Z -> R)),
  valid_domain3 dom -> make3 dom = Ok d -> sum_reducer rsum -> names <> [] ->
  Forall2 (residual_holds3 dom (length names)) hist ws ->
  exists st ms, residual_history rsum names (length names) (d3_interior d) res_stats0 hist = Ok (st, ms) /\
    length ms = length hist /\
    forall k w m, nth_error ws k = Some w -> nth_error ms k = Some m ->
    exists A Rel M : R,
      m = map (fun '(e, n) => (append "res_" n, rms3 dom (w e))) (combine (seq 0 (length names)) names)
          ++ [("abs_res"%string, A); ("rel_res"%string, Rel)] /\
      greatest_of (map (fun w => rms3 dom (w 0%nat)) (firstn (S k) ws)) M /\
      (M <> 0%R -> A = rms3 dom (w 0%nat) /\ Rel = (rms3 dom (w 0%nat) / M)%R) /\
      (M = 0%R -> A = 1%R /\ Rel = 1%R) /\ (0 <= Rel <= 1)%R.
Proof.
  intros dom d names rsum hist ws HV HM HS HN H2.
  destruct (make3_inv dom d HV HM) as (W & D). subst dom.
  apply (report_general (rms3 (d3_domain d)) (of3 (d3_domain d))); auto.
  - intros u e. apply rms_field3; auto.
  - clear - H2 W HV. induction H2 as [|s w hist ws H _ IH]; constructor; auto.
    intros e He. destruct (H e He) as (a & Ea & La & Ha). exists a. split; auto.
    intros q Hq. destruct (proj1 (in_interior_slot d q W) Hq) as (i & j & k & I & ->).
    rewrite of3_slot by (apply inside_padded3; auto; apply HV). apply Ha; auto.
Qed.

Definition ex_box : domain R := ex_dom 0%R 1%R 2 3 2 1 Periodic Periodic Periodic.
Lemma ex_box_ok : valid_domain3 ex_box /\ exists d, make3 ex_box = Ok d.
Proof.
  assert (V : valid_domain3 ex_box) by (unfold valid_domain3, ex_box, ex_dom; cbn [nx ny nz nhalo]; lia).
  split; auto. destruct (make3_ok ex_box V) as (d & E & _). eauto.
Qed.

Lemma ex_history : exists hist, length hist = 2%nat /\
  Forall2 (residual_holds3 ex_box 2) hist
    [(fun e i j k => IZR (i + j + k) + INR e)%R; (fun e i j k => IZR (i * j) - INR e)%R].
Proof.
  destruct ex_box_ok as (V & _).
  destruct (array3 ex_box (fun i j k => IZR (i + j + k) + INR 0)%R V) as (a & Ha).
  destruct (array3 ex_box (fun i j k => IZR (i + j + k) + INR 1)%R V) as (b & Hb).
  destruct (array3 ex_box (fun i j k => IZR (i * j) - INR 0)%R V) as (c & Hc).
  destruct (array3 ex_box (fun i j k => IZR (i * j) - INR 1)%R V) as (e & He).
  exists [[a; b]; [c; e]]. split; auto.
  repeat constructor; intros x Hx; (destruct x as [|[|x]]; [| |lia]);
    (eexists; split; [reflexivity|]; apply holds3_inside; auto; apply V).
Qed.

Definition ex_square : domain R := ex_dom 0%R 1%R 3 3 3 1 Periodic Periodic Periodic.
Lemma ex_square_ok : valid_domain2 ex_square /\ exists d, make2 ex_square = Ok d.
Proof.
  assert (V : valid_domain2 ex_square) by (unfold valid_domain2, ex_square, ex_dom; cbn [nx ny nz nhalo]; lia).
  split; auto. destruct (make2_ok ex_square V) as (d & E & _). eauto.
Qed.

Definition ex_names : list string := ["c"%string; "v"%string].
Definition ex_sum : R -> list R -> R := fun i l => fold_right Rplus i l.
Lemma ex_sum_ok : sum_reducer ex_sum /\ ex_names <> [].
Proof. split; [|discriminate]. intros l. apply reduction_fold. Qed.

Lemma pf_C58_residual_report_2d :
  forall (dom : domain R) (d : disc2 R) (names : list string) (rsum : R -> list R -> R) (hist : list (state R))
    (ws : list (nat -> Z -> Z -> R)),
  valid_domain2 dom -> make2 dom = Ok d -> sum_reducer rsum -> names <> [] ->
  Forall2 (residual_holds2 dom (length names)) hist ws ->
  exists st ms, residual_history rsum names (length names) (d2_interior d) res_stats0 hist = Ok (st, ms) /\
    length ms = length hist /\
    forall k w m, nth_error ws k = Some w -> nth_error ms k = Some m ->
    exists A Rel M : R,
      m = map (fun '(e, n) => (append "res_" n, rms2 dom (w e))) (combine (seq 0 (length names)) names)
          ++ [("abs_res"%string, A); ("rel_res"%string, Rel)] /\
      greatest_of (map (fun w => rms2 dom (w 0%nat)) (firstn (S k) ws)) M /\
      (M <> 0%R -> A = rms2 dom (w 0%nat) /\ Rel = (rms2 dom (w 0%nat) / M)%R) /\
      (M = 0%R -> A = 1%R /\ Rel = 1%R) /\ (0 <= Rel <= 1)%R.
Proof.
  intros dom d names rsum hist ws HV HM HS HN H2.
  destruct (make2_inv dom d HV HM) as (W & D). subst dom.
  apply (report_general (rms2 (d2_domain d)) (of2 (d2_domain d))); auto.
  - intros u e. apply rms_field2; auto.
  - clear - H2 W HV. induction H2 as [|s w hist ws H _ IH]; constructor; auto.
    intros e He. destruct (H e He) as (a & Ea & La & Ha). exists a. split; auto.
    intros q Hq. destruct (proj1 (in_interior_slot2 d q W) Hq) as (i & j & I & ->).
    rewrite of2_slot by (apply inside_padded2; auto; apply HV). apply Ha; auto.
Qed.

Lemma holds2_inside (dom : domain R) f u : 0 <= nhalo dom -> holds2 dom f u -> holds_inside2 dom f u.
Proof. intros H (L & U). split; auto. intros i j I. apply U, inside_padded2; auto. Qed.

Lemma ex_history2 : exists hist, length hist = 1%nat /\
  Forall2 (residual_holds2 ex_square 2) hist [(fun e i j => IZR (i - j) + INR e)%R].
Proof.
  destruct ex_square_ok as (V & _).
  destruct (array2 ex_square (fun i j => IZR (i - j) + INR 0)%R V) as (a & Ha).
  destruct (array2 ex_square (fun i j => IZR (i - j) + INR 1)%R V) as (b & Hb).
  exists [[a; b]]. split; auto.
  repeat constructor; intros x Hx; (destruct x as [|[|x]]; [| |lia]);
    (eexists; split; [reflexivity|]; apply holds2_inside; auto; apply V).
Qed.

(** ** Solution monitors *)

Lemma pf_C59_monitor_3d :
  forall (dom : domain R) (d : disc3 R) (red : reducers R) (f : list R) (u : Z -> Z -> Z -> R),
  valid_domain3 dom -> 2 <= nx dom -> ny dom = nx dom -> nz dom = nx dom -> make3 dom = Ok d ->
  proper_reducers red -> holds_inside3 dom f u -> (forall i j k, inside3 dom i j k -> finite_double (u i j k)) ->
  exists a b g : R,
    solution_monitor3 red DBL_MAX DBL_MIN d f = Ok [("min_c"%string, a); ("max_c"%string, b); ("grad_c_mag"%string, g)] /\
    least3 dom u a /\
    ((exists i j k, inside3 dom i j k /\ (DBL_MIN <= u i j k)%R) -> greatest3 dom u b) /\
    g = (d3_dx d ^ 2 * total3 dom (grad_length3 dom (d3_dx d) u))%R.
Proof.
  intros dom d red f u HV H2 HY HZ HM HR HF FIN.
  destruct (make3_inv dom d HV HM) as (W & D). subst dom.
  destruct (monitor3_spec d W f u (or_intror (conj H2 (conj HY (conj HZ HF)))) red HR FIN)
    as (a & b & g & E & LE & GR & _ & EG).
  exists a, b, g. split; auto. split; auto. split; auto. rewrite EG.
  transitivity (total3 (d3_domain d) (fun i j k => d3_dx d ^ 2 * grad_length3 (d3_domain d) (d3_dx d) u i j k)%R).
  - apply sum3_ext. intros i j k _ _ _. apply cell_grad3_cube; auto.
  - unfold total3. apply sum3_scal.
Qed.

Definition ex_cube : domain R := ex_dom 0%R 1%R 4 4 4 2 Periodic Periodic Periodic.
Lemma ex_cube_ok : (valid_domain3 ex_cube /\ 2 <= nx ex_cube /\ ny ex_cube = nx ex_cube /\ nz ex_cube = nx ex_cube) /\
  (exists d, make3 ex_cube = Ok d) /\
  exists f, holds3 ex_cube f (fun i j k => IZR (i + j + k)).
Proof.
  assert (V : valid_domain3 ex_cube) by (unfold valid_domain3, ex_cube, ex_dom; cbn [nx ny nz nhalo]; lia).
  split; [repeat split; auto; cbn [ex_cube ex_dom nx ny nz nhalo]; try apply V; lia|].
  split; [destruct (make3_ok ex_cube V) as (d & E & _); eauto|]. apply array3. exact V.
Qed.
Lemma ex_finite : (forall i j k, inside3 ex_cube i j k -> finite_double (IZR (i + j + k))) /\
  exists i j k, inside3 ex_cube i j k /\ (DBL_MIN <= IZR (i + j + k))%R.
Proof.
  split.
  - intros i j k (I & J & K). cbn [ex_cube ex_dom nx ny nz] in *.
    assert (B : (IZR 12 <= DBL_MAX)%R) by (unfold DBL_MAX; apply IZR_le; vm_compute; discriminate).
    assert (IZR (i + j + k) <= IZR 12)%R by (apply IZR_le; lia).
    assert (0 <= IZR (i + j + k))%R by (apply IZR_le; lia). unfold finite_double. lra.
  - exists 1, 1, 1. split; [repeat split; cbn; lia|]. unfold DBL_MIN.
    assert (H : (1 <= IZR (2 ^ 1022))%R) by (apply IZR_le; vm_compute; discriminate).
    apply Rle_trans with 1%R; [|apply IZR_le; lia]. rewrite <- Rinv_1. apply Rinv_le_contravar; lra.
Qed.

Lemma ex_cube_halo : 1 <= nhalo ex_cube.
Proof. apply Z.leb_le. reflexivity. Qed.
Lemma ex_square_two : 2 <= nx ex_square.
Proof. apply Z.leb_le. reflexivity. Qed.

Definition ex_reducers : reducers R := serial_reducers.
Lemma ex_reducers_ok : proper_reducers ex_reducers.
Proof. exact serial_proper. Qed.

Lemma pf_C59_minmax_3d :
  forall (dom : domain R) (d : disc3 R) (red : reducers R) (f : list R) (u : Z -> Z -> Z -> R),
  valid_domain3 dom -> 1 <= nhalo dom -> make3 dom = Ok d ->
  proper_reducers red -> holds_inside3 dom f u -> (forall i j k, inside3 dom i j k -> finite_double (u i j k)) ->
  exists a b g : R,
    solution_monitor3 red DBL_MAX DBL_MIN d f = Ok [("min_c"%string, a); ("max_c"%string, b); ("grad_c_mag"%string, g)] /\
    least3 dom u a /\
    ((exists i j k, inside3 dom i j k /\ (DBL_MIN <= u i j k)%R) -> greatest3 dom u b).
Proof.
  intros dom d red f u HV HN HM HR HF FIN.
  destruct (make3_inv dom d HV HM) as (W & D). subst dom.
  destruct (holds3_exists (d3_domain d) f HV (proj1 HF)) as (u' & HU).
  assert (EU : forall i j k, inside3 (d3_domain d) i j k -> u' i j k = u i j k).
  { intros i j k I. pose proof (proj2 HF i j k I) as E1.
    pose proof (proj2 HU i j k (inside_padded3 _ _ _ _ (proj2 (proj2 (proj2 HV))) I)) as E2. congruence. }
  destruct (monitor3_spec d W f u' (or_introl (conj HN HU)) red HR) as (a & b & g & E & (LE1 & LE2) & GR & _).
  { intros i j k I. rewrite EU; auto. }
  exists a, b, g. split; auto. split.
  - split.
    + destruct LE1 as (i & j & k & I & V). exists i, j, k. split; auto. rewrite <- EU; auto.
    + intros i j k I. rewrite <- EU; auto.
  - intros (i & j & k & I & P). destruct GR as (G1 & G2).
    + exists i, j, k. split; auto. rewrite EU; auto.
    + split.
      * destruct G1 as (i' & j' & k' & I' & V). exists i', j', k'. split; auto. rewrite <- EU; auto.
      * intros i' j' k' I'. rewrite <- EU; auto.
Qed.

Lemma pf_C59_monitor_2d :
  forall (dom : domain R) (d : disc2 R) (red : reducers R) (f : list R) (u : Z -> Z -> R),
  valid_domain2 dom -> 2 <= nx dom -> make2 dom = Ok d ->
  proper_reducers red -> holds_inside2 dom f u -> (forall i j, inside2 dom i j -> finite_double (u i j)) ->
  exists a b g : R,
    solution_monitor2 red DBL_MAX DBL_MIN d f = Ok [("min_c"%string, a); ("max_c"%string, b); ("grad_c_mag"%string, g)] /\
    least2 dom u a /\
    ((exists i j, inside2 dom i j /\ (DBL_MIN <= u i j)%R) -> greatest2 dom u b) /\
    g = (d2_dx d ^ 2 * total2 dom (grad_length2 dom (d2_dx d) u))%R.
Proof.
  intros dom d red f u HV H2 HM HR HF FIN.
  destruct (make2_inv dom d HV HM) as (W & D). subst dom.
  destruct (monitor2_spec d W f u (or_intror (conj H2 HF)) red HR FIN) as (a & b & g & E & LE & GR & _ & EG).
  exists a, b, g. auto.
Qed.

Lemma ex_square_field : exists f, holds2 ex_square f (fun i j => IZR (i - j)).
Proof. apply array2. exact (proj1 ex_square_ok). Qed.

Lemma pf_C59_negative_maximum_refuted :
  forall (dom : domain R) (d : disc3 R) (red : reducers R) (f : list R) (u : Z -> Z -> Z -> R),
  valid_domain3 dom -> 1 <= nhalo dom -> make3 dom = Ok d ->
  proper_reducers red -> holds3 dom f u ->
  (forall i j k, inside3 dom i j k -> finite_double (u i j k) /\ (u i j k < 0)%R) ->
  exists a g : R,
    solution_monitor3 red DBL_MAX DBL_MIN d f = Ok [("min_c"%string, a); ("max_c"%string, DBL_MIN); ("grad_c_mag"%string, g)] /\
    ~ greatest3 dom u DBL_MIN.
Proof.
  intros dom d red f u HV HN HM HR HF NEG.
  destruct (make3_inv dom d HV HM) as (W & D). subst dom.
  destruct (monitor3_spec d W f u (or_introl (conj HN HF)) red HR) as (a & b & g & E & LE & GR & NG & _).
  { intros i j k I. apply NEG; auto. }
  pose proof DBL_MIN_pos as P.
  rewrite NG in E by (intros i j k I; destruct (NEG i j k I); lra).
  exists a, g. split; auto. intros ((i & j & k & I & V) & _). destruct (NEG i j k I). lra.
Qed.

Lemma ex_negative : exists f, holds3 ex_cube f (fun i j k => (-1)%R).
Proof. apply array3. exact (proj1 (proj1 ex_cube_ok)). Qed.

Lemma Rsum_ge {A} (f : A -> R) l x : (forall y, In y l -> (0 <= f y)%R) -> In x l -> (f x <= Rsum (map f l))%R.
Proof.
  induction l as [|a l IH]; intros H [].
  - subst a. cbn. assert (0 <= Rsum (map f l))%R by (apply Rsum_map_nonneg; intros; apply H; right; auto). unfold Rsum in *. lra.
  - cbn. assert (f x <= Rsum (map f l))%R by (apply IH; auto; intros; apply H; right; auto).
    assert (0 <= f a)%R by (apply H; left; auto). unfold Rsum in *. lra.
Qed.

Lemma total3_ge (dom : domain R) f i j k : (forall i j k, (0 <= f i j k)%R) -> inside3 dom i j k -> (f i j k <= total3 dom f)%R.
Proof.
  intros H (I & J & K). unfold total3, sum3, sum2, sum1.
  eapply Rle_trans; [|apply (Rsum_ge (fun i => Rsum (map (fun j => Rsum (map (fun k => f i j k) (zrange 0 (nz dom)))) (zrange 0 (ny dom)))) _ i)].
  - eapply Rle_trans; [|apply (Rsum_ge (fun j => Rsum (map (fun k => f i j k) (zrange 0 (nz dom)))) _ j)].
    + apply (Rsum_ge (fun k => f i j k)); [intros; apply H|apply in_zrange; auto].
    + intros. apply Rsum_map_nonneg. intros. apply H.
    + apply in_zrange; auto.
  - intros. apply Rsum_map_nonneg. intros. apply Rsum_map_nonneg. intros. apply H.
  - apply in_zrange; auto.
Qed.

Definition ridge (i j k : Z) : R := if (j =? 3)%Z then 1%R else 0%R.

Lemma pf_C59_gradient_box_refuted :
  exists (dom : domain R) (d : disc3 R) (f f' : list R) (u : Z -> Z -> Z -> R),
  valid_domain3 dom /\ nx dom = 2 /\ ny dom = 3 /\ nz dom = 2 /\ make3 dom = Ok d /\
  holds_inside3 dom f u /\ holds_inside3 dom f' u /\
  forall red, proper_reducers red -> exists a b g a' b' g' : R,
    solution_monitor3 red DBL_MAX DBL_MIN d f = Ok [("min_c"%string, a); ("max_c"%string, b); ("grad_c_mag"%string, g)] /\
    solution_monitor3 red DBL_MAX DBL_MIN d f' = Ok [("min_c"%string, a'); ("max_c"%string, b'); ("grad_c_mag"%string, g')] /\
    g <> g'.
Proof.
  destruct ex_box_ok as (HV & d & HM). destruct (make3_inv ex_box d HV HM) as (W & D).
  destruct (array3 ex_box (fun _ _ _ => 0%R) HV) as (f & Hf).
  destruct (array3 ex_box ridge HV) as (f' & Hf').
  exists ex_box, d, f, f', (fun _ _ _ => 0%R). split; auto. split; [reflexivity|]. split; [reflexivity|]. split; [reflexivity|].
  split; auto. split; [apply holds3_inside; auto; apply HV|]. split.
  { apply (holds_inside3_ext ex_box f' ridge (fun _ _ _ => 0%R)); [apply holds3_inside; auto; apply HV|].
    intros i j k (_ & J & _). cbn in J. unfold ridge. destruct (Z.eqb_spec j 3); auto. lia. }
  intros red HR. rewrite <- D in Hf, Hf'.
  assert (N1 : (1 <= nhalo (d3_domain d))) by (rewrite D; cbn; lia).
  assert (FZ : forall x, (x = 0 \/ x = 1)%R -> finite_double x).
  { intros x Hx. unfold finite_double. pose proof DBL_MAX_pos.
    assert (B : (1 <= DBL_MAX)%R) by (unfold DBL_MAX; apply IZR_le; vm_compute; discriminate). lra. }
  destruct (monitor3_spec d W f (fun _ _ _ => 0%R) (or_introl (conj N1 Hf)) red HR)
    as (a & b & g & E & _ & _ & _ & EG); [intros; apply FZ; auto|].
  destruct (monitor3_spec d W f' ridge (or_introl (conj N1 Hf')) red HR)
    as (a' & b' & g' & E' & _ & _ & _ & EG'); [intros; apply FZ; unfold ridge; destruct (_ =? _)%Z; auto|].
  exists a, b, g, a', b', g'. split; auto. split; auto.
  assert (DX : d3_dx d = (/ 2)%R).
  { rewrite (wf_dx _ W), D. cbn. lra. }
  assert (G0 : g = 0%R).
  { rewrite EG. transitivity (total3 (d3_domain d) (fun _ _ _ => 0%R)).
    - apply sum3_ext. intros i j k _ _ _. unfold cell_grad3.
      assert (Z0 : forall n h i, code_slope n h (fun _ => 0%R) i = 0%R).
      { intros n h q. unfold code_slope. repeat destruct (_ =? _)%Z; unfold Rdiv; ring. }
      rewrite !Z0. rewrite Rmult_0_l, !Rplus_0_r, sqrt_0. ring.
    - unfold total3. transitivity (0 * sum3 (nx (d3_domain d)) (ny (d3_domain d)) (nz (d3_domain d)) (fun _ _ _ => 0))%R; [|ring].
      rewrite <- sum3_scal. apply sum3_ext. intros. ring. }
  assert (G1 : (0 < g')%R).
  { rewrite EG'. apply Rlt_le_trans with (cell_grad3 d ridge 0 2 0).
    - unfold cell_grad3. rewrite DX, D. cbn [ex_box ex_dom nx].
      assert (S : (0 < sqrt (code_slope 2 (/ 2) (fun a => ridge a 2 0) 0 * code_slope 2 (/ 2) (fun a => ridge a 2 0) 0
         + code_slope 2 (/ 2) (fun a => ridge 0 a 0) 2 * code_slope 2 (/ 2) (fun a => ridge 0 a 0) 2
         + code_slope 2 (/ 2) (fun a => ridge 0 2 a) 0 * code_slope 2 (/ 2) (fun a => ridge 0 2 a) 0))%R).
      { apply sqrt_lt_R0. unfold code_slope, ridge. cbn [Z.eqb Pos.eqb Z.sub Z.add Z.opp Pos.add Pos.succ Z.pos_sub Pos.pred_double]. lra. }
      lra.
    - apply (total3_ge (d3_domain d) (cell_grad3 d ridge) 0 2 0).
      + intros i j k. unfold cell_grad3. rewrite Rmult_assoc. apply Rmult_le_pos; [apply sqrt_pos|]. rewrite DX. lra.
      + rewrite D. repeat split; cbn; lia. }
  lra.
Qed.

(** ** Initial conditions *)
Lemma map_by_pos {A B} (g : A -> B) (h : nat -> B) : forall (l : list A) n,
  (forall p q, nth_error l p = Some q -> g q = h (n + p)%nat) -> map g l = map h (seq n (length l)).
Proof.
  induction l as [|a l IH]; intros n H; cbn; auto. f_equal.
  - rewrite (H O a eq_refl). f_equal. lia.
  - apply IH. intros p q E. rewrite (H (S p) q E). f_equal. lia.
Qed.

Lemma Rsum_bounds (f : nat -> R) lo hi l : (forall p, In p l -> (lo <= f p <= hi)%R) ->
  (INR (length l) * lo <= Rsum (map f l) <= INR (length l) * hi)%R.
Proof.
  induction l as [|a l IH]; intros H; [cbn; lra|]. cbn [map Rsum fold_right length]. rewrite S_INR.
  assert (lo <= f a <= hi)%R by (apply H; left; auto).
  assert (INR (length l) * lo <= Rsum (map f l) <= INR (length l) * hi)%R by (apply IH; intros; apply H; right; auto).
  unfold Rsum in *. lra.
Qed.

Lemma random_total (draw : nat -> R) m (idx : list Z) (g : Z -> R) : idx <> [] ->
  (forall p q, nth_error idx p = Some q ->
     g q = (m + (draw p - Rsum (map draw (seq 0 (length idx))) / INR (length idx)))%R) ->
  Rsum (map g idx) = (INR (length idx) * m)%R.
Proof.
  intros NE H. set (avg := (Rsum (map draw (seq 0 (length idx))) / INR (length idx))%R) in *.
  rewrite (map_by_pos g (fun p => (m - avg) + draw p)%R idx 0).
  - rewrite Rsum_draws, seq_length. unfold avg.
    assert (INR (length idx) <> 0)%R by (apply not_0_INR; destruct idx; [congruence|discriminate]). field. auto.
  - intros p q E. rewrite (H p q E). cbn [Nat.add]. unfold avg. ring.
Qed.

Lemma pf_C60_random_3d :
  forall (dom : domain R) (d : disc3 R) (draw : nat -> R) (m lo hi : R) (c : list R),
  valid_domain3 dom -> make3 dom = Ok d -> zlen c = cells3 dom -> (forall n, (lo <= draw n <= hi)%R) ->
  exists c' w, random_initial draw m (d3_interior d) c = Ok c' /\
    holds_inside3 dom c' w /\ same_halo3 dom c c' /\ mean3 dom w = m /\
    forall i j k, inside3 dom i j k -> (Rabs (w i j k - m) <= hi - lo)%R.
Proof.
  intros dom d draw m lo hi c HV HM HL HD.
  destruct (make3_inv dom d HV HM) as (W & D). subst dom.
  set (idx := d3_interior d) in *. pose proof (zlen_interior_3 d W) as LI. fold idx in LI.
  assert (NE : idx <> []). { intros E. rewrite E in LI. destruct HV as (A & B & C & _). change (zlen (@nil Z)) with 0 in LI. nia. }
  destruct (random_initial_spec draw m idx c (interior_nodup d W)) as (c' & E & L & IN & OUT); auto.
  { intros q Hq. rewrite HL. apply (interior_range d q W Hq). }
  set (avg := (Rsum (map draw (seq 0 (length idx))) / INR (length idx))%R) in *.
  assert (NZ : (0 < INR (length idx))%R) by (apply lt_0_INR; destruct idx; [congruence|simpl; lia]).
  assert (AV : (lo <= avg <= hi)%R).
  { pose proof (Rsum_bounds draw lo hi (seq 0 (length idx)) (fun p _ => HD p)) as B. rewrite seq_length in B. unfold avg. split.
    - apply Rmult_le_reg_r with (INR (length idx)); auto. unfold Rdiv. rewrite Rmult_assoc, Rinv_l by lra. lra.
    - apply Rmult_le_reg_r with (INR (length idx)); auto. unfold Rdiv. rewrite Rmult_assoc, Rinv_l by lra. lra. }
  set (w := fun i j k => (m + (draw (pos3 (d3_domain d) i j k) - avg))%R).
  assert (HI : holds_inside3 (d3_domain d) c' w).
  { split; [congruence|]. intros i j k I. exact (IN _ _ (interior_at3 d i j k W I)). }
  exists c', w. split; auto. split; auto. split; [|split].
  - split; auto. intros i j k P I. symmetry. apply OUT. apply slot_not_interior; auto.
  - set (g := fun q => match zget c' q with Some v => v | None => 0%R end).
    assert (T : total3 (d3_domain d) w = (INR (length idx) * m)%R).
    { rewrite <- (random_total draw m idx g NE).
      - unfold idx. rewrite (Rsum_interior3 d g W). apply sum3_ext. intros i j k I J K. unfold g.
        rewrite (proj2 HI i j k) by (split; auto). reflexivity.
      - intros p q Hp. unfold g. rewrite (IN p q Hp). reflexivity. }
    unfold mean3. rewrite T. rewrite INR_IZR_INZ. change (Z.of_nat (length idx)) with (zlen idx). rewrite LI, !mult_IZR.
    assert (0 < IZR (nx (d3_domain d)) /\ 0 < IZR (ny (d3_domain d)) /\ 0 < IZR (nz (d3_domain d)))%R as (A & B & C)
      by (destruct HV as (A & B & C & _); repeat split; apply IZR_lt; lia).
    field. lra.
  - intros i j k I. unfold w. replace (m + (draw (pos3 (d3_domain d) i j k) - avg) - m)%R with (draw (pos3 (d3_domain d) i j k) - avg)%R by ring.
    pose proof (HD (pos3 (d3_domain d) i j k)). apply Rabs_le. lra.
Qed.

Lemma ex_draws : forall n, (-1 <= (if Nat.even n then 1 else - 1) <= 1)%R.
Proof. intros n. destruct (Nat.even n); lra. Qed.

Lemma pf_C60_random_2d :
  forall (dom : domain R) (d : disc2 R) (draw : nat -> R) (m lo hi : R) (c : list R),
  valid_domain2 dom -> make2 dom = Ok d -> zlen c = cells2 dom -> (forall n, (lo <= draw n <= hi)%R) ->
  exists c' w, random_initial draw m (d2_interior d) c = Ok c' /\
    holds_inside2 dom c' w /\ same_halo2 dom c c' /\ mean2 dom w = m /\
    forall i j, inside2 dom i j -> (Rabs (w i j - m) <= hi - lo)%R.
Proof.
  intros dom d draw m lo hi c HV HM HL HD.
  destruct (make2_inv dom d HV HM) as (W & D). subst dom.
  set (idx := d2_interior d) in *. pose proof (zlen_interior_2 d W) as LI. fold idx in LI.
  assert (NE : idx <> []). { intros E. rewrite E in LI. destruct HV as (A & _). change (zlen (@nil Z)) with 0 in LI. nia. }
  destruct (random_initial_spec draw m idx c (interior_nodup2 d W)) as (c' & E & L & IN & OUT); auto.
  { intros q Hq. rewrite HL. apply (interior_range2 d q W Hq). }
  set (avg := (Rsum (map draw (seq 0 (length idx))) / INR (length idx))%R) in *.
  assert (NZ : (0 < INR (length idx))%R) by (apply lt_0_INR; destruct idx; [congruence|simpl; lia]).
  assert (AV : (lo <= avg <= hi)%R).
  { pose proof (Rsum_bounds draw lo hi (seq 0 (length idx)) (fun p _ => HD p)) as B. rewrite seq_length in B. unfold avg. split.
    - apply Rmult_le_reg_r with (INR (length idx)); auto. unfold Rdiv. rewrite Rmult_assoc, Rinv_l by lra. lra.
    - apply Rmult_le_reg_r with (INR (length idx)); auto. unfold Rdiv. rewrite Rmult_assoc, Rinv_l by lra. lra. }
  set (w := fun i j => (m + (draw (pos2 (d2_domain d) i j) - avg))%R).
  assert (HI : holds_inside2 (d2_domain d) c' w).
  { split; [congruence|]. intros i j I. exact (IN _ _ (interior_at2 d i j W I)). }
  exists c', w. split; auto. split; auto. split; [|split].
  - split; auto. intros i j P I. symmetry. apply OUT. apply slot_not_interior2; auto.
  - set (g := fun q => match zget c' q with Some v => v | None => 0%R end).
    assert (T : total2 (d2_domain d) w = (INR (length idx) * m)%R).
    { rewrite <- (random_total draw m idx g NE).
      - unfold idx. rewrite (Rsum_interior2 d g W). apply sum2_ext. intros i j I J. unfold g.
        rewrite (proj2 HI i j) by (split; auto). reflexivity.
      - intros p q Hp. unfold g. rewrite (IN p q Hp). reflexivity. }
    unfold mean2. rewrite T. rewrite INR_IZR_INZ. change (Z.of_nat (length idx)) with (zlen idx). rewrite LI, !mult_IZR.
    assert (0 < IZR (nx (d2_domain d)))%R as A by (destruct HV as (A & _); apply IZR_lt; lia).
    field. lra.
  - intros i j I. unfold w. replace (m + (draw (pos2 (d2_domain d) i j) - avg) - m)%R with (draw (pos2 (d2_domain d) i j) - avg)%R by ring.
    pose proof (HD (pos2 (d2_domain d) i j)). apply Rabs_le. lra.
Qed.

Lemma pf_C60_constant_3d :
  forall (V : Type) (N : Num V) (dom : domain V) (d : disc3 V) (value : V) (c : list V),
  valid_domain3 dom -> make3 dom = Ok d -> zlen c = cells3 dom ->
  exists c', constant_initial value (d3_interior d) c = Ok c' /\
    holds_inside3 dom c' (fun _ _ _ => value) /\ same_halo3 dom c c'.
Proof.
  intros V N dom d value c HV HM HL.
  destruct (make3_inv dom d HV HM) as (W & D). subst dom.
  destruct (constant_initial_spec value (d3_interior d) c (interior_nodup d W)) as (c' & E & L & IN & OUT & _).
  { intros q Hq. rewrite HL. apply (interior_range d q W Hq). }
  exists c'. split; auto. split.
  - split; [congruence|]. intros i j k I. apply IN. apply in_interior_slot; auto. exists i, j, k. auto.
  - split; auto. intros i j k P I. symmetry. apply OUT. apply slot_not_interior; auto.
Qed.

(** ** Vector copies *)

Lemma pf_C62_copies_3d :
  forall (V : Type) (N : Num V) (dom : domain V) (d : disc3 V) (s x : list V) (u v : Z -> Z -> Z -> V),
  valid_domain3 dom -> make3 dom = Ok d -> holds3 dom s u -> vec_holds3 dom x v ->
  (exists y, copy_to_vec (d3_interior d) s x = Ok y /\ vec_holds3 dom y u /\
     copy_from_vec (d3_interior d) s y = Ok (s, y)) /\
  (exists s', copy_from_vec (d3_interior d) s x = Ok (s', x) /\ holds_inside3 dom s' v /\ same_halo3 dom s s' /\
     forall y, zlen y = zlen x -> copy_to_vec (d3_interior d) s' y = Ok x).
Proof.
  intros V N dom d s x u v HV HM HS HX.
  destruct (make3_inv dom d HV HM) as (W & D). subst dom.
  pose proof (holds3_inside _ _ _ (proj2 (proj2 (proj2 HV))) HS) as HI.
  split.
  - destruct (copy_to3 d s x u W HI (proj1 HX)) as (y & E & HY). exists y. split; auto. split; auto.
    destruct (copy_from3 d s y u W (proj1 HS) HY) as (s' & E' & HI' & SH). rewrite E'. do 2 f_equal.
    apply (holds3_unique (d3_domain d) s' s u); auto. split; [apply HI'|]. intros i j k P.
    destruct (inside3_dec (d3_domain d) i j k) as [I|I]; [apply HI'; auto|].
    rewrite <- (proj2 SH i j k P I). apply HS; auto.
  - destruct (copy_from3 d s x v W (proj1 HS) HX) as (s' & E' & HI' & SH). exists s'. split; auto. split; auto. split; auto.
    intros y Ly. destruct (copy_to3 d s' y v W HI') as (y' & E & HY); [rewrite Ly; apply HX|].
    rewrite E. f_equal. apply (vec_unique3 (d3_domain d) y' x v); auto.
Qed.

Lemma ex_vec3 : exists x, vec_holds3 ex_box x (fun i j k => IZR (i - j + 2 * k)).
Proof.
  destruct ex_box_ok as (HV & d & HM). destruct (make3_inv ex_box d HV HM) as (W & D).
  destruct (array3 ex_box (fun i j k => IZR (i - j + 2 * k)) HV) as (f & Hf).
  destruct (copy_to3 d f (repeat 0%R 12) (fun i j k => IZR (i - j + 2 * k)) W) as (x & _ & HX).
  - rewrite D. apply holds3_inside; auto. apply HV.
  - rewrite D. reflexivity.
  - rewrite D in HX. eauto.
Qed.
Lemma ex_state3 : exists s, holds3 ex_box s (fun i j k => IZR (i + j + k)).
Proof. apply array3. exact (proj1 ex_box_ok). Qed.

Lemma pf_C62_copies_2d :
  forall (V : Type) (N : Num V) (dom : domain V) (d : disc2 V) (s x : list V) (u v : Z -> Z -> V),
  valid_domain2 dom -> make2 dom = Ok d -> holds2 dom s u -> vec_holds2 dom x v ->
  (exists y, copy_to_vec (d2_interior d) s x = Ok y /\ vec_holds2 dom y u /\
     copy_from_vec (d2_interior d) s y = Ok (s, y)) /\
  (exists s', copy_from_vec (d2_interior d) s x = Ok (s', x) /\ holds_inside2 dom s' v /\ same_halo2 dom s s' /\
     forall y, zlen y = zlen x -> copy_to_vec (d2_interior d) s' y = Ok x).
Proof.
  intros V N dom d s x u v HV HM HS HX.
  destruct (make2_inv dom d HV HM) as (W & D). subst dom.
  assert (HI : holds_inside2 (d2_domain d) s u).
  { split; [apply HS|]. intros i j I. apply HS, inside_padded2; auto. apply HV. }
  split.
  - destruct (copy_to2 d s x u W HI (proj1 HX)) as (y & E & HY). exists y. split; auto. split; auto.
    destruct (copy_from2 d s y u W (proj1 HS) HY) as (s' & E' & HI' & SH). rewrite E'. do 2 f_equal.
    apply (holds2_unique (d2_domain d) s' s u); auto. split; [apply HI'|]. intros i j P.
    destruct (inside2_dec (d2_domain d) i j) as [I|I]; [apply HI'; auto|].
    rewrite <- (proj2 SH i j P I). apply HS; auto.
  - destruct (copy_from2 d s x v W (proj1 HS) HX) as (s' & E' & HI' & SH). exists s'. split; auto. split; auto. split; auto.
    intros y Ly. destruct (copy_to2 d s' y v W HI') as (y' & E & HY); [rewrite Ly; apply HX|].
    rewrite E. f_equal. apply (vec_unique2 (d2_domain d) y' x v); auto.
Qed.

Lemma ex_vec2 : exists x, vec_holds2 ex_square x (fun i j => IZR (i - 2 * j)).
Proof.
  destruct ex_square_ok as (HV & d & HM). destruct (make2_inv ex_square d HV HM) as (W & D).
  destruct (array2 ex_square (fun i j => IZR (i - 2 * j)) HV) as (f & Hf).
  destruct (copy_to2 d f (repeat 0%R 9) (fun i j => IZR (i - 2 * j)) W) as (x & _ & HX).
  - rewrite D. apply holds2_inside; auto. apply HV.
  - rewrite D. reflexivity.
  - rewrite D in HX. eauto.
Qed.

Lemma CH3_ext' h m s e2 f g i j k : (forall i j k, f i j k = g i j k) -> CH3 h m s e2 f i j k = CH3 h m s e2 g i j k.
Proof. intros E. unfold CH3, Lap3, dxx3, dyy3, dzz3. rewrite !E. reflexivity. Qed.

Lemma pf_C62_rhs_3d :
  forall (dom : domain R) (d : disc3 R) (variant : Z) (p : ch_params R) (sc : scratch R) (c r x rhs : list R)
    (v : Z -> Z -> Z -> R) (time : R),
  valid_domain3 dom -> 2 <= nhalo dom -> nhalo dom <= nx dom /\ nhalo dom <= ny dom /\ nhalo dom <= nz dom ->
  make3 dom = Ok d -> 0 <= variant <= 2 -> scratch_fits (cells3 dom) sc ->
  zlen c = cells3 dom -> zlen r = cells3 dom -> vec_holds3 dom x v -> zlen rhs = nx dom * ny dom * nz dom ->
  exists sc' c' r' rhs',
    petsc_rhs (ch_rhs3 d variant p) (d3_interior d) sc [c] [r] time x rhs = Ok (sc', [c'], [r'], rhs') /\
    scratch_fits (cells3 dom) sc' /\ zlen c' = cells3 dom /\ zlen r' = cells3 dom /\
    vec_holds3 dom rhs' (CH3 (d3_dx d) (ch_m p) (ch_sigma p) (ch_eps2 p) (extend3 dom v)).
Proof.
  intros dom d variant p sc c r x rhs v time HV HN HT HM Hv OK LC LR HX LH.
  pose proof (ch3_computes dom d variant p HV HN HT HM Hv) as HC.
  destruct (make3_inv dom d HV HM) as (W & D). subst dom.
  destruct (copy_from3 d c x v W LC HX) as (c1 & E1 & HI1 & _).
  assert (NH : 0 <= nhalo (d3_domain d)) by lia.
  assert (S1 : state_holds 1 (cells3 (d3_domain d)) (P3 (d3_domain d)) [c1] (of3 (d3_domain d) v)).
  { apply state3; auto. apply (holds_inside3_ext (d3_domain d) c1 v); auto. intros i j k I. unfold at3. symmetry. apply of3_slot, inside_padded3; auto. }
  destruct (HC sc [c1] time [r] (of3 (d3_domain d) v) OK S1) as (sc' & s' & r' & E2 & OK' & S2 & S3); [apply one_array; eauto|].
  destruct (proj1 (one_array _ s') (proj1 S2)) as (c' & -> & LC'). destruct (proj1 (one_array _ r') (proj1 S3)) as (r1 & -> & LR').
  apply state3 in S3; auto.
  destruct (copy_to3 d r1 rhs _ W S3 LH) as (rhs' & E3 & HR).
  exists sc', c', r1, rhs'. split.
  - unfold petsc_rhs, copy_from_vec_state, copy_to_vec_state. cbn [nth_error of_opt rbind upd]. rewrite E1. cbn [rbind].
    change (upd [c] 0 c1) with [c1]. rewrite E2. cbn [rbind nth_error of_opt]. rewrite E3. reflexivity.
  - split; auto. split; auto. split; auto. split; [apply HR|]. intros i j k I. rewrite (proj2 HR i j k I). f_equal.
    unfold at3, ch_f3. rewrite of3_slot by (apply inside_padded3; auto). rewrite ch_expr3_R.
    apply CH3_ext'. intros a b e. apply (extend3_inside_ext (d3_domain d) (at3 (d3_domain d) (of3 (d3_domain d) v)) v HV).
    intros i' j' k' I'. unfold at3. apply of3_slot, inside_padded3; auto.
Qed.

Lemma ex_rhs3 : exists (sc : scratch R) (c r x rhs : list R), scratch_fits (cells3 ex_cube) sc /\
  zlen c = cells3 ex_cube /\ zlen r = cells3 ex_cube /\ vec_holds3 ex_cube x (fun i j k => IZR (i + j * k)) /\
  zlen rhs = nx ex_cube * ny ex_cube * nz ex_cube /\ valid_domain3 ex_cube /\ 2 <= nhalo ex_cube /\
  (nhalo ex_cube <= nx ex_cube /\ nhalo ex_cube <= ny ex_cube /\ nhalo ex_cube <= nz ex_cube) /\
  (exists d, make3 ex_cube = Ok d) /\ 0 <= 1 <= 2.
Proof.
  destruct ex_cube_ok as ((HV & _) & (d & HM) & _). destruct (make3_inv ex_cube d HV HM) as (W & D).
  destruct (array3 ex_cube (fun i j k => IZR (i + j * k)) HV) as (f & Hf).
  destruct (copy_to3 d f (repeat 0%R 64) (fun i j k => IZR (i + j * k)) W) as (x & _ & HX).
  { rewrite D. apply holds3_inside; auto. apply HV. }
  { rewrite D. reflexivity. }
  rewrite D in HX.
  exists {| sc_lap := f; sc_arg := f; sc_bih := f; sc_lin := f |}, f, f, x, x.
  pose proof (proj1 Hf) as LF. pose proof (proj1 HX) as LX.
  split; [repeat split; auto|]. split; auto. split; auto. split; auto. split; auto. split; auto.
  split; [cbn; lia|]. split; [cbn; lia|]. split; eauto. lia.
Qed.

Lemma pf_C62_solve_3d :
  forall (V : Type) (N : Num V) (S : Type) (dom : domain V) (d : disc3 V)
    (ts_solve : S -> state V -> state V -> list V -> res (S * state V * state V * list V))
    (sc : S) (c : list V) (resid : state V) (u w : Z -> Z -> Z -> V),
  valid_domain3 dom -> make3 dom = Ok d -> holds_inside3 dom c u ->
  (forall x, vec_holds3 dom x u -> exists sc' c' resid' x', ts_solve sc [c] resid x = Ok (sc', [c'], resid', x') /\
     zlen c' = cells3 dom /\ vec_holds3 dom x' w) ->
  exists sc' c' resid', petsc_solve (d3_interior d) (nx dom * ny dom * nz dom) ts_solve sc [c] resid = Ok (sc', [c'], resid') /\
    holds_inside3 dom c' w.
Proof.
  intros V N S dom d ts sc c resid u w HV HM HI HT.
  destruct (make3_inv dom d HV HM) as (W & D). subst dom.
  destruct (copy_to3 d c (new_array (nint 0) (nx (d3_domain d) * ny (d3_domain d) * nz (d3_domain d))) u W HI) as (x & E1 & HX).
  { apply zlen_new_array. destruct HV as (A & B & C & _). apply Z.mul_nonneg_nonneg; [apply Z.mul_nonneg_nonneg|]; lia. }
  destruct (HT x HX) as (sc' & c' & resid' & x' & E2 & LC & HX').
  destruct (copy_from3 d c' x' w W LC HX') as (c2 & E3 & HI2 & _).
  exists sc', c2, resid'. split; auto. unfold petsc_solve, copy_to_vec_state, copy_from_vec_state.
  cbn [nth_error of_opt rbind]. rewrite E1. cbn [rbind]. rewrite E2. cbn [rbind nth_error of_opt]. rewrite E3. reflexivity.
Qed.

Lemma ex_solve3 : exists c, (valid_domain3 ex_box /\ exists d, make3 ex_box = Ok d) /\
  holds_inside3 ex_box c (fun i j k => IZR (i + j + k)) /\
  (forall x, vec_holds3 ex_box x (fun i j k => IZR (i + j + k)) ->
     exists sc' c' resid' x', (fun (sc : nat) (s r : state R) (x : list R) => Ok (S sc, s, r, map (fun a => a + 1)%R x)) 0%nat [c] [] x
       = Ok (sc', [c'], resid', x') /\
     zlen c' = cells3 ex_box /\ vec_holds3 ex_box x' (fun i j k => IZR (i + j + k) + 1)%R).
Proof.
  destruct ex_state3 as (s & Hs). exists s. split; [exact ex_box_ok|].
  assert (HI : holds_inside3 ex_box s (fun i j k => IZR (i + j + k))) by (apply holds3_inside; auto; apply ex_box_ok).
  split; auto. intros x (L & H). exists 1%nat, s, [], (map (fun a => a + 1)%R x). split; auto. split; [apply Hs|].
  split; [rewrite zlen_map; auto|]. intros i j k I. rewrite zget_map, (H i j k I). reflexivity.
Qed.
