(** Proofs of the operator and right-hand side properties C11, C12, C14-C16, C18-C23,
    assembled from the lemmas of the other files. *)
From Coq Require Import Reals Lra FunctionalExtensionality.
From Verif Require Import Outcome ZList ZListProofs Num Kernel KernelProofs ModelIndex IndexProofs
  ModelDisc3D ModelDisc2D ModelCH SpecGrid SpecField SpecPoly Gather Loop Disc3DProofs Make3Proofs Stencil3Proofs
  BC3Proofs Disc2DProofs Make2Proofs CHProofs SumProofs FieldProofs PolyProofs EnergyProofs.
Open Scope Z_scope.

Lemma dx_nonzero3 (dom : domain R) d : wf3 d -> d3_domain d = dom -> xbeg dom <> xend dom -> d3_dx d <> 0%R.
Proof.
  intros W E H. rewrite (wf_dx d W), E. cbn. destruct (wf_valid d W) as (A & _). rewrite E in A.
  unfold Rdiv. apply Rmult_integral_contrapositive_currified; [lra|].
  apply Rinv_neq_0_compat, not_0_IZR. lia.
Qed.
Lemma dx_nonzero2 (dom : domain R) d : wf2 d -> d2_domain d = dom -> xbeg dom <> xend dom -> d2_dx d <> 0%R.
Proof.
  intros W E H. rewrite (wf2_dx d W), E. cbn. destruct (wf2_valid d W) as (A & _). rewrite E in A.
  unfold Rdiv. apply Rmult_integral_contrapositive_currified; [lra|].
  apply Rinv_neq_0_compat, not_0_IZR. lia.
Qed.

Lemma centre_R x0 h i : centre_at x0 h i = (x0 + h / 2 + h * IZR i)%R.
Proof. unfold centre_at, corner_at. cbn. rewrite plus_IZR. field. Qed.

Lemma pf_C11_consistency_3d :
  forall (dom : domain R) (d : disc3 R) (p : poly) (s o : list R) (X Y Z : Z -> R),
  valid_domain3 dom -> xbeg dom <> xend dom -> make3 dom = Ok d -> zlen o = cells3 dom ->
  holds3 dom (d3_x d) (fun i _ _ => X i) -> holds3 dom (d3_y d) (fun _ j _ => Y j) ->
  holds3 dom (d3_z d) (fun _ _ k => Z k) ->
  holds3 dom s (fun i j k => peval p (X i) (Y j) (Z k)) ->
  (degree_le p 3 -> 1 <= nhalo dom ->
     exists o', laplacian3 d s o = Ok (s, o') /\
       holds_inside3 dom o' (fun i j k => peval (plap p) (X i) (Y j) (Z k))) /\
  (degree_le p 5 -> 2 <= nhalo dom ->
     exists o', biharmonic3 d s o = Ok (s, o') /\
       holds_inside3 dom o' (fun i j k => peval (plap (plap p)) (X i) (Y j) (Z k))).
Proof.
  intros dom d p s o X Y Z HV HX HM HO HXA HYA HZA HS.
  destruct (make3_ok dom HV) as (d' & M & W & E & _ & _ & _ & CX & CY & CZ).
  rewrite M in HM. injection HM as ->.
  assert (Hh : d3_dx d <> 0%R) by (eapply dx_nonzero3; eauto).
  set (h := d3_dx d) in *. destruct HV as (H1 & H2 & H3 & H4).
  assert (EX : forall i, - nhalo dom <= i < nx dom + nhalo dom -> X i = (xbeg dom + h / 2 + h * IZR i)%R).
  { intros i Hi. destruct HXA as (_ & A). destruct CX as (_ & B).
    assert (P : padded3 dom i 0 0) by (repeat split; lia).
    specialize (A _ _ _ P). rewrite (B _ _ _ P) in A. injection A as <-. apply centre_R. }
  assert (EY : forall i, - nhalo dom <= i < ny dom + nhalo dom -> Y i = (ybeg dom + h / 2 + h * IZR i)%R).
  { intros i Hi. destruct HYA as (_ & A). destruct CY as (_ & B).
    assert (P : padded3 dom 0 i 0) by (repeat split; lia).
    specialize (A _ _ _ P). rewrite (B _ _ _ P) in A. injection A as <-. apply centre_R. }
  assert (EZ : forall i, - nhalo dom <= i < nz dom + nhalo dom -> Z i = (zbeg dom + h / 2 + h * IZR i)%R).
  { intros i Hi. destruct HZA as (_ & A). destruct CZ as (_ & B).
    assert (P : padded3 dom 0 0 i) by (repeat split; lia).
    specialize (A _ _ _ P). rewrite (B _ _ _ P) in A. injection A as <-. apply centre_R. }
  set (U := fun (q : poly) i j k => peval q (xbeg dom + h / 2 + h * IZR i) (ybeg dom + h / 2 + h * IZR j) (zbeg dom + h / 2 + h * IZR k)).
  assert (HS' : holds3 (d3_domain d) s (U p)).
  { rewrite E. eapply holds3_ext; [exact HS|]. intros i j k (A & B & C). cbv beta. rewrite EX, EY, EZ by auto. reflexivity. }
  assert (IN : forall q i j k, inside3 dom i j k -> U q i j k = peval q (X i) (Y j) (Z k)).
  { intros q i j k (A & B & C). rewrite EX, EY, EZ by lia. reflexivity. }
  rewrite <- E in HO. split.
  - intros HD HN. rewrite <- E in HN.
    destruct (laplacian3_full d s o _ W HN HS' HO) as (o' & EO & HI & _ & _).
    exists o'. split; auto. rewrite E in HI. eapply holds_inside3_ext; [exact HI|].
    intros i j k I. cbv beta. rewrite lap_expr3_R. rewrite <- IN by auto. unfold U. apply poly_lap; auto.
  - intros HD HN. rewrite <- E in HN.
    destruct (biharmonic3_full d s o _ W HN HS' HO) as (o' & EO & HI & _ & _).
    exists o'. split; auto. rewrite E in HI. eapply holds_inside3_ext; [exact HI|].
    intros i j k I. cbv beta. rewrite bih_expr3_R. rewrite <- IN by auto. unfold U. apply poly_bih; auto.
Qed.

Lemma pf_C11_derivatives :
  forall (p : poly) (x y z : R),
  derivable_pt_lim (fun t => peval p t y z) x (peval (pdx p) x y z) /\
  derivable_pt_lim (fun t => peval p x t z) y (peval (pdy p) x y z) /\
  derivable_pt_lim (fun t => peval p x y t) z (peval (pdz p) x y z) /\
  peval (plap p) x y z =
    (peval (pdx (pdx p)) x y z + peval (pdy (pdy p)) x y z + peval (pdz (pdz p)) x y z)%R.
Proof.
  intros p x y z. split; [apply pdx_derivative|]. split; [apply pdy_derivative|]. split; [apply pdz_derivative|].
  unfold plap. rewrite !peval_app. ring.
Qed.

Lemma pf_C11_consistency_2d :
  forall (dom : domain R) (d : disc2 R) (p : poly) (s o : list R) (X Y : Z -> R),
  valid_domain2 dom -> xbeg dom <> xend dom -> make2 dom = Ok d -> zlen o = cells2 dom ->
  Forall (fun q => me q = 0%nat) p ->
  holds2 dom (d2_x d) (fun i _ => X i) -> holds2 dom (d2_y d) (fun _ j => Y j) ->
  holds2 dom s (fun i j => peval p (X i) (Y j) 0) ->
  (degree_le p 3 -> 1 <= nhalo dom ->
     exists o', laplacian2 d s o = Ok (s, o') /\
       holds_inside2 dom o' (fun i j => peval (plap p) (X i) (Y j) 0)) /\
  (degree_le p 5 -> 2 <= nhalo dom ->
     exists o', biharmonic2 d s o = Ok (s, o') /\
       holds_inside2 dom o' (fun i j => peval (plap (plap p)) (X i) (Y j) 0)).
Proof.
  intros dom d p s o X Y HV HX HM HO HP HXA HYA HS.
  destruct (make2_ok dom HV) as (d' & M & W & E & _ & _ & CX & CY).
  rewrite M in HM. injection HM as ->.
  assert (Hh : d2_dx d <> 0%R) by (eapply dx_nonzero2; eauto).
  set (h := d2_dx d) in *. destruct HV as (H1 & H4).
  assert (EX : forall i, - nhalo dom <= i < nx dom + nhalo dom -> X i = (xbeg dom + h / 2 + h * IZR i)%R).
  { intros i Hi. destruct HXA as (_ & A). destruct CX as (_ & B).
    assert (P : padded2 dom i 0) by (repeat split; lia).
    specialize (A _ _ P). rewrite (B _ _ P) in A. injection A as <-. apply centre_R. }
  assert (EY : forall i, - nhalo dom <= i < nx dom + nhalo dom -> Y i = (ybeg dom + h / 2 + h * IZR i)%R).
  { intros i Hi. destruct HYA as (_ & A). destruct CY as (_ & B).
    assert (P : padded2 dom 0 i) by (repeat split; lia).
    specialize (A _ _ P). rewrite (B _ _ P) in A. injection A as <-. apply centre_R. }
  (* the values do not depend on the third coordinate *)
  assert (ZI : forall q x y z, Forall (fun q => me q = 0%nat) q -> peval q x y z = peval q x y 0).
  { intros q x y z HF. induction HF as [|m q Hm HF IH]; [reflexivity|].
    rewrite !(peval_cons m). rewrite IH. unfold meval. rewrite Hm. reflexivity. }
  assert (ZL : forall q, Forall (fun q => me q = 0%nat) q -> Forall (fun q => me q = 0%nat) (plap q)).
  { intros q HF. unfold plap. rewrite !Forall_app. unfold pdx, pdy, pdz. rewrite !map_map, !Forall_map.
    repeat split; eapply Forall_impl; try exact HF; intros a Ha; cbn; rewrite Ha; reflexivity. }
  set (U := fun (q : poly) i j => peval q (xbeg dom + h / 2 + h * IZR i) (ybeg dom + h / 2 + h * IZR j) 0).
  set (U3 := fun (q : poly) (i j k : Z) => peval q (xbeg dom + h / 2 + h * IZR i) (ybeg dom + h / 2 + h * IZR j) (0 + h * IZR k)).
  assert (HU : forall q i j k, Forall (fun q => me q = 0%nat) q -> U3 q i j k = U q i j).
  { intros. unfold U3, U. apply ZI. auto. }
  assert (HS' : holds2 (d2_domain d) s (U p)).
  { rewrite E. eapply holds2_ext; [exact HS|]. intros i j (A & B). cbv beta. rewrite EX, EY by auto. reflexivity. }
  assert (IN : forall q i j, inside2 dom i j -> U q i j = peval q (X i) (Y j) 0).
  { intros q i j (A & B). rewrite EX, EY by lia. reflexivity. }
  assert (L23 : forall f i j, Lap2 h f i j = Lap3 h (fun i j _ => f i j) i j 0).
  { intros. unfold Lap2, Lap3, dxx2, dyy2, dxx3, dyy3, dzz3, Rdiv. ring. }
  rewrite <- E in HO. split.
  - intros HD HN. rewrite <- E in HN.
    destruct (laplacian2_full d s o _ W HN HS' HO) as (o' & EO & HI & _ & _).
    exists o'. split; auto. rewrite E in HI. eapply holds_inside2_ext; [exact HI|].
    intros i j I. cbv beta. rewrite lap_expr2_R, L23. rewrite <- IN by auto.
    rewrite <- (HU (plap p) i j 0) by auto.
    rewrite (Lap3_ext h (fun i j _ => U p i j) (U3 p)) by (intros; symmetry; auto).
    unfold U3. apply poly_lap; auto.
  - intros HD HN. rewrite <- E in HN.
    destruct (biharmonic2_full d s o _ W HN HS' HO) as (o' & EO & HI & _ & _).
    exists o'. split; auto. rewrite E in HI. eapply holds_inside2_ext; [exact HI|].
    intros i j I. cbv beta. rewrite bih_expr2_R, L23. rewrite <- IN by auto.
    rewrite <- (HU (plap (plap p)) i j 0) by auto.
    rewrite (Lap3_ext h (fun i j _ => Lap2 h (U p) i j) (Lap3 h (U3 p))).
    + unfold U3. apply poly_bih; auto.
    + intros a b c. rewrite L23. rewrite (Lap3_ext h (fun i j _ => U p i j) (U3 p)) by (intros; symmetry; auto).
      unfold Lap3, dxx3, dyy3, dzz3. rewrite !HU by auto. reflexivity.
Qed.

Lemma pf_C12_biharmonic_3d :
  forall (dom : domain R) (d : disc3 R) (s o : list R) (u : Z -> Z -> Z -> R),
  valid_domain3 dom -> 2 <= nhalo dom -> make3 dom = Ok d -> holds3 dom s u -> zlen o = cells3 dom ->
  exists o', biharmonic3 d s o = Ok (s, o') /\ holds_inside3 dom o' (Lap3 (d3_dx d) (Lap3 (d3_dx d) u)).
Proof.
  intros dom d s o u HV HN HM HS HO. destruct (make3_inv dom d HV HM) as (W & <-).
  destruct (biharmonic3_full d s o u W HN HS HO) as (o' & E & HI & _).
  exists o'. split; auto. eapply holds_inside3_ext; [exact HI|]. intros. apply bih_expr3_R.
Qed.

Lemma pf_C12_biharmonic_2d :
  forall (dom : domain R) (d : disc2 R) (s o : list R) (u : Z -> Z -> R),
  valid_domain2 dom -> 2 <= nhalo dom -> make2 dom = Ok d -> holds2 dom s u -> zlen o = cells2 dom ->
  exists o', biharmonic2 d s o = Ok (s, o') /\ holds_inside2 dom o' (Lap2 (d2_dx d) (Lap2 (d2_dx d) u)).
Proof.
  intros dom d s o u HV HN HM HS HO. destruct (make2_inv dom d HV HM) as (W & <-).
  destruct (biharmonic2_full d s o u W HN HS HO) as (o' & E & HI & _).
  exists o'. split; auto. eapply holds_inside2_ext; [exact HI|]. intros. apply bih_expr2_R.
Qed.

Lemma pf_C12_laplacian_twice_3d :
  forall (dom : domain R) (d : disc3 R) (s a b c : list R),
  valid_domain3 dom -> 2 <= nhalo dom -> nhalo dom <= nx dom /\ nhalo dom <= ny dom /\ nhalo dom <= nz dom ->
  make3 dom = Ok d -> zlen s = cells3 dom -> zlen a = cells3 dom -> zlen b = cells3 dom -> zlen c = cells3 dom ->
  exists s1 a1 a2 b1 c1,
    apply_periodic3 d s = Ok s1 /\
    laplacian3 d s1 a = Ok (s1, a1) /\ apply_periodic3 d a1 = Ok a2 /\ laplacian3 d a2 b = Ok (a2, b1) /\
    biharmonic3 d s1 c = Ok (s1, c1) /\
    forall i j k, inside3 dom i j k -> zget b1 (slot3 dom i j k) = zget c1 (slot3 dom i j k).
Proof.
  intros dom d s a b c HV HN HT HM LS LA LB LC. destruct (make3_inv dom d HV HM) as (W & <-).
  set (dom := d3_domain d) in *. set (h := d3_dx d).
  destruct (holds3_exists dom s HV LS) as (u & Hu).
  destruct (apply_periodic3_full d s u W HT Hu) as (s1 & E1 & HS1 & _).
  destruct (laplacian3_full d s1 a _ W ltac:(fold dom; lia) HS1 LA) as (a1 & E2 & HA1 & _ & _).
  fold dom h in HA1, HS1.
  destruct (holds3_exists dom a1 HV) as (v & Hv); [apply HA1|].
  destruct (apply_periodic3_full d a1 v W HT Hv) as (a2 & E3 & HA2 & _).
  destruct (laplacian3_full d a2 b _ W ltac:(fold dom; lia) HA2 LB) as (b1 & E4 & HB1 & _ & _).
  destruct (biharmonic3_full d s1 c _ W HN HS1 LC) as (c1 & E5 & HC1 & _ & _).
  fold dom h in HB1, HC1, HA2.
  exists s1, a1, a2, b1, c1. repeat split; auto.
  intros i j k I. destruct HB1 as (_ & HB1). destruct HC1 as (_ & HC1). rewrite HB1, HC1 by auto. f_equal.
  rewrite lap_expr3_R, bih_expr3_R. apply Lap3_ext. intros i' j' k'.
  rewrite (Lap3_periodic dom HV). destruct HV as (H1 & H2 & H3 & H4).
  unfold periodic3 at 1 2. rewrite <- lap_expr3_R. 
  assert (I' : inside3 dom (i' mod nx dom) (j' mod ny dom) (k' mod nz dom)) by (repeat split; apply Z.mod_pos_bound; lia).
  assert (P' : padded3 dom (i' mod nx dom) (j' mod ny dom) (k' mod nz dom)) by (apply inside_padded3; auto).
  destruct Hv as (_ & Hv). destruct HA1 as (_ & HA1). specialize (Hv _ _ _ P'). rewrite HA1 in Hv by auto. congruence.
Qed.

Lemma pf_C14_conservation_3d :
  forall (dom : domain R) (d : disc3 R) (s a b : list R) (va vb : Z -> Z -> Z -> R) s1 a1 b1,
  valid_domain3 dom -> 2 <= nhalo dom -> nhalo dom <= nx dom /\ nhalo dom <= ny dom /\ nhalo dom <= nz dom ->
  make3 dom = Ok d -> zlen s = cells3 dom -> zlen a = cells3 dom -> zlen b = cells3 dom ->
  apply_periodic3 d s = Ok s1 -> laplacian3 d s1 a = Ok (s1, a1) -> biharmonic3 d s1 b = Ok (s1, b1) ->
  holds_inside3 dom a1 va -> holds_inside3 dom b1 vb ->
  total3 dom va = 0%R /\ total3 dom vb = 0%R.
Proof.
  intros dom d s a b va vb s1 a1 b1 HV HN HT HM LS LA LB E1 E2 E3 HA HB. destruct (make3_inv dom d HV HM) as (W & <-).
  set (dom := d3_domain d) in *. set (h := d3_dx d).
  destruct (holds3_exists dom s HV LS) as (u & Hu).
  destruct (apply_periodic3_full d s u W HT Hu) as (s1' & E1' & HS1 & _).
  rewrite E1 in E1'. injection E1' as <-.
  destruct (laplacian3_full d s1 a _ W ltac:(fold dom; lia) HS1 LA) as (a1' & E2' & HA1 & _ & _).
  rewrite E2 in E2'. injection E2' as <-.
  destruct (biharmonic3_full d s1 b _ W HN HS1 LB) as (b1' & E3' & HB1 & _ & _).
  rewrite E3 in E3'. injection E3' as <-. fold dom h in HA1, HB1. fold dom in HS1.
  split.
  - rewrite <- (total3_Lap_periodic dom HV h u). apply sum3_ext. intros i j k Hi Hj Hk.
    assert (I : inside3 dom i j k) by (repeat split; auto; lia).
    destruct HA as (_ & HA). destruct HA1 as (_ & HA1). specialize (HA _ _ _ I). rewrite HA1 in HA by auto.
    injection HA as <-. apply lap_expr3_R.
  - rewrite <- (total3_bih dom HV h u). apply sum3_ext. intros i j k Hi Hj Hk.
    assert (I : inside3 dom i j k) by (repeat split; auto; lia).
    destruct HB as (_ & HB). destruct HB1 as (_ & HB1). specialize (HB _ _ _ I). rewrite HB1 in HB by auto.
    injection HB as <-. apply bih_expr3_R.
Qed.

Lemma pf_C14_conservation_2d :
  forall (dom : domain R) (d : disc2 R) (s a b : list R) (va vb : Z -> Z -> R) s1 a1 b1,
  valid_domain2 dom -> 2 <= nhalo dom -> nhalo dom <= nx dom ->
  make2 dom = Ok d -> zlen s = cells2 dom -> zlen a = cells2 dom -> zlen b = cells2 dom ->
  apply_periodic2 d s = Ok s1 -> laplacian2 d s1 a = Ok (s1, a1) -> biharmonic2 d s1 b = Ok (s1, b1) ->
  holds_inside2 dom a1 va -> holds_inside2 dom b1 vb ->
  total2 dom va = 0%R /\ total2 dom vb = 0%R.
Proof.
  intros dom d s a b va vb s1 a1 b1 HV HN HT HM LS LA LB E1 E2 E3 HA HB. destruct (make2_inv dom d HV HM) as (W & <-).
  set (dom := d2_domain d) in *. set (h := d2_dx d).
  destruct (holds2_exists dom s HV LS) as (u & Hu).
  destruct (apply_periodic2_full d s u W HT Hu) as (? & ? & ? & s1' & E1' & HS1 & _).
  rewrite E1 in E1'. injection E1' as <-.
  destruct (laplacian2_full d s1 a _ W ltac:(fold dom; lia) HS1 LA) as (a1' & E2' & HA1 & _ & _).
  rewrite E2 in E2'. injection E2' as <-.
  destruct (biharmonic2_full d s1 b _ W HN HS1 LB) as (b1' & E3' & HB1 & _ & _).
  rewrite E3 in E3'. injection E3' as <-. fold dom h in HA1, HB1. fold dom in HS1.
  split.
  - rewrite <- (total2_Lap dom h u HV). apply sum2_ext. intros i j Hi Hj.
    assert (I : inside2 dom i j) by (split; auto; lia).
    destruct HA as (_ & HA). destruct HA1 as (_ & HA1). specialize (HA _ _ I). rewrite HA1 in HA by auto.
    injection HA as <-. apply lap_expr2_R.
  - rewrite <- (total2_bih dom h u HV). apply sum2_ext. intros i j Hi Hj.
    assert (I : inside2 dom i j) by (split; auto; lia).
    destruct HB as (_ & HB). destruct HB1 as (_ & HB1). specialize (HB _ _ I). rewrite HB1 in HB by auto.
    injection HB as <-. apply bih_expr2_R.
Qed.

Lemma pf_C15_conservation_noflux :
  forall (dom : domain R) (d : disc3 R) (s a : list R) (va : Z -> Z -> Z -> R) s1 s2 a1,
  valid_domain3 dom -> 1 <= nhalo dom -> nhalo dom <= nx dom /\ nhalo dom <= ny dom /\ nhalo dom <= nz dom ->
  make3 dom = Ok d -> zlen s = cells3 dom -> zlen a = cells3 dom ->
  apply_periodic3 d s = Ok s1 -> apply_neumann3 d s1 = Ok s2 -> laplacian3 d s2 a = Ok (s2, a1) ->
  holds_inside3 dom a1 va ->
  total3 dom va = 0%R.
Proof.
  intros dom d s a va s1 s2 a1 HV HN HT HM LS LA E1 E2 E3 HA. destruct (make3_inv dom d HV HM) as (W & <-).
  set (dom := d3_domain d) in *. set (h := d3_dx d).
  destruct (holds3_exists dom s HV LS) as (u & Hu).
  destruct (apply_bcs3_full d s u W HT Hu) as (s1' & s2' & E1' & E2' & HS2).
  rewrite E1 in E1'. injection E1' as <-. rewrite E2 in E2'. injection E2' as <-.
  destruct (laplacian3_full d s2 a _ W HN HS2 LA) as (a1' & E3' & HA1 & _ & _).
  rewrite E3 in E3'. injection E3' as <-. fold dom h in HA1. fold dom in HS2.
  rewrite <- (total3_Lap dom HV h u). apply sum3_ext. intros i j k Hi Hj Hk.
  assert (I : inside3 dom i j k) by (repeat split; auto; lia).
  destruct HA as (_ & HA). destruct HA1 as (_ & HA1). specialize (HA _ _ _ I). rewrite HA1 in HA by auto.
  injection HA as <-. apply lap_expr3_R.
Qed.

(** Integer counterparts of the operators, to evaluate the witness. *)
Definition Zlap3 (u : Z -> Z -> Z -> Z) (i j k : Z) : Z :=
  (u (i + 1) j k - 2 * u i j k + u (i - 1) j k) + (u i (j + 1) k - 2 * u i j k + u i (j - 1) k)
  + (u i j (k + 1) - 2 * u i j k + u i j (k - 1)).
Lemma Zlap3_R u i j k : Lap3 1 (fun i j k => IZR (u i j k)) i j k = IZR (Zlap3 u i j k).
Proof.
  unfold Lap3, dxx3, dyy3, dzz3, Zlap3. rewrite ?plus_IZR, ?minus_IZR, ?mult_IZR, ?plus_IZR, ?minus_IZR, ?mult_IZR. field.
Qed.
Definition as_Z (dom : domain R) : domain Z :=
  {| nx := nx dom; ny := ny dom; nz := nz dom; xbeg := 0; xend := 0; ybeg := 0; yend := 0; zbeg := 0; zend := 0;
     xbc := xbc dom; ybc := ybc dom; zbc := zbc dom; nhalo := nhalo dom |}.
Lemma Rsum_IZR l : Rsum (map IZR l) = IZR (fold_right Z.add 0 l).
Proof. induction l; cbn; [reflexivity|]. rewrite plus_IZR, <- IHl. reflexivity. Qed.
Lemma sum1_Z n (f : Z -> R) g : (forall i, f i = IZR (g i)) -> sum1 n f = IZR (fold_right Z.add 0 (map g (zrange 0 n))).
Proof.
  intros E. rewrite <- Rsum_IZR, map_map. unfold sum1. f_equal. apply map_ext. auto.
Qed.
Lemma total3_Z (dom : domain R) f g : (forall i j k, f i j k = IZR (g i j k)) ->
  total3 dom f = IZR (fold_right Z.add 0 (map (fun i => fold_right Z.add 0 (map (fun j =>
     fold_right Z.add 0 (map (fun k => g i j k) (zrange 0 (nz dom)))) (zrange 0 (ny dom)))) (zrange 0 (nx dom)))).
Proof.
  intros E. unfold total3, sum3. apply sum1_Z. intros i. unfold sum2. apply sum1_Z. intros j. apply sum1_Z. auto.
Qed.

Lemma pf_C15_biharmonic_refuted :
  exists (dom : domain R) (d : disc3 R) (s s1 s2 b b1 : list R) (vb : Z -> Z -> Z -> R),
  valid_domain3 dom /\ nhalo dom = 2 /\ xbc dom = Neumann /\ make3 dom = Ok d /\
  apply_periodic3 d s = Ok s1 /\ apply_neumann3 d s1 = Ok s2 /\ biharmonic3 d s2 b = Ok (s2, b1) /\
  holds_inside3 dom b1 vb /\ total3 dom vb <> 0%R.
Proof.
  pose (dom := {| nx := 3; ny := 2; nz := 2; xbeg := 0%R; xend := 3%R; ybeg := 0%R; yend := 2%R; zbeg := 0%R; zend := 2%R;
                  xbc := Neumann; ybc := Periodic; zbc := Periodic; nhalo := 2 |}).
  assert (HV : valid_domain3 dom) by (repeat split; cbn; lia).
  destruct (make3_ok dom HV) as (d & M & W & E & _).
  assert (HT : thick (d3_domain d)) by (rewrite E; repeat split; cbn; lia).
  pose (u := fun i j k : Z => IZR (i * i)).
  assert (exists s, holds3 (d3_domain d) s u) as (s & HS).
  { rewrite E. exists (map (fun q => u (q / 36 - 2) 0 0) (zrange 0 252)). split; [vm_compute; reflexivity|].
    intros i j k (A & B & C). cbn in A, B, C. unfold slot3. cbn [nx ny nz nhalo dom].
    rewrite zget_map, zget_zrange by lia. cbn [option_map]. f_equal. unfold u. f_equal.
    replace (0 + (((i + 2) * (2 + 2 * 2) + (j + 2)) * (2 + 2 * 2) + (k + 2))) with ((i + 2) * 36 + ((j + 2) * 6 + (k + 2))) by lia.
    rewrite Z.div_add_l by lia. rewrite Z.div_small by lia. f_equal; lia. }
  destruct (apply_bcs3_full d s u W HT HS) as (s1 & s2 & E1 & E2 & H2).
  destruct (biharmonic3_full d s2 s _ W ltac:(rewrite E; cbn; lia) H2 ltac:(apply HS)) as (b1 & E3 & HB & _).
  assert (EDX : d3_dx d = 1%R) by (rewrite (wf_dx d W), E; cbn; field).
  exists dom, d, s, s1, s2, s, b1, (Lap3 1 (Lap3 1 (extend3 dom u))).
  split; [exact HV|]. split; [reflexivity|]. split; [reflexivity|]. split; [exact M|]. split; [exact E1|].
  split; [exact E2|]. split; [exact E3|]. split.
  - rewrite E, EDX in HB. eapply holds_inside3_ext; [exact HB|]. intros. apply bih_expr3_R.
  - rewrite (total3_Z dom _ (Zlap3 (Zlap3 (extend3 (as_Z dom) (fun i _ _ => i * i))))).
    + apply IZR_neq. vm_compute. discriminate.
    + intros i j k. rewrite <- Zlap3_R. apply Lap3_ext. intros i' j' k'. rewrite <- Zlap3_R. reflexivity.
Qed.

Lemma pf_C16_mean_3d :
  forall (dom : domain R) (d : disc3 R) (variant : Z) (p : ch_params R) (c rhs : list R) (sc : scratch R)
    (u v : Z -> Z -> Z -> R) sc' c' r,
  valid_domain3 dom -> 2 <= nhalo dom -> nhalo dom <= nx dom /\ nhalo dom <= ny dom /\ nhalo dom <= nz dom ->
  xbc dom <> Neumann /\ ybc dom <> Neumann /\ zbc dom <> Neumann ->
  make3 dom = Ok d -> make_ch3 d variant = Ok sc -> zlen rhs = cells3 dom ->
  holds3 dom c u -> eval_rhs3 d variant p sc c rhs = Ok (sc', c', r) -> holds_inside3 dom r v ->
  total3 dom v = (- ch_sigma p * total3 dom (fun i j k => u i j k - ch_m p))%R.
Proof.
  intros dom d variant p c rhs sc u v sc' c' r HV HN HT HB HM HC LR HU E HR.
  destruct (make3_inv dom d HV HM) as (W & <-). set (dom := d3_domain d) in *.
  destruct (make_ch3_inv d variant sc W HC) as (VR & SF).
  destruct (eval_rhs3_full d variant p sc c rhs u W HT HN VR HU LR SF) as (sc1 & c1 & r1 & E1 & _ & _ & HR1 & _).
  rewrite E in E1. injection E1 as <- <- <-. fold dom in HR1.
  rewrite <- (total3_CH dom (d3_dx d) (ch_m p) (ch_sigma p) (ch_eps2 p) u HV HB).
  apply sum3_ext. intros i j k Hi Hj Hk. assert (I : inside3 dom i j k) by (repeat split; auto; lia).
  destruct HR as (_ & HR). destruct HR1 as (_ & HR1). specialize (HR _ _ _ I). rewrite HR1 in HR by auto.
  injection HR as <-. apply ch_expr3_R.
Qed.

Lemma pf_C16_mean_2d :
  forall (dom : domain R) (d : disc2 R) (p : ch_params R) (c rhs : list R)
    (u v : Z -> Z -> R) sc' c' r,
  valid_domain2 dom -> 2 <= nhalo dom -> nhalo dom <= nx dom ->
  make2 dom = Ok d -> zlen rhs = cells2 dom ->
  holds2 dom c u -> eval_rhs2 d p (make_ch2 d) c rhs = Ok (sc', c', r) -> holds_inside2 dom r v ->
  total2 dom v = (- ch_sigma p * total2 dom (fun i j => u i j - ch_m p))%R.
Proof.
  intros dom d p c rhs u v sc' c' r HV HN HT HM LR HU E HR.
  destruct (make2_inv dom d HV HM) as (W & <-). set (dom := d2_domain d) in *.
  destruct (eval_rhs2_full d p (make_ch2 d) c rhs u W HT HN HU LR (make_ch2_fits d W)) as (sc1 & c1 & r1 & E1 & _ & _ & HR1 & _).
  rewrite E in E1. injection E1 as <- <- <-. fold dom in HR1.
  rewrite <- (total2_CH dom (d2_dx d) (ch_m p) (ch_sigma p) (ch_eps2 p) u HV).
  apply sum2_ext. intros i j Hi Hj. assert (I : inside2 dom i j) by (repeat split; auto; lia).
  destruct HR as (_ & HR). destruct HR1 as (_ & HR1). specialize (HR _ _ I). rewrite HR1 in HR by auto.
  injection HR as <-. apply ch_expr2_R.
Qed.

Lemma pf_C18_variants_agree :
  forall (V : Type) (N : Num V) (dom : domain V) (d : disc3 V) (p : ch_params V) (c rhs : list V)
    (sc0 sc1 sc2 : scratch V),
  valid_domain3 dom -> 2 <= nhalo dom -> nhalo dom <= nx dom /\ nhalo dom <= ny dom /\ nhalo dom <= nz dom ->
  make3 dom = Ok d -> make_ch3 d 0 = Ok sc0 -> make_ch3 d 1 = Ok sc1 -> make_ch3 d 2 = Ok sc2 ->
  zlen c = cells3 dom -> zlen rhs = cells3 dom ->
  exists sc0' sc1' sc2' c' r0 r1,
    eval_rhs3 d 0 p sc0 c rhs = Ok (sc0', c', r0) /\
    eval_rhs3 d 1 p sc1 c rhs = Ok (sc1', c', r1) /\
    eval_rhs3 d 2 p sc2 c rhs = Ok (sc2', c', r1) /\
    (let dx := d3_dx d in
     nmul (nmul (nmul dx dx) dx) dx = nmul (nmul dx dx) (nmul dx dx) ->
     forall i j k, inside3 dom i j k -> zget r0 (slot3 dom i j k) = zget r1 (slot3 dom i j k)).
Proof.
  intros V N dom d p c rhs sc0 sc1 sc2 HV HN HT HM C0 C1 C2 LC LR.
  destruct (make3_inv dom d HV HM) as (W & <-). set (dom := d3_domain d) in *.
  destruct (holds3_exists dom c HV LC) as (u & HU).
  destruct (make_ch3_inv d 0 sc0 W C0) as (V0 & S0).
  destruct (make_ch3_inv d 1 sc1 W C1) as (V1 & S1).
  destruct (make_ch3_inv d 2 sc2 W C2) as (V2 & S2).
  destruct (eval_rhs3_full d 0 p sc0 c rhs u W HT HN V0 HU LR S0) as (sc0' & c0 & r0 & E0 & _ & HC0 & HR0 & _).
  destruct (eval_rhs3_full d 1 p sc1 c rhs u W HT HN V1 HU LR S1) as (sc1' & c1 & r1 & E1 & _ & HC1 & HR1 & HH1).
  destruct (eval_rhs3_full d 2 p sc2 c rhs u W HT HN V2 HU LR S2) as (sc2' & c2 & r2 & E2 & _ & HC2 & HR2 & HH2).
  fold dom in HC0, HC1, HC2, HR0, HR1, HR2, HH1, HH2.
  assert (c0 = c1) by (eapply holds3_unique; eauto). assert (c1 = c2) by (eapply holds3_unique; eauto). subst c0 c1.
  assert (r1 = r2).
  { eapply same_interior_halo3; [exact HV|exact HR1|exact HR2|]. cbn in HH1, HH2.
    destruct HH1 as (L1 & HH1). destruct HH2 as (L2 & HH2). split; [congruence|].
    intros. rewrite <- HH1, <- HH2 by auto. reflexivity. }
  subst r2. exists sc0', sc1', sc2', c2, r0, r1. repeat split; auto.
  intros dx EQ i j k I. destruct HR0 as (_ & HR0). destruct HR1 as (_ & HR1). rewrite HR0, HR1 by auto.
  f_equal. unfold ch_expr3. unfold dx4_of. cbn [Z.eqb]. fold dx. rewrite EQ. reflexivity.
Qed.

Lemma pf_C18_variants_agree_exact :
  forall (dom : domain R) (d : disc3 R) (p : ch_params R) (c rhs : list R) (v w : Z) (scv scw : scratch R),
  valid_domain3 dom -> 2 <= nhalo dom -> nhalo dom <= nx dom /\ nhalo dom <= ny dom /\ nhalo dom <= nz dom ->
  make3 dom = Ok d -> make_ch3 d v = Ok scv -> make_ch3 d w = Ok scw ->
  zlen c = cells3 dom -> zlen rhs = cells3 dom ->
  exists scv' scw' c' rv rw,
    eval_rhs3 d v p scv c rhs = Ok (scv', c', rv) /\ eval_rhs3 d w p scw c rhs = Ok (scw', c', rw) /\
    forall i j k, inside3 dom i j k -> zget rv (slot3 dom i j k) = zget rw (slot3 dom i j k).
Proof.
  intros dom d p c rhs v w scv scw HV HN HT HM C0 C1 LC LR.
  destruct (make3_inv dom d HV HM) as (W & <-). set (dom := d3_domain d) in *.
  destruct (holds3_exists dom c HV LC) as (u & HU).
  destruct (make_ch3_inv d v scv W C0) as (V0 & S0).
  destruct (make_ch3_inv d w scw W C1) as (V1 & S1).
  destruct (eval_rhs3_full d v p scv c rhs u W HT HN V0 HU LR S0) as (sc0' & c0 & r0 & E0 & _ & HC0 & HR0 & _).
  destruct (eval_rhs3_full d w p scw c rhs u W HT HN V1 HU LR S1) as (sc1' & c1 & r1 & E1 & _ & HC1 & HR1 & _).
  fold dom in HC0, HC1, HR0, HR1.
  assert (c0 = c1) by (eapply holds3_unique; eauto). subst c0.
  exists sc0', sc1', c1, r0, r1. repeat split; auto.
  intros i j k I. destruct HR0 as (_ & HR0). destruct HR1 as (_ & HR1). rewrite HR0, HR1 by auto.
  f_equal. rewrite !ch_expr3_R. reflexivity.
Qed.

Lemma pf_C18_rounding_refuted :
  exists dx : f64, f64_mul (f64_mul (f64_mul dx dx) dx) dx <> f64_mul (f64_mul dx dx) (f64_mul dx dx).
Proof.
  exists (f64_div (f64_int 1) (f64_int 10)). vm_compute. discriminate.
Qed.

Lemma pf_C19_ignores_stale_3d :
  forall (V : Type) (N : Num V) (dom : domain V) (d : disc3 V) (variant : Z) (p : ch_params V)
    (c1 c2 rhs1 rhs2 : list V) (sc1 sc2 : scratch V),
  valid_domain3 dom -> 2 <= nhalo dom -> nhalo dom <= nx dom /\ nhalo dom <= ny dom /\ nhalo dom <= nz dom ->
  make3 dom = Ok d -> 0 <= variant <= 2 ->
  zlen c1 = cells3 dom -> zlen c2 = cells3 dom -> zlen rhs1 = cells3 dom -> zlen rhs2 = cells3 dom ->
  (forall sc, sc = sc1 \/ sc = sc2 -> zlen (sc_lap sc) = cells3 dom /\ zlen (sc_arg sc) = cells3 dom /\
     zlen (sc_bih sc) = cells3 dom /\ zlen (sc_lin sc) = cells3 dom) ->
  (forall i j k, inside3 dom i j k -> zget c1 (slot3 dom i j k) = zget c2 (slot3 dom i j k)) ->
  exists sc1' sc2' c' r1 r2,
    eval_rhs3 d variant p sc1 c1 rhs1 = Ok (sc1', c', r1) /\
    eval_rhs3 d variant p sc2 c2 rhs2 = Ok (sc2', c', r2) /\
    forall i j k, inside3 dom i j k -> zget r1 (slot3 dom i j k) = zget r2 (slot3 dom i j k).
Proof.
  intros V N dom d variant p c1 c2 rhs1 rhs2 sc1 sc2 HV HN HT HM VR L1 L2 LR1 LR2 LS AG.
  destruct (make3_inv dom d HV HM) as (W & <-). set (dom := d3_domain d) in *.
  destruct (holds3_exists dom c1 HV L1) as (u & HU). destruct (holds3_exists dom c2 HV L2) as (w & HW).
  destruct (eval_rhs3_full d variant p sc1 c1 rhs1 u W HT HN VR HU LR1 (LS _ (or_introl eq_refl)))
    as (sc0' & d1 & r1 & E1 & _ & HC1 & HR1 & _).
  destruct (eval_rhs3_full d variant p sc2 c2 rhs2 w W HT HN VR HW LR2 (LS _ (or_intror eq_refl)))
    as (sc1' & d2 & r2 & E2 & _ & HC2 & HR2 & _).
  fold dom in HC1, HC2, HR1, HR2.
  assert (EXT : forall i j k, extend3 dom u i j k = extend3 dom w i j k).
  { destruct HV as (H1 & H2 & H3 & H4). intros i j k. unfold extend3.
    set (i' := extend1 _ _ i). set (j' := extend1 _ _ j). set (k' := extend1 _ _ k).
    assert (I : inside3 dom i' j' k') by (repeat split; apply extend1_range; auto).
    assert (P : padded3 dom i' j' k') by (apply inside_padded3; auto).
    specialize (AG _ _ _ I). destruct HU as (_ & HU). destruct HW as (_ & HW). rewrite HU, HW in AG by auto. congruence. }
  assert (EF : extend3 dom u = extend3 dom w).
  { extensionality i. extensionality j. extensionality k. apply EXT. }
  rewrite <- EF in HC2, HR2.
  assert (d1 = d2) by (eapply holds3_unique; eauto). subst d2.
  exists sc0', sc1', d1, r1, r2. repeat split; auto.
  intros i j k I. destruct HR1 as (_ & HR1). destruct HR2 as (_ & HR2). rewrite HR1, HR2 by auto. reflexivity.
Qed.

Lemma pf_C19_ignores_stale_2d :
  forall (V : Type) (N : Num V) (dom : domain V) (d : disc2 V) (p : ch_params V)
    (c1 c2 rhs1 rhs2 : list V) (sc1 sc2 : scratch V),
  valid_domain2 dom -> 2 <= nhalo dom -> nhalo dom <= nx dom ->
  make2 dom = Ok d ->
  zlen c1 = cells2 dom -> zlen c2 = cells2 dom -> zlen rhs1 = cells2 dom -> zlen rhs2 = cells2 dom ->
  (forall sc, sc = sc1 \/ sc = sc2 -> zlen (sc_lap sc) = cells2 dom /\ zlen (sc_arg sc) = cells2 dom /\
     zlen (sc_bih sc) = cells2 dom /\ zlen (sc_lin sc) = cells2 dom) ->
  (forall i j, inside2 dom i j -> zget c1 (slot2 dom i j) = zget c2 (slot2 dom i j)) ->
  exists sc1' sc2' c' r,
    eval_rhs2 d p sc1 c1 rhs1 = Ok (sc1', c', r) /\ eval_rhs2 d p sc2 c2 rhs2 = Ok (sc2', c', r).
Proof.
  intros V N dom d p c1 c2 rhs1 rhs2 sc1 sc2 HV HN HT HM L1 L2 LR1 LR2 LS AG.
  destruct (make2_inv dom d HV HM) as (W & <-). set (dom := d2_domain d) in *.
  destruct (holds2_exists dom c1 HV L1) as (u & HU). destruct (holds2_exists dom c2 HV L2) as (w & HW).
  destruct (eval_rhs2_full d p sc1 c1 rhs1 u W HT HN HU LR1 (LS _ (or_introl eq_refl)))
    as (sc0' & d1 & r1 & E1 & _ & HC1 & HR1 & HH1).
  destruct (eval_rhs2_full d p sc2 c2 rhs2 w W HT HN HW LR2 (LS _ (or_intror eq_refl)))
    as (sc1' & d2 & r2 & E2 & _ & HC2 & HR2 & HH2).
  fold dom in HC1, HC2, HR1, HR2, HH1, HH2.
  assert (EF : periodic2 dom u = periodic2 dom w).
  { extensionality i. extensionality j. destruct HV as (H1 & H4). unfold periodic2.
    assert (I : inside2 dom (i mod nx dom) (j mod nx dom)) by (split; apply Z.mod_pos_bound; lia).
    assert (P : padded2 dom (i mod nx dom) (j mod nx dom)) by (apply inside_padded2; auto).
    specialize (AG _ _ I). destruct HU as (_ & HU). destruct HW as (_ & HW). rewrite HU, HW in AG by auto. congruence. }
  rewrite <- EF in HC2, HR2.
  assert (d1 = d2) by (eapply holds2_unique; eauto). subst d2.
  assert (r1 = r2).
  { destruct (holds2_exists dom r1 HV) as (x & Hx); [apply HR1|].
    apply (holds2_unique dom r1 r2 x HV Hx). split; [apply HR2|]. intros i j P.
    destruct (inside2_dec dom i j) as [I|I].
    - destruct HR1 as (_ & HR1). destruct HR2 as (_ & HR2). destruct Hx as (_ & Hx).
      rewrite <- Hx by auto. rewrite HR1, HR2 by auto. reflexivity.
    - destruct Hx as (_ & Hx). rewrite <- Hx by auto. rewrite HH1, HH2 by auto. reflexivity. }
  subst r2. exists sc0', sc1', d1, r1. auto.
Qed.

Lemma pf_C20_translation_3d :
  forall (V : Type) (N : Num V) (dom : domain V) (d : disc3 V) (variant : Z) (p : ch_params V)
    (c1 c2 rhs : list V) (sc : scratch V) (u : Z -> Z -> Z -> V) (a b e : Z),
  valid_domain3 dom -> 2 <= nhalo dom -> nhalo dom <= nx dom /\ nhalo dom <= ny dom /\ nhalo dom <= nz dom ->
  xbc dom <> Neumann /\ ybc dom <> Neumann /\ zbc dom <> Neumann ->
  make3 dom = Ok d -> make_ch3 d variant = Ok sc -> zlen rhs = cells3 dom ->
  holds3 dom c1 u ->
  holds3 dom c2 (fun i j k => u ((i + a) mod nx dom) ((j + b) mod ny dom) ((k + e) mod nz dom)) ->
  exists sc1 sc2 c1' c2' r1 r2,
    eval_rhs3 d variant p sc c1 rhs = Ok (sc1, c1', r1) /\
    eval_rhs3 d variant p sc c2 rhs = Ok (sc2, c2', r2) /\
    forall i j k, inside3 dom i j k ->
      zget r2 (slot3 dom i j k) =
      zget r1 (slot3 dom ((i + a) mod nx dom) ((j + b) mod ny dom) ((k + e) mod nz dom)).
Proof.
  intros V N dom d variant p c1 c2 rhs sc u a b e HV HN HT HB HM HC LR H1 H2.
  destruct (make3_inv dom d HV HM) as (W & <-). set (dom := d3_domain d) in *.
  destruct (make_ch3_inv d variant sc W HC) as (VR & SF).
  destruct (eval_rhs3_full d variant p sc c1 rhs _ W HT HN VR H1 LR SF) as (sc1 & c1' & r1 & E1 & _ & _ & HR1 & _).
  destruct (eval_rhs3_full d variant p sc c2 rhs _ W HT HN VR H2 LR SF) as (sc2 & c2' & r2 & E2 & _ & _ & HR2 & _).
  fold dom in HR1, HR2.
  exists sc1, sc2, c1', c2', r1, r2. split; auto. split; auto. intros i j k I.
  destruct HV as (N1 & N2 & N3 & N4).
  assert (I' : inside3 dom ((i + a) mod nx dom) ((j + b) mod ny dom) ((k + e) mod nz dom))
    by (repeat split; apply Z.mod_pos_bound; lia).
  destruct HR1 as (_ & HR1). destruct HR2 as (_ & HR2). rewrite HR1, HR2 by auto. f_equal.
  unfold ch_expr3, bih_sum3, lap_expr3, extend3.
  assert (EX : forall n t, extend1 (xbc dom) n t = t mod n) by (intros; destruct HB as (B1 & _); destruct (xbc dom); try reflexivity; congruence).
  assert (EY : forall n t, extend1 (ybc dom) n t = t mod n) by (intros; destruct HB as (_ & B1 & _); destruct (ybc dom); try reflexivity; congruence).
  assert (EZ : forall n t, extend1 (zbc dom) n t = t mod n) by (intros; destruct HB as (_ & _ & B1); destruct (zbc dom); try reflexivity; congruence).
  rewrite !EX, !EY, !EZ.
  assert (SH : forall n t o q, ((t + o) mod n + q) mod n = ((t + q) mod n + o) mod n).
  { intros. rewrite !Zplus_mod_idemp_l. f_equal. lia. }
  assert (SM : forall n t o q, ((t + o) mod n - q) mod n = ((t - q) mod n + o) mod n).
  { intros. rewrite Zplus_mod_idemp_l, Zminus_mod_idemp_l. f_equal. lia. }
  assert (S0 : forall n t o, 1 <= n -> ((t + o) mod n) mod n = (t mod n + o) mod n).
  { intros. rewrite Zplus_mod_idemp_l, Z.mod_mod by lia. reflexivity. }
  rewrite !(SM _ i a), !(SM _ j b), !(SM _ k e), !(SH _ i a), !(SH _ j b), !(SH _ k e), !(S0 _ i a), !(S0 _ j b), !(S0 _ k e) by auto.
  reflexivity.
Qed.

Lemma pf_C20_translation_2d :
  forall (V : Type) (N : Num V) (dom : domain V) (d : disc2 V) (p : ch_params V)
    (c1 c2 rhs : list V) (u : Z -> Z -> V) (a b : Z),
  valid_domain2 dom -> 2 <= nhalo dom -> nhalo dom <= nx dom ->
  make2 dom = Ok d -> zlen rhs = cells2 dom ->
  holds2 dom c1 u -> holds2 dom c2 (fun i j => u ((i + a) mod nx dom) ((j + b) mod nx dom)) ->
  exists sc1 sc2 c1' c2' r1 r2,
    eval_rhs2 d p (make_ch2 d) c1 rhs = Ok (sc1, c1', r1) /\
    eval_rhs2 d p (make_ch2 d) c2 rhs = Ok (sc2, c2', r2) /\
    forall i j, inside2 dom i j ->
      zget r2 (slot2 dom i j) = zget r1 (slot2 dom ((i + a) mod nx dom) ((j + b) mod nx dom)).
Proof.
  intros V N dom d p c1 c2 rhs u a b HV HN HT HM LR H1 H2.
  destruct (make2_inv dom d HV HM) as (W & <-). set (dom := d2_domain d) in *.
  destruct (eval_rhs2_full d p _ c1 rhs _ W HT HN H1 LR (make_ch2_fits d W)) as (sc1 & c1' & r1 & E1 & _ & _ & HR1 & _).
  destruct (eval_rhs2_full d p _ c2 rhs _ W HT HN H2 LR (make_ch2_fits d W)) as (sc2 & c2' & r2 & E2 & _ & _ & HR2 & _).
  fold dom in HR1, HR2.
  exists sc1, sc2, c1', c2', r1, r2. split; auto. split; auto. intros i j I.
  destruct HV as (N1 & N4).
  assert (I' : inside2 dom ((i + a) mod nx dom) ((j + b) mod nx dom)) by (split; apply Z.mod_pos_bound; lia).
  destruct HR1 as (_ & HR1). destruct HR2 as (_ & HR2). rewrite HR1, HR2 by auto. f_equal.
  unfold ch_expr2, bih_expr2, lap_expr2, periodic2.
  assert (SH : forall n t o q, ((t + o) mod n + q) mod n = ((t + q) mod n + o) mod n).
  { intros. rewrite !Zplus_mod_idemp_l. f_equal. lia. }
  assert (SM : forall n t o q, ((t + o) mod n - q) mod n = ((t - q) mod n + o) mod n).
  { intros. rewrite Zplus_mod_idemp_l, Zminus_mod_idemp_l. f_equal. lia. }
  assert (S0 : forall n t o, 1 <= n -> ((t + o) mod n) mod n = (t mod n + o) mod n).
  { intros. rewrite Zplus_mod_idemp_l, Z.mod_mod by lia. reflexivity. }
  rewrite !(SM _ i a), !(SM _ j b), !(SH _ i a), !(SH _ j b), !(S0 _ i a), !(S0 _ j b) by auto.
  reflexivity.
Qed.

Lemma pf_C21_equation_3d :
  forall (dom : domain R) (d : disc3 R) (variant : Z) (p : ch_params R) (c rhs : list R) (sc : scratch R)
    (u : Z -> Z -> Z -> R),
  valid_domain3 dom -> 2 <= nhalo dom -> nhalo dom <= nx dom /\ nhalo dom <= ny dom /\ nhalo dom <= nz dom ->
  make3 dom = Ok d -> make_ch3 d variant = Ok sc -> zlen rhs = cells3 dom -> holds3 dom c u ->
  exists sc' c' r, eval_rhs3 d variant p sc c rhs = Ok (sc', c', r) /\
    holds3 dom c' (extend3 dom u) /\
    holds_inside3 dom r (CH3 (d3_dx d) (ch_m p) (ch_sigma p) (ch_eps2 p) (extend3 dom u)).
Proof.
  intros dom d variant p c rhs sc u HV HN HT HM HC LR HU.
  destruct (make3_inv dom d HV HM) as (W & <-). set (dom := d3_domain d) in *.
  destruct (make_ch3_inv d variant sc W HC) as (VR & SF).
  destruct (eval_rhs3_full d variant p sc c rhs u W HT HN VR HU LR SF) as (sc1 & c1 & r1 & E1 & _ & HC1 & HR1 & _).
  exists sc1, c1, r1. split; auto. split; auto. eapply holds_inside3_ext; [exact HR1|].
  intros. apply ch_expr3_R.
Qed.

Lemma pf_C21_equation_2d :
  forall (dom : domain R) (d : disc2 R) (p : ch_params R) (c rhs : list R) (u : Z -> Z -> R),
  valid_domain2 dom -> 2 <= nhalo dom -> nhalo dom <= nx dom ->
  make2 dom = Ok d -> zlen rhs = cells2 dom -> holds2 dom c u ->
  exists sc' c' r, eval_rhs2 d p (make_ch2 d) c rhs = Ok (sc', c', r) /\
    holds2 dom c' (periodic2 dom u) /\
    holds_inside2 dom r (CH2 (d2_dx d) (ch_m p) (ch_sigma p) (ch_eps2 p) (periodic2 dom u)).
Proof.
  intros dom d p c rhs u HV HN HT HM LR HU.
  destruct (make2_inv dom d HV HM) as (W & <-). set (dom := d2_domain d) in *.
  destruct (eval_rhs2_full d p _ c rhs u W HT HN HU LR (make_ch2_fits d W)) as (sc1 & c1 & r1 & E1 & _ & HC1 & HR1 & _).
  exists sc1, c1, r1. split; auto. split; auto. eapply holds_inside2_ext; [exact HR1|].
  intros. apply ch_expr2_R.
Qed.

Lemma pf_C22_uniform_3d :
  forall (dom : domain R) (d : disc3 R) (variant : Z) (p : ch_params R) (c rhs : list R) (sc : scratch R) (v : R),
  valid_domain3 dom -> 2 <= nhalo dom -> nhalo dom <= nx dom /\ nhalo dom <= ny dom /\ nhalo dom <= nz dom ->
  make3 dom = Ok d -> make_ch3 d variant = Ok sc -> zlen rhs = cells3 dom ->
  holds_inside3 dom c (fun _ _ _ => v) ->
  exists sc' c' r, eval_rhs3 d variant p sc c rhs = Ok (sc', c', r) /\
    holds_inside3 dom r (fun _ _ _ => (- ch_sigma p * (v - ch_m p))%R).
Proof.
  intros dom d variant p c rhs sc v HV HN HT HM HC LR HU.
  destruct (make3_inv dom d HV HM) as (W & <-). set (dom := d3_domain d) in *.
  destruct (make_ch3_inv d variant sc W HC) as (VR & SF).
  destruct (holds3_exists dom c HV) as (u & Hu); [apply HU|].
  destruct (eval_rhs3_full d variant p sc c rhs u W HT HN VR Hu LR SF) as (sc1 & c1 & r1 & E1 & _ & HC1 & HR1 & _).
  exists sc1, c1, r1. split; auto. eapply holds_inside3_ext; [exact HR1|].
  intros i j k I. rewrite ch_expr3_R.
  assert (EV : forall i j k, extend3 dom u i j k = v).
  { intros i' j' k'. destruct HV as (H1 & H2 & H3 & H4). unfold extend3.
    set (i'' := extend1 _ _ i'). set (j'' := extend1 _ _ j'). set (k'' := extend1 _ _ k').
    assert (I' : inside3 dom i'' j'' k'') by (repeat split; apply extend1_range; auto).
    assert (P : padded3 dom i'' j'' k'') by (apply inside_padded3; auto).
    destruct HU as (_ & HU). destruct Hu as (_ & Hu). specialize (HU _ _ _ I'). rewrite Hu in HU by auto. congruence. }
  fold dom. unfold CH3, Lap3, dxx3, dyy3, dzz3. rewrite !EV. unfold Rdiv. ring.
Qed.

Lemma pf_C22_uniform_2d :
  forall (dom : domain R) (d : disc2 R) (p : ch_params R) (c rhs : list R) (v : R),
  valid_domain2 dom -> 2 <= nhalo dom -> nhalo dom <= nx dom ->
  make2 dom = Ok d -> zlen rhs = cells2 dom -> holds_inside2 dom c (fun _ _ => v) ->
  exists sc' c' r, eval_rhs2 d p (make_ch2 d) c rhs = Ok (sc', c', r) /\
    holds_inside2 dom r (fun _ _ => (- ch_sigma p * (v - ch_m p))%R).
Proof.
  intros dom d p c rhs v HV HN HT HM LR HU.
  destruct (make2_inv dom d HV HM) as (W & <-). set (dom := d2_domain d) in *.
  destruct (holds2_exists dom c HV) as (u & Hu); [apply HU|].
  destruct (eval_rhs2_full d p _ c rhs u W HT HN Hu LR (make_ch2_fits d W)) as (sc1 & c1 & r1 & E1 & _ & HC1 & HR1 & _).
  exists sc1, c1, r1. split; auto. eapply holds_inside2_ext; [exact HR1|].
  intros i j I. rewrite ch_expr2_R.
  assert (EV : forall i j, periodic2 dom u i j = v).
  { intros i' j'. destruct HV as (H1 & H4). unfold periodic2.
    assert (I' : inside2 dom (i' mod nx dom) (j' mod nx dom)) by (split; apply Z.mod_pos_bound; lia).
    assert (P : padded2 dom (i' mod nx dom) (j' mod nx dom)) by (apply inside_padded2; auto).
    destruct HU as (_ & HU). destruct Hu as (_ & Hu). specialize (HU _ _ I'). rewrite Hu in HU by auto. congruence. }
  fold dom. unfold CH2, Lap2, dxx2, dyy2. rewrite !EV. unfold Rdiv. ring.
Qed.

Lemma pf_C23_energy_3d :
  forall (dom : domain R) (d : disc3 R) (variant : Z) (p : ch_params R) (c rhs : list R) (sc : scratch R)
    (u v : Z -> Z -> Z -> R) sc' c' r,
  valid_domain3 dom -> 2 <= nhalo dom -> nhalo dom <= nx dom /\ nhalo dom <= ny dom /\ nhalo dom <= nz dom ->
  xbc dom <> Neumann /\ ybc dom <> Neumann /\ zbc dom <> Neumann -> xbeg dom <> xend dom ->
  ch_sigma p = 0%R ->
  make3 dom = Ok d -> make_ch3 d variant = Ok sc -> zlen rhs = cells3 dom ->
  holds3 dom c u -> eval_rhs3 d variant p sc c rhs = Ok (sc', c', r) -> holds_inside3 dom r v ->
  let h := d3_dx d in
  let w := periodic3 dom u in
  let mu (i j k : Z) := (w i j k ^ 3 - w i j k - ch_eps2 p * Lap3 h w i j k)%R in
  let D := (- total3 dom (fun i j k =>
      ((mu (i + 1)%Z j k - mu i j k) / h) ^ 2 + ((mu i (j + 1)%Z k - mu i j k) / h) ^ 2
      + ((mu i j (k + 1)%Z - mu i j k) / h) ^ 2))%R in
  derivable_pt_lim (fun t => energy3 dom h (ch_eps2 p) (fun i j k => u i j k + t * v i j k)%R) 0 D /\
  (D <= 0)%R.
Proof.
  intros dom d variant p c rhs sc u v sc' c' r HV HN HT HB HX HS HM HC LR HU E HR h w mu D.
  destruct (make3_inv dom d HV HM) as (W & <-). set (dom := d3_domain d) in *.
  assert (Hh : h <> 0%R) by (eapply dx_nonzero3; eauto).
  destruct (make_ch3_inv d variant sc W HC) as (VR & SF).
  destruct (eval_rhs3_full d variant p sc c rhs u W HT HN VR HU LR SF) as (sc1 & c1 & r1 & E1 & _ & _ & HR1 & _).
  rewrite E in E1. injection E1 as <- <- <-. fold dom in HR1.
  assert (ED : D = (- grad3 dom h (mu3 h (ch_eps2 p) (periodic3 dom u)) (mu3 h (ch_eps2 p) (periodic3 dom u)))%R).
  { unfold D, grad3. f_equal. apply sum3_ext. intros i j k _ _ _. fold w.
    change (mu3 h (ch_eps2 p) w) with mu. ring. }
  rewrite ED. split.
  - apply (energy3_dissipation dom HV h (ch_eps2 p) Hh u v (ch_m p)).
    intros i j k I. destruct HR as (_ & HR). destruct HR1 as (_ & HR1). specialize (HR _ _ _ I).
    rewrite HR1 in HR by auto.
    assert (EV : v i j k = ch_expr3 p (d3_dx d) (dx4_of variant (d3_dx d)) (extend3 dom u) i j k) by congruence.
    rewrite EV, ch_expr3_R, HS. fold h. unfold CH3, Lap3, dxx3, dyy3, dzz3. rewrite !(all_periodic_extend dom u) by auto. reflexivity.
  - pose proof (grad3_nonneg dom h (mu3 h (ch_eps2 p) (periodic3 dom u))). lra.
Qed.

Lemma pf_C23_energy_2d :
  forall (dom : domain R) (d : disc2 R) (p : ch_params R) (c rhs : list R)
    (u v : Z -> Z -> R) sc' c' r,
  valid_domain2 dom -> 2 <= nhalo dom -> nhalo dom <= nx dom -> xbeg dom <> xend dom ->
  ch_sigma p = 0%R ->
  make2 dom = Ok d -> zlen rhs = cells2 dom ->
  holds2 dom c u -> eval_rhs2 d p (make_ch2 d) c rhs = Ok (sc', c', r) -> holds_inside2 dom r v ->
  let h := d2_dx d in
  let w := periodic2 dom u in
  let mu (i j : Z) := (w i j ^ 3 - w i j - ch_eps2 p * Lap2 h w i j)%R in
  let D := (- total2 dom (fun i j =>
      ((mu (i + 1)%Z j - mu i j) / h) ^ 2 + ((mu i (j + 1)%Z - mu i j) / h) ^ 2))%R in
  derivable_pt_lim (fun t => energy2 dom h (ch_eps2 p) (fun i j => u i j + t * v i j)%R) 0 D /\
  (D <= 0)%R.
Proof.
  intros dom d p c rhs u v sc' c' r HV HN HT HX HS HM LR HU E HR h w mu D.
  destruct (make2_inv dom d HV HM) as (W & <-). set (dom := d2_domain d) in *.
  assert (Hh : h <> 0%R) by (eapply dx_nonzero2; eauto).
  destruct (eval_rhs2_full d p _ c rhs u W HT HN HU LR (make_ch2_fits d W)) as (sc1 & c1 & r1 & E1 & _ & _ & HR1 & _).
  rewrite E in E1. injection E1 as <- <- <-. fold dom in HR1.
  assert (ED : D = (- grad2 dom h (mu2 h (ch_eps2 p) (periodic2 dom u)) (mu2 h (ch_eps2 p) (periodic2 dom u)))%R).
  { unfold D, grad2. f_equal. apply sum2_ext. intros i j _ _. fold w.
    change (mu2 h (ch_eps2 p) w) with mu. ring. }
  rewrite ED. split.
  - apply (energy2_dissipation dom HV h (ch_eps2 p) Hh u v (ch_m p)).
    intros i j I. destruct HR as (_ & HR). destruct HR1 as (_ & HR1). specialize (HR _ _ I).
    rewrite HR1 in HR by auto.
    assert (EV : v i j = ch_expr2 p (d2_dx d) (periodic2 dom u) i j) by congruence.
    rewrite EV, ch_expr2_R, HS. reflexivity.
  - pose proof (grad2_nonneg dom h (mu2 h (ch_eps2 p) (periodic2 dom u))). lra.
Qed.
