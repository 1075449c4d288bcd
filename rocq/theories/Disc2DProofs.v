(** Proofs about the 2D grid, its periodic fill and its stencils. *)
From Verif Require Import Outcome ZList ZListProofs Num Kernel KernelProofs Gather Loop
  ModelIndex IndexProofs ModelDisc3D ModelDisc2D SpecGrid Disc3DProofs Make3Proofs BC3Proofs.
From Coq Require Import ZifyBool ZifyNat.

Definition corner_domain2 {V} (dom : domain V) : domain V :=
  {| nx := nx dom + 1; ny := ny dom; nz := nz dom;
     xbeg := xbeg dom; xend := xend dom; ybeg := ybeg dom; yend := yend dom;
     zbeg := zbeg dom; zend := zend dom;
     xbc := xbc dom; ybc := ybc dom; zbc := zbc dom; nhalo := nhalo dom |}.

Section Disc2DProofs.
  Context {V : Type} `{N : Num V}.
  Implicit Types (dom : domain V) (d : disc2 V).

  Definition bcells2 (n nh : Z) : list (Z * Z) :=
    map (fun c => (snd c, fst c)) (box2 (- nh) 0 (- nh) (n + nh)) ++
    map (fun c => (snd c, fst c)) (box2 n (n + nh) (- nh) (n + nh)) ++
    box2 (- nh) 0 0 n ++ box2 n (n + nh) 0 n.

  Definition pslot2 dom (c : Z * Z) : Z := slot2 dom (fst c) (snd c).

  (** What the constructor establishes, apart from the coordinates. *)
  Record wf2 d : Prop := {
    wf2_valid : valid_domain2 (d2_domain d);
    wf2_ni : d2_ni d = nx (d2_domain d);
    wf2_nh : d2_nhalo d = nhalo (d2_domain d);
    wf2_ninh : d2_ninhalo d = nx (d2_domain d) + 2 * nhalo (d2_domain d);
    wf2_dx : d2_dx d = ndiv (nsub (xend (d2_domain d)) (xbeg (d2_domain d))) (nint (nx (d2_domain d)));
    wf2_interior : d2_interior d = map (pslot2 (d2_domain d)) (box2 0 (nx (d2_domain d)) 0 (nx (d2_domain d)));
    wf2_boundary : d2_boundary d = map (pslot2 (d2_domain d)) (bcells2 (nx (d2_domain d)) (nhalo (d2_domain d)))
  }.

  Lemma slot2_eq dom i j : get1Dindex i j (nhalo dom) (nx dom + 2 * nhalo dom) = slot2 dom i j.
  Proof. unfold slot2. rewrite get1Dindex_eq. reflexivity. Qed.

  Lemma ix2_slot d i j : wf2 d -> ix2 d i j = slot2 (d2_domain d) i j.
  Proof. intros W. unfold ix2. rewrite (wf2_nh _ W), (wf2_ninh _ W). apply slot2_eq. Qed.

  Lemma slot2_range dom i j : padded2 dom i j -> 0 <= slot2 dom i j < cells2 dom.
  Proof. intros (Hi & Hj). rewrite <- slot2_eq. apply (get1Dindex_range (nx dom) (nx dom)); auto. Qed.

  Lemma slot2_inj dom i j i' j' :
    padded2 dom i j -> padded2 dom i' j' -> slot2 dom i j = slot2 dom i' j' -> i = i' /\ j = j'.
  Proof.
    intros (Hi & Hj) (Hi' & Hj') E. rewrite <- !slot2_eq in E.
    pose proof (getIJ_get1Dindex (nx dom) (nhalo dom) i j) as G.
    rewrite E, getIJ_get1Dindex in G by lia. injection G as <- <-; auto; lia.
  Qed.

  Lemma inside_padded2 dom i j : 0 <= nhalo dom -> inside2 dom i j -> padded2 dom i j.
  Proof. unfold inside2, padded2; lia. Qed.

  Lemma holds2_exists dom (f : list V) :
    valid_domain2 dom -> zlen f = cells2 dom -> exists u, holds2 dom f u.
  Proof.
    intros HV HL.
    assert (HP : 0 < zlen f).
    { rewrite HL. unfold cells2, valid_domain2 in *. apply Z.mul_pos_pos; lia. }
    destruct (zget_some f 0 ltac:(lia)) as (z & _).
    exists (fun i j => match zget f (slot2 dom i j) with Some v => v | None => z end).
    split; auto. intros i j H. destruct (zget_some f (slot2 dom i j)) as (v & ->); auto.
    rewrite HL. apply slot2_range; auto.
  Qed.

  Lemma holds2_read dom f u m i j :
    holds2 dom f u -> padded2 dom i j -> mread (f :: m) 0 (slot2 dom i j) = Some (u i j).
  Proof. intros (_ & H) P. apply H; auto. Qed.

  Lemma holds2_ext dom f (u v : Z -> Z -> V) :
    holds2 dom f u -> (forall i j, padded2 dom i j -> u i j = v i j) -> holds2 dom f v.
  Proof. intros (L & H) E. split; auto. intros i j P. rewrite H, E; auto. Qed.

  Lemma holds_inside2_ext dom f (u v : Z -> Z -> V) :
    holds_inside2 dom f u -> (forall i j, inside2 dom i j -> u i j = v i j) -> holds_inside2 dom f v.
  Proof. intros (L & H) E. split; auto. intros i j P. rewrite H, E; auto. Qed.

  Lemma padded_of_slot2 dom q : valid_domain2 dom -> 0 <= q < cells2 dom ->
    exists i j, padded2 dom i j /\ slot2 dom i j = q.
  Proof.
    intros (H1 & Hh) Hq.
    pose proof (getIJ_surj (nx dom) (nx dom) (nhalo dom) q) as G.
    destruct (getIJ q (nhalo dom) (nx dom + 2 * nhalo dom)) as [i j].
    destruct G as (G1 & G2 & G3); try lia; [exact Hq|].
    exists i, j. rewrite <- slot2_eq. unfold padded2. auto.
  Qed.

  Lemma holds2_unique dom (f g : list V) u :
    valid_domain2 dom -> holds2 dom f u -> holds2 dom g u -> f = g.
  Proof.
    intros HV (L1 & H1) (L2 & H2). apply zget_ext; [congruence|]. intros q Hq.
    rewrite L1 in Hq. destruct (padded_of_slot2 dom q HV Hq) as (i & j & P & <-).
    rewrite H1, H2; auto.
  Qed.

  Lemma getIJ2_slot d i j :
    wf2 d -> inside2 (d2_domain d) i j -> getIJ2 d (slot2 (d2_domain d) i j) = (i, j).
  Proof.
    intros W H. unfold getIJ2. rewrite (wf2_nh _ W), (wf2_ninh _ W), <- slot2_eq.
    destruct (wf2_valid _ W) as (_ & Hh). unfold inside2 in H.
    apply getIJ_get1Dindex; lia.
  Qed.

  Definition interior_box2 d : list (Z * Z) := box2 0 (nx (d2_domain d)) 0 (nx (d2_domain d)).

  Lemma in_interior_box2 d i j : In (i, j) (interior_box2 d) <-> inside2 (d2_domain d) i j.
  Proof. apply in_box2. Qed.

  Lemma interior_loop_map2 d (body : Z -> Z -> prog V) :
    wf2 d ->
    map (fun ii => at_interior2 d ii body) (zrange 0 (zlen (d2_interior d))) =
    map (fun c => body (fst c) (snd c)) (interior_box2 d).
  Proof.
    intros W. unfold at_interior2.
    rewrite (map_over_list (fun o => match o with None => Bad | Some q => let '(i, j) := getIJ2 d q in body i j end)).
    rewrite (wf2_interior _ W), map_map. apply map_ext_in. intros [i j] H. unfold pslot2. cbn [fst snd].
    rewrite getIJ2_slot; auto. apply in_interior_box2; auto.
  Qed.

  Lemma pslot2_inside_inj d x y :
    wf2 d -> In x (interior_box2 d) -> In y (interior_box2 d) ->
    pslot2 (d2_domain d) x = pslot2 (d2_domain d) y -> x = y.
  Proof.
    destruct x as [i j], y as [i' j']. intros W Hx Hy E. destruct (wf2_valid _ W) as (_ & Hh).
    apply in_interior_box2 in Hx, Hy.
    destruct (slot2_inj (d2_domain d) i j i' j') as (-> & ->); auto using inside_padded2.
  Qed.

  (** Loops over the interior cells on any memory; see [cell_loop]. *)
  Theorem interior_cells2 d (body : Z -> Z -> prog V) (outs : list (nat * (Z -> Z -> V))) m :
    wf2 d -> NoDup (map fst outs) ->
    (forall i j, inside2 (d2_domain d) i j ->
       uses (fun a q => inb m a q /\ (In a (map fst outs) -> q = slot2 (d2_domain d) i j))
            (fun a q => In a (map fst outs) /\ q = slot2 (d2_domain d) i j) (body i j)) ->
    (forall i j, inside2 (d2_domain d) i j ->
       stores m [] (body i j) (map (fun o => (fst o, slot2 (d2_domain d) i j, snd o i j)) outs)) ->
    exists m',
      schedule_independent (map (fun c => body (fst c) (snd c)) (interior_box2 d)) m m' /\
      same_shape m m' /\
      (forall a f i j, In (a, f) outs -> inside2 (d2_domain d) i j ->
         mread m' a (slot2 (d2_domain d) i j) = Some (f i j)) /\
      (forall a q, ~ In a (map fst outs) \/
                   (forall i j, inside2 (d2_domain d) i j -> q <> slot2 (d2_domain d) i j) ->
         mread m' a q = mread m a q).
  Proof.
    intros W ND U ST.
    set (outs' := map (fun o : nat * (Z -> Z -> V) =>
                        (fst o, fun c : Z * Z => snd o (fst c) (snd c))) outs).
    assert (EF : map fst outs' = map fst outs) by (unfold outs'; rewrite map_map; reflexivity).
    destruct (cell_loop (interior_box2 d) (pslot2 (d2_domain d))
                (fun c => body (fst c) (snd c)) outs' m) as (m' & SI & SH & T & F).
    - apply nodup_box2.
    - intros; eapply pslot2_inside_inj; eauto.
    - rewrite EF; auto.
    - intros [i j] H. apply in_interior_box2 in H. rewrite EF. unfold pslot2. simpl.
      eapply uses_weaken; [| |apply (U i j H)]; auto. intros a q (B & C); auto.
    - intros [i j] H. apply in_interior_box2 in H. unfold outs'. rewrite map_map. apply (ST i j); auto.
    - exists m'. rewrite EF in F.
      split; auto. split; auto. split.
      + intros a f i j Ho H. apply (T a (fun c => f (fst c) (snd c)) (i, j)).
        * unfold outs'. apply in_map_iff. exists (a, f); auto.
        * apply in_interior_box2; auto.
      + intros a q [H|H]; apply F; auto. right. intros [i j] Hx. apply in_interior_box2 in Hx. apply H; auto.
  Qed.

  Lemma interior_kernel2_2 d (body : Z -> Z -> prog V) (s o : list V) (val : Z -> Z -> V) :
    wf2 d -> zlen o = cells2 (d2_domain d) ->
    (forall i j, inside2 (d2_domain d) i j ->
       uses (fun a q => a = 0%nat /\ 0 <= q < zlen s)
            (fun a q => a = 1%nat /\ q = slot2 (d2_domain d) i j) (body i j)) ->
    (forall i j, inside2 (d2_domain d) i j ->
       stores [s; o] [] (body i j) [(1%nat, slot2 (d2_domain d) i j, val i j)]) ->
    exists o', two (forall_loop 0 (zlen (d2_interior d)) (fun ii => at_interior2 d ii body) [s; o]) = Ok (s, o') /\
      holds_inside2 (d2_domain d) o' val /\ same_halo2 (d2_domain d) o o' /\
      schedule_independent (map (fun ii => at_interior2 d ii body) (zrange 0 (zlen (d2_interior d)))) [s; o] [s; o'].
  Proof.
    intros W HL HU HE.
    destruct (wf2_valid _ W) as (_ & Hh).
    destruct (interior_cells2 d body [(1%nat, val)] [s; o]) as (m' & SI & S & T & F); auto.
    - repeat constructor; simpl; auto.
    - intros i j H. eapply uses_weaken; [| |apply (HU i j H)].
      + intros a q (-> & Hq). split; [apply inb_0; auto|]. simpl. intros [C|[]]; discriminate.
      + intros a q (-> & ->). simpl; auto.
    - apply same_shape_two in S as (s' & o' & -> & Ls & Lo).
      assert (s' = s) as ->.
      { apply unread_eq; auto. intros q. apply (F 0%nat q). left. simpl. intros [C|[]]; discriminate. }
      exists o'. unfold forall_loop. rewrite interior_loop_map2 by auto.
      split; [destruct SI as (-> & _); reflexivity|]. split; [|split; auto].
      + split; [congruence|]. intros i j H. apply (T 1%nat val); simpl; auto.
      + split; [congruence|]. intros i j HP HN. symmetry. apply (F 1%nat). right.
        intros i' j' Hx C. apply HN.
        destruct (slot2_inj (d2_domain d) i j i' j') as (-> & ->); auto using inside_padded2.
  Qed.

  (** ** Stencils *)

  Definition lap_expr2 (dx : V) (u : Z -> Z -> V) (i j : Z) : V :=
    ((u (i - 1)%Z j - nint 2 * u i j + u (i + 1)%Z j) / (dx * dx)
     + (u i (j - 1)%Z - nint 2 * u i j + u i (j + 1)%Z) / (dx * dx))%num.

  Definition bih_expr2 (dx : V) (f : Z -> Z -> V) (i j : Z) : V :=
    ((f i (j + 2)%Z + nint 2 * f (i - 1)%Z (j + 1)%Z - nint 8 * f i (j + 1)%Z + nint 2 * f (i + 1)%Z (j + 1)%Z
      + f (i - 2)%Z j - nint 8 * f (i - 1)%Z j + nint 20 * f i j - nint 8 * f (i + 1)%Z j + f (i + 2)%Z j
      + nint 2 * f (i - 1)%Z (j - 1)%Z - nint 8 * f i (j - 1)%Z + nint 2 * f (i + 1)%Z (j - 1)%Z
      + nint 1 * f i (j - 2)%Z) / (dx * dx * dx * dx))%num.

  Lemma laplacian2_full d s o u :
    wf2 d -> 1 <= nhalo (d2_domain d) -> holds2 (d2_domain d) s u -> zlen o = cells2 (d2_domain d) ->
    exists o', laplacian2 d s o = Ok (s, o') /\
      holds_inside2 (d2_domain d) o' (lap_expr2 (d2_dx d) u) /\
      same_halo2 (d2_domain d) o o' /\
      schedule_independent (map (laplacian_body2 d) (zrange 0 (zlen (d2_interior d)))) [s; o] [s; o'].
  Proof.
    intros W Hh HS HL. unfold laplacian2, laplacian_body2.
    apply interior_kernel2_2; auto.
    - intros i j (Hi & Hj).
      prove_uses ltac:(split; [reflexivity | rewrite ix2_slot by auto; first
        [ rewrite (proj1 HS); apply slot2_range; unfold padded2; lia | reflexivity ] ]).
    - intros i j (Hi & Hj). rewrite !ix2_slot by auto.
      prove_stores ltac:(apply holds2_read; [exact HS|unfold padded2; lia])
                   ltac:(apply inb_1; rewrite HL; apply slot2_range; unfold padded2; lia).
  Qed.

  Lemma biharmonic2_full d s o u :
    wf2 d -> 2 <= nhalo (d2_domain d) -> holds2 (d2_domain d) s u -> zlen o = cells2 (d2_domain d) ->
    exists o', biharmonic2 d s o = Ok (s, o') /\
      holds_inside2 (d2_domain d) o' (bih_expr2 (d2_dx d) u) /\
      same_halo2 (d2_domain d) o o' /\
      schedule_independent (map (biharmonic_body2 d) (zrange 0 (zlen (d2_interior d)))) [s; o] [s; o'].
  Proof.
    intros W Hh HS HL. unfold biharmonic2, biharmonic_body2.
    apply interior_kernel2_2; auto.
    - intros i j (Hi & Hj).
      prove_uses ltac:(split; [reflexivity | rewrite ix2_slot by auto; first
        [ rewrite (proj1 HS); apply slot2_range; unfold padded2; lia | reflexivity ] ]).
    - intros i j (Hi & Hj). rewrite !ix2_slot by auto.
      prove_stores ltac:(apply holds2_read; [exact HS|unfold padded2; lia])
                   ltac:(apply inb_1; rewrite HL; apply slot2_range; unfold padded2; lia).
  Qed.

  (** ** Periodic fill *)

  (** A loop over [olo,ohi) whose iteration o copies, one after the other, the cells
      [cell o x] from the interior cells [src o x], for x on the two sides. *)
  Lemma copies2 dom (s : list V) u v (P : Z -> prog V) olo ohi n (cell src : Z -> Z -> Z * Z) :
    holds2 dom s u -> 1 <= n -> 0 <= nhalo dom ->
    let rng := fun o x => olo <= o < ohi /\ In x (side_cells n (nhalo dom)) in
    (forall o x o' x', cell o x = cell o' x' -> o = o' /\ x = x') ->
    (forall o x, rng o x -> padded2 dom (fst (cell o x)) (snd (cell o x)) /\
                            ~ inside2 dom (fst (cell o x)) (snd (cell o x)) /\
                            inside2 dom (fst (src o x)) (snd (src o x))) ->
    let copy := fun o x => Rd 0%nat (pslot2 dom (src o x)) (fun w : V => Wr 0%nat (pslot2 dom (cell o x)) w Done) in
    (forall o m, olo <= o < ohi ->
       exec (P o) m = exec_all (map (copy o) (side_cells n (nhalo dom))) m) ->
    (forall o (R W : nat -> Z -> Prop), olo <= o < ohi ->
       (forall x, In x (side_cells n (nhalo dom)) -> uses R W (copy o x)) -> uses R W (P o)) ->
    (forall o x, rng o x -> v (fst (cell o x)) (snd (cell o x)) = u (fst (src o x)) (snd (src o x))) ->
    (forall i j, padded2 dom i j -> (forall o x, rng o x -> cell o x <> (i, j)) -> v i j = u i j) ->
    exists s', schedule_independent (map P (zrange olo ohi)) [s] [s'] /\ holds2 dom s' v.
  Proof.
    intros HS Hn Hh rng CI CP copy EX US V1 V2.
    assert (SLI : forall a b a' b', padded2 dom a b -> padded2 dom a' b' ->
              pslot2 dom (a, b) = pslot2 dom (a', b') -> (a, b) = (a', b')).
    { intros a b a' b' Pa Pb E. destruct (slot2_inj dom a b a' b') as (-> & ->); auto. }
    set (inner := fun o : Z => map (fun x => (o, x)) (side_cells n (nhalo dom))).
    assert (INI : forall o b, In b (inner o) <-> fst b = o /\ In (snd b) (side_cells n (nhalo dom))).
    { intros o [o' x]. unfold inner. rewrite in_map_iff. simpl. split.
      - intros (x' & E & H). injection E as <- <-. auto.
      - intros (-> & H). eauto. }
    assert (INF : forall b, In b (flat_map inner (zrange olo ohi)) <-> rng (fst b) (snd b)).
    { intros [o x]. rewrite in_flat_map. split.
      - intros (o' & Ho & H). apply INI in H as (<- & H). apply in_zrange in Ho. split; auto.
      - intros (Ho & H). exists o. rewrite in_zrange. split; auto. apply INI. auto. }
    set (ws := fun b : Z * Z => [(0%nat, pslot2 dom (cell (fst b) (snd b)), u (fst (src (fst b) (snd b))) (snd (src (fst b) (snd b))))]).
    destruct (nested_loop (zrange olo ohi) inner P (fun b => copy (fst b) (snd b)) ws [s])
      as (m' & SI & SH & T & F).
    - apply nodup_zrange.
    - apply nodup_flat_map; [apply nodup_zrange| |].
      + intros o _. apply nodup_map_inj; [apply nodup_side; auto|congruence].
      + intros o o' b _ _ H1 H2. apply INI in H1, H2. destruct H1, H2; congruence.
    - intros o o' b _ _ H1 H2. apply INI in H1, H2. destruct H1, H2; congruence.
    - intros o m1 Ho. apply in_zrange in Ho. rewrite EX by auto. unfold inner. rewrite map_map. reflexivity.
    - intros o R W Ho HU. apply in_zrange in Ho. apply US; auto. intros x Hx. apply (HU (o, x)).
      apply INI. auto.
    - intros b _. simpl. repeat constructor; simpl; auto.
    - intros [o x] [o' x'] c Hb Hb' [<-|[]] [E|[]]. injection E as E. apply INF in Hb, Hb'. simpl in *.
      pose proof (CP o x Hb) as (P1 & _). pose proof (CP o' x' Hb') as (P2 & _).
      destruct (cell o x) as [a b] eqn:E1, (cell o' x') as [a' b'] eqn:E2.
      apply SLI in E; auto. destruct (CI o x o' x') as (-> & ->); auto. congruence.
    - intros [o x] Hb. apply INF in Hb. simpl in *. pose proof (CP o x Hb) as (P1 & P2 & P3).
      unfold copy. prove_uses ltac:(idtac).
      + split; [apply inb_0; rewrite (proj1 HS); apply slot2_range; apply inside_padded2; auto|].
        intros [o' x'] Hb' [E|[]]. exfalso. injection E as E. apply INF in Hb'. simpl in *.
        pose proof (CP o' x' Hb') as (Q1 & Q2 & _).
        destruct (src o x) as [a b], (cell o' x') as [a' b']. simpl in *.
        apply SLI in E; auto using inside_padded2. injection E as -> ->. auto.
      + left; reflexivity.
    - intros [o x] Hb. apply INF in Hb. simpl in *. pose proof (CP o x Hb) as (P1 & P2 & P3).
      unfold copy, ws. simpl. eapply st_rd; [simpl; tauto| |apply st_wr; [|apply st_done]].
      + apply holds2_read; auto using inside_padded2.
      + apply inb_0. rewrite (proj1 HS). apply slot2_range; auto.
    - apply same_shape_one in SH as (s' & -> & L). exists s'. split; auto.
      split; [rewrite L; apply HS|]. intros i j HP.
      assert (DEC : (exists b, rng (fst b) (snd b) /\ cell (fst b) (snd b) = (i, j)) \/
                    (forall o x, rng o x -> cell o x <> (i, j))).
      { destruct (in_dec (fun a b : Z * Z => ltac:(decide equality; apply Z.eq_dec)) (i, j)
                    (map (fun b => cell (fst b) (snd b)) (flat_map inner (zrange olo ohi)))) as [I|I].
        - left. apply in_map_iff in I as (b & E & Hb). exists b. split; auto. apply INF; auto.
        - right. intros o x Hr E. apply I. apply in_map_iff. exists (o, x). split; auto. apply INF; auto. }
      destruct DEC as [([o x] & Hr & E)|NE].
      + simpl in *. pose proof (V1 o x Hr) as EV. rewrite E in EV. simpl in EV. rewrite EV.
        apply (T (o, x) 0%nat).
        * apply INF; auto.
        * left. simpl. rewrite E. reflexivity.
      + rewrite V2; auto. rewrite <- (proj2 HS i j HP). apply (F 0%nat).
        intros [o x] Hb [E|[]]. apply INF in Hb. simpl in *. injection E as E.
        apply (NE o x Hb). pose proof (CP o x Hb) as (Q1 & _).
        destruct (cell o x) as [a b]. apply SLI; auto.
  Qed.

  Lemma exec_two_pfors (A B : Z -> prog V) n nh m :
    exec (pseq (pfor (- nh) 0 A) (pfor n (n + nh) B)) m =
    exec_all (map A (zrange (- nh) 0) ++ map B (zrange n (n + nh))) m.
  Proof.
    rewrite exec_pseq, exec_pfor, exec_all_app. destruct (exec_all _ m); simpl; auto. apply exec_pfor.
  Qed.

  Lemma uses_two_pfors R W (A B : Z -> prog V) n nh :
    (forall x, - nh <= x < 0 -> uses R W (A x)) -> (forall x, n <= x < n + nh -> uses R W (B x)) ->
    uses R W (pseq (pfor (- nh) 0 A) (pfor n (n + nh) B)).
  Proof. intros. apply uses_pseq; apply uses_pfor; auto. Qed.

  Definition up1 n (u : Z -> Z -> V) i j := if (0 <=? j) && (j <? n) then u (i mod n) j else u i j.
  Definition up2 n (u : Z -> Z -> V) i j := if (0 <=? i) && (i <? n) then u i (j mod n) else u i j.
  Definition up3 n (u : Z -> Z -> V) i j :=
    if (i <? 0) && ((j <? 0) || (n <=? j)) then u (i mod n) (j mod n) else u i j.
  Definition up4 n (u : Z -> Z -> V) i j :=
    if (n <=? i) && ((j <? 0) || (n <=? j)) then u (i mod n) (j mod n) else u i j.

  Lemma mod_plus n i : 0 < n -> - n <= i < 0 -> i mod n = i + n.
  Proof. intros. rewrite <- mod_wrap1 by lia. unfold wrap1. destruct (Z.ltb_spec i 0); lia. Qed.
  Lemma mod_minus n i : 0 < n -> n <= i < 2 * n -> i mod n = i - n.
  Proof.
    intros. rewrite <- mod_wrap1 by lia. unfold wrap1. destruct (Z.ltb_spec i 0); [lia|].
    destruct (Z.geb_spec i n); lia.
  Qed.

  Definition wrapsrc n (x : Z) : Z := if x <? 0 then x + n else x - n.

  Lemma wrapsrc_mod n nh x : 0 < n -> nh <= n -> In x (side_cells n nh) ->
    wrapsrc n x = x mod n /\ 0 <= wrapsrc n x < n.
  Proof.
    intros Hn Hnh Hx. apply in_side in Hx. unfold wrapsrc. destruct (Z.ltb_spec x 0).
    - rewrite mod_plus; lia.
    - rewrite mod_minus; lia.
  Qed.

  Ltac loop2 W HV1 HV2 :=
    lazymatch goal with
    | |- exists s', schedule_independent (map (?P ?d) (zrange ?lo ?hi)) _ _ /\ _ => idtac
    end.

  Lemma copy_cell2_slot d i j i' j' :
    wf2 d -> copy_cell2 d i j i' j' =
      Rd 0%nat (pslot2 (d2_domain d) (i', j')) (fun w : V => Wr 0%nat (pslot2 (d2_domain d) (i, j)) w Done).
  Proof. intros W. unfold copy_cell2. rewrite !ix2_slot by auto. reflexivity. Qed.

  Lemma apply_periodic2_full d s u :
    wf2 d -> nhalo (d2_domain d) <= nx (d2_domain d) -> holds2 (d2_domain d) s u ->
    exists s1 s2 s3 s4, apply_periodic2 d s = Ok s4 /\
      holds2 (d2_domain d) s4 (periodic2 (d2_domain d) u) /\
      schedule_independent (map (periodic_x_body2 d) (zrange 0 (d2_ni d))) [s] [s1] /\
      schedule_independent (map (periodic_y_body2 d) (zrange 0 (d2_ni d))) [s1] [s2] /\
      schedule_independent (map (periodic_w_body2 d) (zrange (- d2_nhalo d) 0)) [s2] [s3] /\
      schedule_independent (map (periodic_e_body2 d) (zrange (d2_ni d) (d2_ni d + d2_nhalo d))) [s3] [s4].
  Proof.
    intros W Hnh HS. set (dom := d2_domain d) in *.
    destruct (wf2_valid _ W) as (H1 & Hh). fold dom in H1, Hh.
    assert (EN : d2_ni d = nx dom) by apply (wf2_ni _ W).
    assert (EH : d2_nhalo d = nhalo dom) by apply (wf2_nh _ W).
    set (n := nx dom) in *. set (nh := nhalo dom) in *.
    assert (HN : 0 < n) by lia.
    pose proof (fun x => wrapsrc_mod n nh x HN Hnh) as WM.
    (* x halos *)
    destruct (copies2 dom s u (up1 n u) (periodic_x_body2 d) 0 n n
                (fun o x => (x, o)) (fun o x => (wrapsrc n x, o))) as (s1 & SI1 & HS1); auto.
    { intros; split; congruence. }
    { intros o x (Ho & Hx). pose proof (WM x Hx) as (E & R). apply in_side in Hx. unfold padded2, inside2. fold n nh. simpl. lia. }
    { intros o m Ho. unfold periodic_x_body2. rewrite EN, EH, exec_two_pfors. unfold side_cells. rewrite map_app. fold nh.
      do 2 f_equal; apply map_ext_in; intros x Hx; apply in_zrange in Hx; rewrite copy_cell2_slot by auto; fold dom;
        unfold wrapsrc; destruct (Z.ltb_spec x 0); try lia; reflexivity. }
    { intros o R Wp Ho HU. unfold periodic_x_body2. rewrite EN, EH. apply uses_two_pfors; intros x Hx;
        rewrite copy_cell2_slot by auto; fold dom.
      - assert (I : In x (side_cells n (nhalo dom))) by (apply in_side; fold nh; lia). specialize (HU x I).
        unfold wrapsrc in HU. destruct (Z.ltb_spec x 0); [|lia]. exact HU.
      - assert (I : In x (side_cells n (nhalo dom))) by (apply in_side; fold nh; lia). specialize (HU x I).
        unfold wrapsrc in HU. destruct (Z.ltb_spec x 0); [lia|]. exact HU. }
    { intros o x (Ho & Hx). destruct (WM x Hx) as (E & R). simpl. unfold up1. rewrite E.
      replace ((0 <=? o) && (o <? n)) with true by lia. reflexivity. }
    { intros i j P NC. unfold up1. destruct ((0 <=? j) && (j <? n)) eqn:E; auto.
      destruct (in_dec Z.eq_dec i (side_cells n (nhalo dom))) as [I|I].
      - exfalso. apply (NC j i); auto. split; auto. lia.
      - rewrite in_side in I. unfold padded2 in P. fold n nh in P, I. rewrite Z.mod_small; auto; lia. }
    (* y halos *)
    destruct (copies2 dom s1 (up1 n u) (up2 n (up1 n u)) (periodic_y_body2 d) 0 n n
                (fun o x => (o, x)) (fun o x => (o, wrapsrc n x))) as (s2 & SI2 & HS2); auto.
    { intros; split; congruence. }
    { intros o x (Ho & Hx). pose proof (WM x Hx) as (E & R). apply in_side in Hx. unfold padded2, inside2. fold n nh. simpl. lia. }
    { intros o m Ho. unfold periodic_y_body2. rewrite EN, EH, exec_two_pfors. unfold side_cells. rewrite map_app. fold nh.
      do 2 f_equal; apply map_ext_in; intros x Hx; apply in_zrange in Hx; rewrite copy_cell2_slot by auto; fold dom;
        unfold wrapsrc; destruct (Z.ltb_spec x 0); try lia; reflexivity. }
    { intros o R Wp Ho HU. unfold periodic_y_body2. rewrite EN, EH. apply uses_two_pfors; intros x Hx;
        rewrite copy_cell2_slot by auto; fold dom.
      - assert (I : In x (side_cells n (nhalo dom))) by (apply in_side; fold nh; lia). specialize (HU x I).
        unfold wrapsrc in HU. destruct (Z.ltb_spec x 0); [|lia]. exact HU.
      - assert (I : In x (side_cells n (nhalo dom))) by (apply in_side; fold nh; lia). specialize (HU x I).
        unfold wrapsrc in HU. destruct (Z.ltb_spec x 0); [lia|]. exact HU. }
    { intros o x (Ho & Hx). destruct (WM x Hx) as (E & R). simpl. unfold up2. rewrite E.
      replace ((0 <=? o) && (o <? n)) with true by lia. reflexivity. }
    { intros i j P NC. unfold up2. destruct ((0 <=? i) && (i <? n)) eqn:E; auto.
      destruct (in_dec Z.eq_dec j (side_cells n (nhalo dom))) as [I|I].
      - exfalso. apply (NC i j); auto. split; auto. lia.
      - rewrite in_side in I. unfold padded2 in P. fold n nh in P, I. rewrite Z.mod_small; auto; lia. }
    (* corners, west *)
    destruct (copies2 dom s2 (up2 n (up1 n u)) (up3 n (up2 n (up1 n u))) (periodic_w_body2 d) (- nh) 0 n
                (fun o x => (o, x)) (fun o x => (o + n, wrapsrc n x))) as (s3 & SI3 & HS3); auto.
    { intros; split; congruence. }
    { intros o x (Ho & Hx). pose proof (WM x Hx) as (E & R). apply in_side in Hx. unfold padded2, inside2. fold n nh. simpl. lia. }
    { intros o m Ho. unfold periodic_w_body2. rewrite EN, EH, exec_two_pfors. unfold side_cells. rewrite map_app. fold nh.
      do 2 f_equal; apply map_ext_in; intros x Hx; apply in_zrange in Hx; rewrite copy_cell2_slot by auto; fold dom;
        unfold wrapsrc; destruct (Z.ltb_spec x 0); try lia; reflexivity. }
    { intros o R Wp Ho HU. unfold periodic_w_body2. rewrite EN, EH. apply uses_two_pfors; intros x Hx;
        rewrite copy_cell2_slot by auto; fold dom.
      - assert (I : In x (side_cells n (nhalo dom))) by (apply in_side; fold nh; lia). specialize (HU x I).
        unfold wrapsrc in HU. destruct (Z.ltb_spec x 0); [|lia]. exact HU.
      - assert (I : In x (side_cells n (nhalo dom))) by (apply in_side; fold nh; lia). specialize (HU x I).
        unfold wrapsrc in HU. destruct (Z.ltb_spec x 0); [lia|]. exact HU. }
    { intros o x (Ho & Hx). destruct (WM x Hx) as (E & R). apply in_side in Hx. fold nh in Hx. simpl. unfold up3.
      replace ((o <? 0) && ((x <? 0) || (n <=? x))) with true by lia. rewrite <- E, mod_plus by lia. reflexivity. }
    { intros i j P NC. unfold up3. destruct ((i <? 0) && ((j <? 0) || (n <=? j))) eqn:E; auto.
      exfalso. apply (NC i j); auto. unfold padded2 in P. fold n nh in P. split; [lia|]. apply in_side. fold nh. lia. }
    (* corners, east *)
    destruct (copies2 dom s3 (up3 n (up2 n (up1 n u))) (up4 n (up3 n (up2 n (up1 n u)))) (periodic_e_body2 d) n (n + nh) n
                (fun o x => (o, x)) (fun o x => (o - n, wrapsrc n x))) as (s4 & SI4 & HS4); auto.
    { intros; split; congruence. }
    { intros o x (Ho & Hx). pose proof (WM x Hx) as (E & R). apply in_side in Hx. unfold padded2, inside2. fold n nh. simpl. lia. }
    { intros o m Ho. unfold periodic_e_body2. rewrite EN, EH, exec_two_pfors. unfold side_cells. rewrite map_app. fold nh.
      do 2 f_equal; apply map_ext_in; intros x Hx; apply in_zrange in Hx; rewrite copy_cell2_slot by auto; fold dom;
        unfold wrapsrc; destruct (Z.ltb_spec x 0); try lia; reflexivity. }
    { intros o R Wp Ho HU. unfold periodic_e_body2. rewrite EN, EH. apply uses_two_pfors; intros x Hx;
        rewrite copy_cell2_slot by auto; fold dom.
      - assert (I : In x (side_cells n (nhalo dom))) by (apply in_side; fold nh; lia). specialize (HU x I).
        unfold wrapsrc in HU. destruct (Z.ltb_spec x 0); [|lia]. exact HU.
      - assert (I : In x (side_cells n (nhalo dom))) by (apply in_side; fold nh; lia). specialize (HU x I).
        unfold wrapsrc in HU. destruct (Z.ltb_spec x 0); [lia|]. exact HU. }
    { intros o x (Ho & Hx). destruct (WM x Hx) as (E & R). apply in_side in Hx. fold nh in Hx. simpl. unfold up4.
      replace ((n <=? o) && ((x <? 0) || (n <=? x))) with true by lia. rewrite <- E, mod_minus by lia. reflexivity. }
    { intros i j P NC. unfold up4. destruct ((n <=? i) && ((j <? 0) || (n <=? j))) eqn:E; auto.
      exfalso. apply (NC i j); auto. unfold padded2 in P. fold n nh in P. split; [lia|]. apply in_side. fold nh. lia. }
    exists s1, s2, s3, s4. rewrite EN, EH.
    split.
    { unfold apply_periodic2, forall_loop. rewrite EN, EH.
      destruct SI1 as (-> & _). cbn [one rbind]. destruct SI2 as (-> & _). cbn [one rbind].
      destruct SI3 as (-> & _). cbn [one rbind]. destruct SI4 as (-> & _). reflexivity. }
    split; [|auto].
    eapply holds2_ext; [exact HS4|]. intros i j P. unfold padded2 in P. fold n nh in P.
    unfold periodic2. fold n.
    pose proof (mod_range n i HN) as Mi. pose proof (mod_range n j HN) as Mj.
    unfold up4. destruct ((n <=? i) && ((j <? 0) || (n <=? j))) eqn:E4.
    - unfold up3. replace ((i mod n <? 0) && _) with false by lia.
      unfold up2. replace ((0 <=? i mod n) && (i mod n <? n)) with true by lia.
      rewrite Z.mod_mod by lia. unfold up1. replace ((0 <=? j mod n) && (j mod n <? n)) with true by lia.
      rewrite Z.mod_mod by lia. reflexivity.
    - unfold up3. destruct ((i <? 0) && ((j <? 0) || (n <=? j))) eqn:E3.
      + unfold up2. replace ((0 <=? i mod n) && (i mod n <? n)) with true by lia.
        rewrite Z.mod_mod by lia. unfold up1. replace ((0 <=? j mod n) && (j mod n <? n)) with true by lia.
        rewrite Z.mod_mod by lia. reflexivity.
      + unfold up2. destruct ((0 <=? i) && (i <? n)) eqn:E2.
        * unfold up1. replace ((0 <=? j mod n) && (j mod n <? n)) with true by lia. reflexivity.
        * unfold up1. destruct ((0 <=? j) && (j <? n)) eqn:E1.
          -- rewrite (Z.mod_small j) by lia. reflexivity.
          -- exfalso. lia.
  Qed.

End Disc2DProofs.
