(** Proofs about the CSR kernels. *)
From Coq Require Import ZArith List Reals Lra Lia Permutation.
From Verif Require Import Outcome ZList ZListProofs Num Kernel KernelProofs Gather SpecGrid Loop
  ModelReduce ModelCSR SpecField SumProofs SpecMatrix.
From Coq Require Import ZifyBool ZifyNat.
Import ListNotations.
Local Open Scope Z_scope.

(** ** Lists *)

Lemma zlen_combine {A B} (l1 : list A) (l2 : list B) : zlen l1 = zlen l2 -> zlen (combine l1 l2) = zlen l2.
Proof. unfold zlen. rewrite combine_length. lia. Qed.

Lemma zget_combine {A B} (l1 : list A) (l2 : list B) i a b :
  zget l1 i = Some a -> zget l2 i = Some b -> zget (combine l1 l2) i = Some (a, b).
Proof.
  unfold zget. destruct (i <? 0); [discriminate|].
  generalize (Z.to_nat i) as n. revert l2. induction l1 as [|x l1 IH]; intros l2 n H1 H2.
  - destruct n; discriminate.
  - destruct l2 as [|y l2]; [destruct n; discriminate|]. destruct n; simpl in *; [congruence|]. auto.
Qed.

Lemma zget_firstn {A} (l : list A) n i : i < Z.of_nat n -> zget (firstn n l) i = zget l i.
Proof.
  unfold zget. destruct (Z.ltb_spec i 0); auto. intros Hi.
  assert (Z.to_nat i < n)%nat as H0 by lia. revert H0. generalize (Z.to_nat i) as k. clear.
  revert l. induction n as [|n IH]; intros l k H; [lia|]. destruct l; [destruct k; auto|].
  destruct k; simpl; auto. apply IH. lia.
Qed.
Lemma zget_skipn {A} (l : list A) n i : 0 <= i -> zget (skipn n l) i = zget l (Z.of_nat n + i).
Proof.
  unfold zget. intros Hi. destruct (Z.ltb_spec i 0); [lia|]. destruct (Z.ltb_spec (Z.of_nat n + i) 0); [lia|].
  replace (Z.to_nat (Z.of_nat n + i)) with (n + Z.to_nat i)%nat by lia. generalize (Z.to_nat i) as k. clear.
  revert l. induction n as [|n IH]; intros l k; simpl; auto. destruct l; [destruct k; auto|]. apply IH.
Qed.
Lemma zget_nil {A} i : zget (@nil A) i = None.
Proof. apply zget_none. unfold zlen; simpl; lia. Qed.

Lemma sublist_map {B} (f : Z -> B) (l : list B) lo hi :
  0 <= lo <= hi -> hi <= zlen l -> (forall j, lo <= j < hi -> zget l j = Some (f j)) ->
  firstn (Z.to_nat (hi - lo)) (skipn (Z.to_nat lo) l) = map f (zrange lo hi).
Proof.
  intros H1 H2 H. apply zget_ext.
  - rewrite zlen_map, zlen_zrange. unfold zlen in *. rewrite firstn_length, skipn_length. lia.
  - intros i Hi. assert (0 <= i < hi - lo) as Hr.
    { revert Hi. unfold zlen. rewrite firstn_length, skipn_length. unfold zlen in H2. lia. }
    rewrite zget_firstn, zget_skipn by lia. rewrite zget_map, zget_zrange by lia. simpl.
    rewrite <- H by lia. f_equal. lia.
Qed.

(** ** Loops with local state *)

Section ForAcc.
  Context {V : Type} {N : Num V}.

  Lemma for_acc_uses {S} (RR WW : nat -> Z -> Prop) (Inv : list Z -> S -> Prop) step k :
    (forall s, Inv [] s -> uses RR WW (k s)) ->
    forall js,
    (forall j r s k', (exists q, js = q ++ j :: r) -> Inv (j :: r) s ->
        (forall s', Inv r s' -> uses RR WW (k' s')) -> uses RR WW (step j s k')) ->
    forall s, Inv js s -> uses (V:=V) RR WW (for_acc js step s k).
  Proof.
    intros Hk. induction js as [|j r IH]; simpl; intros ST s I; auto.
    apply (ST j r); [exists []; reflexivity | auto |].
    intros s' I'. apply IH; auto. intros j' r' s'' k'' (q & ->) I'' Hk'. apply (ST j' r'); auto.
    exists (j :: q); reflexivity.
  Qed.

  Lemma for_acc_stores {S} m W step (g : S -> Z -> S) js :
    (forall j s k ws, In j js -> stores m W (k (g s j)) ws -> stores (V:=V) m W (step j s k) ws) ->
    forall s k ws, stores m W (k (fold_left g js s)) ws -> stores m W (for_acc js step s k) ws.
  Proof.
    induction js as [|j r IH]; simpl; intros ST s k ws H; auto.
  Qed.
End ForAcc.

(** ** Well-formed matrices *)

Section WF.
  Context {V : Type} {N : Num V}.
  Variable A : csr V.
  Hypothesis WF : csr_wf A.

  Definition ecol (j : Z) : Z := match zget (m_col A) j with Some c => c | None => 0 end.
  Definition eval (j : Z) : V := match zget (m_vals A) j with Some v => v | None => nint 0 end.
  Definition rlo (r : Z) : Z := match zget (m_row A) r with Some v => v | None => 0 end.

  Lemma wf_row r : 0 <= r < m_rows A ->
    zget (m_row A) r = Some (rlo r) /\ zget (m_row A) (r + 1) = Some (rlo (r + 1)) /\
    0 <= rlo r <= rlo (r + 1) /\ rlo (r + 1) <= zlen (m_vals A).
  Proof.
    intros H. destruct WF as (_ & _ & _ & _ & _ & X & _). destruct (X r H) as (lo & hi & E1 & E2 & B).
    unfold rlo. rewrite E1, E2. auto.
  Qed.
  Lemma wf_ent r j : 0 <= r < m_rows A -> rlo r <= j < rlo (r + 1) ->
    zget (m_col A) j = Some (ecol j) /\ zget (m_vals A) j = Some (eval j) /\ 0 <= ecol j < m_cols A.
  Proof.
    intros Hr Hj. destruct (wf_row r Hr) as (_ & _ & B1 & B2).
    destruct WF as (_ & _ & _ & L & _ & _ & C).
    destruct (zget_some (m_col A) j) as (c & Ec); [lia|].
    destruct (zget_some (m_vals A) j) as (v & Ev); [lia|].
    unfold ecol, eval. rewrite Ec, Ev. repeat split; auto; apply (C j c Ec).
  Qed.
  Lemma row_entries_map r : 0 <= r < m_rows A ->
    row_entries A r = map (fun j => (ecol j, eval j)) (zrange (rlo r) (rlo (r + 1))).
  Proof.
    intros Hr. destruct (wf_row r Hr) as (E1 & E2 & B1 & B2). unfold row_entries. rewrite E1, E2.
    apply sublist_map; auto.
    - rewrite zlen_combine; [lia|]. apply WF.
    - intros j Hj. destruct (wf_ent r j Hr Hj) as (Ec & Ev & _). apply zget_combine; auto.
  Qed.
  Lemma row_mono r s : 0 <= r <= s -> s <= m_rows A -> rlo r <= rlo s.
  Proof.
    intros H1 H2. replace s with (r + Z.of_nat (Z.to_nat (s - r))) in * by lia.
    generalize dependent (Z.to_nat (s - r)). intros n. clear s. revert r.
    induction n as [|n IH]; intros r H1 H2; [replace (r + Z.of_nat 0) with r by lia; lia|].
    transitivity (rlo (r + 1)); [apply wf_row; lia|].
    replace (r + Z.of_nat (S n)) with ((r + 1) + Z.of_nat n) by lia. apply IH; lia.
  Qed.
  Lemma rows_disjoint r s j : 0 <= r < m_rows A -> 0 <= s < m_rows A ->
    rlo r <= j < rlo (r + 1) -> rlo s <= j < rlo (s + 1) -> r = s.
  Proof.
    intros Hr Hs H1 H2. destruct (Z.lt_trichotomy r s) as [L|[E|L]]; auto; exfalso.
    - pose proof (row_mono (r + 1) s ltac:(lia) ltac:(lia)). lia.
    - pose proof (row_mono (s + 1) r ltac:(lia) ltac:(lia)). lia.
  Qed.
  Lemma fold_entries {S} (g : S -> Z * V -> S) r s : 0 <= r < m_rows A ->
    fold_left (fun s j => g s (ecol j, eval j)) (zrange (rlo r) (rlo (r + 1))) s
    = fold_left g (row_entries A r) s.
  Proof.
    intros Hr. rewrite row_entries_map by auto. generalize (zrange (rlo r) (rlo (r + 1))) as l.
    intros l. revert s. induction l as [|j l IH]; simpl; intros; auto.
  Qed.
  Lemma entry_at r e : 0 <= r < m_rows A -> In e (row_entries A r) ->
    exists j, rlo r <= j < rlo (r + 1) /\ e = (ecol j, eval j).
  Proof.
    intros Hr H. rewrite row_entries_map in H by auto. apply in_map_iff in H as (j & <- & Hj).
    apply in_zrange in Hj. eauto.
  Qed.
End WF.

Lemma mread0 {V} (m : mem V) l i : mread (l :: m) 0 i = zget l i.
Proof. reflexivity. Qed.
Lemma mreadS {V} (m : mem V) l n i : mread (l :: m) (S n) i = mread m n i.
Proof. reflexivity. Qed.

(** A loop over 0..n-1 that stores one value per iteration, to cell r of array o. *)
Theorem out_loop {V} (m : mem V) o l n (body : Z -> prog V) (f : Z -> V) :
  nth_error m o = Some l -> n <= zlen l ->
  (forall r, 0 <= r < n ->
     uses (fun a i => inb m a i /\ (a = o -> i = r)) (fun a i => a = o /\ i = r) (body r)) ->
  (forall r, 0 <= r < n -> stores m [] (body r) [(o, r, f r)]) ->
  exists l', schedule_independent (map body (zrange 0 n)) m (upd m o l') /\
    forall_loop 0 n body m = Ok (upd m o l') /\ zlen l' = zlen l /\
    (forall r, 0 <= r < n -> zget l' r = Some (f r)) /\
    (forall r, ~ 0 <= r < n -> zget l' r = zget l r).
Proof.
  intros Ho Hn U ST.
  destruct (range_loop 0 n body [(o, f)] m) as (m' & SI & E & SH & T & F).
  - simpl. constructor; auto. constructor.
  - intros r Hr. eapply uses_weaken; [| |apply (U r Hr)].
    + intros a i (B & C). split; auto. simpl. intros [<-|[]]. auto.
    + intros a i (-> & ->). simpl. auto.
  - intros r Hr. simpl. auto.
  - destruct (same_shape_nth _ _ _ _ SH Ho) as (l' & Ho' & L).
    assert (m' = upd m o l') as EM.
    { apply mem_ext; [|].
      - unfold same_shape. rewrite map_upd, L. rewrite upd_same; [symmetry; apply SH|].
        rewrite nth_error_map, Ho. reflexivity.
      - intros a i. destruct (Nat.eq_dec a o) as [->|NE].
        + unfold mread. rewrite Ho'. rewrite nth_error_upd_same; auto. eapply nth_error_lt; eauto.
        + rewrite F by (left; simpl; intros [C|[]]; congruence). unfold mread.
          rewrite nth_error_upd_other by auto. reflexivity. }
    rewrite EM in *. exists l'. split; [auto|]. split; [auto|]. split; [unfold zlen; congruence|]. split.
    + intros r Hr. pose proof (T o f r (or_introl eq_refl) Hr) as X. unfold mread in X. rewrite Ho' in X. auto.
    + intros r Hr. pose proof (F o r (or_intror Hr)) as X. unfold mread in X. rewrite Ho', Ho in X. auto.
Qed.

Lemma inb_get {V} (m : mem V) a l i : nth_error m a = Some l -> 0 <= i < zlen l -> inb m a i.
Proof. intros; exists l; auto. Qed.

(** Existence of the vector a list represents. *)
Lemma holds1_self {V} (d : V) (l : list V) :
  holds1 (zlen l) l (fun i => match zget l i with Some v => v | None => d end).
Proof. split; auto. intros i Hi. destruct (zget_some l i Hi) as (v & E). rewrite E. auto. Qed.

(** ** Matrix-vector product *)

Section MatVec.
  Context {V : Type} {N : Num V}.

  Definition row_product (u : Z -> V) (es : list (Z * V)) (s : V) : V :=
    fold_left (fun s e => (s + snd e * u (fst e))%num) es s.

  (** The accumulation loop, wherever its arrays are. *)
  Lemma acc_uses (A : csr V) (WF : csr_wf A) (m : mem V) (RR WW : nat -> Z -> Prop) (x : list V) r k s0 :
    0 <= r < m_rows A -> zlen x = m_cols A ->
    (forall i, 0 <= i < zlen (m_vals A) -> RR 0%nat i) ->
    (forall i, 0 <= i < m_cols A -> RR 1%nat i) ->
    (forall s, uses RR WW (k s)) ->
    uses RR WW (for_row A r (acc_prod A) s0 k).
  Proof.
    intros Hr Lx R0 R1 Hk. unfold for_row. destruct (wf_row A WF r Hr) as (E1 & E2 & B1 & B2).
    rewrite E1, E2. apply (for_acc_uses RR WW (fun _ _ => True)); auto.
    intros j t s k' (q & Q) _ Hk'.
    assert (rlo A r <= j < rlo A (r + 1)) as Hj.
    { apply in_zrange. rewrite Q. apply in_or_app. right; left; auto. }
    destruct (wf_ent A WF r j Hr Hj) as (Ec & Ev & Bc). unfold acc_prod. rewrite Ec.
    apply uses_rd; [apply R0; lia|]. intros v. apply uses_rd; [apply R1; auto|]. intros; auto.
  Qed.

  Lemma acc_stores (A : csr V) (WF : csr_wf A) (m : mem V) W (x : list V) u r k s0 ws :
    0 <= r < m_rows A -> holds1 (m_cols A) x u ->
    nth_error m 0 = Some (m_vals A) -> nth_error m 1 = Some x -> W = [] ->
    stores m W (k (row_product u (row_entries A r) s0)) ws ->
    stores m W (for_row A r (acc_prod A) s0 k) ws.
  Proof.
    intros Hr (Lx & Hx) M0 M1 -> H. unfold for_row. destruct (wf_row A WF r Hr) as (E1 & E2 & B1 & B2).
    rewrite E1, E2.
    apply (for_acc_stores m [] (acc_prod A) (fun s j => (s + eval A j * u (ecol A j))%num)).
    - intros j s k' ws' Hj H'. apply in_zrange in Hj. destruct (wf_ent A WF r j Hr Hj) as (Ec & Ev & Bc).
      unfold acc_prod. rewrite Ec.
      eapply st_rd; [simpl; tauto|unfold mread; rewrite M0; exact Ev|].
      eapply st_rd; [simpl; tauto|unfold mread; rewrite M1; apply Hx; auto|]. auto.
    - revert H. unfold row_product.
      rewrite <- (fold_entries A WF (fun s e => (s + snd e * u (fst e))%num) r s0 Hr). auto.
  Qed.

  Lemma matvec_loop (A : csr V) x b u :
    csr_wf A -> holds1 (m_cols A) x u -> m_rows A <= zlen b ->
    exists b', schedule_independent (map (matvec_body A) (zrange 0 (m_rows A))) [m_vals A; x; b] [m_vals A; x; b'] /\
      matvec A x b = Ok b' /\ zlen b' = zlen b /\
      (forall r, 0 <= r < m_rows A -> zget b' r = Some (row_product u (row_entries A r) (nint 0))) /\
      (forall r, ~ 0 <= r < m_rows A -> zget b' r = zget b r).
  Proof.
    intros WF Hx Lb.
    destruct (out_loop [m_vals A; x; b] 2 b (m_rows A) (matvec_body A)
               (fun r => row_product u (row_entries A r) (nint 0))) as (b' & SI & E & L & T & F).
    - reflexivity.
    - auto.
    - intros r Hr. unfold matvec_body. apply (acc_uses A WF [] _ _ x r _ _ Hr (proj1 Hx)).
      + intros i Hi. split; [eapply inb_get; [reflexivity|exact Hi]|discriminate].
      + intros i Hi. destruct Hx as (Lx & _). split; [eapply inb_get; [reflexivity|lia]|discriminate].
      + intros s. apply uses_wr; [auto|apply uses_done].
    - intros r Hr. unfold matvec_body.
      apply (acc_stores A WF [m_vals A; x; b] [] x u r _ _ _ Hr Hx eq_refl eq_refl eq_refl).
      cbv beta. apply st_wr; [eapply inb_get; [reflexivity|lia]|]. apply st_done.
    - exists b'. split; [exact SI|]. split; [|split; [exact L|split; [exact T|exact F]]].
      unfold matvec, matvec_mem. rewrite E. reflexivity.
  Qed.
End MatVec.

(** ** Exact sums over stored entries *)

Lemma Rsum_filter_split {A} (p : A -> bool) (f : A -> R) l :
  (Rsum (map f l) = Rsum (map f (filter p l)) + Rsum (map f (filter (fun x => negb (p x)) l)))%R.
Proof. induction l as [|x l IH]; simpl; [lra|]. destruct (p x); simpl; rewrite IH; lra. Qed.

Lemma Rsum_const_filter (c : Z) (g : Z -> R) (l : list (Z * R)) :
  Rsum (map (fun e => snd e * g (fst e))%R (filter (fun e => fst e =? c) l))
  = (Rsum (map snd (filter (fun e => (fst e =? c)%Z) l)) * g c)%R.
Proof.
  induction l as [|(c', v) l IH]; simpl; [lra|].
  destruct (Z.eqb_spec c' c) as [->|NE]; simpl; rewrite IH; lra.
Qed.

(** Entries of a row grouped by column. *)
Lemma group_columns (g : Z -> R) n (l : list (Z * R)) :
  (forall e, In e l -> 0 <= fst e < n) ->
  Rsum (map (fun e => snd e * g (fst e))%R l)
  = sum1 n (fun c => Rsum (map snd (filter (fun e => (fst e =? c)%Z) l)) * g c)%R.
Proof.
  induction l as [|(c0, v) l IH]; intros H.
  - simpl. rewrite (sum1_ext n _ (fun _ => 0%R)) by (intros; lra). unfold sum1. 
    induction (zrange 0 n); simpl; lra.
  - change (Rsum (map (fun e => snd e * g (fst e))%R ((c0, v) :: l)))
      with (v * g c0 + Rsum (map (fun e => snd e * g (fst e))%R l))%R.
    rewrite IH by (intros; apply H; right; auto). clear IH. symmetry.
    etransitivity; [apply (sum1_ext n _ (fun c => (if (c =? c0)%Z then v * g c else 0)
                + Rsum (map snd (filter (fun e => (fst e =? c)%Z) l)) * g c)%R)|].
    + intros i Hi. cbn [filter fst]. destruct (Z.eqb_spec c0 i) as [->|NE].
      * rewrite Z.eqb_refl. cbn [map Rsum fold_right snd]. unfold Rsum. lra.
      * destruct (Z.eqb_spec i c0); [congruence|]. lra.
    + rewrite sum1_plus. f_equal.
      pose proof (H (c0, v) (or_introl eq_refl)) as B. simpl in B. clear H.
      unfold sum1. rewrite (zrange_split 0 c0 n), (zrange_cons c0 n) by lia.
      rewrite map_app, Rsum_app. cbn [map]. 
      rewrite (map_ext_in _ (fun _ => 0%R) (zrange 0 c0)).
      2:{ intros a Ha. apply in_zrange in Ha. destruct (Z.eqb_spec a c0); [lia|auto]. }
      rewrite (map_ext_in _ (fun _ => 0%R) (zrange (c0 + 1) n)).
      2:{ intros a Ha. apply in_zrange in Ha. destruct (Z.eqb_spec a c0); [lia|auto]. }
      rewrite Z.eqb_refl.
      change (Rsum (v * g c0 :: map (fun _ => 0) (zrange (c0 + 1) n))%R)
        with (v * g c0 + Rsum (map (fun _ => 0) (zrange (c0 + 1) n)))%R.
      rewrite !Rsum_map_const. lra.
Qed.

Lemma row_product_R u es s : row_product u es s = (s + Rsum (map (fun e => snd e * u (fst e)) es))%R.
Proof.
  revert s. induction es as [|e es IH]; intros s; simpl.
  - unfold row_product; simpl; lra.
  - unfold row_product in *; simpl. rewrite IH. simpl. lra.
Qed.

Lemma row_product_mul (A : csr R) u r :
  csr_wf A -> 0 <= r < m_rows A -> row_product u (row_entries A r) (nint 0) = mul_vec A u r.
Proof.
  intros WF Hr. rewrite row_product_R. rewrite (group_columns u (m_cols A)).
  - unfold mul_vec, dense. simpl. rewrite Rplus_0_l. reflexivity.
  - intros e He. destruct (entry_at A WF r e Hr He) as (j & Hj & ->). simpl. apply (wf_ent A WF r j Hr Hj).
Qed.

Lemma matvec_R (A : csr R) x b u :
  csr_wf A -> holds1 (m_cols A) x u -> zlen b = m_rows A ->
  exists b', schedule_independent (map (matvec_body A) (zrange 0 (m_rows A))) [m_vals A; x; b] [m_vals A; x; b'] /\
    matvec A x b = Ok b' /\ holds1 (m_rows A) b' (mul_vec A u).
Proof.
  intros WF Hx Lb. destruct (matvec_loop A x b u WF Hx ltac:(lia)) as (b' & SI & E & L & T & F).
  exists b'. split; auto. split; auto. split; [lia|]. intros r Hr. rewrite T by auto. f_equal.
  apply row_product_mul; auto.
Qed.
