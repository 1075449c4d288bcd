(** Proofs about the LDU splitting. *)
From Coq Require Import ZArith List Reals Lra Lia Permutation.
From Verif Require Import Outcome ZList ZListProofs Num Kernel KernelProofs Gather SpecGrid Loop
  ModelReduce ModelCSR ModelLDU SpecField SumProofs SpecMatrix CSRProofs ReduceProofs CSR2Proofs CSR3Proofs.
From Coq Require Import ZifyBool ZifyNat.
Import ListNotations.
Local Open Scope Z_scope.

Lemma combine_map {A B} (l : list (A * B)) : combine (map fst l) (map snd l) = l.
Proof. induction l as [|(a, b) l IH]; simpl; congruence. Qed.

Section Split.
  Context {V : Type} {N : Num V}.
  Variable meps : V.
  Variable A : csr V.
  Hypothesis WF : csr_wf A.

  Definition lowE (r : Z) := filter (fun e : Z * V => fst e <? r) (row_entries A r).
  Definition uppE (r : Z) := filter (fun e : Z * V => r <? fst e) (row_entries A r).
  Definition diaE (r : Z) := filter (fun e : Z * V => fst e =? r) (row_entries A r).
  Definition allE (F : Z -> list (Z * V)) (k : Z) := flat_map F (zrange 0 k).
  Definition pre (F : Z -> list (Z * V)) (k : Z) : list Z := map (fun i => zlen (allE F i)) (zrange 0 (k + 1)).

  Definition split_at (k : Z) : split V :=
    MkSplit (map snd (allE diaE k)) (map snd (allE lowE k)) (map fst (allE lowE k)) (pre lowE k)
            (map snd (allE uppE k)) (map fst (allE uppE k)) (pre uppE k).

  Lemma split_row_entries r js p nl nu :
    0 <= r < m_rows A -> (forall j, In j js -> rlo A r <= j < rlo A (r + 1)) ->
    let es := map (fun j => (ecol A j, eval A j)) js in
    let D := filter (fun e => fst e =? r) es in
    let L := filter (fun e => fst e <? r) es in
    let U := filter (fun e => r <? fst e) es in
    fold_res (fun s j => split_entry A r j s) js (p, (nl, nu))
    = Ok (MkSplit (p_diag p ++ map snd D) (p_lower p ++ map snd L) (p_lcol p ++ map fst L) (p_lrow p)
                  (p_upper p ++ map snd U) (p_ucol p ++ map fst U) (p_urow p),
          (nl + zlen L, nu + zlen U)).
  Proof.
    intros Hr. revert p nl nu. induction js as [|j js IH]; intros p nl nu H; simpl.
    - rewrite !app_nil_r. unfold zlen; simpl. rewrite !Z.add_0_r. destruct p; reflexivity.
    - destruct (wf_ent A WF r j Hr (H j (or_introl eq_refl))) as (Ec & Ev & _).
      unfold split_entry at 1. rewrite Ec, Ev. cbn [rbind of_opt].
      assert (H' : forall j, In j js -> rlo A r <= j < rlo A (r + 1)) by (intros; apply H; right; auto).
      cbv zeta in IH.
      assert (Z1 : forall (e : Z * V) l, zlen (e :: l) = 1 + zlen l) by (intros; unfold zlen; cbn [length]; lia).
      destruct (Z.eqb_spec (ecol A j) r) as [E1|E1].
      + destruct (Z.ltb_spec (ecol A j) r), (Z.ltb_spec r (ecol A j)); try lia. cbn [rbind].
        rewrite IH by auto. cbn [p_diag p_lower p_lcol p_lrow p_upper p_ucol p_urow map snd].
        rewrite <- app_assoc. reflexivity.
      + destruct (Z.ltb_spec (ecol A j) r).
        * destruct (Z.ltb_spec r (ecol A j)); try lia. cbn [rbind].
          rewrite IH by auto. cbn [p_diag p_lower p_lcol p_lrow p_upper p_ucol p_urow map snd fst].
          rewrite <- !app_assoc. rewrite Z1, Z.add_assoc. reflexivity.
        * destruct (Z.ltb_spec r (ecol A j)); try lia. cbn [rbind].
          rewrite IH by auto. cbn [p_diag p_lower p_lcol p_lrow p_upper p_ucol p_urow map snd fst].
          rewrite <- !app_assoc. rewrite Z1, Z.add_assoc. reflexivity.
  Qed.

  Lemma allE_snoc F k : 0 <= k -> allE F (k + 1) = allE F k ++ F k.
  Proof.
    intros H. unfold allE. rewrite (zrange_split 0 k (k + 1)), (zrange_cons k (k + 1)), (zrange_empty (k + 1)) by lia.
    rewrite flat_map_app. simpl. rewrite app_nil_r. reflexivity.
  Qed.
  Lemma zget_pre F k i : 0 <= i <= k -> zget (pre F k) i = Some (zlen (allE F i)).
  Proof. intros H. unfold pre. rewrite zget_map, zget_zrange by lia. reflexivity. Qed.
  Lemma pre_snoc F k : 0 <= k -> pre F (k + 1) = pre F k ++ [zlen (allE F k) + zlen (F k)].
  Proof.
    intros H. unfold pre.
    rewrite (zrange_split 0 (k + 1) (k + 1 + 1)), (zrange_cons (k + 1)), (zrange_empty (k + 1 + 1)) by lia.
    rewrite map_app. cbn [map]. rewrite allE_snoc, zlen_app by lia. reflexivity.
  Qed.

  Lemma split_row_step r : 0 <= r < m_rows A -> split_row A (split_at r) r = Ok (split_at (r + 1)).
  Proof.
    intros Hr. unfold split_row. destruct (wf_row A WF r Hr) as (E1 & E2 & _). rewrite E1, E2. cbn [rbind of_opt].
    rewrite (split_row_entries r _ (split_at r) 0 0 Hr) by (intros j Hj; apply in_zrange in Hj; auto).
    rewrite <- (row_entries_map A WF r Hr). cbn [rbind p_lrow p_urow split_at].
    rewrite !zget_pre by lia. cbn [rbind of_opt p_diag p_lower p_lcol p_lrow p_upper p_ucol p_urow split_at].
    unfold split_at. rewrite !pre_snoc, !allE_snoc, !map_app by lia. reflexivity.
  Qed.

  Lemma split_all : fold_res (split_row A) (zrange 0 (m_rows A)) (MkSplit [] [] [] [0] [] [] [0])
    = Ok (split_at (m_rows A)).
  Proof.
    assert (G : forall n k, 0 <= k -> k + Z.of_nat n = m_rows A ->
      fold_res (split_row A) (zrange k (m_rows A)) (split_at k) = Ok (split_at (m_rows A))).
    { induction n as [|n IH]; intros k Hk E.
      - rewrite zrange_empty by lia. simpl. do 2 f_equal. lia.
      - rewrite zrange_cons by lia. cbn [fold_res]. rewrite split_row_step by lia. cbn [rbind]. apply IH; lia. }
    apply (G (Z.to_nat (m_rows A)) 0); [lia|]. destruct WF. lia.
  Qed.

  (** A CSR matrix built from per-row entry lists stores exactly them. *)
  Lemma built_entries F r c tmpn :
    0 <= r < m_rows A ->
    row_entries (csr_of (N:=N) (m_rows A) c (map fst (allE F (m_rows A))) (pre F (m_rows A))
                 (map snd (allE F (m_rows A)))) r = F r /\ tmpn = tmpn :> unit.
  Proof.
    intros Hr. split; auto. unfold row_entries. cbn [csr_of m_row m_col m_vals].
    rewrite !zget_pre by lia. rewrite combine_map. rewrite allE_snoc, zlen_app by lia.
    assert (EQ : allE F (m_rows A) = allE F r ++ F r ++ flat_map F (zrange (r + 1) (m_rows A))).
    { unfold allE. rewrite (zrange_split 0 r (m_rows A)), (zrange_cons r) by lia. rewrite flat_map_app. reflexivity. }
    rewrite EQ. unfold zlen.
    replace (Z.to_nat (Z.of_nat (length (allE F r)) + Z.of_nat (length (F r)) - Z.of_nat (length (allE F r))))
      with (length (F r)) by lia.
    rewrite Nat2Z.id. rewrite skipn_app, skipn_all, Nat.sub_diag. cbn [app skipn].
    rewrite firstn_app, firstn_all, Nat.sub_diag. simpl. apply app_nil_r.
  Qed.

  Lemma built_wf F : (forall r e, 0 <= r < m_rows A -> In e (F r) -> In e (row_entries A r)) ->
    csr_wf (csr_of (N:=N) (m_rows A) (m_cols A) (map fst (allE F (m_rows A))) (pre F (m_rows A))
            (map snd (allE F (m_rows A)))).
  Proof.
    intros SUB. pose proof WF as (H1 & H2 & _). unfold csr_wf. cbn [csr_of m_rows m_cols m_row m_col m_vals m_tmp].
    split; auto. split; auto. split; [unfold pre; rewrite zlen_map, zlen_zrange; lia|].
    split; [rewrite !zlen_map; auto|]. split; [apply zlen_fresh; auto|]. split.
    - intros r Hr. exists (zlen (allE F r)), (zlen (allE F (r + 1))). rewrite !zget_pre by lia.
      split; auto. split; auto. rewrite zlen_map. pose proof (zlen_nonneg (allE F r)).
      rewrite allE_snoc, zlen_app by lia. pose proof (zlen_nonneg (F r)).
      assert (EQ : allE F (m_rows A) = allE F r ++ F r ++ flat_map F (zrange (r + 1) (m_rows A))).
      { unfold allE. rewrite (zrange_split 0 r (m_rows A)), (zrange_cons r) by lia. rewrite flat_map_app. reflexivity. }
      rewrite EQ, !zlen_app. pose proof (zlen_nonneg (flat_map F (zrange (r + 1) (m_rows A)))). lia.
    - intros j c Hc. apply zget_in in Hc. apply in_map_iff in Hc as (e & <- & He).
      unfold allE in He. apply in_flat_map in He as (r & Hr & He). apply in_zrange in Hr.
      apply SUB in He; auto. destruct (entry_at A WF r e Hr He) as (j' & Hj & ->).
      apply (wf_ent A WF r j' Hr Hj).
  Qed.

  Lemma diag_list d : (forall r, 0 <= r < m_rows A -> diag_entry A r (d r)) ->
    holds1 (m_rows A) (map snd (allE diaE (m_rows A))) d.
  Proof.
    intros DG. assert (map snd (allE diaE (m_rows A)) = map d (zrange 0 (m_rows A))) as ->.
    { unfold allE. assert (forall l, (forall r, In r l -> 0 <= r < m_rows A) ->
        map snd (flat_map diaE l) = map d l).
      { induction l as [|r l IH]; intros H; auto. cbn [flat_map map]. rewrite map_app, IH by (intros; apply H; right; auto).
        unfold diaE. rewrite (DG r (H r (or_introl eq_refl))). reflexivity. }
      apply H. intros r Hr. apply in_zrange in Hr. auto. }
    destruct WF as (H0 & _). split.
    - rewrite zlen_map, zlen_zrange. lia.
    - intros i Hi. rewrite zget_map, zget_zrange by lia. reflexivity.
  Qed.

  Lemma ldu_diag_loop (D : list V) d n : holds1 n D d -> 0 <= n ->
    exists di, forall_loop 0 n (ldu_diag_body meps) [D; fresh n] = Ok [D; di] /\
      schedule_independent (map (ldu_diag_body meps) (zrange 0 n)) [D; fresh n] [D; di] /\
      holds1 n di (fun r => (nint 1 / clip_diag meps (d r))%num).
  Proof.
    intros (L & G) Hn.
    destruct (out_loop [D; fresh n] 1 (fresh n) n (ldu_diag_body meps)
      (fun r => (nint 1 / clip_diag meps (d r))%num)) as (di & SI & E & L' & T & F).
    - reflexivity.
    - rewrite zlen_fresh; lia.
    - intros r Hr. unfold ldu_diag_body.
      prove_uses ltac:(first [split; [eapply inb_get; [reflexivity|lia]|discriminate] | auto]).
    - intros r Hr. unfold ldu_diag_body. eapply st_rd; [simpl; tauto|apply G; auto|].
      eapply st_rd; [simpl; tauto|apply G; auto|]. apply st_wr; [|apply st_done].
      eapply inb_get; [reflexivity|]. rewrite zlen_fresh; lia.
    - exists di. split; [exact E|]. split; [exact SI|]. split; [|exact T]. rewrite L'. apply zlen_fresh; lia.
  Qed.

  Theorem ldu_ok d : (forall r, 0 <= r < m_rows A -> diag_entry A r (d r)) ->
    exists L, ldu_of meps A = Ok L /\ l_rows L = m_rows A /\ l_cols L = m_cols A /\
      csr_wf (l_lower L) /\ csr_wf (l_upper L) /\
      m_rows (l_lower L) = m_rows A /\ m_cols (l_lower L) = m_cols A /\
      m_rows (l_upper L) = m_rows A /\ m_cols (l_upper L) = m_cols A /\
      holds1 (m_rows A) (l_diag L) d /\
      holds1 (m_rows A) (l_dinv L) (fun r => (nint 1 / clip_diag meps (d r))%num) /\
      zlen (l_tmp L) = m_cols A /\ zlen (l_tmp2 L) = m_cols A /\
      (forall r, 0 <= r < m_rows A -> row_entries (l_lower L) r = lowE r /\ row_entries (l_upper L) r = uppE r).
  Proof.
    intros DG. unfold ldu_of. rewrite split_all. cbn [rbind].
    pose proof (diag_list d DG) as HD. pose proof HD as (LD & _). pose proof WF as (H0 & H1 & _).
    destruct (ldu_diag_loop _ d (m_rows A) HD H0) as (di & E & _ & Hdi).
    cbn [p_diag split_at]. rewrite LD, E. cbn [rbind of_opt nth_error].
    eexists. split; [reflexivity|].
    cbn [l_rows l_cols l_lower l_upper l_diag l_dinv l_tmp l_tmp2 p_lcol p_lrow p_lower p_ucol p_urow p_upper].
    split; auto. split; auto. split.
    { apply built_wf. intros r e _ He. apply filter_In in He. tauto. }
    split. { apply built_wf. intros r e _ He. apply filter_In in He. tauto. }
    split; auto. split; auto. split; auto. split; auto. split; auto. split; auto.
    split; [apply zlen_fresh; auto|]. split; [apply zlen_fresh; auto|].
    intros r Hr. split; apply (built_entries _ r (m_cols A) tt Hr).
  Qed.
End Split.

(** ** The product *)
Section Product.
  Context {V : Type} {N : Num V}.

  Lemma acc_at_uses (A : csr V) (WF : csr_wf A) (RR WW : nat -> Z -> Prop) a xa r k s0 :
    0 <= r < m_rows A ->
    (forall i, 0 <= i < zlen (m_vals A) -> RR a i) ->
    (forall i, 0 <= i < m_cols A -> RR xa i) ->
    (forall s, uses RR WW (k s)) ->
    uses RR WW (for_row A r (acc_prod_at A a xa) s0 k).
  Proof.
    intros Hr R0 R1 Hk. unfold for_row. destruct (wf_row A WF r Hr) as (E1 & E2 & B1 & B2).
    rewrite E1, E2. apply (for_acc_uses RR WW (fun _ _ => True)); auto.
    intros j t s k' (q & Q) _ Hk'.
    assert (rlo A r <= j < rlo A (r + 1)) as Hj.
    { apply in_zrange. rewrite Q. apply in_or_app. right; left; auto. }
    destruct (wf_ent A WF r j Hr Hj) as (Ec & Ev & Bc). unfold acc_prod_at. rewrite Ec.
    apply uses_rd; [apply R0; lia|]. intros v. apply uses_rd; [apply R1; auto|]. intros; auto.
  Qed.

  Lemma acc_at_stores (A : csr V) (WF : csr_wf A) (m : mem V) a xa (x : list V) u r k s0 ws :
    0 <= r < m_rows A -> holds1 (m_cols A) x u ->
    nth_error m a = Some (m_vals A) -> nth_error m xa = Some x ->
    stores m [] (k (row_product u (row_entries A r) s0)) ws ->
    stores m [] (for_row A r (acc_prod_at A a xa) s0 k) ws.
  Proof.
    intros Hr (Lx & Hx) M0 M1 H. unfold for_row. destruct (wf_row A WF r Hr) as (E1 & E2 & B1 & B2).
    rewrite E1, E2.
    apply (for_acc_stores m [] (acc_prod_at A a xa) (fun s j => (s + eval A j * u (ecol A j))%num)).
    - intros j s k' ws' Hj H'. apply in_zrange in Hj. destruct (wf_ent A WF r j Hr Hj) as (Ec & Ev & Bc).
      unfold acc_prod_at. rewrite Ec.
      eapply st_rd; [simpl; tauto|unfold mread; rewrite M0; exact Ev|].
      eapply st_rd; [simpl; tauto|unfold mread; rewrite M1; apply Hx; auto|]. auto.
    - revert H. unfold row_product.
      rewrite <- (fold_entries A WF (fun s e => (s + snd e * u (fst e))%num) r s0 Hr). auto.
  Qed.

  Lemma ldu_matvec_loop (L : ldu V) x b u d :
    csr_wf (l_lower L) -> csr_wf (l_upper L) ->
    m_rows (l_lower L) = l_rows L -> m_rows (l_upper L) = l_rows L ->
    m_cols (l_lower L) = l_cols L -> m_cols (l_upper L) = l_cols L -> l_rows L = l_cols L ->
    holds1 (l_rows L) (l_diag L) d -> holds1 (l_cols L) x u -> l_rows L <= zlen b ->
    exists b', schedule_independent (map (ldu_matvec_body L) (zrange 0 (l_rows L)))
       (ldu_matvec_mem L x b) (ldu_matvec_mem L x b') /\
      ldu_matvec L x b = Ok b' /\ zlen b' = zlen b /\
      (forall r, 0 <= r < l_rows L -> zget b' r = Some
         (row_product u (row_entries (l_upper L) r) (row_product u (row_entries (l_lower L) r) (nint 0)) + d r * u r)%num) /\
      (forall r, ~ 0 <= r < l_rows L -> zget b' r = zget b r).
  Proof.
    intros WL WU RL RU CL CU SQ (Ld & Gd) Hx Lb. pose proof Hx as (Lx & Gx).
    destruct (out_loop (ldu_matvec_mem L x b) 4 b (l_rows L) (ldu_matvec_body L)
       (fun r => (row_product u (row_entries (l_upper L) r) (row_product u (row_entries (l_lower L) r) (nint 0)) + d r * u r)%num))
       as (b' & SI & E & LL & T & F).
    - reflexivity.
    - auto.
    - intros r Hr. unfold ldu_matvec_body.
      apply (acc_at_uses _ WL); [lia| | |].
      + intros i Hi. split; [eapply inb_get; [reflexivity|exact Hi]|discriminate].
      + intros i Hi. split; [eapply inb_get; [reflexivity|lia]|discriminate].
      + intros s. apply (acc_at_uses _ WU); [lia| | |].
        * intros i Hi. split; [eapply inb_get; [reflexivity|exact Hi]|discriminate].
        * intros i Hi. split; [eapply inb_get; [reflexivity|lia]|discriminate].
        * intros s2. prove_uses ltac:(first [split; [eapply inb_get; [reflexivity|lia]|discriminate] | auto]).
    - intros r Hr. unfold ldu_matvec_body.
      apply (acc_at_stores _ WL (ldu_matvec_mem L x b) 0 3 x u); [lia|rewrite CL; exact Hx|reflexivity|reflexivity|].
      apply (acc_at_stores _ WU (ldu_matvec_mem L x b) 1 3 x u); [lia|rewrite CU; exact Hx|reflexivity|reflexivity|].
      eapply st_rd; [simpl; tauto|apply Gd; auto|]. eapply st_rd; [simpl; tauto|apply Gx; lia|].
      apply st_wr; [eapply inb_get; [reflexivity|lia]|]. apply st_done.
    - exists b'. split; [exact SI|]. split; [|split; [exact LL|split; [exact T|exact F]]].
      unfold ldu_matvec. rewrite E. reflexivity.
  Qed.

  Lemma ldu_jacobi_loop meps w lx ux x D b fl fu u d f n :
    holds1 n x u -> holds1 n D d -> holds1 n b f ->
    n <= zlen lx -> n <= zlen ux ->
    (forall r, 0 <= r < n -> zget lx r = Some (fl r)) -> (forall r, 0 <= r < n -> zget ux r = Some (fu r)) ->
    exists x', schedule_independent (map (ldu_jacobi_body meps w) (zrange 0 n)) [lx; ux; x; D; b] [lx; ux; x'; D; b] /\
      forall_loop 0 n (ldu_jacobi_body meps w) [lx; ux; x; D; b] = Ok [lx; ux; x'; D; b] /\
      holds1 n x' (fun r => if neqb w (nint 1)
        then (nint 1 / clip_diag meps (d r) * (f r - fl r - fu r))%num
        else (w * nint 1 / clip_diag meps (d r) * (f r - fl r - fu r) + (nint 1 - w) * u r)%num).
  Proof.
    intros (L1 & G1) (L2 & G2) (L3 & G3) L4 L5 G4 G5.
    destruct (out_loop [lx; ux; x; D; b] 2 x n (ldu_jacobi_body meps w)
      (fun r => if neqb w (nint 1)
        then (nint 1 / clip_diag meps (d r) * (f r - fl r - fu r))%num
        else (w * nint 1 / clip_diag meps (d r) * (f r - fl r - fu r) + (nint 1 - w) * u r)%num)) as (x' & SI & E & L & T & F).
    - reflexivity.
    - lia.
    - intros r Hr. unfold ldu_jacobi_body.
      apply uses_rd; [split; [eapply inb_get; [reflexivity|lia]|discriminate]|intros d1].
      apply uses_rd; [split; [eapply inb_get; [reflexivity|lia]|discriminate]|intros d2].
      destruct (neqb w (nint 1));
      prove_uses ltac:(first [split; [eapply inb_get; [reflexivity|lia]|first [discriminate|auto]] | auto]).
    - intros r Hr. unfold ldu_jacobi_body. eapply st_rd; [simpl; tauto|apply G2; auto|].
      eapply st_rd; [simpl; tauto|apply G2; auto|].
      destruct (neqb w (nint 1)).
      + eapply st_rd; [simpl; tauto|apply G3; auto|]. eapply st_rd; [simpl; tauto|apply G4; auto|].
        eapply st_rd; [simpl; tauto|apply G5; auto|]. apply st_wr; [eapply inb_get; [reflexivity|lia]|]. apply st_done.
      + eapply st_rd; [simpl; tauto|apply G3; auto|]. eapply st_rd; [simpl; tauto|apply G4; auto|].
        eapply st_rd; [simpl; tauto|apply G5; auto|]. eapply st_rd; [simpl; tauto|apply G1; auto|].
        apply st_wr; [eapply inb_get; [reflexivity|lia]|]. apply st_done.
    - exists x'. split; [exact SI|]. split; [exact E|]. split; [lia|exact T].
  Qed.

  Lemma ldu_cached_loop w lx ux x D b fl fu u d f n :
    holds1 n x u -> holds1 n D d -> holds1 n b f ->
    n <= zlen lx -> n <= zlen ux ->
    (forall r, 0 <= r < n -> zget lx r = Some (fl r)) -> (forall r, 0 <= r < n -> zget ux r = Some (fu r)) ->
    exists x', schedule_independent (map (ldu_cached_body w) (zrange 0 n)) [lx; ux; x; D; b] [lx; ux; x'; D; b] /\
      forall_loop 0 n (ldu_cached_body w) [lx; ux; x; D; b] = Ok [lx; ux; x'; D; b] /\
      holds1 n x' (fun r => if neqb w (nint 1)
        then (d r * (f r - fl r - fu r))%num
        else (w * d r * (f r - fl r - fu r) + (nint 1 - w) * u r)%num).
  Proof.
    intros (L1 & G1) (L2 & G2) (L3 & G3) L4 L5 G4 G5.
    destruct (out_loop [lx; ux; x; D; b] 2 x n (ldu_cached_body w)
      (fun r => if neqb w (nint 1)
        then (d r * (f r - fl r - fu r))%num
        else (w * d r * (f r - fl r - fu r) + (nint 1 - w) * u r)%num)) as (x' & SI & E & L & T & F).
    - reflexivity.
    - lia.
    - intros r Hr. unfold ldu_cached_body.
      do 4 (apply uses_rd; [split; [eapply inb_get; [reflexivity|lia]|discriminate]|intros ?]).
      destruct (neqb w (nint 1));
      prove_uses ltac:(first [split; [eapply inb_get; [reflexivity|lia]|first [discriminate|auto]] | auto]).
    - intros r Hr. unfold ldu_cached_body. eapply st_rd; [simpl; tauto|apply G2; auto|].
      eapply st_rd; [simpl; tauto|apply G3; auto|]. eapply st_rd; [simpl; tauto|apply G4; auto|].
      eapply st_rd; [simpl; tauto|apply G5; auto|].
      destruct (neqb w (nint 1)).
      + apply st_wr; [eapply inb_get; [reflexivity|lia]|]. apply st_done.
      + eapply st_rd; [simpl; tauto|apply G1; auto|].
        apply st_wr; [eapply inb_get; [reflexivity|lia]|]. apply st_done.
    - exists x'. split; [exact SI|]. split; [exact E|]. split; [lia|exact T].
  Qed.
End Product.

(** Stored entries split three ways. *)
Lemma three_way (A : csr R) u r d : csr_wf A -> 0 <= r < m_rows A -> 0 <= r < m_cols A -> diag_entry A r d ->
  (Rsum (map (fun e => snd e * u (fst e)) (lowE A r)) + Rsum (map (fun e => snd e * u (fst e)) (uppE A r)) = off_mul_vec A u r)%R.
Proof.
  intros WF Hr Hc D. rewrite <- (off_product A u r d WF Hr Hc D). rewrite row_product_R. unfold lowE, uppE, off_entries.
  simpl. rewrite Rplus_0_l. clear. induction (row_entries A r) as [|e l IH]; simpl; [lra|].
  destruct (Z.eqb_spec (fst e) r), (Z.ltb_spec (fst e) r), (Z.ltb_spec r (fst e)); try lia; simpl; lra.
Qed.
