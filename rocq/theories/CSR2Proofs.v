(** Proofs about residual norms, Jacobi sweeps, row scaling, dominance. *)
From Coq Require Import ZArith List Reals Lra Lia Permutation.
From Verif Require Import Outcome ZList ZListProofs Num Kernel KernelProofs Gather SpecGrid Loop
  ModelReduce ModelCSR SpecField SumProofs SpecMatrix CSRProofs ReduceProofs.
From Coq Require Import ZifyBool ZifyNat.
Import ListNotations.
Local Open Scope Z_scope.

Lemma map_res_ok {A B} (f : A -> res B) (g : A -> B) l :
  (forall x, In x l -> f x = Ok (g x)) -> map_res f l = Ok (map g l).
Proof.
  induction l as [|x l IH]; simpl; intros H; auto. rewrite H by auto. simpl. rewrite IH by auto. reflexivity.
Qed.

Lemma wf_set_tmp {V} (A : csr V) t : csr_wf A -> zlen t = m_cols A -> csr_wf (set_tmp A t).
Proof. unfold csr_wf. simpl. tauto. Qed.

(** ** Residual norm *)
Lemma rms_R (A : csr R) x b u f :
  csr_wf A -> square A -> holds1 (m_cols A) x u -> holds1 (m_rows A) b f ->
  (exists v A', rms_norm A x b v A') /\
  forall v A', rms_norm A x b v A' ->
    v = sqrt (sum1 (m_rows A) (fun r => (mul_vec A u r - f r) * (mul_vec A u r - f r)) / IZR (m_rows A))%R /\
    m_vals A' = m_vals A /\ csr_wf A'.
Proof.
  intros WF SQ Hx (Lb & Hb). red in SQ.
  destruct (matvec_R A x (m_tmp A) u WF Hx) as (t & SI & E & Lt & Ht).
  { destruct WF as (_ & _ & _ & _ & L & _). lia. }
  assert (MR : map_res (sq_diff t b) (zrange 0 (zlen t))
    = Ok (map (fun r => (mul_vec A u r - f r) * (mul_vec A u r - f r))%R (zrange 0 (zlen t)))).
  { apply map_res_ok. intros r Hr. apply in_zrange in Hr. unfold sq_diff. rewrite Ht, Hb by lia. reflexivity. }
  split.
  - destruct (reduction_exists (V:=R) nadd (nint 0) (nint 0)
      (map (fun r => (mul_vec A u r - f r) * (mul_vec A u r - f r))%R (zrange 0 (zlen t)))) as (tot & Ht').
    eexists _, _, t, _, tot. split; [exact E|]. split; [reflexivity|]. split; [exact MR|]. split; [exact Ht'|reflexivity].
  - intros v A' (t' & cs & tot & E' & -> & M' & RD & ->). assert (t' = t) as -> by congruence.
    assert (cs = map (fun r => (mul_vec A u r - f r) * (mul_vec A u r - f r))%R (zrange 0 (zlen t))) as -> by congruence.
    split; [|split; [reflexivity|]].
    + apply reduction_sum in RD. subst tot. rewrite Lt. reflexivity.
    + apply wf_set_tmp; auto; lia.
Qed.

Lemma sum1_sq_zero n (g : Z -> R) : sum1 n (fun r => g r * g r)%R = 0%R -> forall r, 0 <= r < n -> g r = 0%R.
Proof.
  intros H r Hr. unfold sum1 in H. rewrite (zrange_split 0 r n), (zrange_cons r n) in H by lia.
  rewrite map_app, Rsum_app in H. cbn [map Rsum fold_right] in H.
  assert (0 <= Rsum (map (fun r => g r * g r) (zrange 0 r)))%R by (apply Rsum_map_nonneg; intros; nra).
  assert (0 <= Rsum (map (fun r => g r * g r) (zrange (r + 1) n)))%R by (apply Rsum_map_nonneg; intros; nra).
  unfold Rsum in *. nra.
Qed.

(** ** Jacobi *)
Section Jacobi.
  Context {V : Type} {N : Num V}.
  Variable meps : V.

  Definition jac_fold (irow : Z) (u : Z -> V) (s : V * option V) (e : Z * V) : V * option V :=
    if fst e =? irow then (fst s, Some (clip_diag meps (snd e)))
    else ((fst s + snd e * u (fst e))%num, snd s).

  Definition jac_value (w : V) (bv xv : V) (s : V * option V) (d : V) : V :=
    if neqb w (nint 1) then (nint 1 / d * (bv - fst s))%num
    else (w / d * (bv - fst s) + (nint 1 - w) * xv)%num.

  Definition off_entries (r : Z) (es : list (Z * V)) : list (Z * V) := filter (fun e => negb (fst e =? r)) es.

  Lemma jac_fold_split r u es s d :
    filter (fun e => fst e =? r) es = [(r, d)] ->
    fold_left (jac_fold r u) es s
    = (row_product u (off_entries r es) (fst s), Some (clip_diag meps d)).
  Proof.
    assert (G : forall es s, filter (fun e => fst e =? r) es = [] ->
      fold_left (jac_fold r u) es s = (row_product u (off_entries r es) (fst s), snd s)).
    { induction es0 as [|e es0 IH]; intros s0 H; simpl in *; [destruct s0; reflexivity|].
      unfold jac_fold at 2. destruct (fst e =? r) eqn:E; [discriminate|]. rewrite IH by auto. reflexivity. }
    revert s. induction es as [|e es IH]; intros s H; [discriminate|].
    cbn [fold_left off_entries filter] in *. unfold jac_fold at 2. destruct (fst e =? r) eqn:E; simpl in *.
    - injection H as He H. rewrite G by auto. rewrite He. reflexivity.
    - rewrite IH by auto. reflexivity.
  Qed.

  Lemma jacobi_loop (A : csr V) x b u f w d :
    csr_wf A -> square A -> (forall r, 0 <= r < m_rows A -> diag_entry A r (d r)) ->
    holds1 (m_cols A) x u -> holds1 (m_rows A) b f ->
    exists x', schedule_independent (map (jacobi_body meps A w) (zrange 0 (m_rows A)))
        [m_vals A; x; b; m_tmp A] [m_vals A; x; b; x'] /\
      jacobi meps A x b w = Ok (x', set_tmp A x) /\
      holds1 (m_rows A) x' (fun r => jac_value w (f r) (u r)
        (row_product u (off_entries r (row_entries A r)) (nint 0), None) (clip_diag meps (d r))).
  Proof.
    intros WF SQ DG Hx Hb. red in SQ. pose proof Hx as (Lx & Gx). pose proof Hb as (Lb & Gb).
    assert (Lt : zlen (m_tmp A) = m_cols A) by apply WF.
    destruct (out_loop [m_vals A; x; b; m_tmp A] 3 (m_tmp A) (m_rows A) (jacobi_body meps A w)
      (fun r => jac_value w (f r) (u r)
        (row_product u (off_entries r (row_entries A r)) (nint 0), None) (clip_diag meps (d r)))) as (x' & SI & E & L & T & F).
    - reflexivity.
    - lia.
    - intros r Hr. unfold jacobi_body, for_row. destruct (wf_row A WF r Hr) as (E1 & E2 & B1 & B2).
      rewrite E1, E2.
      apply (for_acc_uses _ _ (fun js s => snd s <> None \/ exists j, In j js /\ zget (m_col A) j = Some r)).
      + intros s [H|(j & [] & _)]. destruct (snd s) as [dd|]; [|congruence].
        destruct (neqb w (nint 1));
        prove_uses ltac:(first [split; [eapply inb_get; [reflexivity|lia]|discriminate] | auto]).
      + intros j t s k (q & Q) I Hk.
        assert (rlo A r <= j < rlo A (r + 1)) as Hj.
        { apply in_zrange. rewrite Q. apply in_or_app. right; left; auto. }
        destruct (wf_ent A WF r j Hr Hj) as (Ec & Ev & Bc). unfold jacobi_step. rewrite Ec.
        destruct (Z.eqb_spec (ecol A j) r) as [EQ|NE].
        * apply uses_rd; [split; [eapply inb_get; [reflexivity|lia]|discriminate]|].
          intros v. apply Hk. left. simpl. discriminate.
        * apply uses_rd; [split; [eapply inb_get; [reflexivity|lia]|discriminate]|].
          intros v. apply uses_rd; [split; [eapply inb_get; [reflexivity|lia]|discriminate]|].
          intros xv. apply Hk. simpl. destruct I as [I|(j' & [<-|I] & C)]; auto.
          -- congruence.
          -- right. eauto.
      + right. pose proof (DG r Hr) as D. red in D.
        assert (In (r, d r) (row_entries A r)) as He.
        { apply (proj1 (filter_In (fun e => fst e =? r) (r, d r) (row_entries A r))). rewrite D. left; auto. }
        destruct (entry_at A WF r _ Hr He) as (j & Hj & EE). exists j. split; [apply in_zrange; auto|].
        destruct (wf_ent A WF r j Hr Hj) as (Ec & _). rewrite Ec. congruence.
    - intros r Hr. unfold jacobi_body, for_row. destruct (wf_row A WF r Hr) as (E1 & E2 & B1 & B2).
      rewrite E1, E2.
      apply (for_acc_stores _ [] (jacobi_step meps A r) (fun s j => jac_fold r u s (ecol A j, eval A j))).
      + intros j s k' ws' Hj H'. apply in_zrange in Hj. destruct (wf_ent A WF r j Hr Hj) as (Ec & Ev & Bc).
        unfold jacobi_step. rewrite Ec. unfold jac_fold in H'. cbn [fst snd] in H'.
        destruct (ecol A j =? r).
        * eapply st_rd; [simpl; tauto|exact Ev|]. auto.
        * eapply st_rd; [simpl; tauto|exact Ev|]. eapply st_rd; [simpl; tauto|apply Gx; auto|]. auto.
      + rewrite (fold_entries A WF (jac_fold r u) r _ Hr). rewrite (jac_fold_split _ _ _ _ _ (DG r Hr)).
        cbn [fst snd]. unfold jac_value. destruct (neqb w (nint 1)); cbn [fst].
        * eapply st_rd; [simpl; tauto|apply Gb; auto|]. apply st_wr; [eapply inb_get; [reflexivity|lia]|]. apply st_done.
        * eapply st_rd; [simpl; tauto|apply Gb; auto|]. eapply st_rd; [simpl; tauto|apply Gx; lia|].
          apply st_wr; [eapply inb_get; [reflexivity|lia]|]. apply st_done.
    - exists x'. unfold jacobi, jacobi_mem. rewrite E. simpl. split; [exact SI|]. split; [reflexivity|].
      split; [lia|auto].
  Qed.

  (** ** The cached inverse diagonal *)
  Lemma filter_map_one {A B} (f : A -> B) (p : B -> bool) l y :
    filter p (map f l) = [y] ->
    exists q x t, l = q ++ x :: t /\ f x = y /\ p y = true /\
      (forall z, In z q \/ In z t -> p (f z) = false).
  Proof.
    assert (G : forall l, filter p (map f l) = [] -> forall z, In z l -> p (f z) = false).
    { induction l0 as [|x l0 IH]; simpl; [tauto|]. intros H z. destruct (p (f x)) eqn:E; [discriminate|].
      intros [<-|Hz]; auto. }
    induction l as [|x l IH]; simpl; [discriminate|]. destruct (p (f x)) eqn:E; intros H.
    - injection H as H1 H2. exists [], x, l. split; auto. split; auto. split; [congruence|].
      intros z [[]|Hz]. exact (G l H2 z Hz).
    - destruct (IH H) as (q & x' & t & -> & F & P & Z). exists (x :: q), x', t. split; auto. split; auto.
      split; auto. intros z [[<-|Hz]|Hz]; auto.
  Qed.

  Lemma diag_skip (A : csr V) r js (k : unit -> prog V) :
    (forall j, In j js -> exists c, zget (m_col A) j = Some c /\ c <> r) ->
    for_acc js (diag_step meps A r) tt k = k tt.
  Proof.
    induction js as [|j js IH]; simpl; intros H; auto.
    destruct (H j (or_introl eq_refl)) as (c & E & NE). unfold diag_step at 1. rewrite E.
    destruct (Z.eqb_spec c r); [congruence|]. apply IH. auto.
  Qed.
  Lemma diag_found (A : csr V) r q j t (k : unit -> prog V) :
    (forall j', In j' q \/ In j' t -> exists c, zget (m_col A) j' = Some c /\ c <> r) ->
    zget (m_col A) j = Some r ->
    for_acc (q ++ j :: t) (diag_step meps A r) tt k
    = Rd 0 j (fun v => Wr 1 r (nint 1 / clip_diag meps v)%num (k tt)).
  Proof.
    intros H E. induction q as [|j' q IH]; simpl.
    - unfold diag_step at 1. rewrite E, Z.eqb_refl. rewrite diag_skip; auto.
    - destruct (H j' (or_introl (or_introl eq_refl))) as (c & E' & NE). unfold diag_step at 1. rewrite E'.
      destruct (Z.eqb_spec c r); [congruence|]. apply IH. intros j0 [Hj|Hj]; apply H; simpl; auto.
  Qed.

  Lemma diag_body_eq (A : csr V) r d : csr_wf A -> 0 <= r < m_rows A -> diag_entry A r d ->
    exists j, 0 <= j < zlen (m_vals A) /\ zget (m_vals A) j = Some d /\
      diag_body meps A r = Rd 0 j (fun v => Wr 1 r (nint 1 / clip_diag meps v)%num Done).
  Proof.
    intros WF Hr D. destruct (wf_row A WF r Hr) as (E1 & E2 & B1 & B2).
    red in D. rewrite (row_entries_map A WF r Hr) in D.
    apply filter_map_one in D as (q & j & t & EQ & Ej & _ & NO).
    assert (IN : forall z, In z (q ++ j :: t) -> rlo A r <= z < rlo A (r + 1)).
    { intros z Hz. rewrite <- EQ in Hz. apply in_zrange in Hz. auto. }
    assert (Hj : rlo A r <= j < rlo A (r + 1)) by (apply IN, in_or_app; right; left; auto).
    destruct (wf_ent A WF r j Hr Hj) as (Ec & Ev & _). injection Ej as Ej1 Ej2.
    exists j. split; [lia|]. split; [congruence|].
    unfold diag_body, for_row. rewrite E1, E2, EQ. apply diag_found; [|congruence].
    intros z Hz. destruct (wf_ent A WF r z Hr) as (Ez & _).
    { apply IN, in_or_app. destruct Hz; [left; auto|right; right; auto]. }
    exists (ecol A z). split; auto. pose proof (NO z Hz) as X. simpl in X. apply Z.eqb_neq in X. auto.
  Qed.

  Lemma zlen_fresh n : 0 <= n -> zlen (fresh (V:=V) n) = n.
  Proof. intros. unfold zlen, fresh. rewrite repeat_length. lia. Qed.

  Lemma refresh_loop (A : csr V) d :
    csr_wf A -> (forall r, 0 <= r < m_rows A -> diag_entry A r (d r)) ->
    exists di, schedule_independent (map (diag_body meps A) (zrange 0 (m_rows A)))
        [m_vals A; fresh (m_rows A)] [m_vals A; di] /\
      forall_loop 0 (m_rows A) (diag_body meps A) [m_vals A; fresh (m_rows A)] = Ok [m_vals A; di] /\
      holds1 (m_rows A) di (fun r => (nint 1 / clip_diag meps (d r))%num).
  Proof.
    intros WF DG. pose proof WF as (H0 & _).
    destruct (out_loop [m_vals A; fresh (m_rows A)] 1 (fresh (m_rows A)) (m_rows A) (diag_body meps A)
      (fun r => (nint 1 / clip_diag meps (d r))%num)) as (di & SI & E & L & T & F).
    - reflexivity.
    - rewrite zlen_fresh; lia.
    - intros r Hr. destruct (diag_body_eq A r (d r) WF Hr (DG r Hr)) as (j & Hj & Ev & ->).
      apply uses_rd; [split; [eapply inb_get; [reflexivity|lia]|discriminate]|]. intros v.
      apply uses_wr; [auto|]. apply uses_done.
    - intros r Hr. destruct (diag_body_eq A r (d r) WF Hr (DG r Hr)) as (j & Hj & Ev & ->).
      eapply st_rd; [simpl; tauto|exact Ev|]. apply st_wr; [|apply st_done].
      eapply inb_get; [reflexivity|]. rewrite zlen_fresh; lia.
    - exists di. split; [exact SI|]. split; [exact E|]. split; [|exact T]. rewrite L. apply zlen_fresh; lia.
  Qed.

  (** The cache holds the inverses of the diagonals d. *)
  Definition cache_fresh (A : csr V) (d : Z -> V) : Prop :=
    m_dirty A = true \/
    exists di, m_diag_inv A = Some di /\ holds1 (m_rows A) di (fun r => (nint 1 / clip_diag meps (d r))%num).

  Lemma cached_loop (A : csr V) x b u f w d :
    csr_wf A -> square A -> (forall r, 0 <= r < m_rows A -> diag_entry A r (d r)) ->
    cache_fresh A d ->
    holds1 (m_cols A) x u -> holds1 (m_rows A) b f ->
    exists x' A' di, jacobi_cached meps A x b w = Ok (x', A') /\
      m_vals A' = m_vals A /\ m_col A' = m_col A /\ m_row A' = m_row A /\
      m_rows A' = m_rows A /\ m_cols A' = m_cols A /\ m_tmp A' = x /\
      m_dirty A' = false /\ m_diag_inv A' = Some di /\
      holds1 (m_rows A) di (fun r => (nint 1 / clip_diag meps (d r))%num) /\
      schedule_independent (map (cached_body A w) (zrange 0 (m_rows A)))
        [m_vals A; x; b; m_tmp A; di] [m_vals A; x; b; x'; di] /\
      holds1 (m_rows A) x' (fun r =>
        (w * (nint 1 / clip_diag meps (d r)) * f r
         + (u r - w * (nint 1 / clip_diag meps (d r)) * row_product u (row_entries A r) (nint 0)))%num).
  Proof.
    intros WF SQ DG FR Hx Hb. red in SQ. pose proof Hx as (Lx & Gx). pose proof Hb as (Lb & Gb).
    assert (Lt : zlen (m_tmp A) = m_cols A) by apply WF.
    assert (R : exists A1 di, refresh_diags meps A = Ok A1 /\ m_diag_inv A1 = Some di /\
      holds1 (m_rows A) di (fun r => (nint 1 / clip_diag meps (d r))%num) /\ m_vals A1 = m_vals A /\
      m_col A1 = m_col A /\ m_row A1 = m_row A /\ m_rows A1 = m_rows A /\ m_cols A1 = m_cols A /\
      m_tmp A1 = m_tmp A /\ m_dirty A1 = false).
    { unfold refresh_diags. destruct (m_dirty A) eqn:DI.
      - destruct (refresh_loop A d WF DG) as (di & _ & E & H). rewrite E. simpl.
        eexists _, di. split; [reflexivity|]. simpl. tauto.
      - destruct FR as [C|(di & E & H)]; [congruence|]. exists A, di. tauto. }
    destruct R as (A1 & di & E1 & Ed & Hd & EV & EC & ER & Er & Ecl & ET & ED).
    assert (WF1 : csr_wf A1) by (unfold csr_wf in *; rewrite EV, EC, ER, Er, Ecl, ET; auto).
    assert (RE : forall r, row_entries A1 r = row_entries A r) by (intros; unfold row_entries; rewrite EV, EC, ER; auto).
    assert (BODY : forall r, cached_body A1 w r = cached_body A w r).
    { intros. unfold cached_body, for_row, acc_prod. rewrite ER, EC. reflexivity. }
    destruct Hd as (Ld & Gd).
    destruct (out_loop [m_vals A; x; b; m_tmp A; di] 3 (m_tmp A) (m_rows A) (cached_body A w)
      (fun r => (w * (nint 1 / clip_diag meps (d r)) * f r
         + (u r - w * (nint 1 / clip_diag meps (d r)) * row_product u (row_entries A r) (nint 0)))%num))
      as (x' & SI & E & L & T & F).
    - reflexivity.
    - lia.
    - intros r Hr. unfold cached_body. apply (acc_uses A WF [] _ _ x r _ _ Hr Lx).
      + intros i Hi. split; [eapply inb_get; [reflexivity|exact Hi]|discriminate].
      + intros i Hi. split; [eapply inb_get; [reflexivity|lia]|discriminate].
      + intros s. prove_uses ltac:(first [split; [eapply inb_get; [reflexivity|lia]|discriminate] | auto]).
    - intros r Hr. unfold cached_body.
      apply (acc_stores A WF [m_vals A; x; b; m_tmp A; di] [] x u r _ _ _ Hr Hx eq_refl eq_refl eq_refl).
      cbv beta. eapply st_rd; [simpl; tauto|apply Gd; auto|]. eapply st_rd; [simpl; tauto|apply Gb; auto|].
      eapply st_rd; [simpl; tauto|apply Gx; lia|]. eapply st_rd; [simpl; tauto|apply Gd; auto|].
      apply st_wr; [eapply inb_get; [reflexivity|lia]|]. apply st_done.
    - exists x', (set_tmp A1 x), di. unfold jacobi_cached. rewrite E1. cbn [rbind]. rewrite Ed. cbn [rbind of_opt].
      rewrite EV, ET, Er. unfold forall_loop. rewrite (map_ext _ _ BODY).
      unfold forall_loop in E. rewrite E. cbn [rbind].
      split; [reflexivity|]. cbn [set_tmp m_vals m_col m_row m_rows m_cols m_tmp m_dirty m_diag_inv].
      repeat (split; [solve [auto]|]). split; [split; auto|]. split; [exact SI|]. split; [lia|exact T].
  Qed.
End Jacobi.
