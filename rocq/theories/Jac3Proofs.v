(** The loop of evalJacobian, for any arithmetic. *)
From Verif Require Import Outcome ZList ZListProofs Num Kernel KernelProofs Gather ModelIndex ModelDisc3D
  ModelCH ModelCSR ModelJac SpecGrid SpecMatrix SpecJac Loop Disc3DProofs Make3Proofs CHProofs CSRProofs CSR2Proofs
  Jac1Proofs Jac2Proofs.
From Coq Require Import ZifyBool ZifyNat.

Section Fill.
  Context {V : Type} `{N : Num V}.

  Definition term_val (u : Z -> Z -> Z -> V) (acc : V) (t : jac_term (V:=V)) : V :=
    match t with
    | TConst e => (acc + e)%num
    | TState i j k g => (acc + g (u i j k))%num
    end.

  Definition term_at (dom : domain V) (t : jac_term (V:=V)) : Prop :=
    match t with TConst _ => True | TState i j k _ => padded3 dom i j k end.

  Definition jac_value (d : disc3 V) p u irow icol i j k : V :=
    fold_left (term_val u) (jac_terms d p irow icol i j k) (nint 0).

  Lemma terms_at d p irow icol i j k :
    wf3 d -> 1 <= nhalo (d3_domain d) -> inside3 (d3_domain d) i j k ->
    forall t, In t (jac_terms d p irow icol i j k) -> term_at (d3_domain d) t.
  Proof.
    intros W H (Hi & Hj & Hk) t. unfold jac_terms. cbv zeta. rewrite !in_app_iff.
    assert (X : forall b (l : list (jac_term (V:=V))), In t (when b l) -> In t l)
      by (intros [] l; simpl; tauto).
    intros C. repeat (destruct C as [C|C]); apply X in C; simpl in C; intuition; subst; simpl; auto;
      unfold padded3; lia.
  Qed.

  Lemma run_terms_exec d dom f u q next : wf3 d -> d3_domain d = dom -> holds3 dom f u ->
    forall ts v acc, (forall t, In t ts -> term_at dom t) -> zget v q = Some acc ->
    exists v', exec (run_terms d q ts next) [f; v] = exec next [f; v'] /\ zlen v' = zlen v /\
      zget v' q = Some (fold_left (term_val u) ts acc) /\
      (forall q', q' <> q -> zget v' q' = zget v q').
  Proof.
    intros W D (Lf & Gf). induction ts as [|t ts IH]; intros v acc HT Hq.
    - exists v. auto.
    - assert (R := zget_range _ _ _ Hq).
      assert (HT' : forall t', In t' ts -> term_at dom t') by (intros t' H'; apply HT; right; exact H').
      assert (ST : forall e, exists v1, zset v q e = Some v1).
      { intros e. rewrite zset_some by lia. eauto. }
      destruct t as [e|i j k g]; cbn [run_terms exec fold_left term_val].
      + unfold mread. cbn [nth_error]. rewrite Hq. unfold mwrite. cbn [nth_error].
        destruct (ST (acc + e)%num) as (v1 & E1). rewrite E1. cbn [upd].
        destruct (IH v1 (acc + e)%num HT' (zget_zset_same _ _ _ _ E1)) as (v' & E & L & G & O).
        exists v'. split; [exact E|]. split; [rewrite L; eapply zlen_zset; eauto|]. split; [exact G|].
        intros q' NE. rewrite O by auto. apply (zget_zset_other _ _ _ _ _ E1). auto.
      + assert (P : padded3 dom i j k) by (apply (HT (TState i j k g)); left; reflexivity).
        unfold mread. cbn [nth_error]. rewrite (ix3_slot d i j k W), D, (Gf i j k P), Hq.
        unfold mwrite. cbn [nth_error].
        destruct (ST (acc + g (u i j k))%num) as (v1 & E1). rewrite E1. cbn [upd].
        destruct (IH v1 (acc + g (u i j k))%num HT' (zget_zset_same _ _ _ _ E1)) as (v' & E & L & G & O).
        exists v'. split; [exact E|]. split; [rewrite L; eapply zlen_zset; eauto|]. split; [exact G|].
        intros q' NE. rewrite O by auto. apply (zget_zset_other _ _ _ _ _ E1). auto.
  Qed.

  Lemma run_terms_uses d dom q next (RR WW : nat -> Z -> Prop) : wf3 d -> d3_domain d = dom ->
    (forall i, 0 <= i < cells3 dom -> RR 0%nat i) -> RR 1%nat q -> WW 1%nat q ->
    uses RR WW next ->
    forall ts, (forall t, In t ts -> term_at dom t) -> uses (V:=V) RR WW (run_terms d q ts next).
  Proof.
    intros W D R0 R1 W1 HN. induction ts as [|t ts IH]; intros HT; cbn [run_terms]; auto.
    assert (HT' : forall t', In t' ts -> term_at dom t') by (intros t' H'; apply HT; right; exact H').
    destruct t as [e|i j k g].
    - apply uses_rd; auto. intros v. apply uses_wr; auto.
    - apply uses_rd.
      + apply R0. rewrite (ix3_slot d i j k W), D. apply slot3_range.
        apply (HT (TState i j k g)). left. reflexivity.
      + intros x. apply uses_rd; auto. intros v. apply uses_wr; auto.
  Qed.

  Lemma row_exec d dom p A f u r i j k : wf3 d -> d3_domain d = dom -> holds3 dom f u ->
    1 <= nhalo dom -> inside3 dom i j k ->
    forall js v, NoDup js ->
    (forall q, In q js -> exists c, zget (m_col A) q = Some c) ->
    (forall q, In q js -> zget v q = Some (nint 0)) ->
    exists v', exec (for_acc js (jac_step d p A r i j k) tt (fun _ => Done)) [f; v] = Ok [f; v'] /\
      zlen v' = zlen v /\
      (forall q c, In q js -> zget (m_col A) q = Some c -> zget v' q = Some (jac_value d p u r c i j k)) /\
      (forall q, ~ In q js -> zget v' q = zget v q).
  Proof.
    intros W D HF Hh I. induction js as [|q js IH]; intros v ND HC HZ.
    - exists v. simpl. repeat split; auto. intros; contradiction.
    - inversion ND as [|? ? NI ND']; subst. cbn [for_acc]. unfold jac_step at 1.
      destruct (HC q (or_introl eq_refl)) as (c & Ec). rewrite Ec.
      destruct (run_terms_exec d (d3_domain d) f u q (for_acc js (jac_step d p A r i j k) tt (fun _ => Done))
                  W eq_refl HF (jac_terms d p r c i j k) v (nint 0)) as (v1 & E1 & L1 & G1 & O1).
      { apply terms_at; auto. }
      { apply HZ. left. reflexivity. }
      rewrite E1.
      destruct (IH v1 ND') as (v' & E & L & G & O).
      { intros q' H'. apply HC. right. exact H'. }
      { intros q' H'. rewrite O1 by (intros ->; contradiction). apply HZ. right. exact H'. }
      exists v'. split; [exact E|]. split; [lia|]. split.
      + intros q' c' [<-|H'] Ec'.
        * rewrite O by auto. assert (c' = c) as -> by congruence. exact G1.
        * apply G; auto.
      + intros q' NI'. rewrite O by (intros C; apply NI'; right; exact C).
        apply O1. intros ->. apply NI'. left. reflexivity.
  Qed.

  Lemma jac_loop d dom p A f u v0 : wf3 d -> d3_domain d = dom -> 1 <= nhalo dom ->
    csr_wf A -> m_rows A = ncells dom -> holds3 dom f u ->
    holds1 (zlen (m_vals A)) v0 (fun _ => nint 0) ->
    exists v, schedule_independent (map (jac_body d p A) (zrange 0 (zlen (m_row A) - 1))) [f; v0] [f; v] /\
      zlen v = zlen (m_vals A) /\
      (forall i j k q c, inside3 dom i j k -> rlo A (cellno dom i j k) <= q < rlo A (cellno dom i j k + 1) ->
         zget (m_col A) q = Some c ->
         zget v q = Some (jac_value d p u (cellno dom i j k) c i j k)).
  Proof.
    intros W D Hh WF NR HF (L0 & G0). assert (VD := wf_valid _ W). rewrite D in VD.
    assert (LR : zlen (m_row A) - 1 = ncells dom) by (destruct WF as (_ & _ & H & _); lia). rewrite LR.
    set (wi := fun r => map (fun q => (1%nat, q)) (zrange (rlo A r) (rlo A (r + 1)))).
    assert (IW : forall r a q, In (a, q) (wi r) <-> a = 1%nat /\ rlo A r <= q < rlo A (r + 1)).
    { intros r a q. unfold wi. rewrite in_map_iff. split.
      - intros (x & E & H). apply in_zrange in H. injection E as <- <-. auto.
      - intros (-> & H). exists q. split; auto. apply in_zrange; auto. }
    assert (BOD : forall i j k, inside3 dom i j k -> jac_body d p A (cellno dom i j k) =
       for_acc (zrange (rlo A (cellno dom i j k)) (rlo A (cellno dom i j k + 1)))
         (jac_step d p A (cellno dom i j k) i j k) tt (fun _ => Done)).
    { intros i j k I. unfold jac_body. rewrite (wf_nj _ W), (wf_nk _ W), D.
      destruct (cell_row_decode dom i j k VD I) as (E1 & E2 & E3). cbv zeta in E1, E2, E3. rewrite E1, E2, E3.
      unfold for_row. destruct (wf_row A WF (cellno dom i j k)) as (R1 & R2 & _).
      { rewrite NR. apply cellno_range; auto. }
      rewrite R1, R2. reflexivity. }
    set (xs := zrange 0 (ncells dom)).
    assert (G : gather_ok wi (jac_body d p A) xs [f; v0]).
    { split; [apply nodup_zrange|]. split; [|split].
      - intros x y (a, q) Hx Hy H1 H2. apply in_zrange in Hx, Hy. apply IW in H1 as (_ & H1), H2 as (_ & H2).
        eapply rows_disjoint; eauto; lia.
      - intros r Hr. apply in_zrange in Hr. destruct (cell_of_row dom r VD Hr) as (i & j & k & I & -> & _).
        rewrite (BOD i j k I).
        apply (for_acc_uses _ _ (fun _ _ => True)); [intros; apply uses_done| |auto].
        intros q rest s k' (pre & E) _ HK.
        assert (Hq : rlo A (cellno dom i j k) <= q < rlo A (cellno dom i j k + 1)).
        { apply in_zrange. rewrite E. apply in_app_iff. right. left. reflexivity. }
        unfold jac_step. destruct (wf_ent A WF (cellno dom i j k) q) as (Ec & _); [lia|auto|].
        destruct (wf_row A WF (cellno dom i j k)) as (_ & _ & B1 & B2); [lia|].
        rewrite Ec. apply (run_terms_uses d dom); auto.
        + intros x Hx. split; [eapply inb_get; [reflexivity|]; destruct HF as (LF & _); lia|].
          intros y _ C. apply IW in C as (C & _). discriminate C.
        + split; [eapply inb_get; [reflexivity|]; lia|]. intros y Hy C. apply IW in C as (_ & C).
          apply in_zrange in Hy. eapply rows_disjoint; eauto; lia.
        + apply IW. auto.
        + rewrite <- D. apply terms_at; auto; rewrite D; auto.
      - intros r a q Hr H. apply in_zrange in Hr. apply IW in H as (-> & H).
        destruct (wf_row A WF r) as (_ & _ & B1 & B2); [lia|]. eapply inb_get; [reflexivity|]. lia. }
    destruct (gather_schedule _ _ _ _ G) as (m' & E & S & P & Q & Rr).
    destruct (gather_result _ _ _ _ G) as (m'' & E' & _ & T & F).
    assert (m'' = m') as -> by congruence.
    destruct (same_shape_two _ _ _ S) as (f' & v & -> & Lf & Lv).
    assert (f' = f) as ->.
    { apply unread_eq; auto. intros q. apply (F 0%nat q). intros x Hx C. apply IW in C as (C & _). discriminate C. }
    exists v. split; [|split].
    - split; [exact E|]. split; [exact P|]. split; [exact Q|]. split; [exact Rr|]. apply every_schedule_terminates.
    - lia.
    - intros i j k q c I Hq Ec. assert (RG := cellno_range dom i j k I). fold (ncells dom) in RG.
      destruct (wf_row A WF (cellno dom i j k)) as (_ & _ & B1 & B2); [lia|].
      destruct (row_exec d dom p A f u (cellno dom i j k) i j k W D HF Hh I
          (zrange (rlo A (cellno dom i j k)) (rlo A (cellno dom i j k + 1))) v0) as (v' & E1 & _ & G1 & _).
      + apply nodup_zrange.
      + intros q' Hq'. apply in_zrange in Hq'. destruct (wf_ent A WF (cellno dom i j k) q') as (X & _); [lia|auto|].
        eauto.
      + intros q' Hq'. apply in_zrange in Hq'. apply G0. lia.
      + rewrite <- (BOD i j k I) in E1.
        pose proof (T (cellno dom i j k) [f; v'] 1%nat q) as TT. unfold mread in TT. cbn [nth_error] in TT.
        rewrite TT; [| apply in_zrange; exact RG | exact E1 | apply IW; auto].
        apply G1; auto. apply in_zrange. auto.
  Qed.

  Lemma eval_jacobian_spec d dom p A f u : wf3 d -> d3_domain d = dom -> 1 <= nhalo dom ->
    csr_wf A -> m_rows A = ncells dom -> holds3 dom f u ->
    exists v, eval_jacobian d p f A = Ok (set_values A v) /\ zlen v = zlen (m_vals A) /\
      (forall i j k q c, inside3 dom i j k -> rlo A (cellno dom i j k) <= q < rlo A (cellno dom i j k + 1) ->
         zget (m_col A) q = Some c ->
         zget v q = Some (jac_value d p u (cellno dom i j k) c i j k)) /\
      exists v0, holds1 (zlen (m_vals A)) v0 (fun _ => nint 0) /\
      schedule_independent (map zero_body (zrange 0 (zlen (m_vals A)))) [m_vals A] [v0] /\
      schedule_independent (map (jac_body d p A) (zrange 0 (zlen (m_row A) - 1))) [f; v0] [f; v].
  Proof.
    intros W D Hh WF NR HF. destruct (zero_loop_spec (m_vals A)) as (v0 & E0 & L0 & G0 & S0).
    assert (H0 : holds1 (zlen (m_vals A)) v0 (fun _ => nint 0)) by (split; auto).
    destruct (jac_loop d dom p A f u v0 W D Hh WF NR HF H0) as (v & SI & L & G).
    exists v. split; [|split; [|split; [|exists v0]]]; auto.
    unfold eval_jacobian. rewrite E0. cbn [rbind]. unfold forall_loop. destruct SI as (E & _). rewrite E.
    reflexivity.
  Qed.
End Fill.
