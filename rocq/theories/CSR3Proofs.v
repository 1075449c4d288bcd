(** Exact-arithmetic consequences for Jacobi sweeps; row scaling; dominance. *)
From Coq Require Import ZArith List Reals Lra Lia Permutation.
From Verif Require Import Outcome ZList ZListProofs Num Kernel KernelProofs Gather SpecGrid Loop
  ModelReduce ModelCSR SpecField SumProofs SpecMatrix CSRProofs ReduceProofs CSR2Proofs.
From Coq Require Import ZifyBool ZifyNat.
Import ListNotations.
Local Open Scope Z_scope.

Lemma sum1_pick n r (g : Z -> R) : 0 <= r < n ->
  sum1 n g = (g r + sum1 n (fun c => if (c =? r)%Z then 0 else g c))%R.
Proof.
  intros H. rewrite (sum1_ext n g (fun c => (if (c =? r)%Z then g c else 0) + (if (c =? r)%Z then 0 else g c))%R).
  2:{ intros i _. destruct (i =? r); lra. }
  rewrite sum1_plus. f_equal. unfold sum1. rewrite (zrange_split 0 r n), (zrange_cons r n) by lia.
  rewrite map_app, Rsum_app. cbn [map].
  rewrite (map_ext_in _ (fun _ => 0%R) (zrange 0 r)).
  2:{ intros a Ha. apply in_zrange in Ha. destruct (Z.eqb_spec a r); [lia|auto]. }
  rewrite (map_ext_in _ (fun _ => 0%R) (zrange (r + 1) n)).
  2:{ intros a Ha. apply in_zrange in Ha. destruct (Z.eqb_spec a r); [lia|auto]. }
  rewrite Z.eqb_refl.
  change (Rsum (g r :: map (fun _ => 0%R) (zrange (r + 1) n)))
        with (g r + Rsum (map (fun _ => 0) (zrange (r + 1) n)))%R.
  rewrite !Rsum_map_const. lra.
Qed.

Lemma diag_dense (A : csr R) r d : diag_entry A r d -> dense A r r = d.
Proof. intros D. red in D. unfold dense. rewrite D. simpl. lra. Qed.

Lemma mul_vec_split (A : csr R) u r d : diag_entry A r d -> 0 <= r < m_cols A ->
  mul_vec A u r = (d * u r + off_mul_vec A u r)%R.
Proof.
  intros D H. unfold mul_vec, off_mul_vec. rewrite (sum1_pick (m_cols A) r) by auto.
  rewrite (diag_dense A r d D). reflexivity.
Qed.

Lemma off_product (A : csr R) u r d : csr_wf A -> 0 <= r < m_rows A -> 0 <= r < m_cols A -> diag_entry A r d ->
  row_product u (off_entries r (row_entries A r)) (nint 0) = off_mul_vec A u r.
Proof.
  intros WF Hr Hc D. pose proof (row_product_mul A u r WF Hr) as P. rewrite (mul_vec_split A u r d D Hc) in P.
  rewrite row_product_R in *. rewrite (Rsum_filter_split (fun e => fst e =? r)) in P.
  unfold off_entries. red in D. rewrite D in P. simpl in P |- *. lra.
Qed.

Lemma clip_big meps d : (meps < Rabs d)%R -> clip_diag meps d = d.
Proof. intros H. unfold clip_diag. simpl. unfold Rltb. destruct (Rlt_dec meps (Rabs d)); [auto|lra]. Qed.

Lemma Reqb_spec x y : Reqb x y = true <-> x = y.
Proof. unfold Reqb. destruct (Req_EM_T x y); split; congruence. Qed.


Lemma jac_value_R (A : csr R) meps w u f r d : csr_wf A -> 0 <= r < m_rows A -> 0 <= r < m_cols A ->
  diag_entry A r d -> (0 <= meps < Rabs d)%R ->
  jac_value w (f r) (u r) (row_product u (off_entries r (row_entries A r)) (nint 0), None) (clip_diag meps d)
  = jacobi_update A w u f r.
Proof.
  intros WF Hr Hc D B. rewrite clip_big by lra. rewrite (off_product A u r d) by auto.
  unfold jac_value, jacobi_update. cbn [fst]. rewrite (diag_dense A r d D).
  assert (d <> 0)%R by (intros ->; rewrite Rabs_R0 in B; lra).
  simpl. destruct (Reqb w 1) eqn:E; [apply Reqb_spec in E; subst|]; field; auto.
Qed.

Lemma cached_value_R (A : csr R) meps w u f r d : csr_wf A -> 0 <= r < m_rows A -> 0 <= r < m_cols A ->
  diag_entry A r d -> (0 <= meps < Rabs d)%R ->
  (w * (nint 1 / clip_diag meps d) * f r
    + (u r - w * (nint 1 / clip_diag meps d) * row_product u (row_entries A r) (nint 0)))%num
  = jacobi_update A w u f r.
Proof.
  intros WF Hr Hc D B. rewrite clip_big by lra. rewrite row_product_mul by auto.
  rewrite (mul_vec_split A u r d) by auto. unfold jacobi_update. rewrite (diag_dense A r d D).
  assert (d <> 0)%R by (intros ->; rewrite Rabs_R0 in B; lra). simpl. field; auto.
Qed.

Lemma jacobi_fixed (A : csr R) w u f r d : 0 <= r < m_cols A -> diag_entry A r d -> (d <> 0)%R -> (w <> 0)%R ->
  (jacobi_update A w u f r = u r <-> mul_vec A u r = f r).
Proof.
  intros Hc D Nd Nw. unfold jacobi_update. rewrite (mul_vec_split A u r d D Hc), (diag_dense A r d D).
  split; intros H.
  - assert (w * ((f r - off_mul_vec A u r) / d - u r) = 0)%R as Z by lra.
    apply Rmult_integral in Z as [Z|Z]; [lra|].
    assert (f r - off_mul_vec A u r = d * u r)%R; [|lra].
    replace (d * u r)%R with (d * ((f r - off_mul_vec A u r) / d))%R by (f_equal; lra). field; auto.
  - replace (f r - off_mul_vec A u r)%R with (d * u r)%R by lra. field. auto.
Qed.

(** ** Row scaling *)
Section Scale.
  Context {V : Type} {N : Num V}.

  Definition scale_one (p : Z * Z) : prog V :=
    Rd 0 (snd p) (fun v => Rd 1 (fst p) (fun r => Wr 0 (snd p) (v * r)%num Done)).

  Lemma scale_exec irow js (m : mem V) :
    exec (for_acc js (scale_step irow) tt (fun _ => Done)) m
    = exec_all (map scale_one (map (fun j => (irow, j)) js)) m.
  Proof.
    revert m. induction js as [|j js IH]; intros m; simpl; auto.
    destruct (mread m 0 j) as [v|]; auto. destruct (mread m 1 irow) as [r|]; auto.
    destruct (mwrite m 0 j (v * r)%num) as [m'|]; auto. cbn [rbind]. apply IH.
  Qed.
  Lemma scale_uses RR WW irow js :
    (forall b, In b (map (fun j => (irow, j)) js) -> uses RR WW (scale_one b)) ->
    uses (V:=V) RR WW (for_acc js (scale_step irow) tt (fun _ => Done)).
  Proof.
    induction js as [|j js IH]; simpl; intros H; [apply uses_done|].
    assert (U : uses RR WW (scale_one (irow, j))) by auto. unfold scale_one in U. cbn [fst snd] in U.
    inversion U as [|? ? ? R1 U1|]; subst. unfold scale_step. apply uses_rd; auto. intros v.
    specialize (U1 v). inversion U1 as [|? ? ? R2 U2|]; subst. apply uses_rd; auto. intros r.
    specialize (U2 r). inversion U2; subst. apply uses_wr; auto.
  Qed.

  Lemma scale_loop (A : csr V) sc s :
    csr_wf A -> holds1 (m_rows A) sc s ->
    exists vals', schedule_independent (map (scale_body A) (zrange 0 (m_rows A))) [m_vals A; sc] [vals'; sc] /\
      scale_rows A sc = Ok (set_values A vals') /\ zlen vals' = zlen (m_vals A) /\
      (forall r j, 0 <= r < m_rows A -> rlo A r <= j < rlo A (r + 1) ->
         zget vals' j = Some (eval A j * s r)%num) /\
      (forall j, (forall r, 0 <= r < m_rows A -> ~ rlo A r <= j < rlo A (r + 1)) ->
         zget vals' j = zget (m_vals A) j).
  Proof.
    intros WF (Ls & Gs).
    set (inner := fun r => map (fun j => (r, j)) (zrange (rlo A r) (rlo A (r + 1)))).
    assert (IN : forall r j, In (r, j) (flat_map inner (zrange 0 (m_rows A))) <->
                  0 <= r < m_rows A /\ rlo A r <= j < rlo A (r + 1)).
    { intros r j. rewrite in_flat_map. unfold inner. split.
      - intros (x & Hx & Hj). apply in_map_iff in Hj as (j' & E & Hj). apply in_zrange in Hx, Hj.
        injection E as <- <-. auto.
      - intros (H1 & H2). exists r. split; [apply in_zrange; auto|]. apply in_map_iff. exists j.
        split; auto. apply in_zrange; auto. }
    assert (BOD : forall r, 0 <= r < m_rows A -> scale_body A r
       = for_acc (zrange (rlo A r) (rlo A (r + 1))) (scale_step r) tt (fun _ => Done)).
    { intros r Hr. unfold scale_body, for_row. destruct (wf_row A WF r Hr) as (E1 & E2 & _). rewrite E1, E2. auto. }
    destruct (nested_loop (zrange 0 (m_rows A)) inner (scale_body A) scale_one
      (fun p => [(0%nat, snd p, (eval A (snd p) * s (fst p))%num)]) [m_vals A; sc]) as (m' & SI & SH & T & F).
    - apply nodup_zrange.
    - apply nodup_flat_map.
      + apply nodup_zrange.
      + intros x Hx. unfold inner. apply nodup_map_inj; [apply nodup_zrange|]. intros; congruence.
      + intros x y b Hx Hy H1 H2. unfold inner in *. apply in_map_iff in H1 as (? & <- & _).
        apply in_map_iff in H2 as (? & E & _). congruence.
    - intros x y b Hx Hy H1 H2. unfold inner in *. apply in_map_iff in H1 as (? & <- & _).
      apply in_map_iff in H2 as (? & E & _). congruence.
    - intros x m1 Hx. apply in_zrange in Hx. rewrite BOD by auto. apply scale_exec.
    - intros x R W Hx HB. apply in_zrange in Hx. rewrite BOD by auto. apply scale_uses. auto.
    - intros b _. simpl. constructor; auto. constructor.
    - intros (r1, j1) (r2, j2) c H1 H2 [C1|[]] [C2|[]]. apply IN in H1 as (? & ?), H2 as (? & ?). simpl in *.
      subst c. injection C2 as C2. subst j2. f_equal. eapply rows_disjoint; eauto.
    - intros (r, j) H. apply IN in H as (Hr & Hj). destruct (wf_row A WF r Hr) as (_ & _ & B1 & B2).
      unfold scale_one. cbn [fst snd]. apply uses_rd; [|intros v; apply uses_rd; [|intros v'; apply uses_wr; [|apply uses_done]]].
      + split; [eapply inb_get; [reflexivity|lia]|]. intros (r2, j2) H2 [C|[]]. apply IN in H2 as (? & ?).
        simpl in C. injection C as C. subst j2. f_equal. eapply rows_disjoint; eauto.
      + split; [eapply inb_get; [reflexivity|lia]|]. intros (r2, j2) H2 [C|[]]. discriminate C.
      + simpl. auto.
    - intros (r, j) H. apply IN in H as (Hr & Hj). destruct (wf_row A WF r Hr) as (_ & _ & B1 & B2).
      destruct (wf_ent A WF r j Hr Hj) as (_ & Ev & _). unfold scale_one. cbn [fst snd].
      eapply st_rd; [simpl; tauto|exact Ev|]. eapply st_rd; [simpl; tauto|apply Gs; auto|].
      apply st_wr; [eapply inb_get; [reflexivity|lia]|apply st_done].
    - destruct (same_shape_nth _ _ 0 (m_vals A) SH eq_refl) as (vals' & E0 & L0).
      assert (m' = [vals'; sc]) as ->.
      { apply mem_ext.
        - unfold same_shape in *. rewrite <- SH. simpl. congruence.
        - intros a i _. destruct a as [|[|a]]; simpl.
          + unfold mread. rewrite E0. reflexivity.
          + rewrite (F 1%nat i); [reflexivity|]. intros x Hx [C|[]]. discriminate.
          + rewrite (F (S (S a)) i); [unfold mread; simpl; destruct a; reflexivity|].
            intros x Hx [C|[]]. discriminate. }
      exists vals'. split; [exact SI|]. split; [|split; [|split]].
      + unfold scale_rows, forall_loop. destruct SI as (E & _). rewrite E. reflexivity.
      + unfold zlen; congruence.
      + intros r j Hr Hj. apply (T (r, j) 0%nat j). { apply IN; auto. } left. reflexivity.
      + intros j Hj. apply (F 0%nat j). intros (r2, j2) H2 [C|[]]. apply IN in H2 as (? & ?).
        simpl in C. injection C as C. subst. eapply Hj; eauto.
  Qed.

  Lemma scaled_entries (A : csr V) vals' s r :
    csr_wf A -> 0 <= r < m_rows A -> zlen vals' = zlen (m_vals A) ->
    (forall r j, 0 <= r < m_rows A -> rlo A r <= j < rlo A (r + 1) ->
         zget vals' j = Some (eval A j * s r)%num) ->
    csr_wf (set_values A vals') /\
    row_entries (set_values A vals') r = map (fun e => (fst e, (snd e * s r)%num)) (row_entries A r).
  Proof.
    intros WF Hr L H. assert (WF' : csr_wf (set_values A vals')).
    { unfold csr_wf in *. simpl. rewrite L. auto. }
    split; auto. rewrite (row_entries_map A WF r Hr), (row_entries_map _ WF' r Hr), map_map.
    change (rlo (set_values A vals')) with (rlo A).
    apply map_ext_in. intros j Hj. apply in_zrange in Hj. cbn [fst snd].
    unfold eval at 1, ecol at 1. simpl. rewrite (H r j Hr Hj). reflexivity.
  Qed.
End Scale.

Lemma scaled_dense (A : csr R) vals' s r :
  csr_wf A -> 0 <= r < m_rows A -> zlen vals' = zlen (m_vals A) ->
  (forall r j, 0 <= r < m_rows A -> rlo A r <= j < rlo A (r + 1) ->
       zget vals' j = Some (eval A j * s r)%num) ->
  forall c, dense (set_values A vals') r c = (s r * dense A r c)%R.
Proof.
  intros WF Hr L H c. destruct (scaled_entries A vals' s r WF Hr L H) as (_ & E). unfold dense. rewrite E.
  rewrite <- Rsum_map_scal. 
  f_equal. clear E. induction (row_entries A r) as [|e l IH]; cbn [map filter fst snd]; auto.
  destruct (fst e =? c); cbn [map filter fst snd]; [|exact IH]. f_equal; [simpl; lra|exact IH].
Qed.

(** ** Diagonal dominance *)

Lemma dom_row_ok (A : csr R) (WF : csr_wf A) r js s :
  0 <= r < m_rows A -> (forall j, In j js -> rlo A r <= j < rlo A (r + 1)) ->
  dominance_row A r js s = Ok (fold_left (fun s e => if fst e =? r then (Rabs (snd e), snd s)
     else (fst s, snd s + Rabs (snd e))%R) (map (fun j => (ecol A j, eval A j)) js) s).
Proof.
  intros Hr. revert s. induction js as [|j js IH]; intros s H; simpl; auto.
  destruct (wf_ent A WF r j Hr (H j (or_introl eq_refl))) as (Ec & Ev & _). rewrite Ec, Ev. simpl.
  rewrite IH by (intros; apply H; right; auto). reflexivity.
Qed.

Lemma dom_fold r es s : NoDup (map fst es) ->
  fold_left (fun s e => if fst e =? r then (Rabs (snd e), snd s) else (fst s, snd s + Rabs (snd e))%R) es s
  = ((if in_dec Z.eq_dec r (map fst es) then Rabs (Rsum (map snd (filter (fun e => fst e =? r) es))) else fst s),
     (snd s + Rsum (map (fun e => Rabs (snd e)) (filter (fun e => negb (fst e =? r)) es)))%R).
Proof.
  revert s. induction es as [|(c, v) es IH]; intros s ND; cbn [fold_left map filter fst snd].
  - simpl. destruct s; simpl. f_equal. lra.
  - inversion ND as [|? ? NI ND']; subst. rewrite IH by auto. clear IH.
    destruct (Z.eqb_spec c r) as [->|NE]; cbn [negb fst snd].
    + destruct (in_dec Z.eq_dec r (map fst es)) as [C|_]; [contradiction|].
      destruct (in_dec Z.eq_dec r (r :: map fst es)) as [_|C]; [|exfalso; apply C; left; auto].
      f_equal. cbn [map]. f_equal. assert (filter (fun e : Z * R => fst e =? r) es = []) as ->.
      { clear - NI. induction es as [|e es IH]; simpl in *; auto. destruct (Z.eqb_spec (fst e) r); [|apply IH]; tauto. }
      simpl. lra.
    + apply f_equal2; [|cbn [map Rsum fold_right snd]; unfold Rsum; lra].
      destruct (in_dec Z.eq_dec r (map fst es)), (in_dec Z.eq_dec r (c :: map fst es)); auto.
      * exfalso; apply n; right; auto.
      * destruct i; [congruence|contradiction].
Qed.

Lemma dense_abs (A : csr R) r c : NoDup (map fst (row_entries A r)) ->
  Rabs (dense A r c) = Rsum (map (fun e => Rabs (snd e)) (filter (fun e => fst e =? c) (row_entries A r))).
Proof.
  unfold dense. generalize (row_entries A r) as es. induction es as [|(c', v) es IH]; simpl; intros ND.
  - apply Rabs_R0.
  - inversion ND as [|? ? NI ND']; subst. destruct (Z.eqb_spec c' c) as [->|NE]; auto.
    assert (filter (fun e : Z * R => fst e =? c) es = []) as ->.
    { clear - NI. induction es as [|e es IH]; simpl in *; auto. destruct (Z.eqb_spec (fst e) c); [|apply IH]; tauto. }
    simpl. rewrite !Rplus_0_r. auto.
Qed.

Lemma dense_absent (A : csr R) r c : ~ In c (map fst (row_entries A r)) -> dense A r c = 0%R.
Proof.
  unfold dense. generalize (row_entries A r) as es. induction es as [|(c', v) es IH]; simpl; intros NI; auto.
  destruct (Z.eqb_spec c' c); [tauto|]. apply IH. tauto.
Qed.

Lemma off_abs_entries (A : csr R) r : csr_wf A -> 0 <= r < m_rows A -> NoDup (map fst (row_entries A r)) ->
  Rsum (map (fun e => Rabs (snd e)) (filter (fun e => negb (fst e =? r)) (row_entries A r))) = off_abs A r.
Proof.
  intros WF Hr ND.
  assert (Rsum (map (fun e => snd e * (if (fst e =? r)%Z then 0 else 1))%R
     (map (fun e => (fst e, Rabs (snd e))) (row_entries A r))) = off_abs A r) as <-.
  - rewrite (group_columns (fun c => if (c =? r)%Z then 0%R else 1%R) (m_cols A)).
    + unfold off_abs. apply sum1_ext. intros c Hc. destruct (c =? r); [lra|]. rewrite Rmult_1_r.
      rewrite dense_abs by auto. clear. induction (row_entries A r) as [|e l IH]; simpl; auto.
      destruct (fst e =? c); simpl; rewrite IH; auto.
    + intros e He. apply in_map_iff in He as (e' & <- & He). destruct (entry_at A WF r e' Hr He) as (j & Hj & ->).
      simpl. apply (wf_ent A WF r j Hr Hj).
  - rewrite map_map. cbn [fst snd]. clear. induction (row_entries A r) as [|e l IH]; simpl; auto.
    destruct (fst e =? r); simpl; rewrite IH; cbn [fst snd]; lra.
Qed.

Lemma dom_term (A : csr R) r : csr_wf A -> 0 <= r < m_rows A -> NoDup (map fst (row_entries A r)) ->
  dominance_term A r = Ok (Rabs (dense A r r) / off_abs A r)%R.
Proof.
  intros WF Hr ND. unfold dominance_term. destruct (wf_row A WF r Hr) as (E1 & E2 & _). rewrite E1, E2. cbn [rbind of_opt].
  rewrite (dom_row_ok A WF) by (auto; intros j Hj; apply in_zrange in Hj; auto).
  rewrite <- (row_entries_map A WF r Hr). rewrite dom_fold by auto. cbn [rbind fst snd].
  rewrite off_abs_entries by auto. simpl. rewrite Rplus_0_l.
  destruct (in_dec Z.eq_dec r (map fst (row_entries A r))) as [I|NI]; auto.
  rewrite dense_absent by auto. rewrite Rabs_R0. reflexivity.
Qed.
