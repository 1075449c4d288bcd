(** Race-free loops give the sequential result under every interleaving. *)
From Verif Require Import Outcome ZList ZListProofs Kernel.
From Coq Require Import ZifyBool ZifyNat.

Section KernelProofs.
  Context {V : Type}.
  Notation prog := (prog V).
  Notation mem := (mem V).
  Implicit Types (m r : mem) (p q : prog) (ps qs : list prog).

  Definition inb (m : mem) (a : nat) (i : Z) : Prop :=
    exists l, nth_error m a = Some l /\ 0 <= i < zlen l.

  Definition same_shape (m1 m2 : mem) : Prop := map (@length V) m1 = map (@length V) m2.

  Lemma same_shape_refl m : same_shape m m.
  Proof. reflexivity. Qed.
  Lemma same_shape_sym m1 m2 : same_shape m1 m2 -> same_shape m2 m1.
  Proof. unfold same_shape; congruence. Qed.
  Lemma same_shape_trans m1 m2 m3 : same_shape m1 m2 -> same_shape m2 m3 -> same_shape m1 m3.
  Proof. unfold same_shape; congruence. Qed.

  Lemma same_shape_nth m1 m2 a l1 :
    same_shape m1 m2 -> nth_error m1 a = Some l1 ->
    exists l2, nth_error m2 a = Some l2 /\ length l2 = length l1.
  Proof.
    intros S H. assert (E : nth_error (map (@length V) m1) a = Some (length l1)).
    { rewrite nth_error_map, H; reflexivity. }
    rewrite S in E. rewrite nth_error_map in E.
    destruct (nth_error m2 a) as [l2|]; simpl in E; [|discriminate].
    exists l2; split; auto. congruence.
  Qed.

  Lemma inb_shape m1 m2 a i : same_shape m1 m2 -> inb m1 a i -> inb m2 a i.
  Proof.
    intros S (l & H & R). destruct (same_shape_nth _ _ _ _ S H) as (l2 & H2 & E).
    exists l2; split; auto. unfold zlen in *; rewrite E; auto.
  Qed.

  Lemma inb_mread m a i : inb m a i -> exists v, mread m a i = Some v.
  Proof.
    intros (l & H & R). unfold mread; rewrite H. apply zget_some; auto.
  Qed.

  Lemma mread_inb m a i v : mread m a i = Some v -> inb m a i.
  Proof.
    unfold mread. destruct (nth_error m a) as [l|] eqn:E; [|discriminate].
    intros H. exists l; split; auto. eapply zget_range; eauto.
  Qed.

  Lemma inb_mwrite m a i v : inb m a i -> exists m', mwrite m a i v = Some m'.
  Proof.
    intros (l & H & R). unfold mwrite; rewrite H, zset_some by auto. eauto.
  Qed.

  Lemma mwrite_inb m a i v m' : mwrite m a i v = Some m' -> inb m a i.
  Proof.
    unfold mwrite. destruct (nth_error m a) as [l|] eqn:E; [|discriminate].
    destruct (zset l i v) eqn:E2; [|discriminate]. intros _.
    exists l; split; auto. apply zset_inv in E2; tauto.
  Qed.

  Lemma nth_error_lt {A} (l : list A) n x : nth_error l n = Some x -> (n < length l)%nat.
  Proof. intros H. apply nth_error_Some. congruence. Qed.

  Lemma mread_mwrite_same m a i v m' : mwrite m a i v = Some m' -> mread m' a i = Some v.
  Proof.
    unfold mwrite. destruct (nth_error m a) as [l|] eqn:E; [|discriminate].
    destruct (zset l i v) as [l'|] eqn:E2; [|discriminate]. intros H; injection H as <-.
    unfold mread. rewrite nth_error_upd_same by (eapply nth_error_lt; eauto).
    eapply zget_zset_same; eauto.
  Qed.

  Lemma mread_mwrite_other m a i v m' a' i' :
    mwrite m a i v = Some m' -> (a, i) <> (a', i') -> mread m' a' i' = mread m a' i'.
  Proof.
    unfold mwrite. destruct (nth_error m a) as [l|] eqn:E; [|discriminate].
    destruct (zset l i v) as [l'|] eqn:E2; [|discriminate]. intros H N; injection H as <-.
    unfold mread. destruct (Nat.eq_dec a a') as [->|Na].
    - rewrite nth_error_upd_same by (eapply nth_error_lt; eauto). rewrite E.
      eapply zget_zset_other; eauto. congruence.
    - rewrite nth_error_upd_other by auto. reflexivity.
  Qed.

  Lemma map_upd {A B} (f : A -> B) l n v : map f (upd l n v) = upd (map f l) n (f v).
  Proof. revert n; induction l as [|x l IH]; intros [|n]; simpl; congruence. Qed.

  Lemma upd_same {A} (l : list A) n v : nth_error l n = Some v -> upd l n v = l.
  Proof.
    revert n; induction l as [|x l IH]; intros [|n]; simpl; intros H; try congruence.
    f_equal; auto.
  Qed.

  Lemma mwrite_shape m a i v m' : mwrite m a i v = Some m' -> same_shape m m'.
  Proof.
    unfold mwrite. destruct (nth_error m a) as [l|] eqn:E; [|discriminate].
    destruct (zset l i v) as [l'|] eqn:E2; [|discriminate]. intros H; injection H as <-.
    unfold same_shape. rewrite map_upd. symmetry. apply upd_same.
    rewrite nth_error_map, E. simpl. f_equal.
    apply zset_inv in E2 as [_ ->]. rewrite upd_length; reflexivity.
  Qed.

  Lemma mem_ext m1 m2 :
    same_shape m1 m2 -> (forall a i, inb m1 a i -> mread m1 a i = mread m2 a i) -> m1 = m2.
  Proof.
    intros S H. apply nth_error_ext. intros a.
    destruct (nth_error m1 a) as [l1|] eqn:E1.
    - destruct (same_shape_nth _ _ _ _ S E1) as (l2 & E2 & EL). rewrite E2. f_equal.
      apply zget_ext. unfold zlen; lia. intros i Hi.
      specialize (H a i). unfold mread in H. rewrite E1, E2 in H. apply H. exists l1; auto.
    - destruct (nth_error m2 a) as [l2|] eqn:E2; auto.
      destruct (same_shape_nth _ _ _ _ (same_shape_sym _ _ S) E2) as (l & E & _). congruence.
  Qed.

  (** ** Execution of one iteration depends only on its footprint *)

  Lemma uses_weaken (R W R' W' : nat -> Z -> Prop) p :
    (forall a i, R a i -> R' a i) -> (forall a i, W a i -> W' a i) ->
    uses R W p -> uses R' W' p.
  Proof. intros HR HW H; induction H; constructor; auto. Qed.

  Definition agree (S : nat -> Z -> Prop) (m1 m2 : mem) : Prop :=
    forall a i, S a i -> mread m1 a i = mread m2 a i.

  Lemma exec_total (R W : nat -> Z -> Prop) p :
    uses R W p ->
    forall m, (forall a i, R a i -> inb m a i) -> (forall a i, W a i -> inb m a i) ->
    exists m', exec p m = Ok m' /\ same_shape m m' /\
               (forall a i, ~ W a i -> mread m' a i = mread m a i).
  Proof.
    induction 1 as [|a i k HR Hk IH|a i v p HW Hp IH]; intros m BR BW; simpl.
    - exists m; repeat split; auto.
    - destruct (inb_mread m a i (BR _ _ HR)) as [v Hv]. rewrite Hv. apply IH; auto.
    - destruct (inb_mwrite m a i v (BW _ _ HW)) as [m1 Hm1]. rewrite Hm1.
      pose proof (mwrite_shape _ _ _ _ _ Hm1) as S1.
      destruct (IH m1) as (m' & E & S & F).
      + intros; eapply inb_shape; eauto.
      + intros; eapply inb_shape; eauto.
      + exists m'; repeat split; auto.
        * eapply same_shape_trans; eauto.
        * intros a' i' N. rewrite F by auto. eapply mread_mwrite_other; eauto.
          intros C; injection C as -> ->; contradiction.
  Qed.

  Lemma exec_agree (R W : nat -> Z -> Prop) p :
    uses R W p ->
    forall m1 m2 r1, same_shape m1 m2 ->
    agree (fun a i => R a i \/ W a i) m1 m2 ->
    exec p m1 = Ok r1 ->
    exists r2, exec p m2 = Ok r2 /\ agree (fun a i => R a i \/ W a i) r1 r2.
  Proof.
    induction 1 as [|a i k HR Hk IH|a i v p HW Hp IH]; intros m1 m2 r1 S A E; simpl in *.
    - injection E as <-. exists m2; auto.
    - destruct (mread m1 a i) as [v|] eqn:Ev; [|discriminate].
      rewrite <- (A a i) by auto. rewrite Ev. eapply IH; eauto.
    - destruct (mwrite m1 a i v) as [m1'|] eqn:E1; [|discriminate].
      pose proof (mwrite_inb _ _ _ _ _ E1) as B1.
      destruct (inb_mwrite m2 a i v (inb_shape _ _ _ _ S B1)) as [m2' E2]. rewrite E2.
      eapply IH; [ | |exact E].
      + eapply same_shape_trans; [apply same_shape_sym; eapply mwrite_shape; eauto|].
        eapply same_shape_trans; [exact S|eapply mwrite_shape; eauto].
      + intros a' i' H'.
        destruct (Nat.eq_dec a a') as [->|Na]; [destruct (Z.eq_dec i i') as [->|Ni]|].
        * rewrite (mread_mwrite_same _ _ _ _ _ E1), (mread_mwrite_same _ _ _ _ _ E2). reflexivity.
        * rewrite (mread_mwrite_other _ _ _ _ _ a' i' E1), (mread_mwrite_other _ _ _ _ _ a' i' E2) by congruence.
          auto.
        * rewrite (mread_mwrite_other _ _ _ _ _ a' i' E1), (mread_mwrite_other _ _ _ _ _ a' i' E2) by congruence.
          auto.
  Qed.

  (** ** Race freedom *)

  (** [race_free ps m R W]: the n-th iteration loads within [R n] and stores within [W n],
      all in bounds, and no iteration stores to a cell another one loads or stores. *)
  Definition race_free (ps : list prog) (m : mem) (R W : nat -> nat -> Z -> Prop) : Prop :=
    (forall n p, nth_error ps n = Some p -> uses (R n) (W n) p) /\
    (forall n a i, (n < length ps)%nat -> R n a i \/ W n a i -> inb m a i) /\
    (forall n n' a i, (n < length ps)%nat -> (n' < length ps)%nat -> n <> n' ->
       W n a i -> ~ (R n' a i \/ W n' a i)).

  Section Fixed.
    Variables (ps : list prog) (m0 : mem) (R W : nat -> nat -> Z -> Prop).
    Hypothesis RF : race_free ps m0 R W.

    Definition target (n : nat) (a : nat) (i : Z) : option V :=
      match nth_error ps n with
      | Some p => match exec p m0 with Ok r => mread r a i | _ => None end
      | None => None
      end.

    Definition pinv (c : list prog * mem) : Prop :=
      length (fst c) = length ps /\
      same_shape m0 (snd c) /\
      (forall n q, nth_error (fst c) n = Some q ->
         uses (R n) (W n) q /\
         exists r, exec q (snd c) = Ok r /\
                   forall a i, W n a i -> mread r a i = target n a i) /\
      (forall a i, (forall n, (n < length ps)%nat -> ~ W n a i) ->
         mread (snd c) a i = mread m0 a i).

    Lemma pinv_init : pinv (ps, m0).
    Proof.
      destruct RF as (HU & HB & HD).
      split; [reflexivity|]. split; [apply same_shape_refl|]. split; [|reflexivity].
      simpl. intros n q Hq. split; [auto|].
      pose proof (nth_error_lt _ _ _ Hq) as Hn.
      destruct (exec_total (R n) (W n) q (HU _ _ Hq) m0) as (r & E & _ & _); eauto.
      exists r; split; auto. intros a i HW. unfold target. rewrite Hq, E. reflexivity.
    Qed.

    Lemma pinv_step c c' : pinv c -> pstep c c' -> pinv c'.
    Proof.
      destruct RF as (HU & HB & HD).
      intros (HL & HS & HT & HF) St.
      destruct St as [qs n a i k m v Hn Hv | qs n a i v p m m' Hn Hw];
        unfold pinv; simpl in *.
      - split; [rewrite upd_length; auto|]. split; auto. split; auto.
        intros n' q Hq. destruct (Nat.eq_dec n n') as [<-|N].
        + rewrite nth_error_upd_same in Hq by (eapply nth_error_lt; eauto).
          injection Hq as <-. destruct (HT _ _ Hn) as (U & r & E & T).
          inversion U; subst. split; auto. exists r; split; auto.
          simpl in E. rewrite Hv in E. exact E.
        + rewrite nth_error_upd_other in Hq by auto. apply HT; auto.
      - pose proof (nth_error_lt _ _ _ Hn) as Ln. rewrite HL in Ln.
        destruct (HT _ _ Hn) as (U & r & E & T). inversion U as [| |? ? ? ? Wn Up]; subst.
        split; [rewrite upd_length; auto|].
        split; [eapply same_shape_trans; [exact HS|eapply mwrite_shape; eauto]|].
        split.
        + intros n' q Hq. destruct (Nat.eq_dec n n') as [<-|N].
          * rewrite nth_error_upd_same in Hq by (eapply nth_error_lt; eauto).
            injection Hq as <-. split; auto. exists r; split; auto.
            simpl in E. rewrite Hw in E. exact E.
          * rewrite nth_error_upd_other in Hq by auto.
            pose proof (nth_error_lt _ _ _ Hq) as Ln'. rewrite HL in Ln'.
            destruct (HT _ _ Hq) as (U' & r' & E' & T'). split; auto.
            destruct (exec_agree _ _ _ U' m m' r') as (r2 & E2 & A2); auto.
            { eapply mwrite_shape; eauto. }
            { intros a' i' H'. symmetry. eapply mread_mwrite_other; eauto.
              intros C; injection C as -> ->. exact (HD n n' _ _ Ln Ln' N Wn H'). }
            exists r2; split; auto. intros a' i' HW'. rewrite <- A2 by auto. auto.
        + intros a' i' H'. rewrite (mread_mwrite_other _ _ _ _ _ a' i' Hw); auto.
          intros C; injection C as -> ->. exact (H' n Ln Wn).
    Qed.

    Lemma pinv_steps c c' : psteps c c' -> pinv c -> pinv c'.
    Proof. induction 1; eauto using pinv_step. Qed.

    Lemma pinv_nofault c : pinv c -> ~ pfault c.
    Proof.
      intros (HL & HS & HT & HF) (n & F).
      destruct (nth_error (fst c) n) as [q|] eqn:E; [|contradiction].
      destruct (HT _ _ E) as (U & r & X & _).
      destruct q; simpl in X; try discriminate; try contradiction; rewrite F in X; discriminate.
    Qed.

    Lemma pinv_final_read qs m :
      pinv (qs, m) -> pdone qs ->
      forall n a i, (n < length ps)%nat -> W n a i -> mread m a i = target n a i.
    Proof.
      intros (HL & HS & HT & HF) D n a i Hn HW. simpl in *.
      destruct (nth_error qs n) as [q|] eqn:E.
      2:{ apply nth_error_None in E. lia. }
      destruct (HT _ _ E) as (_ & r & X & T).
      rewrite (D q) in X by (eapply nth_error_In; eauto). simpl in X. injection X as <-. auto.
    Qed.

    Lemma pinv_final_unique qs1 m1 qs2 m2 :
      (forall a i, (exists n, (n < length ps)%nat /\ W n a i) \/
                   (forall n, (n < length ps)%nat -> ~ W n a i)) ->
      pinv (qs1, m1) -> pdone qs1 -> pinv (qs2, m2) -> pdone qs2 -> m1 = m2.
    Proof.
      intros DEC I1 D1 I2 D2. apply mem_ext.
      - destruct I1 as (_ & S1 & _), I2 as (_ & S2 & _). simpl in *.
        eapply same_shape_trans; [apply same_shape_sym|]; eauto.
      - intros a i _. destruct (DEC a i) as [(n & Hn & HW)|HN].
        + rewrite (pinv_final_read _ _ I1 D1 n), (pinv_final_read _ _ I2 D2 n); auto.
        + destruct I1 as (_ & _ & _ & F1), I2 as (_ & _ & _ & F2). simpl in *.
          rewrite F1, F2; auto.
    Qed.

    (** Progress: as long as an iteration is unfinished some step is possible. *)
    Lemma pinv_progress c : pinv c -> ~ pdone (fst c) -> exists c', pstep c c'.
    Proof.
      intros (HL & HS & HT & HF) ND. destruct c as [qs m]; simpl in *.
      assert (X : exists n q, nth_error qs n = Some q /\ q <> Done).
      { clear - ND. induction qs as [|q qs IH].
        - exfalso; apply ND. intros p [].
        - destruct q.
          + destruct IH as (n & p & H1 & H2).
            * intros D; apply ND. intros p [<-|H]; auto.
            * exists (S n), p; auto.
          + exists O; eexists; split; [reflexivity|discriminate].
          + exists O; eexists; split; [reflexivity|discriminate].
          + exists O; eexists; split; [reflexivity|discriminate]. }
      destruct X as (n & q & Hq & Nq). destruct (HT _ _ Hq) as (U & r & E & _).
      destruct q as [| |a i k|a i v p]; simpl in E; try discriminate; try congruence.
      - destruct (mread m a i) eqn:Er; [|discriminate]. eexists; eapply step_rd; eauto.
      - destruct (mwrite m a i v) eqn:Er; [|discriminate]. eexists; eapply step_wr; eauto.
    Qed.

  End Fixed.

  (** ** Sequential execution is one of the schedules *)

  Lemma psteps_trans c1 c2 c3 : psteps (V:=V) c1 c2 -> psteps c2 c3 -> psteps c1 c3.
  Proof. induction 1; intros; auto. eapply psteps_cons; eauto. Qed.

  Lemma upd_upd {A} (l : list A) n x y : upd (upd l n x) n y = upd l n y.
  Proof. revert n; induction l as [|z l IH]; intros [|n]; simpl; congruence. Qed.

  Lemma exec_psteps p : forall qs n m m',
    nth_error qs n = Some p -> exec p m = Ok m' -> psteps (qs, m) (upd qs n Done, m').
  Proof.
    induction p as [| |a i k IH|a i v p IH]; intros qs n m m' Hn E; simpl in E; try discriminate.
    - injection E as <-. rewrite upd_same by auto. constructor.
    - destruct (mread m a i) as [v|] eqn:Ev; [|discriminate].
      eapply psteps_cons; [eapply step_rd; eauto|].
      rewrite <- (upd_upd qs n (k v) Done).
      apply (IH v); auto. apply nth_error_upd_same. eapply nth_error_lt; eauto.
    - destruct (mwrite m a i v) as [m1|] eqn:Ev; [|discriminate].
      eapply psteps_cons; [eapply step_wr; eauto|].
      rewrite <- (upd_upd qs n p Done).
      apply IH; auto. apply nth_error_upd_same. eapply nth_error_lt; eauto.
  Qed.

  Lemma exec_all_app ps1 ps2 (m : mem) :
    exec_all (ps1 ++ ps2) m = rbind (exec_all ps1 m) (exec_all ps2).
  Proof.
    revert m; induction ps1 as [|p ps1 IH]; intros m; simpl; auto.
    destruct (exec p m); simpl; auto.
  Qed.

  Lemma upd_app_mid {A} (l1 : list A) x l2 y : upd (l1 ++ x :: l2) (length l1) y = l1 ++ y :: l2.
  Proof. induction l1; simpl; congruence. Qed.

  Lemma exec_all_psteps ps : forall pre m m',
    exec_all ps m = Ok m' ->
    psteps (pre ++ ps, m) (pre ++ repeat Done (length ps), m').
  Proof.
    induction ps as [|p ps IH]; intros pre m m' E; simpl in *.
    - injection E as <-. constructor.
    - destruct (exec p m) as [m1| | |] eqn:E1; simpl in E; try discriminate.
      eapply psteps_trans.
      + apply (exec_psteps p (pre ++ p :: ps) (length pre) m m1); auto.
        rewrite nth_error_app2, Nat.sub_diag by lia. reflexivity.
      + rewrite upd_app_mid.
        replace (pre ++ Done :: ps) with ((pre ++ [Done]) ++ ps) by (rewrite <- app_assoc; reflexivity).
        replace (pre ++ Done :: repeat Done (length ps)) with ((pre ++ [Done]) ++ repeat Done (length ps))
          by (rewrite <- app_assoc; reflexivity).
        apply IH; auto.
  Qed.

  Lemma exec_all_total ps : forall m (R W : nat -> nat -> Z -> Prop),
    (forall n p, nth_error ps n = Some p -> uses (R n) (W n) p) ->
    (forall n a i, (n < length ps)%nat -> R n a i \/ W n a i -> inb m a i) ->
    exists m', exec_all ps m = Ok m' /\ same_shape m m'.
  Proof.
    induction ps as [|p ps IH]; intros m R W HU HB; simpl.
    - exists m; split; auto. apply same_shape_refl.
    - destruct (exec_total (R O) (W O) p (HU O p eq_refl) m) as (m1 & E & S & _).
      + intros a i H; apply (HB O); simpl; auto; lia.
      + intros a i H; apply (HB O); simpl; auto; lia.
      + rewrite E; simpl.
        destruct (IH m1 (fun n => R (Datatypes.S n)) (fun n => W (Datatypes.S n))) as (m' & E' & S').
        * intros n q Hq. apply (HU (Datatypes.S n)); auto.
        * intros n a i Hn H. eapply inb_shape; [exact S|]. apply (HB (Datatypes.S n)); simpl; auto. lia.
        * exists m'; split; auto. eapply same_shape_trans; eauto.
  Qed.

  Lemma pdone_repeat n : pdone (repeat (@Done V) n).
  Proof. intros p H. apply repeat_spec in H; auto. Qed.

  (** Whether a cell is stored to by some iteration is decidable in all our uses. *)
  Definition wdec (n0 : nat) (W : nat -> nat -> Z -> Prop) : Prop :=
    forall a i, (exists n, (n < n0)%nat /\ W n a i) \/ (forall n, (n < n0)%nat -> ~ W n a i).

  (** The main theorem on loops. *)
  Theorem race_free_schedule_independent ps m R W :
    race_free ps m R W -> wdec (length ps) W ->
    exists m', exec_all ps m = Ok m' /\ same_shape m m' /\
      (forall m'', par_result ps m m'' <-> m'' = m') /\
      ~ par_fault ps m /\
      (forall c, psteps (ps, m) c -> pdone (fst c) \/ exists c', pstep c c').
  Proof.
    intros RF DEC. pose proof RF as (HU & HB & HD).
    destruct (exec_all_total ps m R W HU HB) as (m' & E & S).
    exists m'. split; [auto|]. split; [auto|].
    pose proof (pinv_init ps m R W RF) as I0.
    pose proof (exec_all_psteps ps [] m m' E) as St. simpl in St.
    assert (I1 : pinv ps m R W (repeat Done (length ps), m')).
    { eapply pinv_steps; eauto. }
    split; [|split].
    - intros m''. split.
      + intros (qs & St' & D). eapply pinv_final_unique; eauto.
        * eapply pinv_steps; eauto.
        * apply pdone_repeat.
      + intros ->. exists (repeat Done (length ps)). split; auto. apply pdone_repeat.
    - intros (c & St' & F). refine (pinv_nofault ps m R W c _ F). eapply pinv_steps; eauto.
    - intros c St'.
      assert (I : pinv ps m R W c) by (eapply pinv_steps; eauto).
      assert (DD : pdone (fst c) \/ ~ pdone (fst c)).
      { clear. induction (fst c) as [|q qs IH].
        - left; intros p [].
        - destruct q; [|right; intros D; discriminate (D _ (or_introl eq_refl))..].
          destruct IH as [D|D].
          + left. intros p [<-|H]; auto.
          + right. intros D'. apply D. intros p H; apply D'; right; auto. }
      destruct DD as [D|D]; auto. right. eapply pinv_progress; eauto.
  Qed.

  (** What a race-free loop computes: each iteration's cells as if it ran alone on the
      initial memory; all other cells unchanged. *)
  Theorem race_free_result ps m R W :
    race_free ps m R W ->
    exists m', exec_all ps m = Ok m' /\ same_shape m m' /\
      (forall n p r a i, nth_error ps n = Some p -> exec p m = Ok r -> W n a i ->
                         mread m' a i = mread r a i) /\
      (forall a i, (forall n, (n < length ps)%nat -> ~ W n a i) -> mread m' a i = mread m a i).
  Proof.
    intros RF. pose proof RF as (HU & HB & HD).
    destruct (exec_all_total ps m R W HU HB) as (m' & E & S).
    exists m'. split; [auto|]. split; [auto|].
    pose proof (pinv_init ps m R W RF) as I0.
    pose proof (exec_all_psteps ps [] m m' E) as St. simpl in St.
    assert (I1 : pinv ps m R W (repeat Done (length ps), m')) by (eapply pinv_steps; eauto).
    split.
    - intros n p r a i Hn Er HW.
      rewrite (pinv_final_read ps m R W _ _ I1 (pdone_repeat _) n); auto.
      + unfold target. rewrite Hn, Er. reflexivity.
      + eapply nth_error_lt; eauto.
    - intros a i HN. destruct I1 as (_ & _ & _ & F). apply F; auto.
  Qed.

  (** ** Termination: no schedule runs forever *)

  Inductive child : prog -> prog -> Prop :=
  | child_rd a i k v : child (k v) (Rd a i k)
  | child_wr a i v p : child p (Wr a i v p).

  Lemma child_wf p : Acc child p.
  Proof.
    induction p as [| |a i k IH|a i v p IH]; constructor; intros q H; inversion H; subst; auto.
  Qed.

  Definition psub (qs ps : list prog) : Prop :=
    exists n p q, nth_error ps n = Some p /\ child q p /\ qs = upd ps n q.

  Lemma psub_wf ps : Acc psub ps.
  Proof.
    induction ps as [|p ps IH].
    - constructor. intros qs (n & p & q & H & _). destruct n; discriminate.
    - revert ps IH. induction (child_wf p) as [p _ IHp].
      intros ps HA. induction HA as [ps HA IHps].
      constructor. intros qs (n & p' & q & Hn & Hc & ->).
      destruct n as [|n]; simpl in *.
      + injection Hn as <-. apply IHp; auto. constructor; auto.
      + apply IHps. exists n, p', q; auto.
  Qed.

  Theorem every_schedule_terminates (c : list prog * mem) : Acc (fun c' c => pstep c c') c.
  Proof.
    destruct c as [ps m]. revert m. induction (psub_wf ps) as [ps _ IH]. intros m.
    constructor. intros [qs m'] St. inversion St; subst; apply IH.
    - exists n, (Rd a i k), (k v); repeat split; auto. constructor.
    - exists n, (Wr a i v p), p; repeat split; auto. constructor.
  Qed.

  (** ** Loops inside a body *)

  Lemma exec_pseq p q (m : mem) : exec (pseq p q) m = rbind (exec p m) (exec q).
  Proof.
    revert m; induction p as [| |a i k IH|a i v p IH]; intros m; simpl; auto.
    - destruct (mread m a i); auto.
    - destruct (mwrite m a i v); auto.
  Qed.

  Lemma exec_pseqs ps (m : mem) : exec (pseqs ps) m = exec_all ps m.
  Proof.
    revert m; induction ps as [|p ps IH]; intros m; simpl; auto.
    rewrite exec_pseq. destruct (exec p m); simpl; auto.
  Qed.

  Lemma uses_pseq R W p q : uses (V:=V) R W p -> uses R W q -> uses R W (pseq p q).
  Proof. induction 1; simpl; intros; auto; constructor; auto. Qed.

  Lemma uses_pseqs R W ps : (forall p, In p ps -> uses (V:=V) R W p) -> uses R W (pseqs ps).
  Proof.
    induction ps as [|p ps IH]; simpl; intros H; [constructor|].
    apply uses_pseq; auto.
  Qed.

  Lemma uses_pfor R W lo hi body :
    (forall i, lo <= i < hi -> uses (V:=V) R W (body i)) -> uses R W (pfor lo hi body).
  Proof.
    intros H. apply uses_pseqs. intros p Hp. apply in_map_iff in Hp as (i & <- & Hi).
    apply in_zrange in Hi. auto.
  Qed.

  (** A loop whose body is a loop runs like the flattened list of inner bodies. *)
  Lemma exec_all_flat {A} (f : A -> list prog) (xs : list A) (m : mem) :
    exec_all (map (fun x => pseqs (f x)) xs) m = exec_all (flat_map f xs) m.
  Proof.
    revert m; induction xs as [|x xs IH]; intros m; simpl; auto.
    rewrite exec_pseqs, exec_all_app. destruct (exec_all (f x) m); simpl; auto.
  Qed.

End KernelProofs.
