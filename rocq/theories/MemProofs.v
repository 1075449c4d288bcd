(** Invariants of managed-array histories. *)
From Coq Require Import ZArith List Bool Lia.
Import ListNotations.
From Verif Require Import Outcome ModelObs ModelMem SpecMem.
Local Open Scope Z_scope.

(** Sizes. *)
Lemma to_int32_id : forall x, -2147483648 <= x < 2147483648 -> to_int32 x = x.
Proof. intros x H. unfold to_int32. rewrite Z.mod_small; lia. Qed.

Lemma to_size_t_id : forall x, 0 <= x < 18446744073709551616 -> to_size_t x = x.
Proof. intros x H. unfold to_size_t. apply Z.mod_small; lia. Qed.

Lemma stored_bytes_id : forall wsz size, 0 < wsz -> 0 <= size -> wsz * size <= INT_MAX ->
  stored_bytes wsz size = wsz * size.
Proof.
  intros wsz size Hw Hs Hb. unfold INT_MAX in Hb. unfold stored_bytes.
  assert (size <= wsz * size) by nia.
  rewrite (to_size_t_id size) by lia. rewrite (Z.mul_comm size).
  rewrite to_size_t_id by nia. apply to_int32_id. nia.
Qed.

Lemma reported_id : forall wsz size, 0 < wsz -> 0 <= size -> wsz * size <= INT_MAX ->
  reported_size wsz (stored_bytes wsz size) = size.
Proof.
  intros wsz size Hw Hs Hb. rewrite stored_bytes_id by assumption. unfold INT_MAX in Hb.
  assert (size <= wsz * size) by nia.
  unfold reported_size. rewrite to_size_t_id by nia.
  rewrite (Z.mul_comm wsz), Z.div_mul by lia. apply to_int32_id. lia.
Qed.

Lemma copy_elems_id : forall wsz size, 0 < wsz -> 0 <= size -> wsz * size <= INT_MAX ->
  copy_elems wsz (stored_bytes wsz size) = size.
Proof.
  intros wsz size Hw Hs Hb. rewrite stored_bytes_id by assumption. unfold INT_MAX in Hb.
  unfold copy_elems. rewrite to_size_t_id by nia.
  rewrite (Z.mul_comm wsz), Z.div_mul by lia. reflexivity.
Qed.

(** Narrowing loses the size as soon as the byte count leaves the range of int. *)
Lemma reported_wrong : forall wsz size, wsz = 4 \/ wsz = 8 -> 0 <= size <= INT_MAX ->
  INT_MAX < wsz * size -> reported_size wsz (stored_bytes wsz size) <> size.
Proof.
  intros wsz size Hw Hs Hb. unfold INT_MAX in *. unfold reported_size, stored_bytes.
  rewrite (to_size_t_id size) by lia.
  rewrite (to_size_t_id (size * wsz)) by nia.
  unfold to_int32 at 2. unfold to_size_t.
  set (q := (size * wsz + 2147483648) / 4294967296).
  assert (Hq : (size * wsz + 2147483648) mod 4294967296 = size * wsz + 2147483648 - 4294967296 * q)
    by (unfold q; pose proof (Z.div_mod (size * wsz + 2147483648) 4294967296 ltac:(lia)); lia).
  pose proof (Z.mod_pos_bound (size * wsz + 2147483648) 4294967296 ltac:(lia)) as Hr.
  rewrite Hq in *. clear Hq.
  assert (1 <= q) by (unfold q; apply Z.div_le_lower_bound; lia).
  clearbody q.
  destruct (Z_le_gt_dec 0 (size * wsz - 4294967296 * q)) as [Hp|Hn].
  - rewrite Z.mod_small by lia.
    destruct Hw as [-> | ->].
    + replace (size * 4 + 2147483648 - 4294967296 * q - 2147483648) with ((size - 1073741824 * q) * 4) by lia.
      rewrite Z.div_mul by lia. rewrite to_int32_id; lia.
    + replace (size * 8 + 2147483648 - 4294967296 * q - 2147483648) with ((size - 536870912 * q) * 8) by lia.
      rewrite Z.div_mul by lia. rewrite to_int32_id; lia.
  - assert (Hm : (size * wsz + 2147483648 - 4294967296 * q - 2147483648) mod 18446744073709551616
                 = size * wsz - 4294967296 * q + 18446744073709551616).
    { symmetry. apply Z.mod_unique with (q := -1); lia. }
    rewrite Hm.
    destruct Hw as [-> | ->].
    + replace (size * 4 - 4294967296 * q + 18446744073709551616)
        with ((size - 1073741824 * q + 4611686018427387904) * 4) by lia.
      rewrite Z.div_mul by lia. unfold to_int32.
      replace (size - 1073741824 * q + 4611686018427387904 + 2147483648)
        with (size - 1073741824 * q + 2147483648 + 1073741824 * 4294967296) by lia.
      rewrite Z.mod_add by lia. rewrite Z.mod_small by lia. lia.
    + replace (size * 8 - 4294967296 * q + 18446744073709551616)
        with ((size - 536870912 * q + 2305843009213693952) * 8) by lia.
      rewrite Z.div_mul by lia. unfold to_int32.
      replace (size - 536870912 * q + 2305843009213693952 + 2147483648)
        with (size - 536870912 * q + 2147483648 + 536870912 * 4294967296) by lia.
      rewrite Z.mod_add by lia. rewrite Z.mod_small by lia. lia.
Qed.

(** Maps and heaps. *)
Lemma upd_eq : forall {A} (m : nat -> A) k x, upd m k x k = x.
Proof. intros. unfold upd. rewrite Nat.eqb_refl. reflexivity. Qed.
Lemma upd_ne : forall {A} (m : nat -> A) k k' x, k <> k' -> upd m k x k' = m k'.
Proof. intros. unfold upd. destruct (Nat.eqb_spec k k'); [contradiction|reflexivity]. Qed.
Lemma updZ_eq : forall {A} (m : Z -> option A) k x, updZ m k x k = x.
Proof. intros. unfold updZ. rewrite Z.eqb_refl. reflexivity. Qed.
Lemma updZ_ne : forall {A} (m : Z -> option A) k k' x, k <> k' -> updZ m k x k' = m k'.
Proof. intros. unfold updZ. destruct (Z.eqb_spec k k'); [contradiction|reflexivity]. Qed.
Lemma insertZ_eq : forall {A} (m : Z -> option A) k x, m k = None -> insertZ m k x k = Some x.
Proof. intros. unfold insertZ. rewrite H. apply updZ_eq. Qed.
Lemma insertZ_ne : forall {A} (m : Z -> option A) k k' x, k <> k' -> insertZ m k x k' = m k'.
Proof. intros. unfold insertZ. destruct (m k); [reflexivity|]. apply updZ_ne; assumption. Qed.

Section Heap.
  Context {V : Type}.
  Lemma put_length : forall (h : heap V) a x, length (put h a x) = length h.
  Proof. induction h; intros; simpl; [reflexivity|]. destruct a0; simpl; auto. Qed.
  Lemma put_eq : forall (h : heap V) a x, (a < length h)%nat -> nth_error (put h a x) a = Some x.
  Proof. induction h; simpl; intros; [lia|]. destruct a0; simpl; [reflexivity|]. apply IHh. lia. Qed.
  Lemma put_ne : forall (h : heap V) a b x, a <> b -> nth_error (put h a x) b = nth_error h b.
  Proof.
    induction h; simpl; intros; [reflexivity|].
    destruct a0, b; simpl; try reflexivity; try lia. apply IHh. lia.
  Qed.
  Lemma app_last : forall (h : heap V) x, nth_error (h ++ [x]) (length h) = Some x.
  Proof. intros. rewrite nth_error_app2 by lia. rewrite Nat.sub_diag. reflexivity. Qed.
  Lemma app_before : forall (h : heap V) x r, (r < length h)%nat -> nth_error (h ++ [x]) r = nth_error h r.
  Proof. intros. apply nth_error_app1. assumption. Qed.
End Heap.

Section Inv.
  Context {V : Type}.
  Variables (gpu : bool) (wsz : Z) (zero junk : V).
  Hypothesis Hwsz : 0 < wsz.

  Definition buf_ok (h : heap V) (live : nat -> bool) (size : nat -> nat) (r : nat) : Prop :=
    if live r then exists b, nth_error h r = Some (Some b) /\ length b = size r
    else nth_error h r = Some None.

  (** How array [a] is recorded when it stands for buffer r. *)
  Definition entry (m : manager) (a : marray) (r : nat) (own : bool) (size : nat) : Prop :=
    a_owning a = own /\ 1 <= a_handle a <= m_next m /\
    m_host m (a_handle a) = (if own then Some r else None) /\
    m_bhost m (a_handle a) = (if own then None else Some r) /\
    m_dev m (a_handle a) = (if gpu && own then Some r else None) /\
    m_bdev m (a_handle a) = (if gpu && negb own then Some r else None) /\
    m_size m (a_handle a) = Some (stored_bytes wsz (Z.of_nat size)) /\
    wsz * Z.of_nat size <= INT_MAX.

  Record inv (l : ledger V) (w : world V) : Prop := {
    i_hlen : length (w_host w) = l_n l;
    i_dlen : gpu = true -> length (w_dev w) = l_n l;
    i_next : 0 <= m_next (w_mm w);
    i_host : forall r, (r < l_n l)%nat -> buf_ok (w_host w) (l_live l) (l_size l) r;
    i_dev : gpu = true -> forall r, (r < l_n l)%nat -> buf_ok (w_dev w) (l_live l) (l_size l) r;
    i_none : forall o, l_obj l o = None <-> w_obj w o = None;
    i_obj : forall o r own a, l_obj l o = Some (r, own) -> w_obj w o = Some a ->
      (r < l_n l)%nat /\ entry (w_mm w) a r own (l_size l r) /\
      (own = true -> l_live l r = true /\ l_ext l r = false);
    i_dist : forall o1 o2 a1 a2, w_obj w o1 = Some a1 -> w_obj w o2 = Some a2 ->
      a_handle a1 = a_handle a2 -> o1 = o2;
    i_own : forall o1 o2 r, l_obj l o1 = Some (r, true) -> l_obj l o2 = Some (r, true) -> o1 = o2;
    i_leak : forall r, (r < l_n l)%nat -> l_live l r = true -> l_ext l r = false ->
      exists o, l_obj l o = Some (r, true);
    i_keys : forall k, (exists o a, w_obj w o = Some a /\ a_handle a = k) \/
      (m_host (w_mm w) k = None /\ m_bhost (w_mm w) k = None /\ m_dev (w_mm w) k = None /\
       m_bdev (w_mm w) k = None /\ m_size (w_mm w) k = None)
  }.

  Definition coh_at (l : ledger V) (w : world V) (r : nat) (s : sync) : Prop :=
    match s with
    | InSync => nth_error (w_host w) r = Some (Some (l_val l r)) /\
                (gpu = true -> nth_error (w_dev w) r = Some (Some (l_val l r)))
    | HostModified => nth_error (w_host w) r = Some (Some (l_val l r))
    | DeviceModified => gpu = true /\ nth_error (w_dev w) r = Some (Some (l_val l r))
    end.

  Record coh (l : ledger V) (w : world V) : Prop := {
    c_val : forall o r own a, l_obj l o = Some (r, own) -> w_obj w o = Some a ->
      l_live l r = true -> coh_at l w r (a_sync a);
    c_excl : forall o1 o2 r own1 own2, l_obj l o1 = Some (r, own1) -> l_obj l o2 = Some (r, own2) ->
      o1 = o2
  }.

  Lemma inv_new : inv no_arrays new_world.
  Proof.
    constructor; simpl; intros; try reflexivity; try lia; try discriminate.
    - split; reflexivity.
    - right. repeat split; reflexivity.
  Qed.

  Lemma coh_new : coh no_arrays (@new_world V).
  Proof. constructor; simpl; intros; discriminate. Qed.

  Lemma some_obj : forall l w o r own, inv l w -> l_obj l o = Some (r, own) ->
    exists a, w_obj w o = Some a.
  Proof.
    intros l w o r own I E. destruct (w_obj w o) as [a|] eqn:Ea; [eauto|].
    apply (i_none l w I) in Ea. congruence.
  Qed.

  Lemma some_entry : forall l w o a, inv l w -> w_obj w o = Some a ->
    exists r own, l_obj l o = Some (r, own).
  Proof.
    intros l w o a I E. destruct (l_obj l o) as [[r own]|] eqn:El; [eauto|].
    apply (i_none l w I) in El. congruence.
  Qed.

  Lemma buf_put : forall h live size r b r', live r = true -> length b = size r ->
    (r < length h)%nat ->
    buf_ok h live size r' -> buf_ok (put h r (Some b)) live size r'.
  Proof.
    intros h live size r b r' L Lb Hr H. unfold buf_ok in *.
    destruct (Nat.eq_dec r r') as [<-|N].
    - rewrite L. exists b. rewrite put_eq by assumption. auto.
    - rewrite put_ne by assumption. assumption.
  Qed.

  Lemma inv_put_host : forall l w r b, inv l w -> (r < l_n l)%nat -> l_live l r = true ->
    length b = l_size l r -> inv l (with_host w (put (w_host w) r (Some b))).
  Proof.
    intros l w r b I Hr L Lb. destruct I. constructor; simpl; auto.
    - rewrite put_length. assumption.
    - intros r' Hr'. apply buf_put; auto. lia.
  Qed.

  Lemma inv_put_dev : forall l w r b, inv l w -> gpu = true -> (r < l_n l)%nat -> l_live l r = true ->
    length b = l_size l r -> inv l (with_dev w (put (w_dev w) r (Some b))).
  Proof.
    intros l w r b I G Hr L Lb. destruct I. constructor; simpl; auto.
    - intros _. rewrite put_length. auto.
    - intros _ r' Hr'. apply buf_put; auto. rewrite i_dlen0; auto.
  Qed.

  Lemma inv_set_val : forall l w r c, inv l w -> inv (set_val l r c) w.
  Proof. intros l w r c I. destruct I. constructor; simpl; auto. Qed.

  Lemma inv_sync : forall l w o a s, inv l w -> w_obj w o = Some a ->
    inv l (with_obj w o (Some (set_sync a s))).
  Proof.
    intros l w o a s I Ha. destruct I. constructor; simpl; auto.
    - intros o'. destruct (Nat.eq_dec o o') as [<-|N].
      + rewrite upd_eq. rewrite i_none0, Ha. split; discriminate.
      + rewrite upd_ne by assumption. auto.
    - intros o' r own a' El Ea. destruct (Nat.eq_dec o o') as [<-|N].
      + rewrite upd_eq in Ea. inversion Ea; subst a'. exact (i_obj0 o r own a El Ha).
      + rewrite upd_ne in Ea by assumption. eauto.
    - intros o1 o2 a1 a2 E1 E2 Eh.
      assert (H1 : exists a1', w_obj w o1 = Some a1' /\ a_handle a1' = a_handle a1).
      { destruct (Nat.eq_dec o o1) as [<-|N].
        - rewrite upd_eq in E1. inversion E1; subst a1. eauto.
        - rewrite upd_ne in E1 by assumption. eauto. }
      assert (H2 : exists a2', w_obj w o2 = Some a2' /\ a_handle a2' = a_handle a2).
      { destruct (Nat.eq_dec o o2) as [<-|N].
        - rewrite upd_eq in E2. inversion E2; subst a2. eauto.
        - rewrite upd_ne in E2 by assumption. eauto. }
      destruct H1 as [b1 [F1 G1]]. destruct H2 as [b2 [F2 G2]].
      apply (i_dist0 o1 o2 b1 b2 F1 F2). congruence.
    - intros k. destruct (i_keys0 k) as [[o' [a' [Ea Ek]]]|H]; [left|right; exact H].
      destruct (Nat.eq_dec o o') as [<-|N].
      + exists o, (set_sync a s). rewrite upd_eq. split; [reflexivity|]. simpl. congruence.
      + exists o', a'. rewrite upd_ne by assumption. auto.
  Qed.

  (** Pointers. *)
  Lemma host_data_entry : forall l w o a r own, inv l w -> l_obj l o = Some (r, own) ->
    w_obj w o = Some a -> host_data w (a_handle a) = Ok r.
  Proof.
    intros l w o a r own I El Ea.
    destruct (i_obj l w I o r own a El Ea) as [_ [[_ [_ [Hh [Hb _]]]] _]].
    unfold host_data. rewrite Hh, Hb. destruct own; reflexivity.
  Qed.

  Lemma device_data_entry : forall l w o a r own, inv l w -> gpu = true ->
    l_obj l o = Some (r, own) -> w_obj w o = Some a -> device_data gpu w (a_handle a) = Ok r.
  Proof.
    intros l w o a r own I G El Ea.
    destruct (i_obj l w I o r own a El Ea) as [_ [[_ [_ [_ [_ [Hh [Hb _]]]]]] _]].
    unfold device_data. rewrite G in *. rewrite Hh, Hb. destruct own; reflexivity.
  Qed.

  Lemma live_buf : forall h live size r, buf_ok h live size r -> live r = true ->
    exists b, nth_error h r = Some (Some b) /\ length b = size r.
  Proof. intros h live size r H L. unfold buf_ok in H. rewrite L in H. exact H. Qed.

  Lemma copy_buf_full : forall (dst src : list V), length dst = length src ->
    copy_buf dst src (Z.of_nat (length src)) = Ok src.
  Proof.
    intros dst src L. unfold copy_buf. rewrite L.
    rewrite Z.leb_refl. cbn [andb]. rewrite Nat2Z.id.
    rewrite firstn_all, <- L, skipn_all, app_nil_r. reflexivity.
  Qed.

  (** The two transfers copy the whole buffer. *)
  Lemma d2h_full : forall l w o a r own, inv l w -> gpu = true -> l_obj l o = Some (r, own) ->
    w_obj w o = Some a -> l_live l r = true ->
    exists b, nth_error (w_dev w) r = Some (Some b) /\ length b = l_size l r /\
      copy_d2h gpu wsz w (a_handle a) = Ok (with_host w (put (w_host w) r (Some b))).
  Proof.
    intros l w o a r own I G El Ea L.
    destruct (i_obj l w I o r own a El Ea) as [Hr [[_ [_ [_ [_ [_ [_ [Hs Hm]]]]]]] _]].
    destruct (live_buf _ _ _ _ (i_host l w I r Hr) L) as [bh [Nh Lh]].
    destruct (live_buf _ _ _ _ (i_dev l w I G r Hr) L) as [bd [Nd Ld]].
    exists bd. split; [exact Nd|]. split; [exact Ld|].
    unfold copy_d2h. rewrite Hs. rewrite G at 1.
    rewrite (device_data_entry l w o a r own I G El Ea).
    rewrite (host_data_entry l w o a r own I El Ea). cbn [rbind].
    unfold load. rewrite Nd, Nh. cbn [rbind].
    rewrite copy_elems_id by lia. rewrite <- Ld, copy_buf_full by lia. cbn [rbind].
    unfold store. rewrite Nh. reflexivity.
  Qed.

  Lemma h2d_full : forall l w o a r own, inv l w -> gpu = true -> l_obj l o = Some (r, own) ->
    w_obj w o = Some a -> l_live l r = true ->
    exists b, nth_error (w_host w) r = Some (Some b) /\ length b = l_size l r /\
      copy_h2d gpu wsz w (a_handle a) = Ok (with_dev w (put (w_dev w) r (Some b))).
  Proof.
    intros l w o a r own I G El Ea L.
    destruct (i_obj l w I o r own a El Ea) as [Hr [[_ [_ [_ [_ [_ [_ [Hs Hm]]]]]]] _]].
    destruct (live_buf _ _ _ _ (i_host l w I r Hr) L) as [bh [Nh Lh]].
    destruct (live_buf _ _ _ _ (i_dev l w I G r Hr) L) as [bd [Nd Ld]].
    exists bh. split; [exact Nh|]. split; [exact Lh|].
    unfold copy_h2d. rewrite G at 1.
    rewrite (device_data_entry l w o a r own I G El Ea).
    rewrite (host_data_entry l w o a r own I El Ea). cbn [rbind]. rewrite Hs.
    unfold load. rewrite Nd, Nh. cbn [rbind].
    rewrite copy_elems_id by lia. rewrite <- Lh, copy_buf_full by lia. cbn [rbind].
    unfold store. rewrite Nd. reflexivity.
  Qed.

  Definition is_write (x : access V) : bool :=
    match x with Read => false | _ => true end.

  Lemma before_ok : forall l w o a r own s x, inv l w -> l_obj l o = Some (r, own) ->
    w_obj w o = Some a -> l_live l r = true -> (s = Device -> gpu = true) ->
    exists w1 a', before_access gpu wsz w o a s x = Ok w1 /\ inv l w1 /\
      w_obj w1 o = Some a' /\ a_handle a' = a_handle a /\
      (forall o', o' <> o -> w_obj w1 o' = w_obj w o') /\
      (forall r', r' <> r -> nth_error (w_host w1) r' = nth_error (w_host w) r') /\
      (forall r', r' <> r -> nth_error (w_dev w1) r' = nth_error (w_dev w) r') /\
      (is_write x = true -> a_sync a' = match s with Host => HostModified | Device => DeviceModified end) /\
      (coh_at l w r (a_sync a) ->
         (is_write x = false -> coh_at l w1 r (a_sync a')) /\
         match x with
         | Read | Update _ =>
             match s with
             | Host => nth_error (w_host w1) r = Some (Some (l_val l r))
             | Device => nth_error (w_dev w1) r = Some (Some (l_val l r))
             end
         | Write _ => True
         | WritePart _ => gpu = false -> s = Host -> nth_error (w_host w1) r = Some (Some (l_val l r))
         end) /\
      m_next (w_mm w1) = m_next (w_mm w).
  Proof.
    intros l w o a r own s x I El Ea L Hs.
    destruct (i_obj l w I o r own a El Ea) as [Hr _].
    assert (Easy : forall st, exists w1 a', Ok (with_obj w o (Some (set_sync a st))) = Ok w1 /\ inv l w1 /\
      w_obj w1 o = Some a' /\ a' = set_sync a st /\
      (forall o', o' <> o -> w_obj w1 o' = w_obj w o') /\
      w_host w1 = w_host w /\ w_dev w1 = w_dev w /\ m_next (w_mm w1) = m_next (w_mm w)).
    { intros st. exists (with_obj w o (Some (set_sync a st))), (set_sync a st).
      split; [reflexivity|]. split; [apply inv_sync; assumption|].
      split; [apply upd_eq|]. split; [reflexivity|].
      split; [intros o' N; apply upd_ne; congruence|]. auto. }
    assert (HD : gpu = true -> forall st, exists w1 a' b,
      rbind (copy_d2h gpu wsz w (a_handle a)) (fun w1 => Ok (with_obj w1 o (Some (set_sync a st)))) = Ok w1 /\
      inv l w1 /\ w_obj w1 o = Some a' /\ a' = set_sync a st /\
      (forall o', o' <> o -> w_obj w1 o' = w_obj w o') /\
      (forall r', r' <> r -> nth_error (w_host w1) r' = nth_error (w_host w) r') /\
      w_dev w1 = w_dev w /\ m_next (w_mm w1) = m_next (w_mm w) /\
      nth_error (w_dev w) r = Some (Some b) /\ nth_error (w_host w1) r = Some (Some b)).
    { intros G st. destruct (d2h_full l w o a r own I G El Ea L) as [b [Nb [Lb E]]].
      exists (with_obj (with_host w (put (w_host w) r (Some b))) o (Some (set_sync a st))), (set_sync a st), b.
      rewrite E. split; [reflexivity|].
      split; [apply inv_sync; [apply inv_put_host; assumption|exact Ea]|].
      split; [apply upd_eq|]. split; [reflexivity|].
      split; [intros o' N; apply upd_ne; congruence|].
      split; [intros r' N; simpl; apply put_ne; congruence|].
      split; [reflexivity|]. split; [reflexivity|]. split; [exact Nb|].
      simpl. apply put_eq. rewrite (i_hlen l w I). exact Hr. }
    assert (DH : gpu = true -> forall st, exists w1 a' b,
      rbind (copy_h2d gpu wsz w (a_handle a)) (fun w1 => Ok (with_obj w1 o (Some (set_sync a st)))) = Ok w1 /\
      inv l w1 /\ w_obj w1 o = Some a' /\ a' = set_sync a st /\
      (forall o', o' <> o -> w_obj w1 o' = w_obj w o') /\
      (forall r', r' <> r -> nth_error (w_dev w1) r' = nth_error (w_dev w) r') /\
      w_host w1 = w_host w /\ m_next (w_mm w1) = m_next (w_mm w) /\
      nth_error (w_host w) r = Some (Some b) /\ nth_error (w_dev w1) r = Some (Some b)).
    { intros G st. destruct (h2d_full l w o a r own I G El Ea L) as [b [Nb [Lb E]]].
      exists (with_obj (with_dev w (put (w_dev w) r (Some b))) o (Some (set_sync a st))), (set_sync a st), b.
      rewrite E. split; [reflexivity|].
      split; [apply inv_sync; [apply inv_put_dev; assumption|exact Ea]|].
      split; [apply upd_eq|]. split; [reflexivity|].
      split; [intros o' N; apply upd_ne; congruence|].
      split; [intros r' N; simpl; apply put_ne; congruence|].
      split; [reflexivity|]. split; [reflexivity|]. split; [exact Nb|].
      simpl. apply put_eq. rewrite (i_dlen l w I G). exact Hr. }
    assert (Noop : exists w1 a', Ok w = Ok w1 /\ inv l w1 /\ w_obj w1 o = Some a' /\ a' = a /\ w1 = w).
    { exists w, a. auto. }
    destruct s; destruct x; cbn [before_access is_write].
    - (* readHost *)
      destruct (a_sync a) eqn:Es.
      + exists w, a. rewrite Es. do 8 (split; [now auto|]). split; [intros C; split; [auto|exact (proj1 C)]|reflexivity].
      + exists w, a. rewrite Es. do 8 (split; [now auto|]). split; [intros C; split; [auto|exact C]|reflexivity].
      + destruct gpu eqn:G.
        * destruct (HD eq_refl InSync) as (w1 & a' & b & E1 & I1 & O1 & -> & OO & HH & DD & MM & Nb & Nh).
          exists w1, (set_sync a InSync).
          split; [exact E1|]. split; [exact I1|]. split; [exact O1|]. split; [reflexivity|].
          split; [exact OO|]. split; [exact HH|]. split; [intros; rewrite DD; reflexivity|].
          split; [discriminate|]. split; [|exact MM].
          intros [_ C]. rewrite C in Nb. injection Nb as <-. simpl. rewrite DD. auto.
        * exists (with_obj w o (Some (set_sync a InSync))), (set_sync a InSync).
          unfold copy_d2h. cbn [rbind]. split; [reflexivity|].
          split; [apply inv_sync; assumption|]. split; [apply upd_eq|]. split; [reflexivity|].
          split; [intros o' N; apply upd_ne; congruence|]. do 3 (split; [now auto|]).
          split; [intros [C _]; congruence|reflexivity].
    - destruct (Easy HostModified) as (w1 & a' & E1 & I1 & O1 & -> & OO & HH & DD & MM).
      exists w1, (set_sync a HostModified). rewrite HH, DD. do 8 (split; [now auto|]). split; [intros _; split; [discriminate|exact Logic.I]|exact MM].
    - destruct (a_sync a) eqn:Es.
      + destruct (Easy HostModified) as (w1 & a' & E1 & I1 & O1 & -> & OO & HH & DD & MM).
        exists w1, (set_sync a HostModified). cbn [rbind]. rewrite HH, DD. do 8 (split; [now auto|]).
        split; [|exact MM]. intros C. split; [discriminate|exact (proj1 C)].
      + destruct (Easy HostModified) as (w1 & a' & E1 & I1 & O1 & -> & OO & HH & DD & MM).
        exists w1, (set_sync a HostModified). cbn [rbind]. rewrite HH, DD. do 8 (split; [now auto|]).
        split; [|exact MM]. intros C. split; [discriminate|exact C].
      + destruct gpu eqn:G.
        * destruct (HD eq_refl HostModified) as (w1 & a' & b & E1 & I1 & O1 & -> & OO & HH & DD & MM & Nb & Nh).
          exists w1, (set_sync a HostModified).
          split; [exact E1|]. split; [exact I1|]. split; [exact O1|]. split; [reflexivity|].
          split; [exact OO|]. split; [exact HH|]. split; [intros; rewrite DD; reflexivity|].
          split; [reflexivity|]. split; [|exact MM].
          intros [_ C]. split; [discriminate|]. rewrite C in Nb. injection Nb as <-. exact Nh.
        * exists (with_obj w o (Some (set_sync a HostModified))), (set_sync a HostModified).
          unfold copy_d2h. cbn [rbind]. split; [reflexivity|].
          split; [apply inv_sync; assumption|]. split; [apply upd_eq|]. split; [reflexivity|].
          split; [intros o' N; apply upd_ne; congruence|]. do 3 (split; [now auto|]).
          split; [intros [C _]; congruence|reflexivity].
    - destruct (Easy HostModified) as (w1 & a' & E1 & I1 & O1 & -> & OO & HH & DD & MM).
      exists w1, (set_sync a HostModified). rewrite HH, DD. do 8 (split; [now auto|]).
      split; [|exact MM]. intros C. split; [discriminate|]. intros G _. unfold coh_at in C.
      destruct (a_sync a); [exact (proj1 C)|exact C|destruct C; congruence].
    - (* readDevice *)
      specialize (Hs eq_refl).
      destruct (a_sync a) eqn:Es.
      + exists w, a. rewrite Es. do 8 (split; [now auto|]). split; [intros C; split; [auto|exact (proj2 C Hs)]|reflexivity].
      + destruct (DH Hs InSync) as (w1 & a' & b & E1 & I1 & O1 & -> & OO & HH & DD & MM & Nb & Nh).
        exists w1, (set_sync a InSync).
        split; [exact E1|]. split; [exact I1|]. split; [exact O1|]. split; [reflexivity|].
        split; [exact OO|]. split; [intros; rewrite DD; reflexivity|]. split; [exact HH|].
        split; [discriminate|]. split; [|exact MM].
        intros C. simpl in C. rewrite C in Nb. injection Nb as <-. simpl. rewrite DD. auto.
      + exists w, a. rewrite Es. do 8 (split; [now auto|]). split; [intros C; split; [auto|exact (proj2 C)]|reflexivity].
    - destruct (Easy DeviceModified) as (w1 & a' & E1 & I1 & O1 & -> & OO & HH & DD & MM).
      exists w1, (set_sync a DeviceModified). rewrite HH, DD. do 8 (split; [now auto|]). split; [intros _; split; [discriminate|exact Logic.I]|exact MM].
    - specialize (Hs eq_refl).
      destruct (a_sync a) eqn:Es.
      + destruct (Easy DeviceModified) as (w1 & a' & E1 & I1 & O1 & -> & OO & HH & DD & MM).
        exists w1, (set_sync a DeviceModified). cbn [rbind]. rewrite HH, DD. do 8 (split; [now auto|]).
        split; [|exact MM]. intros C. split; [discriminate|exact (proj2 C Hs)].
      + destruct (DH Hs DeviceModified) as (w1 & a' & b & E1 & I1 & O1 & -> & OO & HH & DD & MM & Nb & Nh).
        exists w1, (set_sync a DeviceModified).
        split; [exact E1|]. split; [exact I1|]. split; [exact O1|]. split; [reflexivity|].
        split; [exact OO|]. split; [intros; rewrite DD; reflexivity|]. split; [exact HH|].
        split; [reflexivity|]. split; [|exact MM].
        intros C. simpl in C. rewrite C in Nb. injection Nb as <-. split; [discriminate|exact Nh].
      + destruct (Easy DeviceModified) as (w1 & a' & E1 & I1 & O1 & -> & OO & HH & DD & MM).
        exists w1, (set_sync a DeviceModified). cbn [rbind]. rewrite HH, DD. do 8 (split; [now auto|]).
        split; [|exact MM]. intros C. split; [discriminate|exact (proj2 C)].
    - destruct (Easy DeviceModified) as (w1 & a' & E1 & I1 & O1 & -> & OO & HH & DD & MM).
      exists w1, (set_sync a DeviceModified). rewrite HH, DD. do 8 (split; [now auto|]).
      split; [|exact MM]. intros C. split; [discriminate|]. discriminate.
  Qed.

  Definition fits (x : access V) (n : nat) : Prop :=
    match x with
    | Read => True
    | Write c => length c = n
    | Update f | WritePart f => forall b, length b = n -> length (f b) = n
    end.

  Lemma fits_client : forall x n b, fits x n -> length b = n -> length (client b x) = n.
  Proof. intros [| | |] n b F L; simpl in *; auto. Qed.

  Definition access_val (x : access V) (v : list V) : list V := client v x.

  (** The general effect of an access on the world. *)
  Lemma access_ok : forall l w o r own s x, inv l w -> l_obj l o = Some (r, own) ->
    l_live l r = true -> (s = Device -> gpu = true) -> fits x (l_size l r) ->
    exists v w', access_array gpu wsz w o s x = Ok (v, w') /\
      inv (set_val l r (client (l_val l r) x)) w' /\ m_next (w_mm w') = m_next (w_mm w) /\
      (coh l w -> (forall f, x = WritePart f -> gpu = false) ->
         v = match x with Read | Update _ => l_val l r | _ => [] end /\
         coh (set_val l r (client (l_val l r) x)) w') /\
      (forall o' a', o' <> o -> w_obj w' o' = Some a' <-> w_obj w o' = Some a') /\
      (forall r', r' <> r -> nth_error (w_host w') r' = nth_error (w_host w) r') /\
      (forall r', r' <> r -> nth_error (w_dev w') r' = nth_error (w_dev w) r') /\
      (is_write x = true -> s = Host ->
        (exists b, length b = l_size l r /\ nth_error (w_host w') r = Some (Some (client b x))) /\
        exists a', w_obj w' o = Some a' /\ a_sync a' = HostModified).
  Proof.
    intros l w o r own s x I El L Hs F.
    destruct (some_obj l w o r own I El) as [a Ea].
    destruct (before_ok l w o a r own s x I El Ea L Hs)
      as (w1 & a' & E1 & I1 & O1 & Ha & OO & HH & DD & Wr & Co & MM).
    destruct (i_obj l w1 I1 o r own a' El O1) as [Hr _].
    unfold access_array. rewrite Ea, E1. cbn [rbind]. rewrite <- Ha.
    destruct s.
    - rewrite (host_data_entry l w1 o a' r own I1 El O1). cbn [rbind].
      destruct (live_buf _ _ _ _ (i_host l w1 I1 r Hr) L) as [b [Nb Lb]].
      unfold load, store. rewrite Nb. cbn [rbind].
      eexists _, _. split; [reflexivity|].
      split; [apply inv_set_val, inv_put_host; try assumption; apply fits_client; assumption|].
      split; [exact MM|].
      assert (PutR : nth_error (put (w_host w1) r (Some (client b x))) r = Some (Some (client b x)))
        by (apply put_eq; rewrite (i_hlen l w1 I1); exact Hr).
      split.
      { intros C NP. destruct (Co (c_val l w C o r own a El Ea L)) as [Cr Cx].
        assert (Vb : match x with Read | Update _ => b = l_val l r | _ => True end).
        { destruct x; try exact Logic.I; rewrite Nb in Cx; injection Cx as Cx; exact Cx. }
        assert (Vc : client b x = client (l_val l r) x).
        { destruct x; simpl; try (rewrite Vb; reflexivity); try reflexivity. pose proof (NP f eq_refl) as Gf. rewrite (Cx Gf eq_refl) in Nb. injection Nb as <-. reflexivity. }
        split.
        { destruct x; simpl; try exact Vb; reflexivity. }
        constructor; simpl.
        - intros o' r' own' a'' El' Ea' L'.
          destruct (Nat.eq_dec o' o) as [->|N].
          + rewrite El in El'. injection El' as <- <-. rewrite O1 in Ea'. injection Ea' as <-.
            destruct (is_write x) eqn:Ew.
            * rewrite (Wr eq_refl). simpl. rewrite upd_eq, PutR, Vc. reflexivity.
            * destruct x; try discriminate. simpl in Vc, Vb. specialize (Cr eq_refl).
              simpl in PutR. unfold coh_at in *. simpl. rewrite upd_eq, PutR, Vb.
              destruct (a_sync a'); try exact Cr; try reflexivity.
              split; [reflexivity|]. exact (proj2 Cr).
          + assert (Nr : r' <> r) by (intros ->; apply N; exact (c_excl l w C o' o r own' own El' El)).
            rewrite OO in Ea' by exact N. pose proof (c_val l w C o' r' own' a'' El' Ea' L') as Q.
            unfold coh_at in *. simpl. rewrite upd_ne, put_ne by congruence.
            rewrite HH, DD by exact Nr. exact Q.
        - exact (c_excl l w C). }
      split; [intros o' a'' N; simpl; rewrite OO by exact N; reflexivity|].
      split; [intros r' N; simpl; rewrite put_ne by congruence; apply HH; exact N|].
      split; [intros r' N; simpl; apply DD; exact N|].
      intros Ew _. simpl. split; [exists b; split; [exact Lb|exact PutR]|]. exists a'. split; [exact O1|]. exact (Wr Ew).
    - specialize (Hs eq_refl). rewrite (device_data_entry l w1 o a' r own I1 Hs El O1). cbn [rbind].
      destruct (live_buf _ _ _ _ (i_dev l w1 I1 Hs r Hr) L) as [b [Nb Lb]].
      unfold load, store. rewrite Nb. cbn [rbind].
      eexists _, _. split; [reflexivity|].
      split; [apply inv_set_val, inv_put_dev; try assumption; apply fits_client; assumption|].
      split; [exact MM|].
      assert (PutR : nth_error (put (w_dev w1) r (Some (client b x))) r = Some (Some (client b x)))
        by (apply put_eq; rewrite (i_dlen l w1 I1 Hs); exact Hr).
      split.
      { intros C NP. destruct (Co (c_val l w C o r own a El Ea L)) as [Cr Cx].
        assert (Vb : match x with Read | Update _ => b = l_val l r | _ => True end).
        { destruct x; try exact Logic.I; rewrite Nb in Cx; injection Cx as Cx; exact Cx. }
        assert (Vc : client b x = client (l_val l r) x).
        { destruct x; simpl; try (rewrite Vb; reflexivity); try reflexivity. pose proof (NP f eq_refl) as Gf. congruence. }
        split.
        { destruct x; simpl; try exact Vb; reflexivity. }
        constructor; simpl.
        - intros o' r' own' a'' El' Ea' L'.
          destruct (Nat.eq_dec o' o) as [->|N].
          + rewrite El in El'. injection El' as <- <-. rewrite O1 in Ea'. injection Ea' as <-.
            destruct (is_write x) eqn:Ew.
            * rewrite (Wr eq_refl). simpl. rewrite upd_eq, PutR, Vc. split; [exact Hs|reflexivity].
            * destruct x; try discriminate. simpl in Vc, Vb. specialize (Cr eq_refl).
              simpl in PutR. unfold coh_at in *. simpl. rewrite upd_eq, PutR, Vb.
              destruct (a_sync a'); try exact Cr.
              -- split; [exact (proj1 Cr)|reflexivity].
              -- split; [exact Hs|reflexivity].
          + assert (Nr : r' <> r) by (intros ->; apply N; exact (c_excl l w C o' o r own' own El' El)).
            rewrite OO in Ea' by exact N. pose proof (c_val l w C o' r' own' a'' El' Ea' L') as Q.
            unfold coh_at in *. simpl. rewrite upd_ne, put_ne by congruence.
            rewrite HH, DD by exact Nr. exact Q.
        - exact (c_excl l w C). }
      split; [intros o' a'' N; simpl; rewrite OO by exact N; reflexivity|].
      split; [intros r' N; simpl; apply HH; exact N|].
      split; [intros r' N; simpl; rewrite put_ne by congruence; apply DD; exact N|].
      intros _ E. discriminate.
  Qed.

  Record same (l l' : ledger V) : Prop := {
    s_n : l_n l = l_n l';
    s_live : forall r, l_live l r = l_live l' r;
    s_ext : forall r, l_ext l r = l_ext l' r;
    s_size : forall r, l_size l r = l_size l' r;
    s_obj : forall o, l_obj l o = l_obj l' o
  }.

  Lemma inv_same : forall l l' w, same l l' -> inv l w -> inv l' w.
  Proof.
    intros l l' w [S1 S2 S3 S4 S5] I. destruct I. constructor.
    - congruence.
    - rewrite <- S1. auto.
    - assumption.
    - intros r Hr. rewrite <- S1 in Hr. specialize (i_host0 r Hr). unfold buf_ok in *.
      rewrite <- S2, <- S4. exact i_host0.
    - intros G r Hr. rewrite <- S1 in Hr. specialize (i_dev0 G r Hr). unfold buf_ok in *.
      rewrite <- S2, <- S4. exact i_dev0.
    - intros o. rewrite <- S5. auto.
    - intros o r own a. rewrite <- S5, <- S1, <- S2, <- S3, <- S4. apply i_obj0.
    - assumption.
    - intros o1 o2 r. rewrite <- !S5. apply i_own0.
    - intros r. rewrite <- S1, <- S2, <- S3. intros A B C. destruct (i_leak0 r A B C) as [o Ho].
      exists o. rewrite <- S5. exact Ho.
    - assumption.
  Qed.

  (** A fresh pair of buffers. *)
  Lemma buf_app : forall (h : heap V) live size n b m r, length b = m -> length h = n -> (r < S n)%nat ->
    (forall r, (r < n)%nat -> buf_ok h live size r) ->
    buf_ok (h ++ [Some b]) (upd live n true) (upd size n m) r.
  Proof.
    intros h live size n b m r <- L Hr H. unfold buf_ok.
    destruct (Nat.eq_dec n r) as [<-|N].
    - rewrite !upd_eq. exists b. split; [|reflexivity]. rewrite <- L. apply app_last.
    - rewrite !upd_ne by exact N. rewrite app_before by lia. apply H. lia.
  Qed.

  Lemma inv_ext_alloc : forall l w c, inv l w -> inv (new_buffer l c true) (ext_alloc gpu w c).
  Proof.
    intros l w c I. pose proof (i_obj l w I) as IO. destruct I. constructor; simpl; auto.
    - rewrite app_length. simpl. lia.
    - intros G. rewrite G, app_length, i_dlen0 by exact G. simpl. lia.
    - intros r Hr. apply buf_app; auto.
    - intros G r Hr. rewrite G. apply buf_app; auto.
    - intros o r own a El Ea. destruct (i_obj0 o r own a El Ea) as [A [B C]].
      rewrite !upd_ne by lia. split; [lia|]. auto.
    - intros r Hr. destruct (Nat.eq_dec (l_n l) r) as [<-|N].
      + rewrite !upd_eq. discriminate.
      + rewrite !upd_ne by exact N. apply i_leak0. lia.
  Qed.

  Lemma coh_ext_alloc : forall l w c, inv l w -> coh l w -> coh (new_buffer l c true) (ext_alloc gpu w c).
  Proof.
    intros l w c I C. constructor; simpl.
    - intros o r own a El Ea L. destruct (i_obj l w I o r own a El Ea) as [A _].
      rewrite upd_ne in L by lia. pose proof (c_val l w C o r own a El Ea L) as Q.
      unfold coh_at in *. simpl. rewrite upd_ne by lia.
      rewrite app_before by (rewrite (i_hlen l w I); exact A).
      destruct (a_sync a).
      + destruct Q as [Q1 Q2]. split; [exact Q1|]. intros G. rewrite G.
        rewrite app_before by (rewrite (i_dlen l w I G); exact A). auto.
      + exact Q.
      + destruct Q as [G Q2]. split; [exact G|]. rewrite G.
        rewrite app_before by (rewrite (i_dlen l w I G); exact A). auto.
    - exact (c_excl l w C).
  Qed.

  Lemma buf_drop : forall (h : heap V) live size r r', (r < length h)%nat ->
    buf_ok h live size r' -> buf_ok (put h r None) (upd live r false) size r'.
  Proof.
    intros h live size r r' L H. unfold buf_ok in *. destruct (Nat.eq_dec r r') as [<-|N].
    - rewrite upd_eq. apply put_eq. exact L.
    - rewrite upd_ne, put_ne by exact N. exact H.
  Qed.

  Lemma free_ok : forall (h : heap V) live size r, buf_ok h live size r -> live r = true ->
    free h r = Ok (put h r None).
  Proof.
    intros h live size r H L. destruct (live_buf _ _ _ _ H L) as [b [N _]].
    unfold free. rewrite N. reflexivity.
  Qed.

  Lemma ext_free_ok : forall l w r, inv l w -> (r < l_n l)%nat -> l_live l r = true ->
    l_ext l r = true ->
    exists w', ext_free gpu w r = Ok w' /\ inv (drop_buffer l r) w' /\ w_mm w' = w_mm w /\
      (coh l w -> coh (drop_buffer l r) w').
  Proof.
    intros l w r I Hr L X.
    unfold ext_free. rewrite (free_ok _ _ _ _ (i_host l w I r Hr) L). cbn [rbind].
    assert (E : exists dh, (if gpu then free (w_dev w) r else Ok (w_dev w)) = Ok dh /\
              (gpu = true -> dh = put (w_dev w) r None)).
    { destruct gpu eqn:G.
      - rewrite (free_ok _ _ _ _ (i_dev l w I G r Hr) L). eauto.
      - eexists. split; [reflexivity|]. discriminate. }
    destruct E as [dh [E Ed]]. rewrite E. cbn [rbind].
    eexists. split; [reflexivity|]. split; [|split; [reflexivity|]].
    - pose proof (i_obj l w I) as IO. destruct I. constructor; simpl; auto.
      + rewrite put_length. exact i_hlen0.
      + intros G. rewrite (Ed G), put_length. auto.
      + intros r' Hr'. apply buf_drop; [lia|auto].
      + intros G r' Hr'. rewrite (Ed G). apply buf_drop; [rewrite (i_dlen0 G); lia|auto].
      + intros o r' own a El Ea. destruct (i_obj0 o r' own a El Ea) as [A [B C]].
        split; [exact A|]. split; [exact B|]. intros O. destruct (C O) as [C1 C2].
        rewrite upd_ne by congruence. auto.
      + intros r' Hr' L'. destruct (Nat.eq_dec r r') as [<-|N].
        * rewrite upd_eq in L'. discriminate.
        * rewrite upd_ne in L' by exact N. apply i_leak0; assumption.
    - intros C. constructor; simpl.
      + intros o r' own a El Ea L'. destruct (Nat.eq_dec r r') as [<-|N].
        * rewrite upd_eq in L'. discriminate.
        * rewrite upd_ne in L' by exact N. pose proof (c_val l w C o r' own a El Ea L') as Q.
          unfold coh_at in *. simpl. rewrite put_ne by exact N.
          destruct (a_sync a).
          -- destruct Q as [Q1 Q2]. split; [exact Q1|]. intros G. rewrite (Ed G), put_ne by exact N. auto.
          -- exact Q.
          -- destruct Q as [G Q2]. split; [exact G|]. rewrite (Ed G), put_ne by exact N. auto.
      + exact (c_excl l w C).
  Qed.

  (** Registering a new handle. *)
  Definition fresh_entry (w : world V) (o : nat) (own : bool) (r : nat) (size : nat) (w2 : world V)
    (st : sync) : Prop :=
    let idx := m_next (w_mm w) + 1 in
    w_obj w2 = upd (w_obj w) o (Some {| a_handle := idx; a_owning := own; a_sync := st |}) /\
    m_next (w_mm w2) = idx /\
    (forall k, k <> idx ->
       m_host (w_mm w2) k = m_host (w_mm w) k /\ m_bhost (w_mm w2) k = m_bhost (w_mm w) k /\
       m_dev (w_mm w2) k = m_dev (w_mm w) k /\ m_bdev (w_mm w2) k = m_bdev (w_mm w) k /\
       m_size (w_mm w2) k = m_size (w_mm w) k) /\
    entry (w_mm w2) {| a_handle := idx; a_owning := own; a_sync := st |} r own size.

  Lemma idx_free : forall l w, inv l w -> let k := m_next (w_mm w) + 1 in
    m_host (w_mm w) k = None /\ m_bhost (w_mm w) k = None /\ m_dev (w_mm w) k = None /\
    m_bdev (w_mm w) k = None /\ m_size (w_mm w) k = None.
  Proof.
    intros l w I k. destruct (i_keys l w I k) as [[o [a [Ea Ek]]]|H]; [|exact H].
    destruct (some_entry l w o a I Ea) as [r [own El]].
    destruct (i_obj l w I o r own a El Ea) as [_ [[_ [Hk _]] _]]. unfold k in Ek. lia.
  Qed.

  Lemma inv_fresh : forall l w o own r size w2 st,
    inv l w -> l_obj l o = None -> fresh_entry w o own r size w2 st ->
    forall l2, l_obj l2 = upd (l_obj l) o (Some (r, own)) ->
      (r < l_n l2)%nat -> size = l_size l2 r -> (l_n l <= l_n l2)%nat ->
      (forall r', (r' < l_n l)%nat -> l_size l2 r' = l_size l r' /\ l_live l2 r' = l_live l r' /\
          l_ext l2 r' = l_ext l r') ->
      length (w_host w2) = l_n l2 -> (gpu = true -> length (w_dev w2) = l_n l2) ->
      (forall r, (r < l_n l2)%nat -> buf_ok (w_host w2) (l_live l2) (l_size l2) r) ->
      (gpu = true -> forall r, (r < l_n l2)%nat -> buf_ok (w_dev w2) (l_live l2) (l_size l2) r) ->
      (own = true -> l_live l2 r = true /\ l_ext l2 r = false /\ r = l_n l) ->
      (forall r', (l_n l <= r' < l_n l2)%nat -> own = true /\ r' = r) ->
      inv l2 w2.
  Proof.
    intros l w o own r size w2 st I No [FO [FN [FK FE]]] l2 O2 Hr Hsz Hn Hsame Hl1 Hl2 Hb1 Hb2 Hown Hnew.
    pose proof I as I0. destruct I. constructor; auto.
    - rewrite FN. lia.
    - intros o'. rewrite O2, FO. destruct (Nat.eq_dec o o') as [<-|N].
      + rewrite !upd_eq. split; discriminate.
      + rewrite !upd_ne by exact N. auto.
    - intros o' r' own' a El Ea. rewrite O2 in El. rewrite FO in Ea.
      destruct (Nat.eq_dec o o') as [<-|N].
      + rewrite upd_eq in El. rewrite upd_eq in Ea. injection El as <- <-. injection Ea as <-.
        split; [exact Hr|]. split; [rewrite <- Hsz; exact FE|]. intros H. destruct (Hown H) as [A [B _]]. auto.
      + rewrite upd_ne in El by exact N. rewrite upd_ne in Ea by exact N. destruct (i_obj0 o' r' own' a El Ea) as [A [B C]].
        destruct (Hsame r' A) as [S1 [S2 S3]].
        split; [lia|]. rewrite S1, S2, S3. split; [|exact C].
        destruct B as [B1 [B2 B3]].
        destruct (FK (a_handle a)) as [K1 [K2 [K3 [K4 K5]]]]; [lia|].
        unfold entry. rewrite K1, K2, K3, K4, K5, FN. split; [exact B1|]. split; [lia|]. exact B3.
    - intros o1 o2 a1 a2 E1 E2 Eh. rewrite FO in E1, E2.
      assert (Old : forall o' a', w_obj w o' = Some a' -> a_handle a' <> m_next (w_mm w) + 1).
      { intros o' a' E'. destruct (some_entry l w o' a' I0 E') as [r' [own' El']].
        destruct (i_obj0 o' r' own' a' El' E') as [_ [[_ [B _]] _]]. lia. }
      destruct (Nat.eq_dec o o1) as [<-|N1]; destruct (Nat.eq_dec o o2) as [<-|N2]; try reflexivity.
      + rewrite upd_eq in E1. rewrite upd_ne in E2 by exact N2. injection E1 as <-. simpl in Eh.
        exfalso. exact (Old o2 a2 E2 (eq_sym Eh)).
      + rewrite upd_eq in E2. rewrite upd_ne in E1 by exact N1. injection E2 as <-. simpl in Eh.
        exfalso. exact (Old o1 a1 E1 Eh).
      + rewrite upd_ne in E1 by assumption. rewrite upd_ne in E2 by assumption. exact (i_dist0 o1 o2 a1 a2 E1 E2 Eh).
    - intros o1 o2 r' E1 E2. rewrite O2 in E1, E2.
      assert (Old : forall o' , l_obj l o' = Some (r', true) -> (r' < l_n l)%nat).
      { intros o' El'. destruct (some_obj l w o' r' true I0 El') as [a' Ea'].
        exact (proj1 (i_obj0 o' r' true a' El' Ea')). }
      destruct (Nat.eq_dec o o1) as [<-|N1]; destruct (Nat.eq_dec o o2) as [<-|N2]; try reflexivity.
      + rewrite upd_eq in E1. rewrite upd_ne in E2 by exact N2. injection E1 as -> ->.
        destruct (Hown eq_refl) as [_ [_ E]]. specialize (Old o2 E2). lia.
      + rewrite upd_eq in E2. rewrite upd_ne in E1 by exact N1. injection E2 as -> ->.
        destruct (Hown eq_refl) as [_ [_ E]]. specialize (Old o1 E1). lia.
      + rewrite upd_ne in E1 by assumption. rewrite upd_ne in E2 by assumption. exact (i_own0 o1 o2 r' E1 E2).
    - intros r' Hr' L' X'. rewrite O2.
      destruct (le_lt_dec (l_n l) r') as [G|Lt].
      + destruct (Hnew r' (conj G Hr')) as [-> ->]. exists o. apply upd_eq.
      + destruct (Hsame r' Lt) as [_ [S2 S3]]. rewrite S2 in L'. rewrite S3 in X'.
        destruct (i_leak0 r' Lt L' X') as [o' El']. exists o'.
        rewrite upd_ne; [exact El'|]. intros <-. congruence.
    - intros k. rewrite FO. destruct (Z.eq_dec k (m_next (w_mm w) + 1)) as [->|N].
      + left. exists o. eexists. rewrite upd_eq. split; reflexivity.
      + destruct (FK k N) as [K1 [K2 [K3 [K4 K5]]]]. rewrite K1, K2, K3, K4, K5.
        destruct (i_keys0 k) as [[o' [a' [Ea Ek]]]|H]; [|right; exact H].
        left. exists o', a'. split; [|exact Ek]. rewrite upd_ne; [exact Ea|].
        intros <-. apply i_none0 in No. congruence.
  Qed.

  (** After a constructor: the new object holds the freshly written host buffer. *)
  Lemma coh_ctor : forall l w o r l2 w2 own,
    inv l w -> coh l w -> l_obj l o = None ->
    l_obj l2 = upd (l_obj l) o (Some (r, own)) ->
    (forall o' a', o' <> o -> w_obj w2 o' = Some a' <-> w_obj w o' = Some a') ->
    (forall r', (r' < l_n l)%nat -> l_live l2 r' = l_live l r') ->
    (forall o' own', l_obj l o' <> Some (r, own')) ->
    (forall r', r' <> r -> (r' < l_n l)%nat -> nth_error (w_host w2) r' = nth_error (w_host w) r') ->
    (forall r', r' <> r -> (r' < l_n l)%nat -> gpu = true -> nth_error (w_dev w2) r' = nth_error (w_dev w) r') ->
    (forall r', r' <> r -> (r' < l_n l)%nat -> l_val l2 r' = l_val l r') ->
    nth_error (w_host w2) r = Some (Some (l_val l2 r)) ->
    (exists a', w_obj w2 o = Some a' /\ a_sync a' = HostModified) ->
    coh l2 w2.
  Proof.
    intros l w o r l2 w2 own I C No O2 OO LL Ex HH DD VV Hr [an [On Sn]]. constructor.
    - intros o' r' own' a' El Ea L. rewrite O2 in El. destruct (Nat.eq_dec o o') as [<-|N].
      + rewrite upd_eq in El. injection El as <- <-. rewrite On in Ea. injection Ea as <-.
        rewrite Sn. exact Hr.
      + rewrite upd_ne in El by exact N. apply OO in Ea; [|congruence].
        destruct (i_obj l w I o' r' own' a' El Ea) as [A _].
        assert (r' <> r) by (intros ->; exact (Ex o' own' El)).
        rewrite (LL r' A) in L. pose proof (c_val l w C o' r' own' a' El Ea L) as Q.
        unfold coh_at in *. rewrite HH, VV by assumption.
        destruct (a_sync a').
        * destruct Q as [Q1 Q2]. split; [exact Q1|]. intros G. rewrite DD by assumption. auto.
        * exact Q.
        * destruct Q as [G Q2]. split; [exact G|]. rewrite DD by assumption. exact Q2.
    - intros o1 o2 r' own1 own2 E1 E2. rewrite O2 in E1, E2.
      destruct (Nat.eq_dec o o1) as [<-|N1]; destruct (Nat.eq_dec o o2) as [<-|N2]; try reflexivity.
      + rewrite upd_eq in E1. rewrite upd_ne in E2 by exact N2. injection E1 as -> ->.
        exfalso. exact (Ex o2 own2 E2).
      + rewrite upd_eq in E2. rewrite upd_ne in E1 by exact N1. injection E2 as -> ->.
        exfalso. exact (Ex o1 own1 E1).
      + rewrite upd_ne in E1 by assumption. rewrite upd_ne in E2 by assumption.
        exact (c_excl l w C o1 o2 r' own1 own2 E1 E2).
  Qed.

  Lemma create_ok : forall l w o c, inv l w -> l_obj l o = None ->
    wsz * Z.of_nat (length c) <= INT_MAX -> m_next (w_mm w) < INT_MAX ->
    exists w', create gpu wsz junk w o c = Ok w' /\
      inv (set_obj (new_buffer l c false) o (Some (l_n l, true))) w' /\
      m_next (w_mm w') = m_next (w_mm w) + 1 /\
      (coh l w -> coh (set_obj (new_buffer l c false) o (Some (l_n l, true))) w').
  Proof.
    intros l w o c I No Hb Hn.
    pose proof (idx_free l w I) as Fr. cbv zeta in Fr. destruct Fr as [F1 [F2 [F3 [F4 F5]]]].
    unfold create, allocate.
    destruct (Z.leb_spec INT_MAX (m_next (w_mm w))); [lia|].
    destruct (Z.ltb_spec (Z.of_nat (length c)) 0); [lia|].
    cbn [rbind]. set (l2 := set_obj (new_buffer l c false) o (Some (l_n l, true))).
    match goal with |- context [access_array gpu wsz ?ww o Host (Write c)] => set (w2 := ww) end.
    assert (I2 : inv l2 w2).
    { assert (FE : fresh_entry w o true (l_n l) (length c) w2 HostModified).
      { unfold fresh_entry. cbv zeta. split; [reflexivity|]. split; [reflexivity|]. split.
        - intros k N. simpl. rewrite !insertZ_ne by congruence.
          repeat (split; [reflexivity|]). split; [|split; reflexivity].
          destruct gpu; [rewrite insertZ_ne by congruence|]; reflexivity.
        - unfold entry. simpl. split; [reflexivity|].
          split; [pose proof (i_next l w I); lia|].
          rewrite !insertZ_eq by assumption. rewrite (i_hlen l w I).
          split; [reflexivity|]. split; [exact F2|].
          split; [|split; [destruct gpu; exact F4|split; [reflexivity|exact Hb]]].
          destruct gpu eqn:G; [|exact F3]. rewrite insertZ_eq by assumption.
          rewrite (i_dlen l w I G). reflexivity. }
      assert (Lr : length (repeat junk (Z.to_nat (Z.of_nat (length c)))) = length c)
        by (rewrite repeat_length, Nat2Z.id; reflexivity).
      apply (inv_fresh l w o true (l_n l) (length c) w2 HostModified I No FE l2).
      - reflexivity.
      - simpl. lia.
      - simpl. rewrite upd_eq. reflexivity.
      - simpl. lia.
      - intros r' Hr'. simpl. rewrite !upd_ne by lia. auto.
      - simpl. rewrite app_length, (i_hlen l w I). simpl. lia.
      - intros G. simpl. rewrite G, app_length, (i_dlen l w I G). simpl. lia.
      - intros r Hr. simpl. apply buf_app; [exact Lr|exact (i_hlen l w I)|exact Hr|exact (i_host l w I)].
      - intros G r Hr. simpl. rewrite G. apply buf_app; [exact Lr|exact (i_dlen l w I G)|exact Hr|exact (i_dev l w I G)].
      - intros _. simpl. rewrite !upd_eq. auto.
      - intros r' Hr'. simpl in Hr'. split; [reflexivity|lia]. }
    assert (El2 : l_obj l2 o = Some (l_n l, true)) by (simpl; apply upd_eq).
    assert (Lv : l_live l2 (l_n l) = true) by (simpl; apply upd_eq).
    assert (Ft : fits (Write c) (l_size l2 (l_n l))) by (simpl; rewrite upd_eq; reflexivity).
    destruct (access_ok l2 w2 o (l_n l) true Host (Write c) I2 El2 Lv ltac:(discriminate) Ft)
      as (v & w' & E & I' & M & _ & OO & HH & DD & Wr).
    rewrite E. cbn [rbind]. exists w'. split; [reflexivity|]. split.
    { apply (inv_same _ l2 w') in I'; [exact I'|]. constructor; reflexivity. }
    split; [rewrite M; reflexivity|].
    intros C. destruct (Wr eq_refl eq_refl) as [[b [_ Nb]] Sy].
    apply (coh_ctor l w o (l_n l) l2 w' true I C No).
    - reflexivity.
    - intros o' a' N. rewrite (OO o' a' N). simpl. rewrite upd_ne by congruence. reflexivity.
    - intros r' Hr'. simpl. rewrite upd_ne by lia. reflexivity.
    - intros o' own' El'. destruct (some_obj l w o' _ own' I El') as [a' Ea'].
      pose proof (proj1 (i_obj l w I o' _ own' a' El' Ea')). lia.
    - intros r' N Hr'. rewrite HH by exact N. simpl. apply app_before. rewrite (i_hlen l w I). exact Hr'.
    - intros r' N Hr' G. rewrite DD by exact N. simpl. rewrite G. apply app_before. rewrite (i_dlen l w I G). exact Hr'.
    - intros r' N Hr'. simpl. rewrite upd_ne by lia. reflexivity.
    - rewrite Nb. simpl. rewrite upd_eq. reflexivity.
    - exact Sy.
  Qed.

  Lemma view_ok : forall l w o r, inv l w -> l_obj l o = None -> (r < l_n l)%nat ->
    l_live l r = true -> wsz * Z.of_nat (l_size l r) <= INT_MAX -> m_next (w_mm w) < INT_MAX ->
    exists w', create_view gpu wsz zero w o r r (Z.of_nat (l_size l r)) = Ok w' /\
      inv (set_obj (set_val l r (repeat zero (l_size l r))) o (Some (r, false))) w' /\
      m_next (w_mm w') = m_next (w_mm w) + 1 /\
      (coh l w -> (forall o' own, l_obj l o' <> Some (r, own)) ->
       coh (set_obj (set_val l r (repeat zero (l_size l r))) o (Some (r, false))) w').
  Proof.
    intros l w o r I No Hr L Hb Hn.
    pose proof (idx_free l w I) as Fr. cbv zeta in Fr. destruct Fr as [F1 [F2 [F3 [F4 F5]]]].
    unfold create_view, allocate_view.
    destruct (Z.leb_spec INT_MAX (m_next (w_mm w))); [lia|].
    cbn [rbind]. rewrite Nat2Z.id.
    set (l2 := set_obj (set_val l r (repeat zero (l_size l r))) o (Some (r, false))).
    match goal with |- context [access_array gpu wsz ?ww o Host ?xx] => set (w2 := ww); set (x := xx) end.
    assert (I2 : inv l2 w2).
    { assert (FE : fresh_entry w o false r (l_size l r) w2 InSync).
      { unfold fresh_entry. cbv zeta. split; [reflexivity|]. split; [reflexivity|]. split.
        - intros k N. simpl. rewrite !insertZ_ne by congruence.
          repeat (split; [reflexivity|]). split; [|reflexivity].
          destruct gpu; [rewrite insertZ_ne by congruence|]; reflexivity.
        - unfold entry. simpl. split; [reflexivity|].
          split; [pose proof (i_next l w I); lia|].
          rewrite !insertZ_eq by assumption.
          split; [exact F1|]. split; [reflexivity|].
          split; [destruct gpu; exact F3|].
          split; [|split; [reflexivity|exact Hb]].
          destruct gpu eqn:G; [|exact F4]. rewrite insertZ_eq by assumption. reflexivity. }
      apply (inv_fresh l w o false r (l_size l r) w2 InSync I No FE l2).
      - reflexivity.
      - exact Hr.
      - reflexivity.
      - simpl. lia.
      - intros r' Hr'. auto.
      - exact (i_hlen l w I).
      - exact (i_dlen l w I).
      - exact (i_host l w I).
      - exact (i_dev l w I).
      - discriminate.
      - intros r' Hr'. simpl in Hr'. lia. }
    assert (El2 : l_obj l2 o = Some (r, false)) by (simpl; apply upd_eq).
    assert (Ft : fits x (l_size l2 r)).
    { simpl. intros b Lb. rewrite app_length, repeat_length, skipn_length. lia. }
    destruct (access_ok l2 w2 o r false Host x I2 El2 L ltac:(discriminate) Ft)
      as (v & w' & E & I' & M & _ & OO & HH & DD & Wr).
    rewrite E. cbn [rbind]. exists w'. split; [reflexivity|]. split.
    { apply (inv_same _ l2 w') in I'; [exact I'|]. constructor; reflexivity. }
    split; [rewrite M; reflexivity|].
    intros C Ex. destruct (Wr eq_refl eq_refl) as [[b [Lb Nb]] Sy].
    apply (coh_ctor l w o r l2 w' false I C No).
    - reflexivity.
    - intros o' a' N. rewrite (OO o' a' N). simpl. rewrite upd_ne by congruence. reflexivity.
    - reflexivity.
    - exact Ex.
    - intros r' N Hr'. rewrite HH by exact N. reflexivity.
    - intros r' N Hr' G. rewrite DD by exact N. reflexivity.
    - intros r' N Hr'. simpl. rewrite upd_ne by congruence. reflexivity.
    - rewrite Nb. simpl. rewrite upd_eq. simpl in Lb.
      rewrite (skipn_all2 b) by lia. rewrite app_nil_r. reflexivity.
    - exact Sy.
  Qed.

  Lemma swap_ok : forall l w o1 o2, inv l w -> l_obj l o1 <> None -> l_obj l o2 <> None ->
    exists w', swap w o1 o2 = Ok w' /\
      inv (set_obj (set_obj l o1 (l_obj l o2)) o2 (l_obj l o1)) w' /\ w_mm w' = w_mm w /\
      (coh l w -> coh (set_obj (set_obj l o1 (l_obj l o2)) o2 (l_obj l o1)) w').
  Proof.
    intros l w o1 o2 I N1 N2.
    destruct (l_obj l o1) as [[r1 own1]|] eqn:E1; [|congruence].
    destruct (l_obj l o2) as [[r2 own2]|] eqn:E2; [|congruence].
    destruct (some_obj l w o1 r1 own1 I E1) as [a1 A1].
    destruct (some_obj l w o2 r2 own2 I E2) as [a2 A2].
    unfold swap. rewrite A1, A2. eexists. split; [reflexivity|].
    (* the permutation of names *)
    set (pi := fun o => if Nat.eqb o o1 then o2 else if Nat.eqb o o2 then o1 else o).
    assert (Pinv : forall o, pi (pi o) = o).
    { intros o. unfold pi. destruct (Nat.eqb_spec o o1) as [->|Na].
      - destruct (Nat.eqb_spec o2 o1) as [->|]; [reflexivity|]. rewrite Nat.eqb_refl. reflexivity.
      - destruct (Nat.eqb_spec o o2) as [->|Nb].
        + rewrite Nat.eqb_refl. reflexivity.
        + destruct (Nat.eqb_spec o o1); [congruence|]. destruct (Nat.eqb_spec o o2); congruence. }
    assert (Pinj : forall o o', pi o = pi o' -> o = o') by (intros o o' H; rewrite <- (Pinv o), H, Pinv; reflexivity).
    assert (PL : forall o, upd (upd (l_obj l) o1 (Some (r2, own2))) o2 (Some (r1, own1)) o = l_obj l (pi o)).
    { intros o. unfold pi, upd. rewrite (Nat.eqb_sym o2 o), (Nat.eqb_sym o1 o).
      destruct (Nat.eqb_spec o o2) as [->|Nb].
      - destruct (Nat.eqb_spec o2 o1) as [->|]; congruence.
      - destruct (Nat.eqb_spec o o1) as [->|]; congruence. }
    assert (PW : forall o, upd (upd (w_obj w) o1 (Some a2)) o2 (Some a1) o = w_obj w (pi o)).
    { intros o. unfold pi, upd. rewrite (Nat.eqb_sym o2 o), (Nat.eqb_sym o1 o).
      destruct (Nat.eqb_spec o o2) as [->|Nb].
      - destruct (Nat.eqb_spec o2 o1) as [->|]; congruence.
      - destruct (Nat.eqb_spec o o1) as [->|]; congruence. }
    clearbody pi.
    split; [|split; [reflexivity|]].
    - destruct I. constructor; simpl; auto.
      + intros o. rewrite PL, PW. auto.
      + intros o r own a. rewrite PL, PW. eauto.
      + intros o o' a a'. rewrite !PW. intros H1 H2 H3. apply Pinj. eauto.
      + intros o o' r. rewrite !PL. intros H1 H2. apply Pinj. eauto.
      + intros r Hr L X. destruct (i_leak0 r Hr L X) as [o Ho]. exists (pi o). rewrite PL, Pinv. exact Ho.
      + intros k. destruct (i_keys0 k) as [[o [a [Ha Hk]]]|H]; [left|right; exact H].
        exists (pi o), a. rewrite PW, Pinv. auto.
    - intros C. constructor; simpl.
      + intros o r own a. rewrite PL, PW. exact (c_val l w C (pi o) r own a).
      + intros o o' r own own'. rewrite !PL. intros H1 H2. apply Pinj. exact (c_excl l w C _ _ _ _ _ H1 H2).
  Qed.

  (** Removing an object whose handle's entries are gone. *)
  Lemma destroy_ok : forall l w o r own, inv l w -> l_obj l o = Some (r, own) ->
    exists w', destroy gpu w o = Ok w' /\
      inv (ledger_step zero l (OpDestroy o)) w' /\ m_next (w_mm w') = m_next (w_mm w) /\
      (coh l w -> coh (ledger_step zero l (OpDestroy o)) w').
  Proof.
    intros l w o r own I El.
    destruct (some_obj l w o r own I El) as [a Ea].
    destruct (i_obj l w I o r own a El Ea) as [Hr [(B1 & B2 & Bh & Bbh & Bd & Bbd & Bs & Bm) Own]].
    unfold destroy. rewrite Ea, B1. set (k := a_handle a) in *.
    (* both destructors remove the entries of k and free the owned buffers *)
    set (hh := if own then put (w_host w) r None else w_host w).
    set (dh := if gpu && own then put (w_dev w) r None else w_dev w).
    assert (E : exists m', (if own then deallocate gpu w k else deallocate_view gpu w k)
                = Ok {| w_host := hh; w_dev := dh; w_mm := m'; w_obj := w_obj w |} /\
                m_next m' = m_next (w_mm w) /\
                (m_host m' k = None /\ m_bhost m' k = None /\ m_dev m' k = None /\ m_bdev m' k = None /\ m_size m' k = None) /\
                (forall k', k' <> k -> m_host m' k' = m_host (w_mm w) k' /\ m_bhost m' k' = m_bhost (w_mm w) k' /\
                    m_dev m' k' = m_dev (w_mm w) k' /\ m_bdev m' k' = m_bdev (w_mm w) k' /\ m_size m' k' = m_size (w_mm w) k')).
    { unfold hh, dh. destruct own.
      - destruct (Own eq_refl) as [L X]. unfold deallocate. rewrite Bh.
        rewrite (free_ok _ _ _ _ (i_host l w I r Hr) L). cbn [rbind].
        destruct gpu eqn:G; cbn [andb].
        + cbn [andb] in Bd. rewrite Bd. rewrite (free_ok _ _ _ _ (i_dev l w I G r Hr) L). cbn [rbind].
          eexists. split; [reflexivity|]. cbn [m_next m_host m_bhost m_dev m_bdev m_size].
          split; [reflexivity|]. rewrite !updZ_eq. split; [repeat split; assumption|].
          intros k' N. rewrite !updZ_ne by congruence. repeat split.
        + eexists. split; [reflexivity|]. cbn [m_next m_host m_bhost m_dev m_bdev m_size].
          split; [reflexivity|]. rewrite !updZ_eq. split; [repeat split; assumption|].
          intros k' N. rewrite !updZ_ne by congruence. repeat split.
      - unfold deallocate_view. rewrite Bh. cbn [rbind].
        destruct gpu eqn:G; cbn [andb negb] in *.
        + rewrite Bd. cbn [rbind].
          eexists. split; [reflexivity|]. cbn [m_next m_host m_bhost m_dev m_bdev m_size].
          split; [reflexivity|]. rewrite !updZ_eq. split; [repeat split; assumption|].
          intros k' N. rewrite !updZ_ne by congruence. repeat split.
        + cbn [rbind].
          eexists. split; [reflexivity|]. cbn [m_next m_host m_bhost m_dev m_bdev m_size].
          split; [reflexivity|]. rewrite !updZ_eq. split; [repeat split; assumption|].
          intros k' N. rewrite !updZ_ne by congruence. repeat split. }
    destruct E as (m' & E & MN & MK & MO). rewrite E. cbn [rbind].
    eexists. split; [reflexivity|].
    assert (Olds : forall o' a', o' <> o -> w_obj w o' = Some a' -> a_handle a' <> k).
    { intros o' a' N E' Ek. apply N. exact (i_dist l w I o' o a' a E' Ea Ek). }
    assert (I' : inv (set_obj (if own then drop_buffer l r else l) o None)
       (with_obj {| w_host := hh; w_dev := dh; w_mm := m'; w_obj := w_obj w |} o None)).
    { assert (LL : forall r', l_live (if own then drop_buffer l r else l) r' =
                if own then upd (l_live l) r false r' else l_live l r') by (intros; destruct own; reflexivity).
      assert (LN : l_n (if own then drop_buffer l r else l) = l_n l) by (destruct own; reflexivity).
      assert (LS : l_size (if own then drop_buffer l r else l) = l_size l) by (destruct own; reflexivity).
      assert (LX : l_ext (if own then drop_buffer l r else l) = l_ext l) by (destruct own; reflexivity).
      assert (LO : l_obj (if own then drop_buffer l r else l) = l_obj l) by (destruct own; reflexivity).
      pose proof I as I0. destruct I. constructor; cbn [set_obj with_obj w_host w_dev w_mm w_obj l_n l_live l_ext l_size l_obj];
        rewrite ?LN, ?LS, ?LX, ?LO.
      - unfold hh. destruct own; [rewrite put_length|]; assumption.
      - intros G. unfold dh. rewrite G. destruct own; cbn [andb]; [rewrite put_length|]; auto.
      - lia.
      - intros r' Hr'. unfold hh. destruct own; [|exact (i_host0 r' Hr')].
        apply buf_drop; [lia|auto].
      - intros G r' Hr'. unfold dh. rewrite G. destruct own; cbn [andb]; [|exact (i_dev0 G r' Hr')].
        apply buf_drop; [rewrite (i_dlen0 G); lia|auto].
      - intros o'. destruct (Nat.eq_dec o o') as [<-|N].
        + rewrite !upd_eq. split; reflexivity.
        + rewrite !upd_ne by exact N. auto.
      - intros o' r' own' a' El' Ea'. destruct (Nat.eq_dec o o') as [<-|N].
        + rewrite upd_eq in El'. discriminate.
        + rewrite upd_ne in El' by exact N. rewrite upd_ne in Ea' by exact N.
          destruct (i_obj0 o' r' own' a' El' Ea') as [A [(C1 & C2 & C3) D]].
          destruct (MO (a_handle a')) as (K1 & K2 & K3 & K4 & K5); [apply (Olds o'); [congruence|exact Ea']|].
          split; [exact A|]. split.
          * unfold entry. rewrite K1, K2, K3, K4, K5, MN. split; [exact C1|]. split; [exact C2|]. exact C3.
          * intros O'. destruct (D O') as [D1 D2]. split; [|exact D2]. rewrite LL.
            destruct own; [|exact D1]. rewrite upd_ne; [exact D1|]. intros <-. 
            apply N. rewrite O' in El'. exact (i_own0 o o' r El El').
      - intros o1 o2 b1 b2 H1 H2 H3.
        destruct (Nat.eq_dec o o1) as [<-|N1]; [rewrite upd_eq in H1; discriminate|].
        destruct (Nat.eq_dec o o2) as [<-|N2]; [rewrite upd_eq in H2; discriminate|].
        rewrite upd_ne in H1 by exact N1. rewrite upd_ne in H2 by exact N2. eauto.
      - intros o1 o2 r' H1 H2.
        destruct (Nat.eq_dec o o1) as [<-|N1]; [rewrite upd_eq in H1; discriminate|].
        destruct (Nat.eq_dec o o2) as [<-|N2]; [rewrite upd_eq in H2; discriminate|].
        rewrite upd_ne in H1 by exact N1. rewrite upd_ne in H2 by exact N2. eauto.
      - intros r' Hr'. rewrite LL. intros L' X'.
        assert (H : l_live l r' = true /\ (own = true -> r <> r')).
        { destruct own; [|split; [exact L'|discriminate]].
          destruct (Nat.eq_dec r r') as [<-|N]; [rewrite upd_eq in L'; discriminate|].
          rewrite upd_ne in L' by exact N. auto. }
        destruct H as [L2 Nr]. destruct (i_leak0 r' Hr' L2 X') as [o' Ho'].
        exists o'. destruct (Nat.eq_dec o o') as [<-|N]; [|rewrite upd_ne by exact N; exact Ho'].
        rewrite El in Ho'. injection Ho' as E1 E2. exfalso. exact (Nr E2 E1).
      - intros k'. destruct (Z.eq_dec k' k) as [->|N]; [right; exact MK|].
        destruct (MO k' N) as (K1 & K2 & K3 & K4 & K5). rewrite K1, K2, K3, K4, K5.
        destruct (i_keys0 k') as [[o' [a' [Ha Hk]]]|H]; [left|right; exact H].
        exists o', a'. split; [|exact Hk]. rewrite upd_ne; [exact Ha|].
        intros <-. rewrite Ea in Ha. injection Ha as <-. apply N. symmetry. exact Hk. }
    assert (Step : ledger_step zero l (OpDestroy o) = set_obj (if own then drop_buffer l r else l) o None).
    { cbn [ledger_step]. rewrite El. destruct own; reflexivity. }
    rewrite Step. split; [exact I'|]. split; [exact MN|].
    intros C. constructor; cbn [set_obj with_obj w_host w_dev w_mm w_obj l_n l_live l_ext l_size l_obj].
    - intros o' r' own' a' El' Ea' L'.
      replace (l_obj (if own then drop_buffer l r else l)) with (l_obj l) in El' by (destruct own; reflexivity).
      destruct (Nat.eq_dec o o') as [<-|N]; [rewrite upd_eq in El'; discriminate|].
      rewrite upd_ne in El' by exact N. rewrite upd_ne in Ea' by exact N.
      assert (Nr : r' <> r) by (intros ->; apply N; exact (c_excl l w C o o' r own own' El El')).
      assert (L2 : l_live l r' = true).
      { destruct own; [|exact L']. simpl in L'. rewrite upd_ne in L' by congruence. exact L'. }
      pose proof (c_val l w C o' r' own' a' El' Ea' L2) as Q. unfold coh_at in *.
      cbn [w_host w_dev with_obj].
      replace (l_val (set_obj (if own then drop_buffer l r else l) o None)) with (l_val l) by (destruct own; reflexivity).
      replace (nth_error hh r') with (nth_error (w_host w) r')
        by (unfold hh; destruct own; [rewrite put_ne by congruence|]; reflexivity).
      replace (nth_error dh r') with (nth_error (w_dev w) r')
        by (unfold dh; destruct (gpu && own); [rewrite put_ne by congruence|]; reflexivity).
      exact Q.
    - intros o1 o2 r' own1 own2.
      replace (l_obj (if own then drop_buffer l r else l)) with (l_obj l) by (destruct own; reflexivity).
      intros H1 H2.
      destruct (Nat.eq_dec o o1) as [<-|N1]; [rewrite upd_eq in H1; discriminate|].
      destruct (Nat.eq_dec o o2) as [<-|N2]; [rewrite upd_eq in H2; discriminate|].
      rewrite upd_ne in H1 by exact N1. rewrite upd_ne in H2 by exact N2.
      exact (c_excl l w C o1 o2 r' own1 own2 H1 H2).
  Qed.

  Lemma step_ok : forall l w op, inv l w -> allowed gpu wsz l op -> m_next (w_mm w) < INT_MAX ->
    exists v w', mem_step gpu wsz zero junk w op = Ok (v, w') /\ inv (ledger_step zero l op) w' /\
      m_next (w_mm w') <= m_next (w_mm w) + 1 /\
      (coh l w -> unshared gpu l op -> v = ledger_view l op /\ coh (ledger_step zero l op) w').
  Proof.
    intros l w op I A M. destruct op; cbn [allowed] in A; cbn [mem_step].
    - destruct A as [A1 A2]. destruct (create_ok l w o c I A1 A2 M) as (w' & E & I' & M' & C').
      rewrite E. cbn [rbind]. exists [], w'. split; [reflexivity|]. split; [exact I'|].
      split; [lia|]. intros C _. split; [reflexivity|exact (C' C)].
    - destruct A as (A1 & A2 & A3 & -> & A5).
      destruct (view_ok l w o r I A1 A2 A3 A5 M) as (w' & E & I' & M' & C').
      rewrite E. cbn [rbind]. exists [], w'. split; [reflexivity|]. split; [exact I'|].
      split; [lia|]. intros C U. split; [reflexivity|exact (C' C U)].
    - destruct (l_obj l o) as [[r own]|] eqn:El; [|congruence].
      destruct (destroy_ok l w o r own I El) as (w' & E & I' & M' & C').
      rewrite E. cbn [rbind]. exists [], w'. split; [reflexivity|]. split; [exact I'|].
      split; [lia|]. intros C _. split; [reflexivity|exact (C' C)].
    - destruct A as [A1 A2]. destruct (swap_ok l w o1 o2 I A1 A2) as (w' & E & I' & M' & C').
      rewrite E. cbn [rbind]. exists [], w'. split; [reflexivity|]. split; [exact I'|].
      split; [rewrite M'; lia|]. intros C _. split; [reflexivity|exact (C' C)].
    - destruct (l_obj l o) as [[r own]|] eqn:El; [|contradiction]. destruct A as (A1 & A2 & A3).
      assert (F : fits x (l_size l r)) by (destruct x; exact A3).
      destruct (access_ok l w o r own s x I El A1 A2 F) as (v & w' & E & I' & M' & C' & _).
      exists v, w'. split; [exact E|]. cbn [ledger_step]. rewrite El.
      split; [|split; [lia|]].
      + destruct x; cbn [client] in I'; try exact I'.
        apply (inv_same _ l w') in I'; [exact I'|]. constructor; reflexivity.
      + intros C U. destruct (C' C) as [Hv Hc].
        { intros f ->. cbn [unshared] in U. exact U. }
        split.
        * rewrite Hv. cbn [ledger_view]. rewrite El. destruct x; reflexivity.
        * destruct x; cbn [client] in Hc; try exact Hc.
          constructor.
          -- intros o' r' own' a' El' Ea' L'. pose proof (c_val _ _ Hc o' r' own' a' El' Ea' L') as Q.
             unfold coh_at in *. simpl in Q. unfold upd in Q.
             destruct (Nat.eqb_spec r r') as [<-|]; exact Q.
          -- exact (c_excl l w C).
    - exists [], (ext_alloc gpu w c). split; [reflexivity|]. split; [apply inv_ext_alloc; exact I|].
      split; [simpl; lia|]. intros C _. split; [reflexivity|apply coh_ext_alloc; assumption].
    - destruct A as (A1 & A2 & A3). destruct (ext_free_ok l w r I A1 A2 A3) as (w' & E & I' & M' & C').
      rewrite E. cbn [rbind]. exists [], w'. split; [reflexivity|]. split; [exact I'|].
      split; [rewrite M'; lia|]. intros C _. split; [reflexivity|exact (C' C)].
  Qed.

  Lemma run_ok : forall h l w, inv l w -> allowed_all gpu wsz zero l h ->
    m_next (w_mm w) + Z.of_nat (length h) <= INT_MAX ->
    exists vs w', mem_run gpu wsz zero junk w h = Ok (vs, w') /\ inv (ledger_after zero l h) w' /\
      (coh l w -> unshared_all gpu zero l h -> vs = ledger_views zero l h /\ coh (ledger_after zero l h) w').
  Proof.
    induction h as [|op h IH]; intros l w I A M.
    - exists [], w. split; [reflexivity|]. split; [exact I|]. intros C _. split; [reflexivity|exact C].
    - cbn [allowed_all] in A. destruct A as [A1 A2]. cbn [length] in M.
      destruct (step_ok l w op I A1 ltac:(lia)) as (v & w1 & E & I1 & M1 & C1).
      destruct (IH (ledger_step zero l op) w1 I1 A2 ltac:(lia)) as (vs & w' & E' & I' & C').
      cbn [mem_run]. rewrite E. cbn [rbind]. rewrite E'. cbn [rbind].
      exists (v :: vs), w'. split; [reflexivity|]. split; [exact I'|].
      intros C [U1 U2]. destruct (C1 C U1) as [-> C2]. destruct (C' C2 U2) as [-> C3].
      split; [reflexivity|exact C3].
  Qed.
End Inv.
