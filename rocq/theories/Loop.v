(** One lemma for parallel loops whose iterations store to disjoint cells. *)
From Verif Require Import Outcome ZList ZListProofs Num Kernel KernelProofs Gather ModelDisc3D SpecGrid.
From Coq Require Import ZifyBool ZifyNat.

Section Loop.
  Context {V : Type}.
  Implicit Types (m : mem V).

  Definition locs (ws : list (nat * Z * V)) : list (nat * Z) := map fst ws.

  (** Run on memory m, program p stores exactly ws, and never loads what it stored
      (nor anything in W). *)
  Inductive stores m : list (nat * Z) -> prog V -> list (nat * Z * V) -> Prop :=
  | st_done W : stores m W Done []
  | st_rd W a i k v ws :
      ~ In (a, i) W -> mread m a i = Some v -> stores m W (k v) ws -> stores m W (Rd a i k) ws
  | st_wr W a i v p ws :
      inb m a i -> stores m ((a, i) :: W) p ws -> stores m W (Wr a i v p) ((a, i, v) :: ws).

  Lemma stores_exec m W p ws :
    stores m W p ws ->
    forall m1, same_shape m m1 -> (forall a i, ~ In (a, i) W -> mread m1 a i = mread m a i) ->
    NoDup (locs ws) ->
    exists m2, exec p m1 = Ok m2 /\ same_shape m m2 /\
      (forall a i v, In (a, i, v) ws -> mread m2 a i = Some v) /\
      (forall a i, ~ In (a, i) (locs ws) -> mread m2 a i = mread m1 a i).
  Proof.
    induction 1 as [W|W a i k v ws NI Hr Hs IH|W a i v p ws HB Hs IH]; intros m1 SH AG ND; simpl.
    - exists m1. repeat split; auto. intros; contradiction.
    - rewrite (AG a i NI), Hr. apply IH; auto.
    - assert (HB1 : inb m1 a i) by (eapply inb_shape; eauto).
      destruct (inb_mwrite m1 a i v HB1) as (m1' & E1). rewrite E1.
      simpl in ND. inversion ND as [|? ? NI ND']; subst.
      destruct (IH m1') as (m2 & E2 & S2 & T2 & F2); auto.
      + eapply same_shape_trans; [exact SH|]. eapply mwrite_shape; eauto.
      + intros a' i' NW. rewrite (mread_mwrite_other _ _ _ _ _ a' i' E1).
        * apply AG. intros C; apply NW; right; auto.
        * intros C; apply NW; left; auto.
      + exists m2. repeat split; auto.
        * intros a' i' v' [E|H].
          -- injection E as <- <- <-. rewrite F2; auto. eapply mread_mwrite_same; eauto.
          -- apply T2; auto.
        * intros a' i' NL. rewrite F2 by (intros C; apply NL; right; auto).
          apply (mread_mwrite_other _ _ _ _ _ a' i' E1). intros C; apply NL; left; auto.
  Qed.

  Theorem loop_spec {A} (xs : list A) (body : A -> prog V) (ws : A -> list (nat * Z * V)) m :
    NoDup xs ->
    (forall x, In x xs -> NoDup (locs (ws x))) ->
    (forall x y c, In x xs -> In y xs -> In c (locs (ws x)) -> In c (locs (ws y)) -> x = y) ->
    (forall x, In x xs ->
       uses (fun a i => inb m a i /\ (forall y, In y xs -> In (a, i) (locs (ws y)) -> y = x))
            (fun a i => In (a, i) (locs (ws x))) (body x)) ->
    (forall x, In x xs -> stores m [] (body x) (ws x)) ->
    exists m', schedule_independent (map body xs) m m' /\ same_shape m m' /\
      (forall x a i v, In x xs -> In (a, i, v) (ws x) -> mread m' a i = Some v) /\
      (forall a i, (forall x, In x xs -> ~ In (a, i) (locs (ws x))) -> mread m' a i = mread m a i).
  Proof.
    intros ND NDW DIS U ST.
    assert (WB : forall W p w, stores m W p w -> forall a i, In (a, i) (locs w) -> inb m a i).
    { induction 1; simpl; intros a' i' HI; auto; [contradiction|].
      destruct HI as [E|HI]; auto. injection E as <- <-; auto. }
    assert (G : gather_ok (fun x => locs (ws x)) body xs m).
    { split; [auto|]. split; [auto|]. split.
      - intros x Hx. eapply uses_weaken; [| |apply (U x Hx)]; auto.
      - intros x a i Hx HI. eapply WB; eauto. }
    destruct (gather_schedule _ _ _ _ G) as (m' & E & S & P & Q & R).
    destruct (gather_result _ _ _ _ G) as (m'' & E' & _ & T & F).
    assert (m'' = m') as -> by congruence.
    exists m'. split; [|split; [auto|split]].
    - split; auto. split; auto. split; auto. split; auto. apply every_schedule_terminates.
    - intros x a i v Hx HI.
      destruct (stores_exec _ _ _ _ (ST x Hx) m (same_shape_refl m)) as (r & Er & _ & Tr & _); auto.
      rewrite (T x r a i Hx Er); [apply Tr; auto|].
      change (a, i) with (fst (a, i, v)). apply in_map; auto.
    - intros a i H. apply F; auto.
  Qed.

  (** Iteration x stores f x to cell [slot x] of array a for each (a, f) in outs; it may
      load that cell, any cell no iteration stores to, and anything of the other arrays. *)
  Theorem cell_loop {A} (xs : list A) (slot : A -> Z) (body : A -> prog V)
      (outs : list (nat * (A -> V))) m :
    NoDup xs -> (forall x y, In x xs -> In y xs -> slot x = slot y -> x = y) ->
    NoDup (map fst outs) ->
    (forall x, In x xs ->
       uses (fun a i => inb m a i /\
               (In a (map fst outs) -> i = slot x \/ (forall y, In y xs -> i <> slot y)))
            (fun a i => In a (map fst outs) /\ i = slot x) (body x)) ->
    (forall x, In x xs -> stores m [] (body x) (map (fun o => (fst o, slot x, snd o x)) outs)) ->
    exists m', schedule_independent (map body xs) m m' /\ same_shape m m' /\
      (forall a f x, In (a, f) outs -> In x xs -> mread m' a (slot x) = Some (f x)) /\
      (forall a i, ~ In a (map fst outs) \/ (forall x, In x xs -> i <> slot x) ->
         mread m' a i = mread m a i).
  Proof.
    intros NDx INJ ND U ST.
    set (ws := fun x => map (fun o : nat * (A -> V) => (fst o, slot x, snd o x)) outs).
    assert (LW : forall x a i, In (a, i) (locs (ws x)) <-> In a (map fst outs) /\ i = slot x).
    { intros x a i. unfold locs, ws. rewrite map_map. simpl. rewrite !in_map_iff. split.
      - intros ([b f] & E & H). injection E as <- <-. split; auto. exists (b, f); auto.
      - intros (([b f] & E & H) & ->). exists (b, f). simpl in *. subst; auto. }
    destruct (loop_spec xs body ws m) as (m' & SI & SH & T & F).
    - auto.
    - intros ii _. unfold locs, ws. rewrite map_map. simpl. clear - ND.
      induction outs as [|o os IH]; simpl; constructor; inversion ND; subst; auto.
      rewrite in_map_iff. intros ([b f] & E & H). injection E as E. apply H1. rewrite <- E.
      apply (in_map fst os (b, f)); auto.
    - intros x y [a i] Hx Hy H1 H2. apply LW in H1 as (_ & ->). apply LW in H2 as (_ & E). auto.
    - intros x Hx. eapply uses_weaken; [| |apply (U x Hx)].
      + intros a i (B & C). split; auto. intros y Hy HL. apply LW in HL as (Ha & ->).
        destruct (C Ha) as [E|NE]; auto. exfalso. apply (NE y Hy); auto.
      + intros a i H. apply LW; auto.
    - intros x Hx. apply ST; auto.
    - exists m'. split; auto. split; auto. split.
      + intros a f x Ho Hx. apply (T x); auto.
        unfold ws. apply in_map_iff. exists (a, f); auto.
      + intros a i H. apply F. intros x Hx C. apply LW in C as (Ha & ->).
        destruct H as [H|H]; [tauto|]. apply (H x); auto.
  Qed.

  (** Iterations lo..hi-1, iteration ii storing f ii to cell ii of array a for each
      (a, f) in outs, and loading cell ii of those arrays and anything of the others. *)
  Theorem range_loop lo hi (body : Z -> prog V) (outs : list (nat * (Z -> V))) m :
    NoDup (map fst outs) ->
    (forall ii, lo <= ii < hi ->
       uses (fun a i => inb m a i /\ (In a (map fst outs) -> i = ii))
            (fun a i => In a (map fst outs) /\ i = ii) (body ii)) ->
    (forall ii, lo <= ii < hi -> stores m [] (body ii) (map (fun o => (fst o, ii, snd o ii)) outs)) ->
    exists m', schedule_independent (map body (zrange lo hi)) m m' /\
      forall_loop lo hi body m = Ok m' /\ same_shape m m' /\
      (forall a f ii, In (a, f) outs -> lo <= ii < hi -> mread m' a ii = Some (f ii)) /\
      (forall a i, ~ In a (map fst outs) \/ ~ lo <= i < hi -> mread m' a i = mread m a i).
  Proof.
    intros ND U ST.
    destruct (cell_loop (zrange lo hi) (fun i => i) body outs m) as (m' & SI & SH & T & F); auto.
    - apply nodup_zrange.
    - intros x Hx. apply in_zrange in Hx. eapply uses_weaken; [| |apply (U x Hx)]; auto.
      intros a i (B & C). auto.
    - intros x Hx. apply in_zrange in Hx. auto.
    - exists m'. split; auto. split; [apply SI|]. split; auto. split.
      + intros a f ii Ho Hi. apply (T a f ii); auto. apply in_zrange; auto.
      + intros a i [H|H]; apply F; auto. right. intros x Hx ->. apply in_zrange in Hx. auto.
  Qed.
  (** Two-level loops: parallel iterations xs, each a sequential loop over [inner x]. *)
  Theorem nested_loop {A B} (xs : list A) (inner : A -> list B) (P : A -> prog V)
      (body : B -> prog V) (ws : B -> list (nat * Z * V)) m :
    NoDup xs -> NoDup (flat_map inner xs) ->
    (forall x y b, In x xs -> In y xs -> In b (inner x) -> In b (inner y) -> x = y) ->
    (forall x m1, In x xs -> exec (P x) m1 = exec_all (map body (inner x)) m1) ->
    (forall x (R W : nat -> Z -> Prop), In x xs ->
       (forall b, In b (inner x) -> uses R W (body b)) -> uses R W (P x)) ->
    (forall b, In b (flat_map inner xs) -> NoDup (locs (ws b))) ->
    (forall b b' c, In b (flat_map inner xs) -> In b' (flat_map inner xs) ->
       In c (locs (ws b)) -> In c (locs (ws b')) -> b = b') ->
    (forall b, In b (flat_map inner xs) ->
       uses (fun a i => inb m a i /\
               (forall b', In b' (flat_map inner xs) -> In (a, i) (locs (ws b')) -> b' = b))
            (fun a i => In (a, i) (locs (ws b))) (body b)) ->
    (forall b, In b (flat_map inner xs) -> stores m [] (body b) (ws b)) ->
    exists m', schedule_independent (map P xs) m m' /\ same_shape m m' /\
      (forall b a i v, In b (flat_map inner xs) -> In (a, i, v) (ws b) -> mread m' a i = Some v) /\
      (forall a i, (forall b, In b (flat_map inner xs) -> ~ In (a, i) (locs (ws b))) ->
         mread m' a i = mread m a i).
  Proof.
    intros NDx NDf DI EX US NDW DIS U ST.
    destruct (loop_spec (flat_map inner xs) body ws m NDf NDW DIS U ST) as (m1 & SI1 & SH1 & T1 & F1).
    set (wi := fun x => flat_map (fun b => locs (ws b)) (inner x)).
    assert (IF : forall x b, In x xs -> In b (inner x) -> In b (flat_map inner xs))
      by (intros; apply in_flat_map; eauto).
    assert (WB : forall W p w, stores m W p w -> forall a i, In (a, i) (locs w) -> inb m a i).
    { induction 1; simpl; intros a' i' HI; auto; [contradiction|].
      destruct HI as [E|HI]; auto. injection E as <- <-; auto. }
    assert (G : gather_ok wi P xs m).
    { split; [auto|]. split; [|split].
      - intros x y c Hx Hy H1 H2. unfold wi in *.
        apply in_flat_map in H1 as (b & Hb & H1). apply in_flat_map in H2 as (b' & Hb' & H2).
        assert (b = b') by (eapply DIS; eauto). subst b'. eapply DI; eauto.
      - intros x Hx. apply US; auto. intros b Hb.
        eapply uses_weaken; [| |apply (U b (IF x b Hx Hb))].
        + intros a i (IB & C). split; auto. intros y Hy HI. unfold wi in HI.
          apply in_flat_map in HI as (b' & Hb' & HI). assert (b' = b) by (eapply C; eauto). subst b'.
          eapply DI; eauto.
        + intros a i HI. unfold gwrite, wi. apply in_flat_map. eauto.
      - intros x a i Hx HI. unfold wi in HI. apply in_flat_map in HI as (b & Hb & HI).
        eapply WB; eauto. }
    destruct (gather_schedule _ _ _ _ G) as (m' & E & S & Pq & Q & R).
    assert (m' = m1) as ->.
    { assert (EE : exec_all (map P xs) m = exec_all (map body (flat_map inner xs)) m).
      { clear - EX. revert m. induction xs as [|x xs IH]; intros m; simpl; auto.
        rewrite EX by (left; auto). rewrite map_app, exec_all_app.
        destruct (exec_all (map body (inner x)) m); simpl; auto. apply IH. intros; apply EX; right; auto. }
      destruct SI1 as (E1 & _). congruence. }
    exists m1. split; [|split; [auto|split; auto]].
    split; auto. split; auto. split; auto. split; auto. apply every_schedule_terminates.
  Qed.
End Loop.

(** Proves [uses] goals: loads and stores that satisfy the side conditions by [tac]. *)
Ltac prove_uses tac :=
  repeat (match goal with
          | |- uses _ _ Done => apply uses_done
          | |- uses _ _ (Rd _ _ _) => apply uses_rd; [tac | intros ?]
          | |- uses _ _ (Wr _ _ _ _) => apply uses_wr; [tac | ]
          end; cbv beta).

(** Proves [stores] goals: [rd] proves what is loaded, [wr] that stores are in bounds. *)
Ltac prove_stores rd wr :=
  repeat (match goal with
          | |- stores _ _ Done _ => apply st_done
          | |- stores _ _ (Rd _ _ _) _ => eapply st_rd; [ | rd | ]; [ cbn [In]; intuition (try discriminate) | ]
          | |- stores _ _ (Wr _ _ _ _) _ => apply st_wr; [wr | ]
          end; cbv beta).
