(** Element-wise loops over solution states. *)
From Verif Require Import Outcome ZList ZListProofs Num Kernel KernelProofs Gather SpecGrid Loop
  ModelTime SpecTime.
From Coq Require Import Lia.
Local Open Scope Z_scope.

Section EW.
  Context {V : Type}.

  (** Load cell i of the arrays in [reads], then continue with the values. *)
  Fixpoint ew_loads (reads : list nat) (i : Z) (k : list V -> prog V) : prog V :=
    match reads with
    | [] => k []
    | a :: reads' => Rd a i (fun v => ew_loads reads' i (fun l => k (v :: l)))
    end.

  Definition ew_prog (reads : list nat) (f : list V -> V) (i : Z) : prog V :=
    ew_loads reads i (fun l => Wr 0%nat i (f l) Done).

  Lemma ew_uses reads i (R W : nat -> Z -> Prop) k :
    (forall a, In a reads -> R a i) -> (forall l, uses R W (k l)) -> uses R W (ew_loads reads i k).
  Proof.
    revert k. induction reads as [|a reads IH]; intros k HR HK; simpl; auto.
    apply uses_rd; [apply HR; left; auto|]. intros v. apply IH; auto. intros b Hb; apply HR; right; auto.
  Qed.

  Lemma ew_stores (m : mem V) reads i f k :
    (forall a, In a reads -> exists v, mread m a i = Some v) -> inb m 0 i ->
    (forall l, k l = Wr 0%nat i (f l) Done) ->
    exists vs, Forall2 (fun a v => mread m a i = Some v) reads vs /\
      stores m [] (ew_loads reads i k) [(0%nat, i, f vs)].
  Proof.
    revert f k. induction reads as [|a reads IH]; intros f k HR HB HK; simpl.
    - exists []. split; [constructor|]. rewrite HK. apply st_wr; auto. apply st_done.
    - destruct (HR a (or_introl eq_refl)) as (v & Ev).
      destruct (IH (fun l => f (v :: l)) (fun l => k (v :: l))) as (vs & F2 & ST); auto.
      { intros b Hb; apply HR; right; auto. }
      exists (v :: vs). split; [constructor; auto|]. eapply st_rd; eauto.
  Qed.

  Lemma Forall2_fun {A B} (P : A -> B -> Prop) l v w :
    (forall a x y, P a x -> P a y -> x = y) -> Forall2 P l v -> Forall2 P l w -> v = w.
  Proof.
    intros FN H. revert w. induction H; intros w' H'; inversion H'; subst; auto.
    f_equal; auto. eapply FN; eauto.
  Qed.

  (** The loop over one set of equally long arrays. *)
  Lemma ew_loop (size : Z) (body : Z -> prog V) reads f (m : mem V) :
    (forall i, body i = ew_prog reads f i) ->
    (0 < length m)%nat ->
    (forall l, In l m -> zlen l = size) ->
    (forall a, In a reads -> (a < length m)%nat) ->
    exists m', schedule_independent (map body (zrange 0 size)) m m' /\
      forall_loop 0 size body m = Ok m' /\ same_shape m m' /\
      (forall i vs, 0 <= i < size -> Forall2 (fun a v => mread m a i = Some v) reads vs ->
         mread m' 0 i = Some (f vs)) /\
      (forall a i, a <> 0%nat -> mread m' a i = mread m a i).
  Proof.
    intros HB HL HS HR.
    assert (IN : forall a i, (a < length m)%nat -> 0 <= i < size -> inb m a i /\ exists v, mread m a i = Some v).
    { intros a i Ha Hi. unfold inb, mread. destruct (nth_error m a) as [l|] eqn:E.
      - assert (zlen l = size) by (apply HS; eapply nth_error_In; eauto).
        assert (exists v, zget l i = Some v) as (v & Ev) by (apply zget_some; lia).
        split; [exists l; split; auto; lia|eauto].
      - apply nth_error_None in E. lia. }
    assert (ST : forall i, 0 <= i < size ->
      exists vs, Forall2 (fun a v => mread m a i = Some v) reads vs /\ stores m [] (body i) [(0%nat, i, f vs)]).
    { intros i Hi. rewrite HB. apply ew_stores; auto.
      - intros a Ha. apply IN; auto.
      - apply IN; auto. }
    assert (HF : exists g : Z -> V, forall i, 0 <= i < size ->
       exists vs, Forall2 (fun a v => mread m a i = Some v) reads vs /\ g i = f vs).
    { exists (fun i => f (map (fun a => match mread m a i with Some v => v | None => f [] end) reads)).
      intros i Hi. destruct (ST i Hi) as (vs & F2 & _). exists vs. split; auto. f_equal.
      clear - F2. induction F2; simpl; auto. rewrite H, IHF2; auto. }
    destruct HF as (g & Hg).
    destruct (range_loop 0 size body [(0%nat, g)] m) as (m' & SI & E & SH & T & F).
    - simpl. constructor; auto. constructor.
    - intros i Hi. rewrite HB. apply ew_uses.
      + intros a Ha. split; [apply IN; auto|]. simpl. intros _. reflexivity.
      + intros l. apply uses_wr; [split; simpl; auto|apply uses_done].
    - intros i Hi. simpl. destruct (ST i Hi) as (vs & F2 & SS). destruct (Hg i Hi) as (ws & G2 & ->).
      assert (vs = ws) as <-; auto.
      eapply Forall2_fun; eauto. simpl. congruence.
    - exists m'. split; [auto|]. split; [auto|]. split; [auto|]. split.
      + intros i vs Hi F2. rewrite (T 0%nat g i); simpl; auto.
        destruct (Hg i Hi) as (ws & G2 & ->). do 2 f_equal. eapply Forall2_fun; eauto. simpl. congruence.
      + intros a i NE. apply F. left. simpl. intros [H|[]]; auto.
  Qed.
End EW.

Section Vecs.
  Context {V : Type}.
  Variables (nv : nat) (size : Z).

  Lemma get_vecs_ok (ins : list (state V)) e :
    (e < nv)%nat -> (forall s, In s ins -> shaped nv size s) ->
    exists l, get_vecs ins e = Ok l /\ length l = length ins /\
      (forall a, In a l -> zlen a = size) /\
      (forall k s, nth_error ins k = Some s -> nth_error l k = nth_error s e).
  Proof.
    intros He. induction ins as [|s ins IH]; intros HS.
    - exists []. simpl. repeat split; auto. intros a []. intros [|k] s E; discriminate.
    - destruct IH as (l & E & L & Z & NE). { intros; apply HS; right; auto. }
      destruct (HS s (or_introl eq_refl)) as (HL & HZ).
      destruct (nth_error s e) as [a|] eqn:Ea.
      2:{ apply nth_error_None in Ea. lia. }
      exists (a :: l). cbn [get_vecs]. rewrite Ea. cbn [of_opt rbind]. rewrite E. cbn [rbind].
      split; auto. split; [simpl; lia|]. split.
      + intros b [<-|Hb]; auto. eapply HZ; eauto.
      + intros [|k] s' Es; simpl in *; [injection Es as <-; auto|eauto].
  Qed.

  Lemma cell_upd_same (o : state V) e a i : (e < length o)%nat -> cell (upd o e a) e i = zget a i.
  Proof. intros H. unfold cell. rewrite nth_error_upd_same; auto. Qed.

  Lemma cell_upd_other (o : state V) e e' a i : e <> e' -> cell (upd o e a) e' i = cell o e' i.
  Proof. intros H. unfold cell. rewrite nth_error_upd_other; auto. Qed.

  Lemma vec_step_ok (body : Z -> prog V) reads f (ins : list (state V)) (o : state V) e :
    (forall i, body i = ew_prog reads f i) ->
    (e < nv)%nat -> shaped nv size o -> (forall s, In s ins -> shaped nv size s) ->
    (forall a, In a reads -> (a <= length ins)%nat) ->
    exists a', vec_step body ins (Ok o) e = Ok (upd o e a') /\ zlen a' = size /\
      forall i vs, 0 <= i < size ->
        Forall2 (fun a v => cell (nth a (o :: ins) []) e i = Some v) reads vs -> zget a' i = Some (f vs).
  Proof.
    intros HB He (HL & HZ) HS HR.
    destruct (nth_error o e) as [dst|] eqn:Ed. 2:{ apply nth_error_None in Ed. lia. }
    destruct (get_vecs_ok ins e He HS) as (src & Es & Ls & Zs & NE).
    destruct (ew_loop size body reads f (dst :: src)) as (m' & _ & Em & SH & T & F); auto.
    - simpl; lia.
    - intros l [<-|Hl]; auto. eapply HZ; eauto.
    - intros a Ha. simpl. specialize (HR a Ha). lia.
    - unfold vec_step. cbn [rbind]. rewrite Ed. cbn [of_opt rbind]. rewrite Es. cbn [rbind].
      rewrite (HZ e dst Ed). rewrite Em. cbn [rbind].
      destruct m' as [|a' m'']. { discriminate SH. }
      exists a'. cbn [nth_error of_opt rbind]. split; auto. split.
      + unfold same_shape in SH. injection SH as SH _. pose proof (HZ e dst Ed) as Q. unfold zlen in *. lia.
      + intros i vs Hi F2. assert (M : mread (a' :: m'') 0 i = Some (f vs)).
        { apply T; auto. revert F2. clear - NE HR Ed Ls. intros F2.
          assert (G : forall a v, In a reads -> cell (nth a (o :: ins) []) e i = Some v ->
                        mread (dst :: src) a i = Some v).
          { intros a v Ha C. specialize (HR a Ha). unfold mread, cell in *. destruct a as [|a]; simpl in *.
            - rewrite Ed in C. auto.
            - destruct (nth_error ins a) as [s|] eqn:Ei.
              + rewrite (NE a s Ei). rewrite (nth_error_nth ins a [] Ei) in C. auto.
              + apply nth_error_None in Ei. lia. }
          clear - F2 G. induction F2; constructor; auto.
          - apply G; auto. left; auto.
          - apply IHF2. intros; apply G; auto. right; auto. }
        exact M.
  Qed.

  Lemma shaped_upd (o : state V) e a : shaped nv size o -> zlen a = size -> shaped nv size (upd o e a).
  Proof.
    intros (L & Z) Ha. split; [rewrite upd_length; auto|].
    intros e' b Hb. destruct (Nat.eq_dec e e') as [<-|NE].
    - destruct (Nat.lt_ge_cases e (length o)).
      + rewrite nth_error_upd_same in Hb by auto. congruence.
      + assert (nth_error (upd o e a) e = None) as E by (apply nth_error_None; rewrite upd_length; lia). congruence.
    - rewrite nth_error_upd_other in Hb by auto. eauto.
  Qed.

  Lemma for_vecs_ok (body : Z -> prog V) reads f (ins : list (state V)) (out : state V) :
    (forall i, body i = ew_prog reads f i) ->
    shaped nv size out -> (forall s, In s ins -> shaped nv size s) ->
    (forall a, In a reads -> (a <= length ins)%nat) ->
    exists out', for_vecs nv body out ins = Ok out' /\ shaped nv size out' /\
      forall e i vs, (e < nv)%nat -> 0 <= i < size ->
        Forall2 (fun a v => cell (nth a (out :: ins) []) e i = Some v) reads vs ->
        cell out' e i = Some (f vs).
  Proof.
    intros HB HO HS HR.
    assert (G : forall k, (k <= nv)%nat ->
      exists o, fold_left (vec_step body ins) (seq 0 k) (Ok out) = Ok o /\ shaped nv size o /\
        (forall e i vs, (e < k)%nat -> 0 <= i < size ->
           Forall2 (fun a v => cell (nth a (out :: ins) []) e i = Some v) reads vs ->
           cell o e i = Some (f vs)) /\
        (forall e i, (k <= e)%nat -> cell o e i = cell out e i)).
    { induction k as [|k IH]; intros Hk.
      - exists out. simpl. split; auto. split; auto. split; auto. intros; lia.
      - destruct IH as (o & E & SO & T & F); [lia|].
        destruct (vec_step_ok body reads f ins o k HB) as (a' & Ea & La & Ta); auto.
        exists (upd o k a'). rewrite seq_S, fold_left_app, E. simpl. split; auto.
        split; [apply shaped_upd; auto|]. destruct SO as (LO & _). split.
        + intros e i vs He Hi F2. destruct (Nat.eq_dec k e) as [<-|NE].
          * rewrite cell_upd_same by lia. apply Ta; auto.
            clear - F2 F. induction F2; constructor; auto.
            destruct x; simpl in *; auto. rewrite F; auto.
          * rewrite cell_upd_other by auto. apply T; auto. lia.
        + intros e i He. rewrite cell_upd_other by lia. apply F. lia. }
    destruct (G nv (Nat.le_refl nv)) as (o & E & SO & T & _). exists o. auto.
  Qed.

  Lemma for_vecs_holds (P : Z -> Prop) (body : Z -> prog V) reads f (ins : list (state V)) (out : state V)
      (us : nat -> nat -> Z -> V) :
    (forall i, body i = ew_prog reads f i) ->
    shaped nv size out -> (forall s, In s ins -> shaped nv size s) ->
    (forall a, In a reads -> (a <= length ins)%nat /\ state_holds nv size P (nth a (out :: ins) []) (us a)) ->
    exists out', for_vecs nv body out ins = Ok out' /\
      state_holds nv size P out' (fun e i => f (map (fun a => us a e i) reads)).
  Proof.
    intros HB HO HS HR.
    destruct (for_vecs_ok body reads f ins out HB HO HS) as (o & E & SO & T).
    - intros a Ha. apply HR; auto.
    - exists o. split; auto. split; auto. intros e i He Hi HP. apply T; auto.
      clear - HR He Hi HP. induction reads as [|a reads IH]; simpl; constructor.
      + destruct (HR a (or_introl eq_refl)) as (_ & _ & H). apply H; auto.
      + apply IH. intros; apply HR; right; auto.
  Qed.
End Vecs.

Section Holds.
  Context {V : Type}.
  Lemma state_holds_ext nv size (P : Z -> Prop) (s : state V) u w :
    (forall e i, (e < nv)%nat -> 0 <= i < size -> P i -> u e i = w e i) ->
    state_holds nv size P s u -> state_holds nv size P s w.
  Proof. intros E (S & H). split; auto. intros. rewrite <- E; auto. Qed.

  Lemma computes_ext {S} (eval : rhs_fun V S) ok nv size (P : Z -> Prop) f :
    computes eval ok nv size P f ->
    forall sc (s : state V) t (r : state V) u w, ok sc -> state_holds nv size P s u -> shaped nv size r ->
    (forall e i, (e < nv)%nat -> 0 <= i < size -> P i -> u e i = w e i) ->
    forall e i, (e < nv)%nat -> 0 <= i < size -> P i -> f t u e i = f t w e i.
  Proof.
    intros C sc s t r u w OK HS HR EQ e i He Hi HP.
    destruct (C sc s t r u OK HS HR) as (a & b & c & E & _ & _ & (_ & H1)).
    destruct (C sc s t r w OK (state_holds_ext _ _ _ _ _ _ EQ HS) HR) as (a' & b' & c' & E' & _ & _ & (_ & H2)).
    rewrite E in E'. injection E' as <- <- <-. specialize (H1 e i He Hi HP). specialize (H2 e i He Hi HP).
    congruence.
  Qed.
End Holds.
