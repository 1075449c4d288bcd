(** Proofs of the properties of managed arrays and names. *)
From Coq Require Import ZArith List Bool Lia FinFun Ascii String DecimalString DecimalN.
Import ListNotations.
From Verif Require Import Outcome ModelObs ModelMem SpecMem ModelNames MemProofs.
Local Open Scope Z_scope.
Local Open Scope list_scope.

Lemma pf_C36_coherence :
  forall (V : Type) (gpu : bool) (wsz : Z) (zero junk : V) (h : list (mem_op V)),
    0 < wsz -> Z.of_nat (List.length h) <= INT_MAX ->
    allowed_all gpu wsz zero no_arrays h -> unshared_all gpu zero no_arrays h ->
    exists w, mem_run gpu wsz zero junk new_world h = Ok (ledger_views zero no_arrays h, w).
Proof.
  intros V gpu wsz zero junk h Hw Hl A U.
  destruct (run_ok gpu wsz zero junk Hw h no_arrays new_world (inv_new gpu wsz) A) as (vs & w & E & _ & C).
  { simpl. exact Hl. }
  destruct (C (coh_new gpu) U) as [-> _]. exists w. exact E.
Qed.

Section One.
  Context {V : Type}.
  Variables (wsz : Z) (zero : V).

  Lemma one_array : forall xs (l : ledger V) s n c, l_obj l 0%nat = Some (0%nat, true) ->
    l_live l 0%nat = true -> l_size l 0%nat = n -> l_val l 0%nat = c ->
    (forall sx, In sx xs -> full_access n (snd sx)) ->
    allowed_all true wsz zero l (accesses 0%nat xs ++ [OpAccess 0%nat s Read]) /\
    unshared_all true zero l (accesses 0%nat xs ++ [OpAccess 0%nat s Read]) /\
    List.last (ledger_views zero l (accesses 0%nat xs ++ [OpAccess 0%nat s Read])) [] =
      fold_left (fun v sx => client v (snd sx)) xs c.
  Proof.
    induction xs as [|[s' x] xs IH]; intros l s n c El L Sz Vl F.
    - simpl. rewrite El. split; [repeat split; assumption|]. split; [split; exact I|exact Vl].
    - change (accesses 0%nat ((s', x) :: xs)) with (OpAccess 0%nat s' x :: accesses 0%nat xs).
      assert (Fx : full_access n x) by (apply (F (s', x)); left; reflexivity).
      set (l' := ledger_step zero l (OpAccess 0%nat s' x)).
      assert (El' : l_obj l' 0%nat = Some (0%nat, true)) by (unfold l'; simpl; rewrite El; destruct x; exact El).
      assert (L' : l_live l' 0%nat = true) by (unfold l'; simpl; rewrite El; destruct x; exact L).
      assert (Sz' : l_size l' 0%nat = n) by (unfold l'; simpl; rewrite El; destruct x; exact Sz).
      assert (V' : l_val l' 0%nat = client c x)
        by (unfold l'; simpl; rewrite El; destruct x; simpl; rewrite ?upd_eq, ?Vl; auto).
      destruct (IH l' s n (client c x) El' L' Sz' V') as [A [U E]].
      { intros sx H. apply F. right. exact H. }
      cbn [app allowed_all unshared_all ledger_views fold_left snd].
      split; [split; [|exact A]|split; [split; [|exact U]|]].
      + cbn [allowed]. rewrite El, Sz. split; [exact L|]. split; [reflexivity|]. destruct x; exact Fx || contradiction.
      + destruct x; simpl; try exact I. destruct Fx.
      + fold l'. cbn [List.last].
        destruct (ledger_views zero l' (accesses 0%nat xs ++ [OpAccess 0%nat s Read])) eqn:Ev; [|rewrite <- E; reflexivity].
        exfalso. clear - Ev. generalize l' Ev. destruct xs; simpl; intros; discriminate.
  Qed.
End One.

Lemma pf_C36_last_write :
  forall (V : Type) (wsz : Z) (zero junk : V) (c : list V) (xs : list (side * access V)) (s : side),
    0 < wsz -> wsz * Z.of_nat (List.length c) <= INT_MAX ->
    Z.of_nat (List.length xs) + 2 <= INT_MAX ->
    (forall sx, In sx xs -> full_access (List.length c) (snd sx)) ->
    exists seen w,
      mem_run true wsz zero junk new_world (OpCreate 0%nat c :: accesses 0%nat xs ++ [OpAccess 0%nat s Read])
      = Ok (seen, w) /\
      List.last seen [] = fold_left (fun v sx => client v (snd sx)) xs c.
Proof.
  intros V wsz zero junk c xs s Hw Hb Hl F.
  set (l1 := ledger_step zero (@no_arrays V) (OpCreate 0%nat c)).
  destruct (one_array wsz zero xs l1 s (List.length c) c) as [A [U E]]; try reflexivity.
  { exact F. }
  set (h := accesses 0%nat xs ++ [OpAccess 0%nat s Read]) in *.
  assert (Lh : Z.of_nat (List.length (OpCreate 0%nat c :: h)) <= INT_MAX).
  { unfold h, accesses. cbn [List.length]. rewrite app_length, map_length. cbn [List.length]. lia. }
  destruct (pf_C36_coherence V true wsz zero junk (OpCreate 0%nat c :: h) Hw Lh) as [w Ew].
  { cbn [allowed_all]. split; [|exact A]. split; [reflexivity|exact Hb]. }
  { cbn [unshared_all]. split; [exact I|exact U]. }
  eexists _, w. split; [exact Ew|]. rewrite <- E. cbn [ledger_views]. fold l1.
  assert (N : ledger_views zero l1 h <> []) by (unfold h; destruct xs; discriminate).
  destruct (ledger_views zero l1 h) eqn:Ev; [congruence|reflexivity].
Qed.

Lemma pf_C36_shared_buffer_refuted :
  exists (h : list (mem_op nat)) (w : world nat) (seen : list (list nat)),
    allowed_all true 8 0%nat no_arrays h /\
    mem_run true 8 0%nat 0%nat new_world h = Ok (seen, w) /\
    seen <> ledger_views 0%nat no_arrays h.
Proof.
  exists [OpCreate 0 [1; 2]; OpView 1 0 2; OpAccess 1 Device (Write [3; 4]); OpAccess 0 Host Read]%nat.
  eexists _, _. split; [|split; [reflexivity|]].
  - cbn. repeat split; try lia; try reflexivity; intros; discriminate.
  - cbn. discriminate.
Qed.

Lemma pf_C37_partial_write :
  forall (V : Type) (wsz : Z) (zero junk : V) (c : list V) (f : list V -> list V),
    0 < wsz -> wsz * Z.of_nat (List.length c) <= INT_MAX ->
    (forall b, List.length b = List.length c -> List.length (f b) = List.length c) ->
    exists w, mem_run true wsz zero junk new_world
        [OpCreate 0%nat c; OpAccess 0%nat Device (WritePart f); OpAccess 0%nat Host Read]
      = Ok ([[]; []; f (repeat junk (List.length c))], w).
Proof.
  intros V wsz zero junk c f Hw Hb F. cbn [mem_run mem_step]. unfold create, allocate.
  cbn [w_mm new_world new_manager m_next]. change (INT_MAX <=? 0) with false. cbn iota.
  destruct (Z.ltb_spec (Z.of_nat (List.length c)) 0); [lia|]. rewrite Nat2Z.id.
  cbn -[stored_bytes copy_elems copy_buf].
  rewrite copy_elems_id by lia.
  assert (L1 : List.length (f (repeat junk (List.length c))) = List.length c)
    by (apply F, repeat_length).
  assert (CB : copy_buf c (f (repeat junk (List.length c))) (Z.of_nat (List.length c))
               = Ok (f (repeat junk (List.length c)))).
  { replace (Z.of_nat (List.length c)) with (Z.of_nat (List.length (f (repeat junk (List.length c))))) by congruence.
    apply copy_buf_full. symmetry. exact L1. }
  rewrite CB. cbn. eexists. reflexivity.
Qed.

Lemma pf_C37_loss_refuted :
  exists (h : list (mem_op nat)) (w : world nat) (seen : list (list nat)),
    allowed_all true 8 0%nat no_arrays h /\
    mem_run true 8 0%nat 0%nat new_world h = Ok (seen, w) /\
    seen = [[]; []; [9; 0]]%nat /\ ledger_views 0%nat no_arrays h = [[]; []; [9; 2]]%nat.
Proof.
  exists [OpCreate 0 [1; 2]; OpAccess 0 Device (WritePart (fun b => 9 :: tl b)); OpAccess 0 Host Read]%nat.
  eexists _, _. split; [|split; [reflexivity|split; reflexivity]].
  cbn. repeat split; try lia; try reflexivity; try (intros; discriminate).
  intros [|x [|y [|]]]; simpl; lia.
Qed.

Lemma buf_ok_holds {V} (h : heap V) live size r : buf_ok h live size r ->
  (holds_buffer h r <-> live r = true).
Proof.
  unfold buf_ok, holds_buffer. destruct (live r).
  - intros [b [E _]]. split; [reflexivity|]. intros _. exists b. exact E.
  - intros E. split; [intros [b E']; congruence|discriminate].
Qed.

Lemma pf_C38_memory_safety :
  forall (V : Type) (gpu : bool) (wsz : Z) (zero junk : V) (h : list (mem_op V)),
    0 < wsz -> Z.of_nat (List.length h) <= INT_MAX ->
    allowed_all gpu wsz zero no_arrays h ->
    exists seen w, mem_run gpu wsz zero junk new_world h = Ok (seen, w) /\
      let l := ledger_after zero no_arrays h in
      (forall r, holds_buffer (w_host w) r <-> (r < l_n l)%nat /\ l_live l r = true) /\
      (gpu = true -> forall r, holds_buffer (w_dev w) r <-> (r < l_n l)%nat /\ l_live l r = true) /\
      ((forall o, w_obj w o = None) ->
         manager_empty (w_mm w) /\ forall r, holds_buffer (w_host w) r -> l_ext l r = true).
Proof.
  intros V gpu wsz zero junk h Hw Hl A.
  destruct (run_ok gpu wsz zero junk Hw h no_arrays new_world (inv_new gpu wsz) A) as (vs & w & E & I & _).
  { simpl. exact Hl. }
  exists vs, w. split; [exact E|]. cbv zeta. set (l := ledger_after zero no_arrays h) in *.
  assert (B : forall hp : heap V, List.length hp = l_n l ->
     (forall r, (r < l_n l)%nat -> buf_ok hp (l_live l) (l_size l) r) ->
     forall r, holds_buffer hp r <-> (r < l_n l)%nat /\ l_live l r = true).
  { intros hp L H r. split.
    - intros Hr. assert (Lt : (r < l_n l)%nat).
      { destruct Hr as [b Eb]. rewrite <- L. apply nth_error_Some. congruence. }
      split; [exact Lt|]. exact (proj1 (buf_ok_holds hp _ _ r (H r Lt)) Hr).
    - intros [Lt Lv]. exact (proj2 (buf_ok_holds hp _ _ r (H r Lt)) Lv). }
  pose proof (B _ (i_hlen _ _ l w I) (i_host _ _ l w I)) as BH.
  split; [exact BH|].
  split; [intros G; exact (B _ (i_dlen _ _ l w I G) (i_dev _ _ l w I G))|].
  intros No. split.
  - intros k. destruct (i_keys _ _ l w I k) as [[o [a [Ea _]]]|H]; [rewrite No in Ea; discriminate|exact H].
  - intros r Hr. apply BH in Hr. destruct Hr as [Lt Lv].
    destruct (l_ext l r) eqn:X; [reflexivity|].
    destruct (i_leak _ _ l w I r Lt Lv X) as [o El].
    pose proof (proj2 (i_none _ _ l w I o) (No o)). congruence.
Qed.

Lemma pf_C38_dangling_view_refuted :
  exists h : list (mem_op nat),
    mem_run true 8 0%nat 0%nat new_world h = UB /\
    exists h1, h = h1 ++ [OpAccess 1%nat Host Read] /\ allowed_all true 8 0%nat no_arrays h1 /\
      l_obj (ledger_after 0%nat no_arrays h1) 1%nat <> None.
Proof.
  exists [OpCreate 0 [1; 2]; OpView 1 0 2; OpDestroy 0; OpAccess 1 Host Read]%nat.
  split; [reflexivity|]. exists [OpCreate 0 [1; 2]; OpView 1 0 2; OpDestroy 0]%nat.
  split; [reflexivity|]. split; [|cbn; discriminate].
  cbn. repeat split; try lia; try reflexivity; intros; discriminate.
Qed.

Lemma pf_C39_reported_size :
  forall wsz size : Z, wsz = 4 \/ wsz = 8 -> 0 <= size <= INT_MAX ->
    (reported_size wsz (stored_bytes wsz size) = size <-> wsz * size <= INT_MAX).
Proof.
  intros wsz size Hw Hs. split.
  - intros E. destruct (Z_le_gt_dec (wsz * size) INT_MAX) as [H|H]; [exact H|].
    exfalso. revert E. apply reported_wrong; [exact Hw|exact Hs|lia].
  - intros H. apply reported_id; lia.
Qed.

Lemma pf_C39_array_sizes :
  forall (V : Type) (gpu : bool) (wsz : Z) (zero junk : V) (h : list (mem_op V)),
    0 < wsz -> Z.of_nat (List.length h) <= INT_MAX ->
    allowed_all gpu wsz zero no_arrays h ->
    exists seen w, mem_run gpu wsz zero junk new_world h = Ok (seen, w) /\
      let l := ledger_after zero no_arrays h in
      forall o r own, l_obj l o = Some (r, own) ->
        exists a, w_obj w o = Some a /\ array_size wsz w a = Ok (Z.of_nat (l_size l r)).
Proof.
  intros V gpu wsz zero junk h Hw Hl A.
  destruct (run_ok gpu wsz zero junk Hw h no_arrays new_world (inv_new gpu wsz) A) as (vs & w & E & I & _).
  { simpl. exact Hl. }
  exists vs, w. split; [exact E|]. cbv zeta. intros o r own El.
  destruct (some_obj gpu wsz _ w o r own I El) as [a Ea]. exists a. split; [exact Ea|].
  destruct (i_obj _ _ _ w I o r own a El Ea) as [_ [(_ & _ & _ & _ & _ & _ & Hs & Hm) _]].
  unfold array_size. rewrite Hs. rewrite reported_id by lia. reflexivity.
Qed.

(** ** Names *)
Lemma to_string_nat_inj : forall m n, to_string_nat m = to_string_nat n -> m = n.
Proof.
  intros m n H. unfold to_string_nat in H.
  assert (E : forall k, NilZero.uint_of_string (NilZero.string_of_uint (N.to_uint k)) = Some (N.to_uint k)).
  { intros k. apply NilZero.usu. intros C. destruct k; [discriminate|].
    pose proof (DecimalPos.Unsigned.to_uint_nonnil p) as Np. exact (Np C). }
  assert (Eu : N.to_uint m = N.to_uint n) by (pose proof (E m) as A; pose proof (E n) as B; rewrite H in A; congruence).
  rewrite <- (DecimalN.Unsigned.of_to m), <- (DecimalN.Unsigned.of_to n), Eu. reflexivity.
Qed.

Fixpoint digits_only (s : string) : Prop :=
  match s with EmptyString => True | String a s' => a <> "_"%char /\ digits_only s' end.

Lemma uint_digits : forall u, digits_only (NilEmpty.string_of_uint u).
Proof. induction u; simpl; try (split; [discriminate|assumption]); exact I. Qed.

Lemma to_string_digits : forall n, digits_only (to_string_nat n).
Proof.
  intros n. unfold to_string_nat, NilZero.string_of_uint.
  destruct (N.to_uint n) eqn:E; try (rewrite <- E; apply uint_digits).
  simpl. split; [discriminate|exact I].
Qed.

Lemma name_split : forall t1 s1 t2 s2, digits_only s1 -> digits_only s2 ->
  (t1 ++ "_" ++ s1 = t2 ++ "_" ++ s2)%string -> t1 = t2 /\ s1 = s2.
Proof.
  assert (No : forall t s, digits_only (t ++ "_" ++ s)%string -> False).
  { induction t; simpl; intros s [H1 H2]; [congruence|]. exact (IHt s H2). }
  induction t1 as [|a t1 IH]; intros s1 [|b t2] s2 D1 D2 E.
  - injection E as ->. auto.
  - injection E as <- E. subst s1. exfalso. exact (No _ _ D1).
  - injection E as -> E. subst s2. exfalso. exact (No t1 s1 D2).
  - injection E as -> E. destruct (IH s1 t2 s2 D1 D2 E) as [-> ->]. auto.
Qed.

Lemma name_objects_spec : forall types k,
  (forall t, 0 <= k t /\ k t + Z.of_nat (count_occ string_dec types t) <= INT_MAX) ->
  exists names, name_objects k types = Ok names /\ NoDup names /\
    Forall2 (fun t n => exists i : Z, k t <= i /\ n = (t ++ "_" ++ to_string_nat (Z.to_N i))%string) types names.
Proof.
  induction types as [|t ts IH]; intros k Hk.
  - exists []. split; [reflexivity|]. split; constructor.
  - cbn [name_objects name_object]. unfold name_object.
    assert (Ht := Hk t). rewrite count_occ_cons_eq in Ht by reflexivity.
    destruct (Z.leb_spec INT_MAX (k t)); [lia|].
    destruct (IH (fun t' => if String.eqb t' t then k t + 1 else k t')) as (ns & E & ND & F).
    { intros t'. specialize (Hk t'). destruct (String.eqb_spec t' t) as [->|NE]; [lia|].
      rewrite count_occ_cons_neq in Hk by congruence. lia. }
    rewrite E. eexists. split; [reflexivity|]. split.
    + constructor; [|exact ND]. intros Hin.
      apply (In_nth_error ns) in Hin. destruct Hin as [i Hi].
      assert (Q : exists t' j, (if String.eqb t' t then k t + 1 else k t') <= j /\
           (t ++ "_" ++ to_string_nat (Z.to_N (k t)) = t' ++ "_" ++ to_string_nat (Z.to_N j))%string).
      { clear - F Hi. revert i Hi. induction F as [|t' n ts ns [j [H1 H2]] F IH]; intros [|i] Hi; try discriminate.
        - injection Hi as ->. exists t', j. split; [exact H1|exact H2].
        - exact (IH i Hi). }
      destruct Q as (t' & j & Hj & Eq).
      apply name_split in Eq; [|apply to_string_digits|apply to_string_digits].
      destruct Eq as [<- Eq]. apply to_string_nat_inj in Eq.
      rewrite String.eqb_refl in Hj. apply Z2N.inj in Eq; lia.
    + constructor.
      * exists (k t). split; [lia|reflexivity].
      * clear - F. induction F as [|t' n ts ns [j [H1 H2]] F IH]; constructor.
        -- exists j. split; [|exact H2]. destruct (String.eqb_spec t' t) as [->|]; lia.
        -- apply IH.
Qed.

Lemma pf_C40_unique_names :
  forall types : list string, (forall t, Z.of_nat (count_occ string_dec types t) <= INT_MAX) ->
    exists names, name_objects new_counters types = Ok names /\
      List.length names = List.length types /\ NoDup names.
Proof.
  intros types H. destruct (name_objects_spec types new_counters) as (ns & E & ND & F).
  { intros t. unfold new_counters. specialize (H t). lia. }
  exists ns. split; [exact E|]. split; [|exact ND]. symmetry. clear - F. induction F; simpl; congruence.
Qed.

Lemma name_objects_overflow : forall types k t, INT_MAX < k t + Z.of_nat (count_occ string_dec types t) ->
  (forall t', k t' <= INT_MAX) -> name_objects k types = UB.
Proof.
  induction types as [|t0 ts IH]; intros k t H HK.
  - cbn in H. specialize (HK t). lia.
  - cbn [name_objects]. unfold name_object. destruct (Z.leb_spec INT_MAX (k t0)) as [_|L]; [reflexivity|].
    rewrite (IH _ t); [reflexivity| |].
    + destruct (String.eqb_spec t t0) as [->|NE]; [rewrite count_occ_cons_eq in H by reflexivity; lia|].
      rewrite count_occ_cons_neq in H by congruence. exact H.
    + intros t'. destruct (String.eqb_spec t' t0); [lia|apply HK].
Qed.

Lemma many_objects : exists (types : list string) (t : string), INT_MAX < Z.of_nat (count_occ string_dec types t).
Proof.
  assert (G : forall n, count_occ string_dec (repeat "A"%string n) "A"%string = n).
  { induction n as [|n IH]; [reflexivity|]. cbn [repeat]. rewrite count_occ_cons_eq by reflexivity. congruence. }
  exists (repeat "A"%string (Z.to_nat (INT_MAX + 1))), "A"%string. rewrite G, Z2Nat.id; unfold INT_MAX; lia.
Qed.

Lemma pf_C40_many_objects_refuted :
  forall (types : list string) (t : string), INT_MAX < Z.of_nat (count_occ string_dec types t) ->
    name_objects new_counters types = UB.
Proof. intros types t H. apply (name_objects_overflow types new_counters t); [unfold new_counters; lia|]. intros t'. unfold new_counters, INT_MAX. lia. Qed.

Lemma append_inj : forall a b c : string, (a ++ b = a ++ c)%string -> b = c.
Proof. induction a; simpl; intros b c E; [exact E|]. injection E as E. exact (IHa b c E). Qed.

Lemma pf_C40_array_set :
  forall (owner array : string) (nvecs : nat), NoDup (array_set_names owner array nvecs).
Proof.
  intros owner array nvecs. unfold array_set_names.
  apply FinFun.Injective_map_NoDup; [|apply seq_NoDup].
  intros i j E. unfold array_handle_name in E. do 4 apply append_inj in E.
  apply to_string_nat_inj in E. lia.
Qed.

Lemma pf_C40_owner_names_refuted :
  forall array : string,
    array_handle_name (owner_name None) array = ("UnnamedManagedArrayOwner::" ++ array)%string /\
    forall class : string, array_handle_name (owner_name (Some class)) array = (class ++ "::" ++ array)%string.
Proof. intros array. split; [reflexivity|]. intros class. reflexivity. Qed.

