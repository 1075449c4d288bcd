(** Proofs about the 3D grid, boundary fills and stencils. *)
From Verif Require Import Outcome ZList ZListProofs Num Kernel KernelProofs Gather Loop
  ModelIndex IndexProofs ModelDisc3D SpecGrid.
From Coq Require Import ZifyBool ZifyNat.

Lemma fill_from_spec {A} (vals : list A) : forall pre arr,
  zlen arr = zlen vals -> fill_from (pre ++ arr) (zlen pre) vals = Ok (pre ++ vals).
Proof.
  induction vals as [|v vs IH]; intros pre arr HL; simpl.
  - destruct arr; [reflexivity|]. unfold zlen in HL; simpl in HL; lia.
  - destruct arr as [|a arr]; [unfold zlen in HL; simpl in HL; lia|].
    assert (HL' : zlen arr = zlen vs) by (unfold zlen in *; simpl in *; lia).
    rewrite zset_some by (rewrite zlen_app; unfold zlen; simpl length; lia).
    replace (Z.to_nat (zlen pre)) with (length pre) by (unfold zlen; lia).
    rewrite upd_app_mid.
    replace (pre ++ v :: arr) with ((pre ++ [v]) ++ arr) by (rewrite <- app_assoc; reflexivity).
    replace (zlen pre + 1) with (zlen (pre ++ [v])) by (rewrite zlen_app; reflexivity).
    rewrite IH by auto. rewrite <- app_assoc. reflexivity.
Qed.

Lemma fill_from_ok {A} (zero : A) size vals :
  0 <= size -> zlen vals = size -> fill_from (new_array zero size) 0 vals = Ok vals.
Proof.
  intros H HL. apply (fill_from_spec vals [] (new_array zero size)).
  unfold new_array, zlen in *. rewrite repeat_length. lia.
Qed.

Lemma zlen_new_array {A} (z : A) size : 0 <= size -> zlen (new_array z size) = size.
Proof. intros. unfold zlen, new_array. rewrite repeat_length. lia. Qed.

Lemma mod_wrap1 n i : 0 < n -> - n <= i < 2 * n -> wrap1 n i = i mod n.
Proof.
  intros Hn Hi. unfold wrap1. destruct (Z.ltb_spec i 0).
  - rewrite <- (Z.mod_small (i + n) n) by lia.
    replace (i + n) with (i + 1 * n) by lia. rewrite Z.mod_add by lia. reflexivity.
  - destruct (Z.geb_spec i n).
    + rewrite <- (Z.mod_small (i - n) n) by lia.
      replace (i - n) with (i + (-1) * n) by lia. rewrite Z.mod_add by lia. reflexivity.
    + rewrite Z.mod_small by lia. reflexivity.
Qed.

(** Memory with one or two arrays. *)
Lemma same_shape_one {V} (a : list V) m : same_shape [a] m -> exists a', m = [a'] /\ zlen a' = zlen a.
Proof.
  unfold same_shape. destruct m as [|a' [|? ?]]; simpl; intros H; try discriminate.
  exists a'. unfold zlen. split; [auto|]. injection H; lia.
Qed.

Lemma same_shape_two {V} (a b : list V) m :
  same_shape [a; b] m -> exists a' b', m = [a'; b'] /\ zlen a' = zlen a /\ zlen b' = zlen b.
Proof.
  unfold same_shape. destruct m as [|a' [|b' [|? ?]]]; simpl; intros H; try discriminate.
  exists a', b'. unfold zlen. injection H; intros. repeat split; lia.
Qed.

Lemma same_shape_three {V} (a b c : list V) m :
  same_shape [a; b; c] m ->
  exists a' b' c', m = [a'; b'; c'] /\ zlen a' = zlen a /\ zlen b' = zlen b /\ zlen c' = zlen c.
Proof.
  unfold same_shape. destruct m as [|a' [|b' [|c' [|? ?]]]]; simpl; intros H; try discriminate.
  exists a', b', c'. unfold zlen. injection H; intros. repeat split; lia.
Qed.

Lemma inb_0 {V} (a : list V) m i : 0 <= i < zlen a -> inb (a :: m) 0 i.
Proof. intros; exists a; auto. Qed.
Lemma inb_1 {V} (a b : list V) m i : 0 <= i < zlen b -> inb (a :: b :: m) 1 i.
Proof. intros; exists b; auto. Qed.
Lemma inb_2 {V} (a b c : list V) m i : 0 <= i < zlen c -> inb (a :: b :: c :: m) 2 i.
Proof. intros; exists c; auto. Qed.

Lemma unread_eq {V} (a b : list V) : zlen a = zlen b -> (forall i, zget a i = zget b i) -> a = b.
Proof. intros. apply zget_ext; auto. Qed.

(** Loops of copies within one array. *)
Section Copy.
  Context {V : Type}.
  Definition copyp (c : Z * Z) : prog V := Rd 0 (snd c) (fun v => Wr 0 (fst c) v Done).

  Lemma copy_loop (ps : list (Z * Z)) (s : list V) :
    NoDup (map fst ps) ->
    (forall d r, In (d, r) ps -> 0 <= d < zlen s /\ 0 <= r < zlen s /\ ~ In r (map fst ps)) ->
    exists s', exec_all (map copyp ps) [s] = Ok [s'] /\ zlen s' = zlen s /\
      (forall d r, In (d, r) ps -> zget s' d = zget s r) /\
      (forall q, ~ In q (map fst ps) -> zget s' q = zget s q).
  Proof.
    intros ND H.
    assert (NDp : NoDup ps).
    { clear H. induction ps; constructor; inversion ND; subst; auto.
      intros C; apply H1. apply in_map; auto. }
    assert (INJ : forall x y, In x ps -> In y ps -> fst x = fst y -> x = y).
    { clear - ND. induction ps as [|p ps IH]; intros x y Hx Hy E; [contradiction|].
      inversion ND; subst. destruct Hx as [<-|Hx], Hy as [<-|Hy]; auto.
      - exfalso. apply H1. rewrite E. apply in_map; auto.
      - exfalso. apply H1. rewrite <- E. apply in_map; auto. }
    assert (G : gather_ok (fun c => [(0%nat, fst c)]) copyp ps [s]).
    { split; [auto|]. split; [|split].
      - intros x y c Hx Hy [<-|[]] [E|[]]. injection E as E. auto.
      - intros [d r] Hx. destruct (H d r Hx) as (Hd & Hr & Hn). simpl. constructor.
        + split; [apply inb_0; auto|]. intros y Hy [E|[]]. injection E as E.
          exfalso. apply Hn. simpl. rewrite <- E. apply in_map; auto.
        + intros v. constructor; [left; reflexivity|constructor].
      - intros [d r] a i Hx [E|[]]. injection E as <- <-. apply inb_0. simpl.
        apply (H d r Hx). }
    destruct (gather_result _ _ _ _ G) as (m' & E & S & T & F).
    apply same_shape_one in S as (s' & -> & L). exists s'. split; [auto|]. split; [auto|].
    split.
    - intros d r Hx. destruct (H d r Hx) as (Hd & Hr & Hn).
      destruct (zget_some s r Hr) as (v & Hv).
      destruct (exec_wr_done 0 d v [s] (inb_0 _ _ _ Hd)) as (r1 & Er & Mr).
      specialize (T (d, r) r1 0%nat d Hx). simpl in T. change (mread [s'] 0 d) with (zget s' d) in T.
      rewrite T; auto.
      + rewrite Mr, Hv. reflexivity.
      + change (mread [s] 0 r) with (zget s r). rewrite Hv. exact Er.
    - intros q Hq. apply (F 0%nat q). intros [d r] Hx [E1|[]]. injection E1 as E1.
      apply Hq. rewrite <- E1. apply (in_map fst ps (d, r)); auto.
  Qed.
End Copy.

Lemma exec_all_expand {V A} (P : A -> prog V) (f : A -> list (prog V)) (xs : list A) :
  (forall x m, In x xs -> exec (P x) m = exec_all (f x) m) ->
  forall m, exec_all (map P xs) m = exec_all (flat_map f xs) m.
Proof.
  induction xs as [|x xs IH]; intros H m; simpl; auto.
  rewrite H by (left; auto). rewrite exec_all_app.
  destruct (exec_all (f x) m); simpl; auto. apply IH. intros; apply H; right; auto.
Qed.

Section Disc3DProofs.
  Context {V : Type} `{N : Num V}.
  Implicit Types (dom : domain V) (d : disc3 V).

  (** What the constructor establishes, apart from the coordinates. *)
  Record wf3 d : Prop := {
    wf_valid : valid_domain3 (d3_domain d);
    wf_ni : d3_ni d = nx (d3_domain d);
    wf_nj : d3_nj d = ny (d3_domain d);
    wf_nk : d3_nk d = nz (d3_domain d);
    wf_nh : d3_nhalo d = nhalo (d3_domain d);
    wf_njnh : d3_njnhalo d = ny (d3_domain d) + 2 * nhalo (d3_domain d);
    wf_nknh : d3_nknhalo d = nz (d3_domain d) + 2 * nhalo (d3_domain d);
    wf_dx : d3_dx d = ndiv (nsub (xend (d3_domain d)) (xbeg (d3_domain d))) (nint (nx (d3_domain d)));
    wf_interior : d3_interior d =
      map (fun c => let '(i, j, k) := c in slot3 (d3_domain d) i j k)
          (box3 0 (nx (d3_domain d)) 0 (ny (d3_domain d)) 0 (nz (d3_domain d)));
    wf_receiver : d3_receiver d =
      map fst (periodic_pairs3 (d3_ni d) (d3_nj d) (d3_nk d) (d3_nhalo d) (d3_njnhalo d) (d3_nknhalo d));
    wf_donor : d3_donor d =
      map snd (periodic_pairs3 (d3_ni d) (d3_nj d) (d3_nk d) (d3_nhalo d) (d3_njnhalo d) (d3_nknhalo d))
  }.

  Lemma slot3_eq dom i j k :
    get1DindexFrom3D i j k (nhalo dom) (ny dom + 2 * nhalo dom) (nz dom + 2 * nhalo dom) = slot3 dom i j k.
  Proof. apply get3_eq. Qed.

  Lemma ix3_slot d i j k : wf3 d -> ix3 d i j k = slot3 (d3_domain d) i j k.
  Proof. intros W. unfold ix3. rewrite (wf_nh _ W), (wf_njnh _ W), (wf_nknh _ W). apply slot3_eq. Qed.

  Lemma slot3_range dom i j k : padded3 dom i j k -> 0 <= slot3 dom i j k < cells3 dom.
  Proof.
    intros (Hi & Hj & Hk). rewrite <- slot3_eq. apply (get3_range (nx dom) (ny dom) (nz dom)); auto.
  Qed.

  Lemma slot3_inj dom i j k i' j' k' :
    padded3 dom i j k -> padded3 dom i' j' k' -> slot3 dom i j k = slot3 dom i' j' k' ->
    i = i' /\ j = j' /\ k = k'.
  Proof.
    intros (Hi & Hj & Hk) (Hi' & Hj' & Hk') E. rewrite <- !slot3_eq in E.
    pose proof (getIJK_get3 (ny dom) (nz dom) (nhalo dom) i j k) as G.
    rewrite E, getIJK_get3 in G by lia.
    injection G as <- <- <-; auto; lia.
  Qed.

  Lemma inside_padded3 dom i j k : 0 <= nhalo dom -> inside3 dom i j k -> padded3 dom i j k.
  Proof. unfold inside3, padded3; lia. Qed.

  (** Every array of the right size holds some field. *)
  Lemma holds3_exists dom (f : list V) :
    valid_domain3 dom -> zlen f = cells3 dom -> exists u, holds3 dom f u.
  Proof.
    intros HV HL.
    assert (HP : 0 < zlen f).
    { rewrite HL. unfold cells3, valid_domain3 in *. apply Z.mul_pos_pos; [apply Z.mul_pos_pos|]; lia. }
    destruct (zget_some f 0 ltac:(lia)) as (z & _).
    exists (fun i j k => match zget f (slot3 dom i j k) with Some v => v | None => z end).
    split; auto. intros i j k H. destruct (zget_some f (slot3 dom i j k)) as (v & ->); auto.
    rewrite HL. apply slot3_range; auto.
  Qed.

  Lemma holds3_read dom f u m i j k :
    holds3 dom f u -> padded3 dom i j k -> mread (f :: m) 0 (slot3 dom i j k) = Some (u i j k).
  Proof. intros (_ & H) P. apply H; auto. Qed.

  Lemma mread_1 (a b : list V) m i : mread (a :: b :: m) 1 i = zget b i.
  Proof. reflexivity. Qed.

  (** ** Loops over the interior list *)

  Lemma getIJK3_slot d i j k :
    wf3 d -> inside3 (d3_domain d) i j k -> getIJK3 d (slot3 (d3_domain d) i j k) = (i, j, k).
  Proof.
    intros W H. unfold getIJK3. rewrite (wf_nh _ W), (wf_njnh _ W), (wf_nknh _ W), <- slot3_eq.
    destruct (wf_valid _ W) as (_ & _ & _ & Hh). unfold inside3 in H.
    apply getIJK_get3; lia.
  Qed.

  Definition interior_box d : list (Z * Z * Z) :=
    box3 0 (nx (d3_domain d)) 0 (ny (d3_domain d)) 0 (nz (d3_domain d)).

  Lemma in_interior_box d i j k : In (i, j, k) (interior_box d) <-> inside3 (d3_domain d) i j k.
  Proof. apply in_box3. Qed.

  Lemma interior_loop_map d (body : Z -> Z -> Z -> prog V) :
    wf3 d ->
    map (fun ii => at_interior3 d ii body) (zrange 0 (zlen (d3_interior d))) =
    map (fun c => let '(i, j, k) := c in body i j k) (interior_box d).
  Proof.
    intros W. unfold at_interior3.
    rewrite (map_over_list (fun o => match o with None => Bad | Some q => let '(i, j, k) := getIJK3 d q in body i j k end)).
    rewrite (wf_interior _ W), map_map. apply map_ext_in. intros [[i j] k] H.
    rewrite getIJK3_slot; auto. apply in_interior_box; auto.
  Qed.

  Lemma slot3_inside_inj d (x y : Z * Z * Z) :
    wf3 d -> In x (interior_box d) -> In y (interior_box d) ->
    (let '(i, j, k) := x in slot3 (d3_domain d) i j k) =
    (let '(i, j, k) := y in slot3 (d3_domain d) i j k) -> x = y.
  Proof.
    destruct x as [[i j] k], y as [[i' j'] k']. intros W Hx Hy E.
    destruct (wf_valid _ W) as (_ & _ & _ & Hh).
    apply in_interior_box in Hx, Hy.
    destruct (slot3_inj (d3_domain d) i j k i' j' k') as (-> & -> & ->); auto using inside_padded3.
  Qed.

  (** A loop over the interior list on any memory; see [cell_loop]. *)
  Theorem interior_loop3 d (body : Z -> Z -> Z -> prog V)
      (outs : list (nat * (Z -> Z -> Z -> V))) m :
    wf3 d -> NoDup (map fst outs) ->
    (forall i j k, inside3 (d3_domain d) i j k ->
       uses (fun a q => inb m a q /\ (In a (map fst outs) -> q = slot3 (d3_domain d) i j k))
            (fun a q => In a (map fst outs) /\ q = slot3 (d3_domain d) i j k) (body i j k)) ->
    (forall i j k, inside3 (d3_domain d) i j k ->
       stores m [] (body i j k)
         (map (fun o => (fst o, slot3 (d3_domain d) i j k, snd o i j k)) outs)) ->
    exists m',
      schedule_independent (map (fun ii => at_interior3 d ii body) (zrange 0 (zlen (d3_interior d)))) m m' /\
      forall_loop 0 (zlen (d3_interior d)) (fun ii => at_interior3 d ii body) m = Ok m' /\
      same_shape m m' /\
      (forall a f i j k, In (a, f) outs -> inside3 (d3_domain d) i j k ->
         mread m' a (slot3 (d3_domain d) i j k) = Some (f i j k)) /\
      (forall a q, ~ In a (map fst outs) \/
                   (forall i j k, inside3 (d3_domain d) i j k -> q <> slot3 (d3_domain d) i j k) ->
         mread m' a q = mread m a q).
  Proof.
    intros W ND U ST.
    set (outs' := map (fun o : nat * (Z -> Z -> Z -> V) =>
                        (fst o, fun c : Z * Z * Z => let '(i, j, k) := c in snd o i j k)) outs).
    assert (EF : map fst outs' = map fst outs) by (unfold outs'; rewrite map_map; reflexivity).
    destruct (cell_loop (interior_box d)
                (fun c => let '(i, j, k) := c in slot3 (d3_domain d) i j k)
                (fun c => let '(i, j, k) := c in body i j k) outs' m)
      as (m' & SI & SH & T & F).
    - apply nodup_box3.
    - intros; eapply slot3_inside_inj; eauto.
    - rewrite EF; auto.
    - intros [[i j] k] H. apply in_interior_box in H. rewrite EF.
      eapply uses_weaken; [| |apply (U i j k H)]; auto. intros a q (B & C); auto.
    - intros [[i j] k] H. apply in_interior_box in H. unfold outs'. rewrite map_map. apply ST; auto.
    - exists m'. unfold forall_loop. rewrite interior_loop_map by auto. rewrite EF in F.
      split; auto. split; [apply SI|]. split; auto. split.
      + intros a f i j k Ho H.
        apply (T a (fun c => let '(i, j, k) := c in f i j k) (i, j, k)).
        * unfold outs'. apply in_map_iff. exists (a, f); auto.
        * apply in_interior_box; auto.
      + intros a q [H|H]; apply F; auto. right. intros [[i j] k] Hx. apply in_interior_box in Hx. auto.
  Qed.

  (** The usual case: two arrays, loads from the first, stores to the second. *)
  Lemma interior_kernel2 d (body : Z -> Z -> Z -> prog V) (s o : list V) (val : Z -> Z -> Z -> V) :
    wf3 d -> zlen o = cells3 (d3_domain d) ->
    (forall i j k, inside3 (d3_domain d) i j k ->
       uses (fun a q => a = 0%nat /\ 0 <= q < zlen s)
            (fun a q => a = 1%nat /\ q = slot3 (d3_domain d) i j k) (body i j k)) ->
    (forall i j k, inside3 (d3_domain d) i j k ->
       stores [s; o] [] (body i j k) [(1%nat, slot3 (d3_domain d) i j k, val i j k)]) ->
    exists o', two (forall_loop 0 (zlen (d3_interior d)) (fun ii => at_interior3 d ii body) [s; o]) = Ok (s, o') /\
      holds_inside3 (d3_domain d) o' val /\ same_halo3 (d3_domain d) o o' /\
      schedule_independent (map (fun ii => at_interior3 d ii body) (zrange 0 (zlen (d3_interior d)))) [s; o] [s; o'].
  Proof.
    intros W HL HU HE.
    destruct (wf_valid _ W) as (_ & _ & _ & Hh).
    destruct (interior_loop3 d body [(1%nat, val)] [s; o]) as (m' & SI & E & S & T & F); auto.
    - repeat constructor; simpl; auto.
    - intros i j k H. eapply uses_weaken; [| |apply (HU i j k H)].
      + intros a q (-> & Hq). split; [apply inb_0; auto|]. simpl. intros [C|[]]; discriminate.
      + intros a q (-> & ->). simpl; auto.
    - apply same_shape_two in S as (s' & o' & -> & Ls & Lo).
      assert (s' = s) as ->.
      { apply unread_eq; auto. intros q. apply (F 0%nat q). left. simpl. intros [C|[]]; discriminate. }
      exists o'. rewrite E. split; [reflexivity|]. split; [|split; auto].
      + split; [congruence|]. intros i j k H. apply (T 1%nat val); simpl; auto.
      + split; [congruence|]. intros i j k HP HN. symmetry. apply (F 1%nat). right.
        intros i' j' k' Hx C. apply HN.
        destruct (slot3_inj (d3_domain d) i j k i' j' k') as (-> & -> & ->); auto using inside_padded3.
  Qed.

End Disc3DProofs.
