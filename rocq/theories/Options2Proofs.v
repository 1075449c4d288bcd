(** Proofs about option storage: precedence, rejection, the configuration template. *)
From Coq Require Import ZArith String Ascii Bool Lia List.
Import ListNotations.
From Verif Require Import Outcome ModelText ModelOptions SpecOptions TextProofs OptionsProofs.
Local Open Scope list_scope.
Local Open Scope Z_scope.

Section Opt2.
  Context {V : Type}.
  Variables (read : string -> res V) (lit : Z -> Z -> V) (eps100 max100 : V).
  Local Notation base := (base_opts lit eps100 max100).
  Local Notation names := (map o_name base).
  Local Notation find_exact := (find_exact lit eps100 max100).

  Lemma vset_same (m : vmap V) n x : vset m n x n = Some x.
  Proof. unfold vset. rewrite String.eqb_refl. reflexivity. Qed.
  Lemma vset_other (m : vmap V) n x k : k <> n -> vset m n x k = m k.
  Proof. intros H. unfold vset. apply String.eqb_neq in H. rewrite H. reflexivity. Qed.

  Local Notation accepts := (accepts base read).
  Lemma accepts_find n v x : accepts n v x <-> exists o, find_exact n = Some o /\ convert read (o_kind o) v = Ok x.
  Proof.
    split.
    - intros (o & I & E & C). exists o. split; auto. rewrite <- E. apply find_in. auto.
    - intros (o & F & C). apply find_some_in in F as (I & E). exists o. auto.
  Qed.
  Lemma accepts_fun n v x y : accepts n v x -> accepts n v y -> x = y.
  Proof.
    rewrite !accepts_find. intros (o & F & C) (o' & F' & C'). congruence.
  Qed.

  Variable final : string -> bool.
  Definition kept (l : list (string * string)) : list (string * string) := filter (fun a => negb (final (fst a))) l.
  Definition user (m : vmap V) (n : string) : Prop := exists v, m n = Some (v, false).

  Lemma stores_ok l : forall m new,
    NoDup (map fst (kept l)) -> (forall n v, In (n, v) (kept l) -> ~ user m n /\ exists x, accepts n v x) ->
    exists m' new', foldM (store_one read lit eps100 max100 final) l (m, new) = Ok (m', new') /\
      (forall n v x, In (n, v) (kept l) -> accepts n v x -> m' n = Some (x, false)) /\
      (forall n, ~ In n (map fst (kept l)) -> m' n = m n) /\
      (forall n, new' n = true <-> In n (map fst (kept l)) \/ new n = true).
  Proof.
    induction l as [|(a & t) l IH]; intros m new ND H.
    - exists m, new. split; [reflexivity|]. split; [intros n v x []|]. split; [auto|]. intros n. cbn. tauto.
    - cbn [foldM store_one]. unfold kept in *. cbn [filter fst] in *. destruct (final a) eqn:Fa; cbn [negb] in *.
      + cbn [rbind]. apply IH; auto.
      + cbn [map fst] in *. apply NoDup_cons_iff in ND as (N & ND).
        destruct (H a t (or_introl eq_refl)) as (U & x & A). pose proof A as A'. apply accepts_find in A' as (o & F & C).
        rewrite F. assert (R : forall X (k : value V * bool -> X) (w : X), match m a with Some (_, false) => w | _ => w end = w).
        { intros. destruct (m a) as [[? []]|]; auto. }
        assert (E : match m a with Some (_, false) => Throw | _ => rbind (convert read (o_kind o) t)
                      (fun v => Ok (vset m a (v, false), fun k => String.eqb k a || new k)) end =
                    Ok (vset m a (x, false), fun k => String.eqb k a || new k)).
        { rewrite C. cbn [rbind]. destruct (m a) as [[w []]|] eqn:Em; auto. exfalso. apply U. exists w. auto. }
        rewrite E. cbn [rbind].
        destruct (IH (vset m a (x, false)) (fun k => String.eqb k a || new k)) as (m' & new' & E1 & E2 & E3 & E4); auto.
        { intros n v I. destruct (H n v (or_intror I)) as (Un & X). split; auto. intros (w & Ew). apply Un. exists w.
          rewrite vset_other in Ew; auto. intros Ean. subst. apply N. apply (in_map fst) in I. auto. }
        exists m', new'. split; [auto|]. split; [|split].
        * intros n v y [I|I] Ay.
          -- injection I as <- <-. rewrite E3, vset_same by auto. rewrite (accepts_fun _ _ _ _ A Ay). reflexivity.
          -- eapply E2; eauto.
        * intros n I. cbn [map fst In] in I. rewrite E3 by tauto. apply vset_other. intros Ean. subst. tauto.
        * intros n. rewrite E4, orb_true_iff, String.eqb_eq. cbn [map fst In]. intuition congruence.
  Qed.

  Hypothesis read_total : forall s, read s = Throw \/ exists v, read s = Ok v.
  Lemma unsigned_total s : lexical_unsigned s = Throw \/ exists n, lexical_unsigned s = Ok n.
  Proof.
    unfold lexical_unsigned.
    match goal with |- context[let '(neg, r) := ?X in _] => destruct X as [neg r] end.
    destruct r; auto. destruct (_ <=? _); eauto.
  Qed.
  Lemma int_total s : lexical_int s = Throw \/ exists n, lexical_int s = Ok n.
  Proof.
    unfold lexical_int. match goal with |- context[match ?X with Some v => _ | None => Throw end] => destruct X end; auto.
    destruct (_ && _); eauto.
  Qed.
  Lemma convert_total k s : convert read k s = Throw \/ exists x, convert read k s = Ok x.
  Proof.
    destruct k; cbn [convert]; eauto.
    - destruct (read_total s) as [E|(v & E)]; rewrite E; cbn [rbind]; eauto.
    - destruct (int_total s) as [E|(v & E)]; rewrite E; cbn [rbind]; eauto.
    - destruct (unsigned_total s) as [E|(v & E)]; rewrite E; cbn [rbind]; eauto.
    - unfold bool_text. destruct (existsb _ _); [|destruct (existsb _ _)]; cbn [rbind]; eauto.
  Qed.

  (** Storing fails, by an exception, exactly when an option is given twice or a text does
      not fit its option. *)
  Lemma stores_total l : forall m new,
    foldM (store_one read lit eps100 max100 final) l (m, new) = Throw \/
    (NoDup (map fst (kept l)) /\ (forall n v, In (n, v) (kept l) -> ~ user m n /\ exists x, accepts n v x)).
  Proof.
    induction l as [|(a & t) l IH]; intros m new.
    - right. split; [constructor|]. intros n v [].
    - cbn [foldM store_one]. unfold kept in *. cbn [filter fst] in *. destruct (final a) eqn:Fa; cbn [negb] in *.
      + cbn [rbind]. apply IH.
      + destruct (find_exact a) as [o|] eqn:F; [|left; reflexivity].
        destruct (convert_total (o_kind o) t) as [C|(x & C)].
        { left. rewrite C. destruct (m a) as [[w []]|]; reflexivity. }
        rewrite C. cbn [rbind].
        assert (D : user m a \/ ~ user m a).
        { unfold user. destruct (m a) as [[w []]|]; [right|left|right]; [intros (z & Z); discriminate|eauto|intros (z & Z); discriminate]. }
        destruct D as [(w & D)|D]; [rewrite D; left; reflexivity|].
        assert (E : (match m a with Some (_, false) => Throw | _ => Ok (vset m a (x, false), fun k => String.eqb k a || new k) end) =
                    Ok (vset m a (x, false), fun k => String.eqb k a || new k)).
        { destruct (m a) as [[w []]|] eqn:Em; auto. exfalso. apply D. exists w. auto. }
        rewrite E. cbn [rbind]. destruct (IH (vset m a (x, false)) (fun k => String.eqb k a || new k)) as [T|(ND & H)]; [left; auto|right].
        split.
        * cbn [map fst]. constructor; auto. intros I. apply in_map_iff in I as ((n & v) & En & I). cbn in En. subst.
          destruct (H a v I) as (U & _). apply U. exists x. apply vset_same.
        * intros n v [I|I].
          -- injection I as <- <-. split; auto. exists x. apply accepts_find. exists o. auto.
          -- destruct (H n v I) as (U & X). split; auto. intros (w & W). apply U. exists w.
             destruct (string_dec n a) as [Q|Q]; [subst; exfalso; apply U; exists x; apply vset_same|]. rewrite vset_other; auto.
  Qed.

  Lemma defaults l : forall (m : vmap V) n, NoDup (map o_name l) ->
    fold_left add_default l m n =
    match m n with
    | Some x => Some x
    | None => match find (fun o => String.eqb (o_name o) n) l with
              | Some o => option_map (fun v => (v, true)) (o_default o)
              | None => None
              end
    end.
  Proof.
    induction l as [|o l IH]; intros m n ND; cbn [fold_left find].
    - destruct (m n); reflexivity.
    - cbn [map] in ND. apply NoDup_cons_iff in ND as (N & ND). rewrite IH by auto.
      assert (G : forall k, k <> o_name o -> add_default m o k = m k).
      { intros k K. unfold add_default. destruct (m (o_name o)); auto. destruct (o_default o); auto. apply vset_other. auto. }
      destruct (String.eqb (o_name o) n) eqn:E.
      + apply String.eqb_eq in E. subst n.
        assert (F : find (fun o0 => String.eqb (o_name o0) (o_name o)) l = None).
        { destruct (find _ l) as [o'|] eqn:F; auto. apply find_some in F as (F1 & F2). apply String.eqb_eq in F2.
          exfalso. apply N. rewrite <- F2. apply in_map. auto. }
        rewrite F. unfold add_default. destruct (m (o_name o)) eqn:M; [rewrite M; reflexivity|].
        destruct (o_default o); cbn [option_map]; [rewrite vset_same|rewrite M]; reflexivity.
      + apply String.eqb_neq in E. rewrite G by auto. reflexivity.
  Qed.
  Lemma base_defaults (m : vmap V) n : fold_left add_default base m n =
    match m n with
    | Some x => Some x
    | None => match find_exact n with Some o => option_map (fun v => (v, true)) (o_default o) | None => None end
    end.
  Proof. apply defaults. apply names_nodup. Qed.
End Opt2.

Section Parse.
  Context {V : Type}.
  Variables (read : string -> res V) (lit : Z -> Z -> V) (eps100 max100 : V).
  Local Notation base := (base_opts lit eps100 max100).
  Local Notation names := (map o_name base).
  Local Notation find_exact := (find_exact lit eps100 max100).
  Local Notation accepts := (accepts base read).
  Local Notation parse_options := (parse_options read lit eps100 max100).

  Lemma in_force_in cmd cfg n v : In (n, v) (in_force cmd cfg) <-> In (n, v) cfg /\ ~ In n (map fst cmd).
  Proof.
    unfold in_force. rewrite filter_In. cbn [fst]. rewrite negb_true_iff. split; intros (A & B); split; auto.
    - intros I. apply in_map_iff in I as (x & E & I).
      assert (T : existsb (fun b => String.eqb (fst b) n) cmd = true).
      { apply existsb_exists. exists x. split; auto. apply String.eqb_eq. auto. }
      congruence.
    - destruct (existsb _ cmd) eqn:E; auto. apply existsb_exists in E as (x & I & E). apply String.eqb_eq in E.
      exfalso. apply B. rewrite <- E. apply in_map. auto.
  Qed.

  Lemma config_option : exists o, find_exact "config_file"%string = Some o /\ o_kind o = KString /\ o_default o = None.
  Proof. eexists. split; [reflexivity|]. split; reflexivity. Qed.
  Lemma help_option : exists o, find_exact "help"%string = Some o /\ o_kind o = KFlag /\ o_default o = None.
  Proof. eexists. split; [reflexivity|]. split; reflexivity. Qed.

  Lemma existsb_ext_in' {A} (f g : A -> bool) l : (forall a, In a l -> f a = g a) -> filter f l = filter g l.
  Proof.
    induction l as [|a l IH]; cbn; auto. intros H. rewrite (H a) by auto. rewrite IH by auto. reflexivity.
  Qed.

  (** The first store and notify, whatever follows. *)
  Lemma first_store cmd (opts : members V) f :
    NoDup (map fst cmd) -> (forall n v, In (n, v) cmd -> exists x, accepts n v x) -> opened cmd opts f ->
    exists m final, store read lit eps100 max100 (fun _ => false) (fun _ => None) cmd = Ok (m, final) /\
      (forall n, final n = true <-> In n (map fst cmd)) /\
      (forall n v x, In (n, v) cmd -> accepts n v x -> m n = Some (x, false)) /\
      (forall n, ~ In n (map fst cmd) ->
        m n = match find_exact n with Some o => option_map (fun v => (v, true)) (o_default o) | None => None end) /\
      notify lit eps100 max100 m opts "config_file"%string = VString f.
  Proof.
    intros ND AC OP. assert (K : kept (fun _ => false) cmd = cmd).
    { unfold kept. clear. induction cmd as [|a l IH]; cbn; auto. f_equal. exact IH. }
    destruct (stores_ok read lit eps100 max100 (fun _ => false) cmd (fun _ => None) (fun _ => false)) as (m & new & E1 & E2 & E3 & E4).
    { rewrite K. auto. }
    { intros n v I. rewrite K in I. split; [intros (w & W); discriminate|eauto]. }
    rewrite K in *. unfold store. rewrite E1. cbn [rbind].
    set (m1 := fold_left add_default base m).
    assert (M1 : forall n v x, In (n, v) cmd -> accepts n v x -> m1 n = Some (x, false)).
    { intros n v x I A. unfold m1. rewrite base_defaults, (E2 n v x I A). reflexivity. }
    assert (M2 : forall n, ~ In n (map fst cmd) ->
        m1 n = match find_exact n with Some o => option_map (fun v => (v, true)) (o_default o) | None => None end).
    { intros n N. unfold m1. rewrite base_defaults, E3 by auto. reflexivity. }
    exists m1. eexists. split; [reflexivity|]. split; [|split; [exact M1|split; [exact M2|]]].
    - intros n. rewrite orb_false_r, E4. intuition discriminate.
    - unfold notify. destruct config_option as (o & F & Ko & Do). rewrite F, Ko. destruct OP as [I|(N & O)].
      + assert (A : accepts "config_file" f (VString f)) by (apply accepts_find; exists o; rewrite Ko; auto).
        rewrite (M1 _ _ _ I A). reflexivity.
      + rewrite M2, F, Do by auto. exact O.
  Qed.

  (** parseInputOptions, given what the two parsers return. *)
  Lemma parse_options_ok fs args cmd cfg f text (opts : members V) :
    parse_command_line lit eps100 max100 args = Ok cmd ->
    NoDup (map fst cmd) -> (forall n v, In (n, v) cmd -> exists x, accepts n v x) ->
    ~ In "help"%string (map fst cmd) -> opened cmd opts f ->
    (fs f = Some text \/ f = ""%string /\ fs f = None /\ text = ""%string) ->
    parse_config lit eps100 max100 text = Ok cfg ->
    NoDup (map fst (in_force cmd cfg)) -> (forall n v, In (n, v) (in_force cmd cfg) -> exists x, accepts n v x) ->
    ~ In "help"%string (map fst cfg) -> ~ In "config_file"%string (map fst (in_force cmd cfg)) ->
    exists opts' vm', parse_options fs args opts = Ok (Running opts' vm') /\
      (forall n v x, In (n, v) cmd -> accepts n v x -> opts' n = x /\ vm' n = Some (x, false)) /\
      (forall n v x, ~ In n (map fst cmd) -> In (n, v) cfg -> accepts n v x -> opts' n = x /\ vm' n = Some (x, false)) /\
      (forall o, In o base -> ~ In (o_name o) (map fst cmd) -> ~ In (o_name o) (map fst cfg) ->
         match o_default o with
         | Some x => opts' (o_name o) = x /\ vm' (o_name o) = Some (x, true)
         | None => opts' (o_name o) = opts (o_name o) /\ vm' (o_name o) = None
         end) /\
      (forall n, ~ In n names -> opts' n = opts n /\ vm' n = None).
  Proof.
    intros PC ND AC NH OP FS PF ND2 AC2 NH2 NC.
    destruct (first_store cmd opts f ND AC OP) as (m & final & S1 & S2 & S3 & S4 & S5).
    unfold ModelOptions.parse_options. rewrite PC. cbn [rbind]. rewrite S1. cbn [rbind]. rewrite S5. cbn [rbind].
    assert (T : match fs f with Some text => text | None => ""%string end = text).
    { destruct FS as [E|(_ & E & Et)]; rewrite E; auto. }
    rewrite T, PF. cbn [rbind].
    assert (K : kept final cfg = in_force cmd cfg).
    { unfold kept, in_force. apply existsb_ext_in'. intros (n & v) _. cbn [fst]. f_equal.
      apply Bool.eq_iff_eq_true. rewrite S2, existsb_exists, in_map_iff. split.
      - intros (x & E & I). exists x. split; auto. apply String.eqb_eq. auto.
      - intros (x & I & E). exists x. apply String.eqb_eq in E. auto. }
    destruct (stores_ok read lit eps100 max100 final cfg m (fun _ => false)) as (m2 & new & E1 & E2 & E3 & E4).
    { rewrite K. auto. }
    { intros n v I. rewrite K in I. split; [|eauto]. apply in_force_in in I as (_ & N).
      intros (w & W). rewrite S4 in W by auto. destruct (find_exact n) as [o|]; [|discriminate]. destruct (o_default o); discriminate. }
    unfold store. rewrite E1. cbn [rbind]. rewrite K in *.
    set (m3 := fold_left add_default base m2).
    assert (M1 : forall n v x, In (n, v) cmd -> accepts n v x -> m3 n = Some (x, false)).
    { intros n v x I A. unfold m3. rewrite base_defaults, E3, (S3 n v x I A); auto.
      intros J. apply in_map_iff in J as ((n' & v') & En & J). cbn in En. subst. apply in_force_in in J as (_ & J).
      apply J. apply (in_map fst) in I. auto. }
    assert (M2 : forall n v x, ~ In n (map fst cmd) -> In (n, v) cfg -> accepts n v x -> m3 n = Some (x, false)).
    { intros n v x N I A. unfold m3. rewrite base_defaults, (E2 n v x); auto. apply in_force_in. auto. }
    assert (M3 : forall n, ~ In n (map fst cmd) -> ~ In n (map fst (in_force cmd cfg)) ->
       m3 n = match find_exact n with Some o => option_map (fun v => (v, true)) (o_default o) | None => None end).
    { intros n N1 N2. unfold m3. rewrite base_defaults, E3, S4 by auto.
      destruct (find_exact n) as [o|]; auto. destruct (o_default o); reflexivity. }
    assert (FC : forall n, ~ In n (map fst cfg) -> ~ In n (map fst (in_force cmd cfg))).
    { intros n N J. apply N. apply in_map_iff in J as ((n' & v') & En & J). cbn in En. subst. apply in_force_in in J as (J & _).
      apply (in_map fst) in J. auto. }
    set (o1 := notify lit eps100 max100 m opts) in *.
    set (o2 := notify lit eps100 max100 m3 o1).
    assert (O1 : o2 "config_file"%string = VString f).
    { unfold o2, notify. destruct config_option as (o & F & Ko & Do). rewrite F, Ko. destruct OP as [I|(N & O)].
      - assert (A : accepts "config_file" f (VString f)) by (apply accepts_find; exists o; rewrite Ko; auto).
        rewrite (M1 _ _ _ I A). reflexivity.
      - rewrite (M3 "config_file"%string N NC), F, Do. exact S5. }
    rewrite O1. cbn [rbind].
    assert (HH : m3 "help"%string = None).
    { rewrite M3 by auto. destruct help_option as (o & F & _ & D). rewrite F, D. reflexivity. }
    rewrite HH. exists o2, m3. split.
    { destruct FS as [E|(Ef & _)].
      - rewrite E. destruct (String.eqb f ""); reflexivity.
      - rewrite Ef. reflexivity. }
    split; [|split; [|split]].
    - intros n v x I A. split; [|eapply M1; eauto]. unfold o2, notify. pose proof A as A'. apply accepts_find in A' as (o & F & C). rewrite F, (M1 n v x I A).
      destruct (o_kind o) eqn:Ko; auto. exfalso. apply NH. replace "help"%string with n; [apply (in_map fst) in I; auto|].
      apply find_some_in in F as (F & En). rewrite <- En. clear - F Ko.
      cbn in F. repeat (destruct F as [F|F]; [subst; try discriminate Ko; reflexivity|]). destruct F.
    - intros n v x N I A. split; [|eapply M2; eauto]. unfold o2, notify. pose proof A as A'. apply accepts_find in A' as (o & F & C). rewrite F, (M2 n v x N I A).
      destruct (o_kind o) eqn:Ko; auto. exfalso. apply NH2. replace "help"%string with n; [apply (in_map fst) in I; auto|].
      apply find_some_in in F as (F & En). rewrite <- En. clear - F Ko.
      cbn in F. repeat (destruct F as [F|F]; [subst; try discriminate Ko; reflexivity|]). destruct F.
    - intros o I N1 N2. apply FC in N2. pose proof (M3 (o_name o) N1 N2) as M. rewrite find_in in M by auto.
      destruct (o_default o) as [x|] eqn:D; cbn [option_map] in M.
      + split; auto. unfold o2, notify. rewrite find_in by auto. rewrite M.
        destruct (o_kind o) eqn:Ko; auto. exfalso. clear - I Ko D.
        cbn in I. repeat (destruct I as [I|I]; [subst; cbn in *; congruence|]). destruct I.
      + split; auto. unfold o2, notify. rewrite find_in by auto. rewrite M. unfold o1, notify. rewrite find_in by auto.
        rewrite S4 by auto. rewrite find_in, D by auto. cbn [option_map]. destruct (o_kind o); reflexivity.
    - intros n N. unfold o2, o1, notify. rewrite find_out by auto. split; auto.
      assert (C1 : ~ In n (map fst cmd)).
      { intros I. apply in_map_iff in I as ((a & v) & E & I). cbn in E. subst. apply AC in I as (x & (o & I & E & _)).
        apply N. rewrite <- E. apply in_map. auto. }
      assert (C2 : ~ In n (map fst (in_force cmd cfg))).
      { intros I. apply in_map_iff in I as ((a & v) & E & I). cbn in E. subst. apply AC2 in I as (x & (o & I & E & _)).
        apply N. rewrite <- E. apply in_map. auto. }
      rewrite M3 by auto. rewrite find_out by auto. reflexivity.
  Qed.
  Lemma parse_exit fs args cmd cfg f text (opts : members V) :
    parse_command_line lit eps100 max100 args = Ok cmd ->
    NoDup (map fst cmd) -> (forall n v, In (n, v) cmd -> exists x, accepts n v x) -> opened cmd opts f ->
    match fs f with Some t => t | None => ""%string end = text ->
    parse_config lit eps100 max100 text = Ok cfg ->
    NoDup (map fst (in_force cmd cfg)) -> (forall n v, In (n, v) (in_force cmd cfg) -> exists x, accepts n v x) ->
    ~ In "config_file"%string (map fst (in_force cmd cfg)) ->
    (In "help"%string (map fst cmd) -> parse_options fs args opts = Ok (Exited 0)) /\
    (~ In "help"%string (map fst cmd) -> f <> ""%string -> fs f = None -> parse_options fs args opts = Ok (Exited 1)).
  Proof.
    intros PC ND AC OP FS PF ND2 AC2 NC.
    destruct (first_store cmd opts f ND AC OP) as (m & final & S1 & S2 & S3 & S4 & S5).
    unfold ModelOptions.parse_options. rewrite PC. cbn [rbind]. rewrite S1. cbn [rbind]. rewrite S5. cbn [rbind].
    rewrite FS, PF. cbn [rbind].
    assert (K : kept final cfg = in_force cmd cfg).
    { unfold kept, in_force. apply existsb_ext_in'. intros (n & v) _. cbn [fst]. f_equal.
      apply Bool.eq_iff_eq_true. rewrite S2, existsb_exists, in_map_iff. split.
      - intros (x & E & I). exists x. split; auto. apply String.eqb_eq. auto.
      - intros (x & I & E). exists x. apply String.eqb_eq in E. auto. }
    destruct (stores_ok read lit eps100 max100 final cfg m (fun _ => false)) as (m2 & new & E1 & E2 & E3 & E4).
    { rewrite K. auto. }
    { intros n v I. rewrite K in I. split; [|eauto]. apply in_force_in in I as (_ & N).
      intros (w & W). rewrite S4 in W by auto. destruct (find_exact n) as [o|]; [|discriminate]. destruct (o_default o); discriminate. }
    unfold store. rewrite E1. cbn [rbind]. rewrite K in *.
    set (m3 := fold_left add_default base m2).
    set (o1 := notify lit eps100 max100 m opts) in *.
    set (o2 := notify lit eps100 max100 m3 o1).
    assert (M1 : forall n v x, In (n, v) cmd -> accepts n v x -> m3 n = Some (x, false)).
    { intros n v x I A. unfold m3. rewrite base_defaults, E3, (S3 n v x I A); auto.
      intros J. apply in_map_iff in J as ((n' & v') & En & J). cbn in En. subst. apply in_force_in in J as (_ & J).
      apply J. apply (in_map fst) in I. auto. }
    assert (M3 : forall n, ~ In n (map fst cmd) -> ~ In n (map fst (in_force cmd cfg)) ->
       m3 n = match find_exact n with Some o => option_map (fun v => (v, true)) (o_default o) | None => None end).
    { intros n N1 N2. unfold m3. rewrite base_defaults, E3, S4 by auto.
      destruct (find_exact n) as [o|]; auto. destruct (o_default o); reflexivity. }
    assert (O1 : o2 "config_file"%string = VString f).
    { unfold o2, notify. destruct config_option as (o & F & Ko & Do). rewrite F, Ko. destruct OP as [I|(N & O)].
      - assert (A : accepts "config_file" f (VString f)) by (apply accepts_find; exists o; rewrite Ko; auto).
        rewrite (M1 _ _ _ I A). reflexivity.
      - rewrite (M3 "config_file"%string N NC), F, Do. exact S5. }
    rewrite O1. cbn [rbind]. split.
    - intros I. apply in_map_iff in I as ((n & v) & E & I). cbn in E. subst n. destruct (AC _ _ I) as (x & A).
      rewrite (M1 _ _ _ I A). reflexivity.
    - intros NH NE FN. assert (C : cfg = []).
      { rewrite FN in FS. subst text. cbn in PF. congruence. }
      rewrite M3 by (subst cfg; auto). destruct help_option as (o & F & _ & D). rewrite F, D. cbn [option_map].
      apply String.eqb_neq in NE. rewrite NE, FN. reflexivity.
  Qed.
End Parse.
