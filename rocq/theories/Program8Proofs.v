(** Whole runs, in any arithmetic: the solution files as a list, what the log does not change, the wrapped step limit. *)
From Coq Require Import String.
From Verif Require Import ModelLogger ModelOptions Outcome ZList ZListProofs Num Gather ModelIndex ModelInt32 ModelDisc3D ModelDisc2D ModelCH ModelObs
  ModelTime ModelRun ModelMon ModelVTK ModelMain ModelProgram SpecGrid SpecField SpecTime SpecRestart SpecMon SpecProgram Disc3DProofs Make3Proofs
  Disc2DProofs Make2Proofs BC3Proofs CHProofs VTK2Proofs Time2Proofs Step1Proofs
  RestartProofs RestartFinal ProgramProofs Program2Proofs Program3Proofs Program4Proofs Program5Proofs Program6Proofs Program7Proofs.
From Coq Require Import Lia ZifyBool ZifyNat List.
Local Open Scope string_scope.
Local Open Scope list_scope.
Local Open Scope Z_scope.

Lemma forall2_map_eq {A B} (f : A -> B) l l' : Forall2 (fun a b => b = f a) l l' -> l' = map f l.
Proof. induction 1; cbn; congruence. Qed.

Lemma zero_resolution {V} `{N : Num V} (pl : platform V) fuel fs vts other args opts m vm s dim ti :
  parse_options (pl_read pl) (pl_lit pl) (pl_eps100 pl) (pl_max100 pl) fs args opts = Ok (Running m vm) ->
  asks m dim ti "none" s -> s_nx s = 0 -> madgicart pl fuel fs vts other args opts = Some UB.
Proof.
  intros PO A E. destruct (start_ok pl (s_log_file s) (start_messages (template pl vm) "none")) as (w0 & E0 & _).
  unfold madgicart. rewrite PO. cbn [lift].
  unfold asks, asked, asked_with, given in A. repeat (apply Forall_cons_iff in A; let E := fresh "O" in destruct A as (E & A); cbn [fst snd] in E). clear A.
  rewrite E in *.
  unfold get_string, build, config_of, far_end, get_int, get_double.
  repeat match goal with H : m ?n = _ |- context [m ?n] => rewrite H end. cbn [lift].
  change (config_template (pl_showg pl) (pl_lit pl) (pl_eps100 pl) (pl_max100 pl) vm) with (template pl vm).
  rewrite E0. change (String.eqb "none" "none") with true. cbv iota. cbn [lift rbind].
  repeat match goal with H : m ?n = _ |- context [m ?n] => rewrite H end. cbn [rbind]. reflexivity.
Qed.

Section Files3.
  Context {V : Type} `{N : Num V} (pl : platform V).

  Definition entry3 (s : settings V) (dom : domain V) (dx : V) (b : string) (x : Z * V * V * (nat -> Z -> V)) : string * list xml :=
    let '(i, t, dt, u) := x in
    (name3 s b i, doc3 (pl_show pl) (pl_show6 pl) dom dx {| fs_iter := i; fs_time := t; fs_dt := dt |} (at3 dom u)).

  Lemma files3 s dom d names proposes next slope o a w0 w : valid_domain3 dom -> 1 <= nhalo dom -> make3 dom = Ok d ->
    w_files w0 = [] -> ran3 pl s dom d names proposes next slope o a w0 w ->
    exists steps e bef i t dt u,
      marches proposes (t_tfinal o) (t_max_steps o) (t_initial_step o) (t_t0 o) (t_dt_initial o) false steps e /\
      reached next (t_initial_step o) a steps = bef ++ [(i, t, dt, u)] /\
      w_files w = every (s_save_every s) (map (entry3 s dom (d3_dx d) (base_of s)) (reached next (t_initial_step o) a steps)) ++
        [entry3 s dom (d3_dx d) (base_of s ++ "_final")%string (i, t, e, u)].
  Proof.
    intros HV HN EM F0 (steps & e & tr & docs & fin & MA & TR & SF & WF & LA & _).
    set (pr := fun z : Z * V * V * ((nat -> Z -> V) * (nat -> Z -> V)) => let '(i, t, dt, p) := z in (i, t, dt, fst p)).
    pose proof (reached_fst next slope (t_initial_step o) (a, a) steps) as RF. fold pr in RF. cbn [fst] in RF.
    assert (SV : forall b y z f, traced (cells3 dom) (P3 dom) names y z -> step_file (scene3 pl (s_max_steps s) d) (name3 s) b y f ->
      f = entry3 s dom (d3_dx d) b (pr z)).
    { intros b (((((i, t), dt), c), r), ex) (((i', t'), dt'), (u, v)) (nm, dc) (E1 & E2 & E3 & H1 & H2 & H9) (G1 & G2). subst i' t' dt'.
      cbn [fst snd sn_write scene3] in *. unfold entry3, pr. cbn [fst].
      apply state3 in H1; [|lia].
      rewrite (write3_ok _ _ dom d _ c _ HV EM H1) in G2. injection G2 as <-. rewrite G1. reflexivity. }
    assert (ED : docs = map (entry3 s dom (d3_dx d) (base_of s)) (reached next (t_initial_step o) a steps)).
    { rewrite <- RF, map_map. apply forall2_map_eq. eapply forall2_trans; [|exact TR|exact SF]. intros y z f. apply SV. }
    destruct LA as (i & t & dt & c & r & ex & tr' & ET & FF). rewrite ET in TR.
    apply forall2_snoc_l in TR as (bef & (((i', t'), dt'), (u, v)) & EB & _ & T1).
    exists steps, e, (map pr bef), i', t', dt', u. split; [exact MA|]. split.
    { rewrite <- RF, EB, map_app. reflexivity. }
    rewrite WF, F0, ED. cbn [app]. f_equal. f_equal.
    destruct T1 as (E1 & E2 & E3 & H1 & H2 & H9). subst i' t' dt'.
    apply (SV _ (i, t, e, c, r, ex) (i, t, e, (u, v))); [|exact FF]. split; [reflexivity|]. split; [reflexivity|]. split; [reflexivity|]. split; [exact H1|]. split; [exact H2|exact H9].
  Qed.

  Lemma slots3 (dom : domain V) (c : list V) : 0 <= nhalo dom -> zlen c = cells3 dom -> exists a, state_holds 1 (cells3 dom) (P3 dom) [c] a.
  Proof.
    intros NH L.
    exists (fun _ z => match zget c z with Some v => v | None => nint 0 end).
    apply state3; auto. split; auto. intros i j k I. unfold at3.
    destruct (zget_some c (slot3 dom i j k)) as (v & Ev); [rewrite L; apply slot3_range, inside_padded3; auto|]. rewrite Ev. reflexivity.
  Qed.

  Lemma random_len3 (dom : domain V) d draw m c : valid_domain3 dom -> 1 <= nhalo dom -> make3 dom = Ok d ->
    random_initial draw m (d3_interior d) (create_real_array3 d) = Ok c -> zlen c = cells3 dom.
  Proof.
    intros HV HN EM E. pose proof (new_array3_len dom d HV HN EM) as LA.
    destruct (random_initial_total draw m (d3_interior d) (create_real_array3 d)) as (c' & E' & L).
    { intros q Hq. rewrite LA. apply (scene3_idx pl dom d 1 HV HN EM). exact Hq. }
    rewrite E in E'. injection E' as <-. congruence.
  Qed.

  (** A limit above INT_MAX becomes negative: one step. *)
  Lemma wraps3 fuel fs vts other args opts m vm s bx by_ bz :
    parse_options (pl_read pl) (pl_lit pl) (pl_eps100 pl) (pl_max100 pl) fs args opts = Ok (Running m vm) ->
    asks m 3 "rk3ssp" "none" s ->
    2 <= s_nx s -> 2 <= s_ny s <= 2147483647 -> 2 <= s_nz s <= 2147483647 ->
    0 <= s_variant s <= 2 ->
    bc_named (s_bc_x s) bx -> bc_named (s_bc_y s) by_ -> bc_named (s_bc_z s) bz ->
    s_log_every s <> 0 -> neqb (nint 0 : V) (nint 0) = true -> 2147483647 < s_max_steps s <= 4294967295 -> (1 <= fuel)%nat ->
    exists w f fin, madgicart pl fuel fs vts other args opts = Some (Ok (Finished w)) /\
      w_files w = every (s_save_every s) [f] ++ [fin] /\
      fst f = file_name3 s (base_of s) 1 /\ fst fin = file_name3 s (base_of s ++ "_final")%string 1.
  Proof.
    intros PO A SX SY SZ VR BX BY BZ HL Z0 HM HF.
    set (dom := grid_of s bx by_ bz).
    assert (HV : valid_domain3 dom) by (unfold valid_domain3; cbn; lia).
    assert (LI : int_of_unsigned (s_max_steps s) < 0) by (unfold int_of_unsigned, int_max; destruct (s_max_steps s <=? 2147483647) eqn:E; lia).
    destruct (program3_rk3 pl fuel fs vts other args opts m vm PO s bx by_ bz SX SY SZ BX BY BZ ltac:(lia) HL ltac:(lia) Z0 A VR) as (d & c & EM & EC & K).
    fold dom in EM.
    destruct (slots3 dom c ltac:(cbn; lia) (random_len3 dom d _ _ c HV ltac:(cbn; lia) EM EC)) as (a & HA).
    destruct (K a HA) as (w0 & w & (F0 & _) & EW & RN).
    destruct (files3 s dom d _ _ _ _ _ a w0 w HV ltac:(cbn; lia) EM F0 RN) as (steps & e & bef & i & t & dt & u & MA & RE & WF).
    cbn [options_of options_with t_initial_step t_t0 t_dt_initial t_max_steps t_tfinal] in MA, RE, WF. apply marches_one in MA; [|lia]. subst steps. cbn [reached map] in RE, WF.
    destruct bef as [|b bef]; [|destruct bef; discriminate]. cbn [app] in RE. injection RE as <- <- <- <-.
    exists w. do 2 eexists. split; [exact EW|]. split; [exact WF|]. split; reflexivity.
  Qed.

  Lemma log_free3 fuel fuel' fs fs' vts vts' other other' args args' opts opts' m m' vm vm' s s' bx by_ bz :
    parse_options (pl_read pl) (pl_lit pl) (pl_eps100 pl) (pl_max100 pl) fs args opts = Ok (Running m vm) ->
    parse_options (pl_read pl) (pl_lit pl) (pl_eps100 pl) (pl_max100 pl) fs' args' opts' = Ok (Running m' vm') ->
    asks m 3 "rk3ssp" "none" s -> asks m' 3 "rk3ssp" "none" s' -> same_but_log s s' ->
    sound s fuel -> sound s' fuel' -> bc_named (s_bc_x s) bx -> bc_named (s_bc_y s) by_ -> bc_named (s_bc_z s) bz ->
    neqb (nint 0 : V) (nint 0) = true ->
    exists w w', madgicart pl fuel fs vts other args opts = Some (Ok (Finished w)) /\
      madgicart pl fuel' fs' vts' other' args' opts' = Some (Ok (Finished w')) /\ w_files w = w_files w'.
  Proof.
    intros PO PO' A A' SB (SX & SY & SZ & SV & SM & SL & SF) (SX' & SY' & SZ' & SV' & SM' & SL' & SF') BX BY BZ Z0.
    destruct SB as (Q1 & Q2 & Q3 & Q4 & Q5 & Q6 & Q7 & Q8 & Q9 & Q10 & Q11 & Q12 & Q13 & Q14 & Q15 & Q16 & Q17 & Q18 & Q19 & Q20).
    set (dom := grid_of s bx by_ bz).
    assert (DE : grid_of s' bx by_ bz = dom) by (unfold dom, grid_of; rewrite Q1, Q2, Q3, Q4, Q5, Q6, Q7; reflexivity).
    assert (PE : params_in s' = params_in s) by (unfold params_in; rewrite Q12, Q13, Q14; reflexivity).
    assert (HV : valid_domain3 dom) by (unfold valid_domain3; cbn; lia).
    destruct (program3_rk3 pl fuel fs vts other args opts m vm PO s bx by_ bz SX SY SZ BX BY BZ ltac:(lia) SL ltac:(rewrite limit_int; lia) Z0 A SV) as (d & c & EM & EC & K).
    rewrite Q8 in BX. rewrite Q9 in BY. rewrite Q10 in BZ.
    destruct (program3_rk3 pl fuel' fs' vts' other' args' opts' m' vm' PO' s' bx by_ bz SX' SY' SZ' BX BY BZ ltac:(lia) SL' ltac:(rewrite limit_int; lia) Z0 A' SV')
      as (d' & c' & EM' & EC' & K').
    rewrite DE in EM', K'. fold dom in EM, K. rewrite EM in EM'. injection EM' as <-. rewrite <- Q12, EC in EC'. injection EC' as <-.
    destruct (slots3 dom c ltac:(cbn; lia) (random_len3 dom d _ _ c HV ltac:(cbn; lia) EM EC)) as (a & HA).
    destruct (K a HA) as (w0 & w & (F0 & _) & EW & RN). destruct (K' a HA) as (w0' & w' & (F0' & _) & EW' & RN').
    exists w, w'. split; [exact EW|]. split; [exact EW'|].
    destruct (files3 s dom d _ _ _ _ _ a w0 w HV ltac:(cbn; lia) EM F0 RN) as (steps & e & bef & i & t & dt & u & MA & RE & WF).
    destruct (files3 s' dom d _ _ _ _ _ a w0' w' HV ltac:(cbn; lia) EM F0' RN')
      as (steps' & e' & bef' & i' & t' & dt' & u' & MA' & RE' & WF').
    cbn [options_of options_with t_initial_step t_t0 t_dt_initial t_max_steps t_tfinal] in MA, RE, WF, MA', RE', WF'.
    rewrite <- Q15, <- Q16, <- Q17, <- Q18 in MA'. destruct (marches_fixed _ _ _ _ _ _ _ _ MA _ _ MA') as (-> & ->).
    rewrite PE, <- Q11 in RE', WF' || rewrite PE in RE', WF'. rewrite RE in RE'. apply app_inj_tail in RE' as (_ & RE'). injection RE' as <- <- <- <-.
    rewrite WF, WF'. rewrite <- Q19, <- Q20.
    assert (EE : forall b x, entry3 s' dom (d3_dx d) b x = entry3 s dom (d3_dx d) b x).
    { intros b (((i0, t0), dt0), u0). unfold entry3, name3. rewrite Q18. reflexivity. }
    rewrite EE. f_equal. f_equal. apply map_ext. intros x. symmetry. apply EE.
  Qed.
End Files3.

Section Files2.
  Context {V : Type} `{N : Num V} (pl : platform V).

  Definition entry2 (s : settings V) (dom : domain V) (dx : V) (b : string) (x : Z * V * V * (nat -> Z -> V)) : string * list xml :=
    let '(i, t, dt, u) := x in
    (name2 s b i, doc2 (pl_show pl) (pl_show6 pl) dom dx {| fs_iter := i; fs_time := t; fs_dt := dt |} (at2 dom u)).

  Lemma files2 s dom d names proposes next slope o a w0 w : valid_domain2 dom -> 1 <= nhalo dom -> make2 dom = Ok d ->
    w_files w0 = [] -> ran2 pl s dom d names proposes next slope o a w0 w ->
    exists steps e bef i t dt u,
      marches proposes (t_tfinal o) (t_max_steps o) (t_initial_step o) (t_t0 o) (t_dt_initial o) false steps e /\
      reached next (t_initial_step o) a steps = bef ++ [(i, t, dt, u)] /\
      w_files w = every (s_save_every s) (map (entry2 s dom (d2_dx d) (base_of s)) (reached next (t_initial_step o) a steps)) ++
        [entry2 s dom (d2_dx d) (base_of s ++ "_final")%string (i, t, e, u)].
  Proof.
    intros HV HN EM F0 (steps & e & tr & docs & fin & MA & TR & SF & WF & LA & _).
    set (pr := fun z : Z * V * V * ((nat -> Z -> V) * (nat -> Z -> V)) => let '(i, t, dt, p) := z in (i, t, dt, fst p)).
    pose proof (reached_fst next slope (t_initial_step o) (a, a) steps) as RF. fold pr in RF. cbn [fst] in RF.
    assert (SV : forall b y z f, traced (cells2 dom) (P2 dom) names y z -> step_file (scene2 pl (s_max_steps s) d) (name2 s) b y f ->
      f = entry2 s dom (d2_dx d) b (pr z)).
    { intros b (((((i, t), dt), c), r), ex) (((i', t'), dt'), (u, v)) (nm, dc) (E1 & E2 & E3 & H1 & H2 & H9) (G1 & G2). subst i' t' dt'.
      cbn [fst snd sn_write scene2] in *. unfold entry2, pr. cbn [fst].
      apply state2 in H1; [|lia].
      rewrite (write2_ok _ _ (nint 0) dom d _ c _ HV EM H1) in G2. injection G2 as <-. rewrite G1. reflexivity. }
    assert (ED : docs = map (entry2 s dom (d2_dx d) (base_of s)) (reached next (t_initial_step o) a steps)).
    { rewrite <- RF, map_map. apply forall2_map_eq. eapply forall2_trans; [|exact TR|exact SF]. intros y z f. apply SV. }
    destruct LA as (i & t & dt & c & r & ex & tr' & ET & FF). rewrite ET in TR.
    apply forall2_snoc_l in TR as (bef & (((i', t'), dt'), (u, v)) & EB & _ & T1).
    exists steps, e, (map pr bef), i', t', dt', u. split; [exact MA|]. split.
    { rewrite <- RF, EB, map_app. reflexivity. }
    rewrite WF, F0, ED. cbn [app]. f_equal. f_equal.
    destruct T1 as (E1 & E2 & E3 & H1 & H2 & H9). subst i' t' dt'.
    apply (SV _ (i, t, e, c, r, ex) (i, t, e, (u, v))); [|exact FF]. split; [reflexivity|]. split; [reflexivity|]. split; [reflexivity|]. split; [exact H1|]. split; [exact H2|exact H9].
  Qed.

  Lemma slots2 (dom : domain V) (c : list V) : 0 <= nhalo dom -> zlen c = cells2 dom -> exists a, state_holds 1 (cells2 dom) (P2 dom) [c] a.
  Proof.
    intros NH L.
    exists (fun _ z => match zget c z with Some v => v | None => nint 0 end).
    apply state2; auto. split; auto. intros i j I. unfold at2.
    destruct (zget_some c (slot2 dom i j)) as (v & Ev); [rewrite L; apply slot2_range, inside_padded2; auto|]. rewrite Ev. reflexivity.
  Qed.

  Lemma random_len2 (dom : domain V) d draw m c : valid_domain2 dom -> 1 <= nhalo dom -> make2 dom = Ok d ->
    random_initial draw m (d2_interior d) (create_real_array2 d) = Ok c -> zlen c = cells2 dom.
  Proof.
    intros HV HN EM E. pose proof (new_array2_len dom d HV HN EM) as LA.
    destruct (random_initial_total draw m (d2_interior d) (create_real_array2 d)) as (c' & E' & L).
    { intros q Hq. rewrite LA. apply (scene2_idx pl dom d 1 HV HN EM). exact Hq. }
    rewrite E in E'. injection E' as <-. congruence.
  Qed.

  (** A limit above INT_MAX becomes negative: one step. *)
  Lemma wraps2 fuel fs vts other args opts m vm s bx by_ bz :
    parse_options (pl_read pl) (pl_lit pl) (pl_eps100 pl) (pl_max100 pl) fs args opts = Ok (Running m vm) ->
    asks m 2 "rk3ssp" "none" s ->
    2 <= s_nx s -> 2 <= s_ny s <= 2147483647 -> 2 <= s_nz s <= 2147483647 ->
    bc_named (s_bc_x s) bx -> bc_named (s_bc_y s) by_ -> bc_named (s_bc_z s) bz ->
    s_log_every s <> 0 -> neqb (nint 0 : V) (nint 0) = true -> 2147483647 < s_max_steps s <= 4294967295 -> (1 <= fuel)%nat ->
    exists w f fin, madgicart pl fuel fs vts other args opts = Some (Ok (Finished w)) /\
      w_files w = every (s_save_every s) [f] ++ [fin] /\
      fst f = file_name2 s (base_of s) 1 /\ fst fin = file_name2 s (base_of s ++ "_final")%string 1.
  Proof.
    intros PO A SX SY SZ BX BY BZ HL Z0 HM HF.
    set (dom := grid_of s bx by_ bz).
    assert (HV : valid_domain2 dom) by (unfold valid_domain2; cbn; lia).
    assert (LI : int_of_unsigned (s_max_steps s) < 0) by (unfold int_of_unsigned, int_max; destruct (s_max_steps s <=? 2147483647) eqn:E; lia).
    destruct (program2_rk3 pl fuel fs vts other args opts m vm PO s bx by_ bz SX SY SZ BX BY BZ ltac:(lia) HL ltac:(lia) Z0 A) as (d & c & EM & EC & K).
    fold dom in EM.
    destruct (slots2 dom c ltac:(cbn; lia) (random_len2 dom d _ _ c HV ltac:(cbn; lia) EM EC)) as (a & HA).
    destruct (K a HA) as (w0 & w & (F0 & _) & EW & RN).
    destruct (files2 s dom d _ _ _ _ _ a w0 w HV ltac:(cbn; lia) EM F0 RN) as (steps & e & bef & i & t & dt & u & MA & RE & WF).
    cbn [options_of options_with t_initial_step t_t0 t_dt_initial t_max_steps t_tfinal] in MA, RE, WF. apply marches_one in MA; [|lia]. subst steps. cbn [reached map] in RE, WF.
    destruct bef as [|b bef]; [|destruct bef; discriminate]. cbn [app] in RE. injection RE as <- <- <- <-.
    exists w. do 2 eexists. split; [exact EW|]. split; [exact WF|]. split; reflexivity.
  Qed.

  Lemma log_free2 fuel fuel' fs fs' vts vts' other other' args args' opts opts' m m' vm vm' s s' bx by_ bz :
    parse_options (pl_read pl) (pl_lit pl) (pl_eps100 pl) (pl_max100 pl) fs args opts = Ok (Running m vm) ->
    parse_options (pl_read pl) (pl_lit pl) (pl_eps100 pl) (pl_max100 pl) fs' args' opts' = Ok (Running m' vm') ->
    asks m 2 "rk3ssp" "none" s -> asks m' 2 "rk3ssp" "none" s' -> same_but_log s s' ->
    sound s fuel -> sound s' fuel' -> bc_named (s_bc_x s) bx -> bc_named (s_bc_y s) by_ -> bc_named (s_bc_z s) bz ->
    neqb (nint 0 : V) (nint 0) = true ->
    exists w w', madgicart pl fuel fs vts other args opts = Some (Ok (Finished w)) /\
      madgicart pl fuel' fs' vts' other' args' opts' = Some (Ok (Finished w')) /\ w_files w = w_files w'.
  Proof.
    intros PO PO' A A' SB (SX & SY & SZ & SV & SM & SL & SF) (SX' & SY' & SZ' & SV' & SM' & SL' & SF') BX BY BZ Z0.
    destruct SB as (Q1 & Q2 & Q3 & Q4 & Q5 & Q6 & Q7 & Q8 & Q9 & Q10 & Q11 & Q12 & Q13 & Q14 & Q15 & Q16 & Q17 & Q18 & Q19 & Q20).
    set (dom := grid_of s bx by_ bz).
    assert (DE : grid_of s' bx by_ bz = dom) by (unfold dom, grid_of; rewrite Q1, Q2, Q3, Q4, Q5, Q6, Q7; reflexivity).
    assert (PE : params_in s' = params_in s) by (unfold params_in; rewrite Q12, Q13, Q14; reflexivity).
    assert (HV : valid_domain2 dom) by (unfold valid_domain2; cbn; lia).
    destruct (program2_rk3 pl fuel fs vts other args opts m vm PO s bx by_ bz SX SY SZ BX BY BZ ltac:(lia) SL ltac:(rewrite limit_int; lia) Z0 A) as (d & c & EM & EC & K).
    rewrite Q8 in BX. rewrite Q9 in BY. rewrite Q10 in BZ.
    destruct (program2_rk3 pl fuel' fs' vts' other' args' opts' m' vm' PO' s' bx by_ bz SX' SY' SZ' BX BY BZ ltac:(lia) SL' ltac:(rewrite limit_int; lia) Z0 A')
      as (d' & c' & EM' & EC' & K').
    rewrite DE in EM', K'. fold dom in EM, K. rewrite EM in EM'. injection EM' as <-. rewrite <- Q12, EC in EC'. injection EC' as <-.
    destruct (slots2 dom c ltac:(cbn; lia) (random_len2 dom d _ _ c HV ltac:(cbn; lia) EM EC)) as (a & HA).
    destruct (K a HA) as (w0 & w & (F0 & _) & EW & RN). destruct (K' a HA) as (w0' & w' & (F0' & _) & EW' & RN').
    exists w, w'. split; [exact EW|]. split; [exact EW'|].
    destruct (files2 s dom d _ _ _ _ _ a w0 w HV ltac:(cbn; lia) EM F0 RN) as (steps & e & bef & i & t & dt & u & MA & RE & WF).
    destruct (files2 s' dom d _ _ _ _ _ a w0' w' HV ltac:(cbn; lia) EM F0' RN')
      as (steps' & e' & bef' & i' & t' & dt' & u' & MA' & RE' & WF').
    cbn [options_of options_with t_initial_step t_t0 t_dt_initial t_max_steps t_tfinal] in MA, RE, WF, MA', RE', WF'.
    rewrite <- Q15, <- Q16, <- Q17, <- Q18 in MA'. destruct (marches_fixed _ _ _ _ _ _ _ _ MA _ _ MA') as (-> & ->).
    rewrite PE, <- Q11 in RE', WF' || rewrite PE in RE', WF'. rewrite RE in RE'. apply app_inj_tail in RE' as (_ & RE'). injection RE' as <- <- <- <-.
    rewrite WF, WF'. rewrite <- Q19, <- Q20.
    assert (EE : forall b x, entry2 s' dom (d2_dx d) b x = entry2 s dom (d2_dx d) b x).
    { intros b (((i0, t0), dt0), u0). unfold entry2, name2. rewrite Q18. reflexivity. }
    rewrite EE. f_equal. f_equal. apply map_ext. intros x. symmetry. apply EE.
  Qed.
End Files2.
