(** Restarted runs of the whole program, any arithmetic: the files of an interrupted run. *)
From Coq Require Import String Reals Lra.
From Verif Require Import ModelLogger ModelOptions Outcome ZList ZListProofs Num Gather ModelIndex ModelInt32 ModelDisc3D ModelDisc2D ModelCH ModelObs
  ModelTime ModelRun ModelMon ModelVTK ModelMain ModelProgram SpecGrid SpecField SpecTime SpecVTK SpecRestart SpecMon SpecProgram Disc3DProofs Make3Proofs
  Disc2DProofs Make2Proofs BC3Proofs CHProofs VTK2Proofs VTKFinal SumProofs FieldProofs Time2Proofs Step1Proofs Mon1Proofs Mon3Proofs Mon4Proofs MonFinal
  RestartProofs RestartFinal ProgramProofs Program2Proofs Program3Proofs Program4Proofs Program5Proofs Program6Proofs Program7Proofs Program8Proofs Program9Proofs.
From Coq Require Import Lia ZifyBool ZifyNat List.
Local Open Scope string_scope.
Local Open Scope list_scope.
Local Open Scope Z_scope.

Lemma pick_nth {A} q : 0 < q -> forall (l : list A) k j, 0 <= k -> nth_error (pick q k l) j = nth_error l (j * Z.to_nat q + Z.to_nat ((- k) mod q)).
Proof.
  intros Q. induction l as [|x l IH]; intros k j K; cbn [pick].
  { rewrite !nth_error_nil || (destruct j; destruct (_ + _)%nat); reflexivity. }
  replace (q =? 0) with false by lia. cbn [negb andb]. rewrite rem_mod0 by lia.
  destruct (Z.eqb_spec (k mod q) 0) as [E|E]; cbn [app].
  - assert (E1 : (- k) mod q = 0) by (apply Z_mod_zero_opp_full; exact E). rewrite E1.
    destruct j as [|j]; [reflexivity|]. cbn [nth_error]. rewrite IH by lia.
    assert (E2 : (- (k + 1)) mod q = q - 1).
    { symmetry. apply (Z.mod_unique _ _ (- (k / q) - 1)); [left; lia|]. pose proof (Z.div_mod k q ltac:(lia)) as D. rewrite E in D. rewrite D at 1. ring. }
    rewrite E2. replace (S j * Z.to_nat q + Z.to_nat 0)%nat with (S (j * Z.to_nat q + Z.to_nat (q - 1))) by nia. reflexivity.
  - rewrite IH by lia. pose proof (Z.mod_pos_bound (- k) q Q). assert ((- k) mod q <> 0).
    { intros F. apply E. rewrite <- (Z.opp_involutive k). apply Z_mod_zero_opp_full. exact F. }
    assert (E2 : (- (k + 1)) mod q = (- k) mod q - 1).
    { replace (- (k + 1)) with (- k - 1) by ring. rewrite <- (Zminus_mod_idemp_l (- k)). apply Z.mod_small. lia. }
    rewrite E2. replace (j * Z.to_nat q + Z.to_nat ((- k) mod q))%nat with (S (j * Z.to_nat q + Z.to_nat ((- k) mod q - 1))) by lia. reflexivity.
Qed.
Lemma every_nth {A} q (l : list A) j : 0 < q -> nth_error (every q l) j = nth_error l (j * Z.to_nat q).
Proof. intros Q. rewrite every_pick, pick_nth by lia. rewrite Z.mod_0_l by lia. f_equal. lia. Qed.
Lemma every_one {A} (l : list A) : every 1 l = l.
Proof.
  rewrite every_pick. generalize 0. induction l as [|x l IH]; intros k; [reflexivity|]. cbn [pick]. rewrite Z.rem_1_r. cbn. f_equal. apply IH.
Qed.

Section Suffix.
  Context {V : Type} `{N : Num V} (tf : V) (lim : Z).
  Local Notation M := (marches (fun dt p => p = dt) tf lim).

  Lemma marches_suffix n : forall k t0 dt0 b steps e t dt, M k t0 dt0 b steps e -> nth_error steps n = Some (t, dt) -> (S n < List.length steps)%nat ->
    ngeb (nadd (nadd t dt) dt) tf = false -> M (k + Z.of_nat n + 1) (nadd t dt) dt false (skipn (S n) steps) e.
  Proof.
    induction n as [|n IH]; intros k t0 dt0 b steps e t dt HM HN HL HG; inversion HM; subst; cbn [List.length] in HL; try lia.
    - cbn in HN. injection HN as -> ->. cbn [skipn]. unfold shortened in *. rewrite HG in *. replace (k + Z.of_nat 0 + 1) with (k + 1) by lia. assumption.
    - cbn [nth_error] in HN. cbn [skipn]. replace (k + Z.of_nat (S n) + 1) with (k + 1 + Z.of_nat n + 1) by lia.
      eapply IH; eauto. lia.
  Qed.

  Lemma reached_suffix {A} (next : V -> V -> A -> A) n : forall steps k a t dt, nth_error steps n = Some (t, dt) ->
    exists u, nth_error (reached next k a steps) n = Some (k + Z.of_nat n + 1, nadd t dt, dt, u) /\
      skipn (S n) (reached next k a steps) = reached next (k + Z.of_nat n + 1) u (skipn (S n) steps).
  Proof.
    induction n as [|n IH]; intros [|(t1, dt1) steps] k a t dt HN; cbn in HN; try discriminate.
    - injection HN as -> ->. eexists. cbn [reached nth_error skipn]. replace (k + Z.of_nat 0 + 1) with (k + 1) by lia. split; reflexivity.
    - destruct (IH steps (k + 1) (next t1 dt1 a) t dt HN) as (u & E1 & E2). exists u. cbn [reached nth_error].
      change (skipn (S (S n)) (?x :: ?l)) with (skipn (S n) l). replace (k + Z.of_nat (S n) + 1) with (k + 1 + Z.of_nat n + 1) by lia. split; assumption.
  Qed.
  Lemma reached_length {A} (next : V -> V -> A -> A) steps : forall k a, List.length (reached next k a steps) = List.length steps.
  Proof. induction steps as [|(t, dt) l IH]; intros k a; cbn [reached List.length]; [reflexivity|]. rewrite IH. reflexivity. Qed.
End Suffix.

Section Same3.
  Context {V : Type} `{N : Num V} (pl : platform V).

  Lemma array_of3 (dom : domain V) (u : Z -> Z -> Z -> V) : 0 <= nhalo dom -> valid_domain3 dom -> exists c, holds_inside3 dom c u.
  Proof.
    intros NH HV. exists (map (of3 dom u 0) (zrange 0 (cells3 dom))). split.
    - rewrite zlen_map, zlen_zrange. unfold valid_domain3 in HV. unfold cells3.
      assert (0 <= cells3 dom); [|unfold cells3 in *; lia].
      unfold cells3. repeat apply Z.mul_nonneg_nonneg; lia.
    - intros i j k I. pose proof (slot3_range dom i j k (inside_padded3 dom i j k NH I)).
      rewrite zget_map, zget_zrange by lia. cbn [option_map]. rewrite Z.add_0_l. rewrite of3_slot by (apply inside_padded3; auto). reflexivity.
  Qed.

  Lemma same_files3 fuel fuel' fs fs' vts vts' other other' args args' opts opts' m m' vm vm' s s' bx by_ bz w steps e t dt n j r nm dm q :
    parse_options (pl_read pl) (pl_lit pl) (pl_eps100 pl) (pl_max100 pl) fs args opts = Ok (Running m vm) ->
    parse_options (pl_read pl) (pl_lit pl) (pl_eps100 pl) (pl_max100 pl) fs' args' opts' = Ok (Running m' vm') ->
    asks m 3 "rk3ssp" "none" s -> asks m' 3 "rk3ssp" r s' -> r <> "none" -> continues s s' ->
    sound s fuel -> s_nx s <= 2147483647 -> sound_from s' (Z.of_nat n + 1) fuel' ->
    bc_named (s_bc_x s) bx -> bc_named (s_bc_y s) by_ -> bc_named (s_bc_z s) bz ->
    neqb (nint 0 : V) (nint 0) = true ->
    madgicart pl fuel fs vts other args opts = Some (Ok (Finished w)) ->
    marches (fun dt p => p = dt) (s_tfinal s) (s_max_steps s) 0 (s_t0 s) (s_dt s) false steps e ->
    nth_error steps n = Some (t, dt) -> (S n < List.length steps)%nat -> ngeb (nadd (nadd t dt) dt) (s_tfinal s) = false ->
    1 <= s_save_every s -> n = (j * Z.to_nat (s_save_every s))%nat ->
    nth_error (w_files w) j = Some (nm, vts' r) ->
    let dom := grid_of s bx by_ bz in
    (forall u, is_file3 pl dom (Z.of_nat n + 1) (nadd t dt) dt u (vts' r) -> readable3 pl dom (nadd t dt) dt u) ->
    read_domain (pl_read pl) (vts' r) (pl_raw pl) = Ok (dm, q) ->
    nx dm = s_nx s -> ny dm = s_ny s -> nz dm = s_nz s -> xbeg dm = s_xbeg s -> ybeg dm = s_ybeg s -> zbeg dm = s_zbeg s ->
    cell_size dm = cell_size dom ->
    exists w' before before' fin, madgicart pl fuel' fs' vts' other' args' opts' = Some (Ok (Finished w')) /\
      w_files w = before ++ [fin] /\ w_files w' = before' ++ [fin] /\
      (s_save_every s = 1 -> w_files w' = skipn (S n) (w_files w)).
  Proof.
    intros PO PO' A A' NR (Q8 & Q9 & Q10 & Q11 & Q12 & Q13 & Q14 & Q16 & Q18 & Q19 & Q20) (SX & SY & SZ & SV & SM & SL & SF) NX
      SO BX BY BZ Z0 EW MA HN HLEN HG HQ NJ HFile dom HRd RD D1 D2 D3 D4 D5 D6 DC.
    assert (HV : valid_domain3 dom) by (unfold valid_domain3; cbn; lia).
    destruct (program3_rk3 pl fuel fs vts other args opts m vm PO s bx by_ bz SX SY SZ BX BY BZ ltac:(lia) SL ltac:(rewrite limit_int; lia) Z0 A SV) as (d & c & EM & EC & K).
    fold dom in EM, K.
    destruct (slots3 dom c ltac:(cbn; lia) (random_len3 pl dom d _ _ c HV ltac:(cbn; lia) EM EC)) as (a & HA).
    destruct (K a HA) as (w0 & w1 & (F0 & _) & EW1 & RN). rewrite EW in EW1. injection EW1 as <-. clear K.
    destruct (files3 pl s dom d _ _ _ _ _ a w0 w HV ltac:(cbn; lia) EM F0 RN) as (steps1 & e1 & bef & i & tl & dtl & u & MA1 & RE & WF).
    cbn [options_of options_with t_initial_step t_t0 t_dt_initial t_max_steps t_tfinal] in MA1, RE, WF.
    replace (int_of_unsigned (s_max_steps s)) with (s_max_steps s) in MA1 by (unfold int_of_unsigned, int_max; replace (s_max_steps s <=? 2147483647) with true by lia; reflexivity).
    destruct (marches_fixed _ _ _ _ _ _ _ _ MA _ _ MA1) as (-> & ->).
    set (next := rk3_next (ch_f3 dom (s_variant s) (params_in s) (d3_dx d))) in *.
    destruct (reached_suffix next n steps 0 a t dt HN) as (un & RNTH & RSUF). rewrite Z.add_0_l in RNTH, RSUF.
    destruct (make3_inv dom d HV EM) as (W & ED).
    assert (EX : d3_dx d = cell_size dom) by (rewrite (wf_dx _ W), ED; reflexivity).
    (* the file *)
    assert (FD : vts' r = doc3 (pl_show pl) (pl_show6 pl) dom (d3_dx d) {| fs_iter := Z.of_nat n + 1; fs_time := nadd t dt; fs_dt := dt |} (at3 dom un)).
    { assert (JE : nth_error (every (s_save_every s) (map (entry3 pl s dom (d3_dx d) (base_of s)) (reached next 0 a steps))) j
          = Some (entry3 pl s dom (d3_dx d) (base_of s) (Z.of_nat n + 1, nadd t dt, dt, un))).
      { rewrite every_nth, <- NJ by lia. rewrite nth_error_map, RNTH. reflexivity. }
      rewrite WF in HFile. rewrite nth_error_app1 in HFile by (apply nth_error_Some; congruence).
      rewrite JE in HFile. injection HFile as _ HF2. symmetry. exact HF2. }
    assert (HF : is_file3 pl dom (Z.of_nat n + 1) (nadd t dt) dt (at3 dom un) (vts' r)).
    { destruct (array_of3 dom (at3 dom un) ltac:(cbn; lia) HV) as (c1 & HC1). exists d, c1. split; [exact EM|]. split; [exact HC1|].
      rewrite (write3_ok _ _ dom d _ c1 _ HV EM HC1), FD. reflexivity. }
    pose proof (HRd _ HF) as HR.
    (* the restart *)
    pose proof SO as (S1 & S2 & S3 & S4 & S5).
    assert (NE : String.eqb r "none" = false) by (apply String.eqb_neq; exact NR).
    set (dom' := {| nx := s_nx s; ny := s_ny s; nz := s_nz s; xbeg := s_xbeg s; xend := xend dm; ybeg := s_ybeg s; yend := yend dm; zbeg := s_zbeg s; zend := zend dm; xbc := bx; ybc := by_; zbc := bz; nhalo := 2 |}).
    assert (EDM : with_bcs dm bx by_ bz = dom') by (unfold with_bcs, dom'; rewrite D1, D2, D3, D4, D5, D6; reflexivity).
    assert (HV' : valid_domain3 dom') by (unfold valid_domain3; cbn; lia).
    pose proof (file_time3 pl dom (Z.of_nat n + 1) (nadd t dt) dt (at3 dom un) (vts' r) HF HR ltac:(lia) {| rs_t0 := s_t0 s'; rs_step := 0; rs_dt := s_dt s' |}) as RT.
    destruct (build3_from pl m' s' bx by_ bz ltac:(rewrite <- Q8; exact BX) ltac:(rewrite <- Q9; exact BY) ltac:(rewrite <- Q10; exact BZ)
      "rk3ssp" Rk3ssp r (vts' r) dm q (Z.of_nat n + 1) (nadd t dt) dt ltac:(reflexivity) A' S1 RD RT ltac:(rewrite EDM; exact HV')) as (d' & EM' & B).
    rewrite EDM in EM'.
    destruct (make3_inv dom' d' HV' EM') as (W' & ED').
    assert (EX' : d3_dx d' = d3_dx d).
    { rewrite EX, <- DC, (wf_dx _ W'), ED'. unfold cell_size, dom'. cbn [xend xbeg nx]. rewrite D1, D4. reflexivity. }
    pose proof (new_array3_len dom' d' HV' ltac:(cbn; lia) EM') as LA.
    destruct (file_values3 pl dom (Z.of_nat n + 1) (nadd t dt) dt (at3 dom un) (vts' r) HV ltac:(cbn; lia) ltac:(cbn; lia) ltac:(cbn; lia) HF HR dom' d' (params_in s') (create_real_array3 d') HV' EM' eq_refl eq_refl eq_refl LA)
      as (c1 & EC1 & HC1).
    assert (HA1 : state_holds 1 (cells3 dom') (P3 dom') [c1] un) by (apply state3; [cbn; lia|exact HC1]).
    destruct (whole3_rk3 pl fuel' fs' vts' other' args' opts' m' vm' PO' s' r ltac:(lia) S3 dom' d' FromFile (s_variant s') (params_in s')
      (options_from s' (Z.of_nat n + 1) (nadd t dt) dt) c1 un A') as (w0' & w' & (F0' & _) & EW' & RN').
    { rewrite NE. exact B. }
    { exact HV'. }
    { cbn; lia. }
    { cbn [dom' nhalo nx ny nz]. lia. }
    { exact EM'. }
    { exact S1. }
    { apply options_from_fit; [exact SO|exact Z0]. }
    { rewrite NE. exact EC1. }
    { exact HA1. }
    destruct (files3 pl s' dom' d' _ _ _ _ _ un w0' w' HV' ltac:(cbn; lia) EM' F0' RN') as (steps2 & e2 & bef2 & i2 & tl2 & dtl2 & u2 & MA2 & RE2 & WF2).
    unfold options_from in MA2, RE2, WF2. cbn [resumed rs_t0 rs_step rs_dt options_of options_with t_initial_step t_t0 t_dt_initial t_max_steps t_tfinal] in MA2, RE2, WF2.
    replace (int_of_unsigned (s_max_steps s')) with (s_max_steps s') in MA2 by (unfold int_of_unsigned, int_max; replace (s_max_steps s' <=? 2147483647) with true by lia; reflexivity).
    rewrite <- Q16, <- Q18 in MA2.
    pose proof (marches_suffix (s_tfinal s) (s_max_steps s) n 0 _ _ _ steps e t dt MA HN HLEN HG) as MS. rewrite Z.add_0_l in MS.
    destruct (marches_fixed _ _ _ _ _ _ _ _ MS _ _ MA2) as (-> & ->).
    assert (NXT : rk3_next (ch_f3 dom' (s_variant s') (params_in s') (d3_dx d')) = next).
    { unfold next. rewrite EX'. unfold params_in. rewrite <- Q12, <- Q13, <- Q14, <- Q11. reflexivity. }
    rewrite NXT in RE2, WF2. rewrite <- RSUF in RE2, WF2.
    assert (LAST : (i2, tl2, dtl2, u2) = (i, tl, dtl, u)).
    { rewrite RE in RE2. pose proof (f_equal (@List.length _) RE) as LL. rewrite reached_length, app_length in LL. cbn [List.length] in LL.
      rewrite skipn_app in RE2. replace (S n - List.length bef)%nat with 0%nat in RE2 by lia. cbn [skipn] in RE2.
      apply app_inj_tail in RE2 as (_ & RE2). symmetry. exact RE2. }
    injection LAST as -> -> -> ->.
    assert (EE : forall b x, entry3 pl s' dom' (d3_dx d') b x = entry3 pl s dom (d3_dx d) b x).
    { intros b (((i0, t0), dt0), u0). unfold entry3, name3. rewrite EX', <- Q18. reflexivity. }
    rewrite EE, <- Q19, <- Q20 in WF2.
    rewrite (map_ext _ (entry3 pl s dom (d3_dx d) (base_of s)) (EE (base_of s))) in WF2.
    exists w', (every (s_save_every s) (map (entry3 pl s dom (d3_dx d) (base_of s)) (reached next 0 a steps))),
      (every (s_save_every s) (map (entry3 pl s dom (d3_dx d) (base_of s)) (skipn (S n) (reached next 0 a steps)))),
      (entry3 pl s dom (d3_dx d) (base_of s ++ "_final")%string (i, tl, e, u)).
    split; [exact EW'|]. split; [exact WF|]. split; [exact WF2|].
    intros E1. rewrite WF2, WF, E1, !every_one, skipn_app, skipn_map, map_length, reached_length.
    replace (S n - List.length steps)%nat with 0%nat by lia. reflexivity.
  Qed.
End Same3.

Section Same2.
  Context {V : Type} `{N : Num V} (pl : platform V).

  Lemma array_of2 (dom : domain V) (u : Z -> Z -> V) : 0 <= nhalo dom -> valid_domain2 dom -> exists c, holds_inside2 dom c u.
  Proof.
    intros NH HV. exists (map (of2 dom u 0) (zrange 0 (cells2 dom))). split.
    - rewrite zlen_map, zlen_zrange. unfold valid_domain2 in HV. unfold cells2.
      assert (0 <= cells2 dom); [|unfold cells2 in *; lia].
      unfold cells2. repeat apply Z.mul_nonneg_nonneg; lia.
    - intros i j I. pose proof (slot2_range dom i j (inside_padded2 dom i j NH I)).
      rewrite zget_map, zget_zrange by lia. cbn [option_map]. rewrite Z.add_0_l. rewrite of2_slot by (apply inside_padded2; auto). reflexivity.
  Qed.

  Lemma same_files2 fuel fuel' fs fs' vts vts' other other' args args' opts opts' m m' vm vm' s s' bx by_ bz zero w steps e t dt n j r nm dm q :
    parse_options (pl_read pl) (pl_lit pl) (pl_eps100 pl) (pl_max100 pl) fs args opts = Ok (Running m vm) ->
    parse_options (pl_read pl) (pl_lit pl) (pl_eps100 pl) (pl_max100 pl) fs' args' opts' = Ok (Running m' vm') ->
    asks m 2 "rk3ssp" "none" s -> asks m' 2 "rk3ssp" r s' -> r <> "none" -> continues s s' ->
    sound s fuel -> s_nx s <= 2147483647 -> sound_from s' (Z.of_nat n + 1) fuel' ->
    bc_named (s_bc_x s) bx -> bc_named (s_bc_y s) by_ -> bc_named (s_bc_z s) bz ->
    neqb (nint 0 : V) (nint 0) = true ->
    pl_read pl "0.0" = Ok zero ->
    madgicart pl fuel fs vts other args opts = Some (Ok (Finished w)) ->
    marches (fun dt p => p = dt) (s_tfinal s) (s_max_steps s) 0 (s_t0 s) (s_dt s) false steps e ->
    nth_error steps n = Some (t, dt) -> (S n < List.length steps)%nat -> ngeb (nadd (nadd t dt) dt) (s_tfinal s) = false ->
    1 <= s_save_every s -> n = (j * Z.to_nat (s_save_every s))%nat ->
    nth_error (w_files w) j = Some (nm, vts' r) ->
    let dom := grid_of s bx by_ bz in
    (forall u, is_file2 pl dom (Z.of_nat n + 1) (nadd t dt) dt u (vts' r) -> readable2 pl dom (nadd t dt) dt u) ->
    read_domain (pl_read pl) (vts' r) (pl_raw pl) = Ok (dm, q) ->
    nx dm = s_nx s -> xbeg dm = s_xbeg s -> ybeg dm = s_ybeg s ->
    cell_size dm = cell_size dom ->
    exists w' before before' fin, madgicart pl fuel' fs' vts' other' args' opts' = Some (Ok (Finished w')) /\
      w_files w = before ++ [fin] /\ w_files w' = before' ++ [fin] /\
      (s_save_every s = 1 -> w_files w' = skipn (S n) (w_files w)).
  Proof.
    intros PO PO' A A' NR (Q8 & Q9 & Q10 & Q11 & Q12 & Q13 & Q14 & Q16 & Q18 & Q19 & Q20) (SX & SY & SZ & SV & SM & SL & SF) NX
      SO BX BY BZ Z0 RZ EW MA HN HLEN HG HQ NJ HFile dom HRd RD D1 D4 D5 DC.
    assert (HV : valid_domain2 dom) by (unfold valid_domain2; cbn; lia).
    destruct (program2_rk3 pl fuel fs vts other args opts m vm PO s bx by_ bz SX SY SZ BX BY BZ ltac:(lia) SL ltac:(rewrite limit_int; lia) Z0 A) as (d & c & EM & EC & K).
    fold dom in EM, K.
    destruct (slots2 dom c ltac:(cbn; lia) (random_len2 pl dom d _ _ c HV ltac:(cbn; lia) EM EC)) as (a & HA).
    destruct (K a HA) as (w0 & w1 & (F0 & _) & EW1 & RN). rewrite EW in EW1. injection EW1 as <-. clear K.
    destruct (files2 pl s dom d _ _ _ _ _ a w0 w HV ltac:(cbn; lia) EM F0 RN) as (steps1 & e1 & bef & i & tl & dtl & u & MA1 & RE & WF).
    cbn [options_of options_with t_initial_step t_t0 t_dt_initial t_max_steps t_tfinal] in MA1, RE, WF.
    replace (int_of_unsigned (s_max_steps s)) with (s_max_steps s) in MA1 by (unfold int_of_unsigned, int_max; replace (s_max_steps s <=? 2147483647) with true by lia; reflexivity).
    destruct (marches_fixed _ _ _ _ _ _ _ _ MA _ _ MA1) as (-> & ->).
    set (next := rk3_next (ch_f2 dom (params_in s) (d2_dx d))) in *.
    destruct (reached_suffix next n steps 0 a t dt HN) as (un & RNTH & RSUF). rewrite Z.add_0_l in RNTH, RSUF.
    destruct (make2_inv dom d HV EM) as (W & ED).
    assert (EX : d2_dx d = cell_size dom) by (rewrite (wf2_dx _ W), ED; reflexivity).
    (* the file *)
    assert (FD : vts' r = doc2 (pl_show pl) (pl_show6 pl) dom (d2_dx d) {| fs_iter := Z.of_nat n + 1; fs_time := nadd t dt; fs_dt := dt |} (at2 dom un)).
    { assert (JE : nth_error (every (s_save_every s) (map (entry2 pl s dom (d2_dx d) (base_of s)) (reached next 0 a steps))) j
          = Some (entry2 pl s dom (d2_dx d) (base_of s) (Z.of_nat n + 1, nadd t dt, dt, un))).
      { rewrite every_nth, <- NJ by lia. rewrite nth_error_map, RNTH. reflexivity. }
      rewrite WF in HFile. rewrite nth_error_app1 in HFile by (apply nth_error_Some; congruence).
      rewrite JE in HFile. injection HFile as _ HF2. symmetry. exact HF2. }
    assert (HF : is_file2 pl dom (Z.of_nat n + 1) (nadd t dt) dt (at2 dom un) (vts' r)).
    { destruct (array_of2 dom (at2 dom un) ltac:(cbn; lia) HV) as (c1 & HC1). exists d, c1. split; [exact EM|]. split; [exact HC1|].
      rewrite (write2_ok _ _ (nint 0) dom d _ c1 _ HV EM HC1), FD. reflexivity. }
    pose proof (HRd _ HF) as HR.
    (* the restart *)
    pose proof SO as (S1 & S2 & S3 & S4 & S5).
    assert (NE : String.eqb r "none" = false) by (apply String.eqb_neq; exact NR).
    set (dom' := {| nx := s_nx s; ny := ny dm; nz := nz dm; xbeg := s_xbeg s; xend := xend dm; ybeg := s_ybeg s; yend := yend dm; zbeg := zbeg dm; zend := zend dm; xbc := bx; ybc := by_; zbc := bz; nhalo := 2 |}).
    assert (EDM : with_bcs dm bx by_ bz = dom') by (unfold with_bcs, dom'; rewrite D1, D4, D5; reflexivity).
    assert (HV' : valid_domain2 dom') by (unfold valid_domain2; cbn; lia).
    pose proof (file_time2 pl dom (Z.of_nat n + 1) (nadd t dt) dt (at2 dom un) (vts' r) HF HR ltac:(lia) {| rs_t0 := s_t0 s'; rs_step := 0; rs_dt := s_dt s' |}) as RT.
    destruct (build2_from pl m' s' bx by_ bz ltac:(rewrite <- Q8; exact BX) ltac:(rewrite <- Q9; exact BY) ltac:(rewrite <- Q10; exact BZ)
      "rk3ssp" Rk3ssp r (vts' r) dm q (Z.of_nat n + 1) (nadd t dt) dt ltac:(reflexivity) A' RD RT ltac:(rewrite EDM; exact HV')) as (d' & EM' & B).
    rewrite EDM in EM'.
    destruct (make2_inv dom' d' HV' EM') as (W' & ED').
    assert (EX' : d2_dx d' = d2_dx d).
    { rewrite EX, <- DC, (wf2_dx _ W'), ED'. unfold cell_size, dom'. cbn [xend xbeg nx]. rewrite D1, D4. reflexivity. }
    pose proof (new_array2_len dom' d' HV' ltac:(cbn; lia) EM') as LA.
    destruct (file_values2 pl dom (Z.of_nat n + 1) (nadd t dt) dt (at2 dom un) (vts' r) HV ltac:(cbn; lia) zero RZ HF HR dom' d' (params_in s') (create_real_array2 d') HV' EM' eq_refl LA)
      as (c1 & EC1 & HC1).
    assert (HA1 : state_holds 1 (cells2 dom') (P2 dom') [c1] un) by (apply state2; [cbn; lia|exact HC1]).
    destruct (whole2_rk3 pl fuel' fs' vts' other' args' opts' m' vm' PO' s' r ltac:(lia) S3 dom' d' FromFile (s_variant s') (params_in s')
      (options_from s' (Z.of_nat n + 1) (nadd t dt) dt) c1 un A') as (w0' & w' & (F0' & _) & EW' & RN').
    { rewrite NE. exact B. }
    { exact HV'. }
    { cbn; lia. }
    { cbn [dom' nhalo nx ny nz]. lia. }
    { exact EM'. }
    { apply options_from_fit; [exact SO|exact Z0]. }
    { rewrite NE. exact EC1. }
    { exact HA1. }
    destruct (files2 pl s' dom' d' _ _ _ _ _ un w0' w' HV' ltac:(cbn; lia) EM' F0' RN') as (steps2 & e2 & bef2 & i2 & tl2 & dtl2 & u2 & MA2 & RE2 & WF2).
    unfold options_from in MA2, RE2, WF2. cbn [resumed rs_t0 rs_step rs_dt options_of options_with t_initial_step t_t0 t_dt_initial t_max_steps t_tfinal] in MA2, RE2, WF2.
    replace (int_of_unsigned (s_max_steps s')) with (s_max_steps s') in MA2 by (unfold int_of_unsigned, int_max; replace (s_max_steps s' <=? 2147483647) with true by lia; reflexivity).
    rewrite <- Q16, <- Q18 in MA2.
    pose proof (marches_suffix (s_tfinal s) (s_max_steps s) n 0 _ _ _ steps e t dt MA HN HLEN HG) as MS. rewrite Z.add_0_l in MS.
    destruct (marches_fixed _ _ _ _ _ _ _ _ MS _ _ MA2) as (-> & ->).
    assert (NXT : rk3_next (ch_f2 dom' (params_in s') (d2_dx d')) = next).
    { unfold next. rewrite EX'. unfold params_in. rewrite <- Q12, <- Q13, <- Q14. reflexivity. }
    rewrite NXT in RE2, WF2. rewrite <- RSUF in RE2, WF2.
    assert (LAST : (i2, tl2, dtl2, u2) = (i, tl, dtl, u)).
    { rewrite RE in RE2. pose proof (f_equal (@List.length _) RE) as LL. rewrite reached_length, app_length in LL. cbn [List.length] in LL.
      rewrite skipn_app in RE2. replace (S n - List.length bef)%nat with 0%nat in RE2 by lia. cbn [skipn] in RE2.
      apply app_inj_tail in RE2 as (_ & RE2). symmetry. exact RE2. }
    injection LAST as -> -> -> ->.
    assert (EE : forall b x, entry2 pl s' dom' (d2_dx d') b x = entry2 pl s dom (d2_dx d) b x).
    { intros b (((i0, t0), dt0), u0). unfold entry2, name2. rewrite EX', <- Q18. reflexivity. }
    rewrite EE, <- Q19, <- Q20 in WF2.
    rewrite (map_ext _ (entry2 pl s dom (d2_dx d) (base_of s)) (EE (base_of s))) in WF2.
    exists w', (every (s_save_every s) (map (entry2 pl s dom (d2_dx d) (base_of s)) (reached next 0 a steps))),
      (every (s_save_every s) (map (entry2 pl s dom (d2_dx d) (base_of s)) (skipn (S n) (reached next 0 a steps)))),
      (entry2 pl s dom (d2_dx d) (base_of s ++ "_final")%string (i, tl, e, u)).
    split; [exact EW'|]. split; [exact WF|]. split; [exact WF2|].
    intros E1. rewrite WF2, WF, E1, !every_one, skipn_app, skipn_map, map_length, reached_length.
    replace (S n - List.length steps)%nat with 0%nat by lia. reflexivity.
  Qed.
End Same2.
