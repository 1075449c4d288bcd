(** Proofs of the restart properties. *)
From Coq Require Import ZArith QArith Reals String List Lra Lia.
From Verif Require Import Outcome ZList ZListProofs Num SpecGrid ModelDisc3D ModelDisc2D ModelCH ModelObs ModelTime ModelRun
  ModelVTK SpecVTK ModelMain SpecTime SpecRestart ExampleNum Disc3DProofs Disc2DProofs Make3Proofs Make2Proofs BC3Proofs
  CHProofs Time1Proofs Time3Proofs Step1Proofs RestartProofs VTKFinal RunFinal.
Import ListNotations.
Local Open Scope string_scope.
Local Open Scope list_scope.
Local Open Scope Z_scope.

Lemma ch3_same {V} `{N : Num V} dom dom' d d' variant p :
  valid_domain3 dom -> 2 <= nhalo dom -> nhalo dom <= nx dom /\ nhalo dom <= ny dom /\ nhalo dom <= nz dom ->
  0 <= variant <= 2 -> make3 dom' = Ok d' -> d3_dx d' = d3_dx d ->
  nx dom' = nx dom -> ny dom' = ny dom -> nz dom' = nz dom -> nhalo dom' = nhalo dom ->
  xbc dom' = xbc dom -> ybc dom' = ybc dom -> zbc dom' = zbc dom ->
  computes (ch_rhs3 d' variant p) (scratch_fits (cells3 dom)) 1 (cells3 dom) (P3 dom) (ch_f3 dom variant p (d3_dx d)).
Proof.
  intros HV H2 HT VR HM HD E1 E2 E3 E4 E5 E6 E7.
  assert (HV' : valid_domain3 dom') by (unfold valid_domain3 in *; rewrite E1, E2, E3, E4; exact HV).
  assert (K : computes (ch_rhs3 d' variant p) (scratch_fits (cells3 dom')) 1 (cells3 dom') (P3 dom')
                (ch_f3 dom' variant p (d3_dx d'))).
  { apply ch3_computes; auto; rewrite ?E1, ?E2, ?E3, ?E4; auto. }
  rewrite HD in K. clear HM HD HV HV' H2 HT.
  destruct dom as [a1 a2 a3 b1 b2 b3 b4 b5 b6 c1 c2 c3 h], dom' as [a1' a2' a3' b1' b2' b3' b4' b5' b6' c1' c2' c3' h'].
  cbn [nx ny nz nhalo xbc ybc zbc] in *. subst. exact K.
Qed.

Lemma ch2_same {V} `{N : Num V} dom dom' d d' p :
  valid_domain2 dom -> 2 <= nhalo dom -> nhalo dom <= nx dom ->
  make2 dom' = Ok d' -> d2_dx d' = d2_dx d -> nx dom' = nx dom -> nhalo dom' = nhalo dom ->
  computes (ch_rhs2 d' p) (scratch_fits (cells2 dom)) 1 (cells2 dom) (P2 dom) (ch_f2 dom p (d2_dx d)).
Proof.
  intros HV H2 HT HM HD E1 E4.
  assert (HV' : valid_domain2 dom') by (unfold valid_domain2 in *; rewrite E1, E4; exact HV).
  assert (K : computes (ch_rhs2 d' p) (scratch_fits (cells2 dom')) 1 (cells2 dom') (P2 dom') (ch_f2 dom' p (d2_dx d'))).
  { apply ch2_computes; auto; rewrite ?E1, ?E4; auto. }
  rewrite HD in K. clear HM HD HV HV' H2 HT.
  destruct dom as [a1 a2 a3 b1 b2 b3 b4 b5 b6 c1 c2 c3 h], dom' as [a1' a2' a3' b1' b2' b3' b4' b5' b6' c1' c2' c3' h'].
  cbn [nx nhalo] in *. subst. exact K.
Qed.

Lemma allocated_fit3 {V W} `{N : Num V} dom (x : rk3_world V (scratch V) W) u c :
  0 <= nhalo dom -> allocated (cells3 dom) x -> k_u x = [c] -> holds_inside3 dom c u ->
  fit (scratch_fits (cells3 dom)) 1 (cells3 dom) (P3 dom) x (of3 dom u).
Proof.
  intros NH (A & B & C & D) E H. split; [|split; [exact B|split; [exact D|]]].
  - repeat split; apply A; simpl; auto.
  - rewrite E. apply state3; auto. split; [apply H|]. intros i j k I. unfold at3. rewrite of3_slot by (apply inside_padded3; auto).
    apply H; auto.
Qed.

Lemma allocated_fit2 {V W} `{N : Num V} dom (x : rk3_world V (scratch V) W) u c :
  0 <= nhalo dom -> allocated (cells2 dom) x -> k_u x = [c] -> holds_inside2 dom c u ->
  fit (scratch_fits (cells2 dom)) 1 (cells2 dom) (P2 dom) x (of2 dom u).
Proof.
  intros NH (A & B & C & D) E H. split; [|split; [exact B|split; [exact D|]]].
  - repeat split; apply A; simpl; auto.
  - rewrite E. apply state2; auto. split; [apply H|]. intros i j I. unfold at2. rewrite of2_slot by (apply inside_padded2; auto).
    apply H; auto.
Qed.

Lemma fit_allocated {V W} `{N : Num V} cells P (x : rk3_world V (scratch V) W) :
  fitting (scratch_fits cells) 1 cells P x -> allocated cells x.
Proof.
  intros (w & (A & B & C & D) & F & G & H). split; [|split; [exact F|split; [apply H|exact G]]].
  intros k [E|[E|[E|[E|[]]]]]; rewrite <- E; assumption.
Qed.

Lemma fit_state {V S W} `{N : Num V} ok size P (x : rk3_world V S W) w : fit ok 1 size P x w ->
  exists c, k_u x = [c] /\ zlen c = size.
Proof. intros (_ & _ & _ & H). apply one_array. apply H. Qed.

(** The state after any step of a run is one array of the grid's size. *)
Lemma run_fit3 {V W L} `{N : Num V} dom d variant p monitor
    (call : L -> Z -> V -> V -> rk3_world V (scratch V) W -> res (rk3_world V (scratch V) W)) fuel o obs x rs gf r :
  leaves_solver_alone call ->
  valid_domain3 dom -> 2 <= nhalo dom -> nhalo dom <= nx dom /\ nhalo dom <= ny dom /\ nhalo dom <= nz dom ->
  make3 dom = Ok d -> 0 <= variant <= 2 -> allocated (cells3 dom) x ->
  solve (rk3_do (ch_rhs3 d variant p)) rk3_next_dt monitor call fuel o obs x = Some (Ok (rs, gf)) -> In r rs ->
  (exists w0, fit (scratch_fits (cells3 dom)) 1 (cells3 dom) (P3 dom) x w0) /\
  exists c, k_u (g_world (s_after r)) = [c] /\ zlen c = cells3 dom.
Proof.
  intros Q HV H2 HT HM VR AL E I.
  pose proof (ch3_computes dom d variant p HV H2 HT HM VR) as CC.
  assert (F0 : exists w0, fit (scratch_fits (cells3 dom)) 1 (cells3 dom) (P3 dom) x w0).
  { destruct (proj1 (one_array _ _) (proj1 (proj2 (proj2 AL)))) as (c0 & E0 & L0).
    destruct (holds3_exists dom c0 HV L0) as (u0 & (_ & HU)).
    eexists. apply (allocated_fit3 dom x u0 c0); auto; [lia|]. split; auto. intros. apply HU. apply inside_padded3; auto. lia. }
  split; auto. unfold solve in E. destruct (t_use_cfl o); [discriminate|].
  edestruct (Step2Proofs.loop_keeps (rk3_do (ch_rhs3 d variant p)) rk3_next_dt monitor call
    (fun x => exists w, fit (scratch_fits (cells3 dom)) 1 (cells3 dom) (P3 dom) x w)) with (4 := E) as (_ & K).
  - intros z t e z' (w & F) ES. eexists. eapply fit_step; eauto.
  - intros l i t e z z' (w & F) ES. eexists. eapply fit_call; eauto.
  - intros z e z' e' (w & F) ES. apply rk3_next_inv in ES as (-> & _). eauto.
  - exact F0.
  - destruct (K r I) as (w & F). eapply fit_state; eauto.
Qed.

Lemma run_fit2 {V W L} `{N : Num V} dom d p monitor
    (call : L -> Z -> V -> V -> rk3_world V (scratch V) W -> res (rk3_world V (scratch V) W)) fuel o obs x rs gf r :
  leaves_solver_alone call ->
  valid_domain2 dom -> 2 <= nhalo dom -> nhalo dom <= nx dom ->
  make2 dom = Ok d -> allocated (cells2 dom) x ->
  solve (rk3_do (ch_rhs2 d p)) rk3_next_dt monitor call fuel o obs x = Some (Ok (rs, gf)) -> In r rs ->
  (exists w0, fit (scratch_fits (cells2 dom)) 1 (cells2 dom) (P2 dom) x w0) /\
  exists c, k_u (g_world (s_after r)) = [c] /\ zlen c = cells2 dom.
Proof.
  intros Q HV H2 HT HM AL E I.
  pose proof (ch2_computes dom d p HV H2 HT HM) as CC.
  assert (F0 : exists w0, fit (scratch_fits (cells2 dom)) 1 (cells2 dom) (P2 dom) x w0).
  { destruct (proj1 (one_array _ _) (proj1 (proj2 (proj2 AL)))) as (c0 & E0 & L0).
    destruct (holds2_exists dom c0 HV L0) as (u0 & (_ & HU)).
    eexists. apply (allocated_fit2 dom x u0 c0); auto; [lia|]. split; auto. intros. apply HU. apply inside_padded2; auto. lia. }
  split; auto. unfold solve in E. destruct (t_use_cfl o); [discriminate|].
  edestruct (Step2Proofs.loop_keeps (rk3_do (ch_rhs2 d p)) rk3_next_dt monitor call
    (fun x => exists w, fit (scratch_fits (cells2 dom)) 1 (cells2 dom) (P2 dom) x w)) with (4 := E) as (_ & K).
  - intros z t e z' (w & F) ES. eexists. eapply fit_step; eauto.
  - intros l i t e z z' (w & F) ES. eexists. eapply fit_call; eauto.
  - intros z e z' e' (w & F) ES. apply rk3_next_inv in ES as (-> & _). eauto.
  - exact F0.
  - destruct (K r I) as (w & F). eapply fit_state; eauto.
Qed.

Lemma alike3 {V W L} `{N : Num V} ok dom (a b : step_record (X:=rk3_world V (scratch V) W) (L:=L)) :
  0 <= nhalo dom -> alike ok 1 (cells3 dom) (P3 dom) a b -> same_step3 dom a b.
Proof.
  intros NH (A & B & C & D & w & F & G). unfold same_step3. repeat (split; [assumption|]).
  destruct (fit_state _ _ _ _ _ F) as (ca & EA & LA). destruct (fit_state _ _ _ _ _ G) as (cb & EB & LB).
  destruct F as (_ & _ & _ & F). destruct G as (_ & _ & _ & G). rewrite EA in F. rewrite EB in G.
  exists ca, cb, (at3 dom w). split; [exact EA|]. split; [exact EB|]. split; apply state3; auto.
Qed.
Lemma alike2 {V W L} `{N : Num V} ok dom (a b : step_record (X:=rk3_world V (scratch V) W) (L:=L)) :
  0 <= nhalo dom -> alike ok 1 (cells2 dom) (P2 dom) a b -> same_step2 dom a b.
Proof.
  intros NH (A & B & C & D & w & F & G). unfold same_step2. repeat (split; [assumption|]).
  destruct (fit_state _ _ _ _ _ F) as (ca & EA & LA). destruct (fit_state _ _ _ _ _ G) as (cb & EB & LB).
  destruct F as (_ & _ & _ & F). destruct G as (_ & _ & _ & G). rewrite EA in F. rewrite EB in G.
  exists ca, cb, (at2 dom w). split; [exact EA|]. split; [exact EB|]. split; apply state2; auto.
Qed.

Lemma forall2_impl {A B} (R S : A -> B -> Prop) l m : (forall a b, R a b -> S a b) -> Forall2 R l m -> Forall2 S l m.
Proof. intros H. induction 1; constructor; auto. Qed.

Lemma pf_C68_resume_3d :
  forall (V : Type) (N : Num V) (W L : Type) (show show6 : V -> String.string) (read : String.string -> res V)
    (monitor monitor' : rk3_world V (scratch V) W -> list (String.string * V))
    (call call' : L -> Z -> V -> V -> rk3_world V (scratch V) W -> res (rk3_world V (scratch V) W))
    (fuel fuel' : nat) (o : time_options V) (obs obs' : observable L)
    (dom dom' raw : domain V) (d d' : disc3 V) (variant : Z) (p : ch_params V)
    (x y : rk3_world V (scratch V) W) (cy : list V) rs1 r r' rs2 gf,
  leaves_solver_alone call -> leaves_solver_alone call' ->
  valid_domain3 dom -> 2 <= nhalo dom -> nhalo dom <= nx dom /\ nhalo dom <= ny dom /\ nhalo dom <= nz dom ->
  make3 dom = Ok d -> 0 <= variant <= 2 -> allocated (cells3 dom) x -> no_tolerance o -> 0 <= t_initial_step o ->
  solve (rk3_do (ch_rhs3 d variant p)) rk3_next_dt monitor call fuel o obs x = Some (Ok (rs1 ++ r :: r' :: rs2, gf)) ->
  let a := s_after r in
  ngeb (nadd (g_time a) (g_dt a)) (t_tfinal o) = false ->
  nx dom <= 2147483647 -> ny dom <= 2147483647 -> nz dom <= 2147483647 ->
  vertices_print3 show read dom (d3_dx d) -> solution_prints3 show read dom (g_world a) ->
  prints show6 read (g_time a) -> prints show6 read (g_dt a) ->
  nx dom' = nx dom -> ny dom' = ny dom -> nz dom' = nz dom -> nhalo dom' = nhalo dom ->
  xbc dom' = xbc dom -> ybc dom' = ybc dom -> zbc dom' = zbc dom -> make3 dom' = Ok d' -> d3_dx d' = d3_dx d ->
  allocated (cells3 dom) y -> k_u y = [cy] ->
  exists c doc o' cy',
    k_u (g_world a) = [c] /\ write3 show show6 (status_of a) d c = Ok doc /\
    time_options_for read o (Some doc) = Ok o' /\
    set_solution read doc raw (Target3 d' cy) = Ok (Target3 d' cy') /\
    (forall rs' gf',
     solve (rk3_do (ch_rhs3 d' variant p)) rk3_next_dt monitor' call' fuel' o' obs'
       {| k_int := k_int y; k_sc := k_sc y; k_u := [cy']; k_du := k_du y; k_rest := k_rest y |} = Some (Ok (rs', gf')) ->
     Forall2 (same_step3 dom) (r' :: rs2) rs') /\
    (callbacks_succeed (cells3 dom) call' -> (List.length (r' :: rs2) <= fuel')%nat ->
     obs_ready obs' (Z.of_nat (List.length (r' :: rs2))) ->
     exists rs' gf',
     solve (rk3_do (ch_rhs3 d' variant p)) rk3_next_dt monitor' call' fuel' o' obs'
       {| k_int := k_int y; k_sc := k_sc y; k_u := [cy']; k_du := k_du y; k_rest := k_rest y |} = Some (Ok (rs', gf'))).
Proof.
  intros V N W L show show6 read monitor monitor' call call' fuel fuel' o obs obs' dom dom' raw d d' variant p x y cy
    rs1 r r' rs2 gf Q Q' HV H2 HT HM VR AX NT IS E a NL N1 N2 N3 VP SP PT PD D1 D2 D3 D4 D5 D6 D7 HM' HDX AY EY.
  assert (IR : In r (rs1 ++ r :: r' :: rs2)) by (apply in_or_app; right; left; reflexivity).
  destruct (run_fit3 dom d variant p monitor call fuel o obs x _ gf r Q HV H2 HT HM VR AX E IR) as ((w0 & F0) & c & EC & LC).
  destruct (holds3_exists dom c HV LC) as (u & (_ & HU)).
  assert (HI : holds_inside3 dom c u).
  { split; auto. intros i j k I. apply HU. apply inside_padded3; auto. lia. }
  assert (HV' : valid_domain3 dom') by (unfold valid_domain3 in *; rewrite D1, D2, D3, D4; exact HV).
  assert (CE : cells3 dom' = cells3 dom) by (unfold cells3; rewrite D1, D2, D3, D4; reflexivity).
  assert (LY : zlen cy = cells3 dom').
  { destruct AY as (_ & _ & AY & _). rewrite EY in AY. apply one_array in AY as (cy2 & Ey & Ly). injection Ey as ->. congruence. }
  destruct (pf_C55_round_trip_3d V N show show6 read dom dom' d d' (status_of a) c cy u raw) as (doc & EW & (cy' & ES & HY & _) & _); auto.
  { intros i j k I. eapply SP; [exact EC|exact I|]. apply HI; auto. }
  pose proof (pf_C55_restart V N show show6 read (status_of a) (g_time a) (g_dt a)
    {| rs_t0 := t_t0 o; rs_step := t_initial_step o; rs_dt := t_dt_initial o |} doc) as RT.
  cbn [status_of fs_iter fs_time fs_dt] in RT.
  assert (IB : t_initial_step o < g_iter a <= 2147483647).
  { unfold solve in E. destruct (t_use_cfl o); [discriminate|].
    apply (loop_iter (ch_rhs3 d variant p) monitor call o fuel _ _ _ _ E r IR). }
  destruct PT as (PT1 & PT2). destruct PD as (PD1 & PD2).
  specialize (RT ltac:(lia) PT1 PT2 PD1 PD2 (or_introl (ex_intro _ d (ex_intro _ c EW)))).
  exists c, doc, (resumed o {| rs_t0 := g_time a; rs_step := g_iter a; rs_dt := g_dt a |}), cy'.
  split; [exact EC|]. split; [exact EW|]. split.
  { unfold time_options_for. rewrite RT. reflexivity. }
  split; [exact ES|].
  assert (HY' : holds_inside3 dom cy' u).
  { destruct HY as (LY' & HY). split; [congruence|]. intros i j k I. unfold slot3. rewrite <- D2, <- D3, <- D4. apply HY.
    unfold inside3 in *. rewrite D1, D2, D3. exact I. }
  assert (AY' : allocated (cells3 dom) {| k_int := k_int y; k_sc := k_sc y; k_u := [cy']; k_du := k_du y; k_rest := k_rest y |}).
  { destruct AY as (A1 & A2 & A3 & A4). repeat split; cbn [k_int k_sc k_u k_du]; try (apply A1; assumption); try apply A2; try apply A4.
    - intros [|e] b B; [|destruct e; discriminate]. cbn in B. injection B as <-. apply HY'. }
  assert (FA : state_holds 1 (cells3 dom) (P3 dom) (k_u (g_world (s_after r))) (of3 dom u)).
  { rewrite EC. apply state3; [lia|]. split; auto. intros i j k I. unfold at3.
    rewrite of3_slot by (apply inside_padded3; auto; lia). apply HI; auto. }
  assert (FY : fit (scratch_fits (cells3 dom)) 1 (cells3 dom) (P3 dom)
    {| k_int := k_int y; k_sc := k_sc y; k_u := [cy']; k_du := k_du y; k_rest := k_rest y |} (of3 dom u)).
  { apply (allocated_fit3 dom _ u cy'); auto. lia. }
  split; [intros rs' gf' E'|intros KS LF RD].
  2: {
  eapply (resume_completes (ch_rhs3 d variant p) (ch_rhs3 d' variant p) (scratch_fits (cells3 dom)) 1 (cells3 dom) (P3 dom)
    (ch_f3 dom variant p (d3_dx d)) (ch3_same dom dom' d d' variant p HV H2 HT VR HM' HDX D1 D2 D3 D4 D5 D6 D7)
    monitor monitor' call call' Q' o (resumed o {| rs_t0 := g_time a; rs_step := g_iter a; rs_dt := g_dt a |})
    fuel fuel' obs obs' x _ rs1 r r' rs2 gf); try exact E; auto.
  - eexists. exact FY.
  - intros l i t e z FZ. apply KS. exact (fit_allocated _ _ _ FZ). }
  apply (forall2_impl (alike (scratch_fits (cells3 dom)) 1 (cells3 dom) (P3 dom))).
  { intros q q' A. eapply alike3; [lia|exact A]. }
  eapply (resume_agrees (ch_rhs3 d variant p) (ch_rhs3 d' variant p) (scratch_fits (cells3 dom)) 1 (cells3 dom) (P3 dom)
    (ch_f3 dom variant p (d3_dx d)) (ch3_computes dom d variant p HV H2 HT HM VR)
    (ch3_same dom dom' d d' variant p HV H2 HT VR HM' HDX D1 D2 D3 D4 D5 D6 D7)
    monitor monitor' call call' Q Q' o (resumed o {| rs_t0 := g_time a; rs_step := g_iter a; rs_dt := g_dt a |})
    fuel fuel' obs obs' x _ rs1 r r' rs2 gf rs' gf' w0 (of3 dom u)); try exact E'; try exact E; auto.
Qed.

Lemma pf_C68_resume_2d :
  forall (V : Type) (N : Num V) (W L : Type) (show show6 : V -> String.string) (read : String.string -> res V) (zero : V)
    (monitor monitor' : rk3_world V (scratch V) W -> list (String.string * V))
    (call call' : L -> Z -> V -> V -> rk3_world V (scratch V) W -> res (rk3_world V (scratch V) W))
    (fuel fuel' : nat) (o : time_options V) (obs obs' : observable L)
    (dom dom' raw : domain V) (d d' : disc2 V) (p : ch_params V)
    (x y : rk3_world V (scratch V) W) (cy : list V) rs1 r r' rs2 gf,
  read "0.0"%string = Ok zero ->
  leaves_solver_alone call -> leaves_solver_alone call' ->
  valid_domain2 dom -> 2 <= nhalo dom -> nhalo dom <= nx dom ->
  make2 dom = Ok d -> allocated (cells2 dom) x -> no_tolerance o -> 0 <= t_initial_step o ->
  solve (rk3_do (ch_rhs2 d p)) rk3_next_dt monitor call fuel o obs x = Some (Ok (rs1 ++ r :: r' :: rs2, gf)) ->
  let a := s_after r in
  ngeb (nadd (g_time a) (g_dt a)) (t_tfinal o) = false ->
  nx dom <= 2147483647 ->
  vertices_print2 show read dom (d2_dx d) -> solution_prints2 show read dom (g_world a) ->
  prints show6 read (g_time a) -> prints show6 read (g_dt a) ->
  nx dom' = nx dom -> nhalo dom' = nhalo dom -> make2 dom' = Ok d' -> d2_dx d' = d2_dx d ->
  allocated (cells2 dom) y -> k_u y = [cy] ->
  exists c doc o' cy',
    k_u (g_world a) = [c] /\ write2 show show6 (status_of a) d c = Ok doc /\
    time_options_for read o (Some doc) = Ok o' /\
    set_solution read doc raw (Target2 d' cy) = Ok (Target2 d' cy') /\
    (forall rs' gf',
     solve (rk3_do (ch_rhs2 d' p)) rk3_next_dt monitor' call' fuel' o' obs'
       {| k_int := k_int y; k_sc := k_sc y; k_u := [cy']; k_du := k_du y; k_rest := k_rest y |} = Some (Ok (rs', gf')) ->
     Forall2 (same_step2 dom) (r' :: rs2) rs') /\
    (callbacks_succeed (cells2 dom) call' -> (List.length (r' :: rs2) <= fuel')%nat ->
     obs_ready obs' (Z.of_nat (List.length (r' :: rs2))) ->
     exists rs' gf',
     solve (rk3_do (ch_rhs2 d' p)) rk3_next_dt monitor' call' fuel' o' obs'
       {| k_int := k_int y; k_sc := k_sc y; k_u := [cy']; k_du := k_du y; k_rest := k_rest y |} = Some (Ok (rs', gf'))).
Proof.
  intros V N W L show show6 read zero monitor monitor' call call' fuel fuel' o obs obs' dom dom' raw d d' p x y cy
    rs1 r r' rs2 gf RZ Q Q' HV H2 HT HM AX NT IS E a NL N1 VP SP PT PD D1 D4 HM' HDX AY EY.
  assert (IR : In r (rs1 ++ r :: r' :: rs2)) by (apply in_or_app; right; left; reflexivity).
  destruct (run_fit2 dom d p monitor call fuel o obs x _ gf r Q HV H2 HT HM AX E IR) as ((w0 & F0) & c & EC & LC).
  destruct (holds2_exists dom c HV LC) as (u & (_ & HU)).
  assert (HI : holds_inside2 dom c u).
  { split; auto. intros i j I. apply HU. apply inside_padded2; auto. lia. }
  assert (HV' : valid_domain2 dom') by (unfold valid_domain2 in *; rewrite D1, D4; exact HV).
  assert (CE : cells2 dom' = cells2 dom) by (unfold cells2; rewrite D1, D4; reflexivity).
  assert (LY : zlen cy = cells2 dom').
  { destruct AY as (_ & _ & AY & _). rewrite EY in AY. apply one_array in AY as (cy2 & Ey & Ly). injection Ey as ->. congruence. }
  destruct (pf_C55_round_trip_2d V N show show6 read zero dom dom' d d' (status_of a) c cy u raw) as (doc & EW & (cy' & ES & HY & _) & _); auto.
  { intros i j I. eapply SP; [exact EC|exact I|]. apply HI; auto. }
  pose proof (pf_C55_restart V N show show6 read (status_of a) (g_time a) (g_dt a)
    {| rs_t0 := t_t0 o; rs_step := t_initial_step o; rs_dt := t_dt_initial o |} doc) as RT.
  cbn [status_of fs_iter fs_time fs_dt] in RT.
  assert (IB : t_initial_step o < g_iter a <= 2147483647).
  { unfold solve in E. destruct (t_use_cfl o); [discriminate|].
    apply (loop_iter (ch_rhs2 d p) monitor call o fuel _ _ _ _ E r IR). }
  destruct PT as (PT1 & PT2). destruct PD as (PD1 & PD2).
  specialize (RT ltac:(lia) PT1 PT2 PD1 PD2 (or_intror (ex_intro _ d (ex_intro _ c EW)))).
  exists c, doc, (resumed o {| rs_t0 := g_time a; rs_step := g_iter a; rs_dt := g_dt a |}), cy'.
  split; [exact EC|]. split; [exact EW|]. split.
  { unfold time_options_for. rewrite RT. reflexivity. }
  split; [exact ES|].
  assert (HY' : holds_inside2 dom cy' u).
  { destruct HY as (LY' & HY). split; [congruence|]. intros i j I. unfold slot2. rewrite <- D1, <- D4. apply HY.
    unfold inside2 in *. rewrite D1. exact I. }
  assert (AY' : allocated (cells2 dom) {| k_int := k_int y; k_sc := k_sc y; k_u := [cy']; k_du := k_du y; k_rest := k_rest y |}).
  { destruct AY as (A1 & A2 & A3 & A4). repeat split; cbn [k_int k_sc k_u k_du]; try (apply A1; assumption); try apply A2; try apply A4.
    - intros [|e] b B; [|destruct e; discriminate]. cbn in B. injection B as <-. apply HY'. }
  assert (FA : state_holds 1 (cells2 dom) (P2 dom) (k_u (g_world (s_after r))) (of2 dom u)).
  { rewrite EC. apply state2; [lia|]. split; auto. intros i j I. unfold at2.
    rewrite of2_slot by (apply inside_padded2; auto; lia). apply HI; auto. }
  assert (FY : fit (scratch_fits (cells2 dom)) 1 (cells2 dom) (P2 dom)
    {| k_int := k_int y; k_sc := k_sc y; k_u := [cy']; k_du := k_du y; k_rest := k_rest y |} (of2 dom u)).
  { apply (allocated_fit2 dom _ u cy'); auto. lia. }
  split; [intros rs' gf' E'|intros KS LF RD].
  2: {
  eapply (resume_completes (ch_rhs2 d p) (ch_rhs2 d' p) (scratch_fits (cells2 dom)) 1 (cells2 dom) (P2 dom)
    (ch_f2 dom p (d2_dx d)) (ch2_same dom dom' d d' p HV H2 HT HM' HDX D1 D4)
    monitor monitor' call call' Q' o (resumed o {| rs_t0 := g_time a; rs_step := g_iter a; rs_dt := g_dt a |})
    fuel fuel' obs obs' x _ rs1 r r' rs2 gf); try exact E; auto.
  - eexists. exact FY.
  - intros l i t e z FZ. apply KS. exact (fit_allocated _ _ _ FZ). }
  apply (forall2_impl (alike (scratch_fits (cells2 dom)) 1 (cells2 dom) (P2 dom))).
  { intros q q' A. eapply alike2; [lia|exact A]. }
  eapply (resume_agrees (ch_rhs2 d p) (ch_rhs2 d' p) (scratch_fits (cells2 dom)) 1 (cells2 dom) (P2 dom)
    (ch_f2 dom p (d2_dx d)) (ch2_computes dom d p HV H2 HT HM)
    (ch2_same dom dom' d d' p HV H2 HT HM' HDX D1 D4)
    monitor monitor' call call' Q Q' o (resumed o {| rs_t0 := g_time a; rs_step := g_iter a; rs_dt := g_dt a |})
    fuel fuel' obs obs' x _ rs1 r r' rs2 gf rs' gf' w0 (of2 dom u)); try exact E'; try exact E; auto.
Qed.

Lemma ngeb_R (x y : R) : (x < y)%R -> ngeb x y = false.
Proof.
  intros H. unfold ngeb. change (nltb y x) with (Rltb y x). change (neqb x y) with (Reqb x y).
  unfold Rltb, Reqb. destruct (Rlt_dec y x); [lra|]. destruct (Req_EM_T x y); [lra|]. reflexivity.
Qed.

Lemma no_tolerance_R (o : time_options R) : t_rel_tol o = 0%R -> t_abs_tol o = 0%R -> no_tolerance o.
Proof.
  intros A B. unfold no_tolerance. rewrite A, B. change (nint 0) with 0%R.
  assert (E : neqb 0%R 0%R = true). { change (Reqb 0 0 = true). unfold Reqb. destruct (Req_EM_T 0 0); auto; lra. }
  auto.
Qed.

Lemma pf_C68_continuity_3d :
  forall (W L F : Type) (show show6 : R -> string) (read : string -> res R)
    (monitor monitor' : rk3_world R (scratch R) W -> list (string * R))
    (call call' : L -> Z -> R -> R -> rk3_world R (scratch R) W -> res (rk3_world R (scratch R) W))
    (fuel fuel' : nat) (o : time_options R) (obs obs' : observable L) (reg : registry F) (f : F) (cfg : config R)
    (dom raw : domain R) (d : disc3 R) (variant : Z) (p : ch_params R)
    (x y : rk3_world R (scratch R) W) rs1 r r' rs2 gf,
  leaves_solver_alone call -> leaves_solver_alone call' ->
  valid_domain3 dom -> (xbeg dom < xend dom)%R -> nhalo dom = 2 -> 2 <= nx dom /\ 2 <= ny dom /\ 2 <= nz dom ->
  make3 dom = Ok d -> 0 <= variant <= 2 -> allocated (cells3 dom) x ->
  t_rel_tol o = 0%R -> t_abs_tol o = 0%R -> 0 <= t_initial_step o ->
  solve (rk3_do (ch_rhs3 d variant p)) rk3_next_dt monitor call fuel o obs x = Some (Ok (rs1 ++ r :: r' :: rs2, gf)) ->
  let a := s_after r in
  (g_time a + g_dt a < t_tfinal o)%R ->
  nx dom <= 2147483647 -> ny dom <= 2147483647 -> nz dom <= 2147483647 ->
  vertices_print3 show read dom (d3_dx d) -> solution_prints3 show read dom (g_world a) ->
  prints show6 read (g_time a) -> prints show6 read (g_dt a) ->
  c_dimension cfg = 3 -> c_equation cfg = "cahn-hilliard" -> reg_lookup reg (c_integrator cfg) = Ok f ->
  parse_bc (c_bc_x cfg) = Ok (xbc dom) -> parse_bc (c_bc_y cfg) = Ok (ybc dom) -> parse_bc (c_bc_z cfg) = Ok (zbc dom) ->
  allocated (cells3 dom) y ->
  exists c doc d' o' y',
    k_u (g_world a) = [c] /\ write3 show show6 (status_of a) d c = Ok doc /\
    resume3 read reg cfg o doc raw y = Ok (d', o', y') /\
    (forall rs' gf',
     solve (rk3_do (ch_rhs3 d' variant p)) rk3_next_dt monitor' call' fuel' o' obs' y' = Some (Ok (rs', gf')) ->
     Forall2 (same_step3 dom) (r' :: rs2) rs') /\
    (callbacks_succeed (cells3 dom) call' -> (List.length (r' :: rs2) <= fuel')%nat ->
     obs_ready obs' (Z.of_nat (List.length (r' :: rs2))) ->
     exists rs' gf',
     solve (rk3_do (ch_rhs3 d' variant p)) rk3_next_dt monitor' call' fuel' o' obs' y' = Some (Ok (rs', gf'))).
Proof.
  intros W L F show show6 read monitor monitor' call call' fuel fuel' o obs obs' reg f cfg dom raw d variant p x y
    rs1 r r' rs2 gf Q Q' HV HX H2 HT HM VR AX T1 T2 IS E a NL N1 N2 N3 VP SP PT PD CD CE CI BX BY BZ AY.
  pose (dom' := {| nx := nx dom; ny := ny dom; nz := nz dom; xbeg := xbeg dom; xend := xend dom;
             ybeg := ybeg dom; yend := yend raw; zbeg := zbeg dom; zend := zend raw;
             xbc := xbc dom; ybc := ybc dom; zbc := zbc dom; nhalo := 2 |}).
  assert (HV' : valid_domain3 dom') by (unfold valid_domain3 in *; cbn [dom' nx ny nz nhalo]; lia).
  destruct (make3_ok dom' HV') as (d' & HM' & W' & D' & _).
  assert (DX : d3_dx d' = d3_dx d).
  { destruct (make3_inv dom d HV HM) as (WF & DD).
    assert (G : forall (e : domain R) (k : disc3 R), make3 e = Ok k -> d3_dx k = ndiv (nsub (xend e) (xbeg e)) (nint (nx e))).
    { intros e k EK. unfold make3 in EK.
      repeat (match type of EK with (rbind ?z _ = _) => destruct z; cbn [rbind] in EK; try discriminate end).
      match type of EK with (match ?l with _ => _ end = _) =>
        destruct l as [|? [|? [|? [|? [|? [|? [|? ?]]]]]]]; try discriminate end.
      injection EK as <-. reflexivity. }
    rewrite (G _ _ HM'), (G _ _ HM). reflexivity. }
  destruct (proj1 (one_array _ _) (proj1 (proj2 (proj2 AY)))) as (cy & EY & LY).
  destruct (pf_C68_resume_3d R Num_R W L show show6 read monitor monitor' call call' fuel fuel' o obs obs' dom dom' raw d d'
    variant p x y cy rs1 r r' rs2 gf) as (c & doc & o' & cy' & EC & EW & EO & ES & K); auto; try lia.
  { apply no_tolerance_R; auto. }
  { apply ngeb_R. exact NL. }
  assert (IR : In r (rs1 ++ r :: r' :: rs2)) by (apply in_or_app; right; left; reflexivity).
  assert (LC : exists u, holds_inside3 dom c u).
  { destruct (run_fit3 dom d variant p monitor call fuel o obs x _ gf r Q HV ltac:(lia) ltac:(lia) HM VR AX E IR) as (_ & c1 & EC1 & LC).
    assert (c1 = c) by (assert (X : [c1] = [c]) by (rewrite <- EC1; exact EC); congruence). subst c1. destruct (holds3_exists dom c HV LC) as (u & (_ & HU)). exists u. split; auto.
    intros. apply HU. apply inside_padded3; auto. lia. }
  destruct LC as (u & HC).
  destruct (pf_C55_domain_3d show show6 read dom raw d (status_of a) c u HV HM HC HX N1 N2 N3 VP) as (doc1 & EW1 & ED).
  assert (doc1 = doc) by (assert (X : Ok doc1 = Ok doc) by (rewrite <- EW1; exact EW); congruence). subst doc1.
  exists c, doc, d', o', {| k_int := k_int y; k_sc := k_sc y; k_u := [cy']; k_du := k_du y; k_rest := k_rest y |}.
  split; [exact EC|]. split; [exact EW|]. split; [|exact K].
  unfold resume3, construct. rewrite ED. cbn [rbind].
  unfold geom_factory, geom_domain. rewrite BX, BY, BZ, CD. cbn [rbind nx ny nz xbeg xend ybeg yend zbeg zend].
  fold dom'. change (3 =? 2) with false. change (3 =? 3) with true. cbn iota. rewrite HM'. cbn [rbind].
  unfold rhs_factory. rewrite CE, CD. change (3 =? 2) with false. change (3 =? 3) with true.
  change (String.eqb "cahn-hilliard" "cahn-hilliard") with true. cbn iota. cbn [rbind initial_factory].
  rewrite EO. cbn [rbind]. unfold integrator_factory. rewrite CI. cbn [rbind]. rewrite EY. cbn [nth_error of_opt rbind].
  rewrite ES. cbn [rbind upd]. reflexivity.
Qed.

Lemma pf_C68_continuity_2d :
  forall (W L F : Type) (show show6 : R -> string) (read : string -> res R)
    (monitor monitor' : rk3_world R (scratch R) W -> list (string * R))
    (call call' : L -> Z -> R -> R -> rk3_world R (scratch R) W -> res (rk3_world R (scratch R) W))
    (fuel fuel' : nat) (o : time_options R) (obs obs' : observable L) (reg : registry F) (f : F) (cfg : config R)
    (dom raw : domain R) (d : disc2 R) (p : ch_params R) (bx by_ bz : bctype)
    (x y : rk3_world R (scratch R) W) rs1 r r' rs2 gf,
  read "0.0"%string = Ok 0%R ->
  leaves_solver_alone call -> leaves_solver_alone call' ->
  valid_domain2 dom -> (xbeg dom < xend dom)%R -> nhalo dom = 2 -> 2 <= nx dom ->
  make2 dom = Ok d -> allocated (cells2 dom) x ->
  t_rel_tol o = 0%R -> t_abs_tol o = 0%R -> 0 <= t_initial_step o ->
  solve (rk3_do (ch_rhs2 d p)) rk3_next_dt monitor call fuel o obs x = Some (Ok (rs1 ++ r :: r' :: rs2, gf)) ->
  let a := s_after r in
  (g_time a + g_dt a < t_tfinal o)%R ->
  nx dom <= 2147483647 ->
  vertices_print2 show read dom (d2_dx d) -> solution_prints2 show read dom (g_world a) ->
  prints show6 read (g_time a) -> prints show6 read (g_dt a) ->
  c_dimension cfg = 2 -> c_equation cfg = "cahn-hilliard" -> reg_lookup reg (c_integrator cfg) = Ok f ->
  parse_bc (c_bc_x cfg) = Ok bx -> parse_bc (c_bc_y cfg) = Ok by_ -> parse_bc (c_bc_z cfg) = Ok bz ->
  allocated (cells2 dom) y ->
  exists c doc d' o' y',
    k_u (g_world a) = [c] /\ write2 show show6 (status_of a) d c = Ok doc /\
    resume2 read reg cfg o doc raw y = Ok (d', o', y') /\
    (forall rs' gf',
     solve (rk3_do (ch_rhs2 d' p)) rk3_next_dt monitor' call' fuel' o' obs' y' = Some (Ok (rs', gf')) ->
     Forall2 (same_step2 dom) (r' :: rs2) rs') /\
    (callbacks_succeed (cells2 dom) call' -> (List.length (r' :: rs2) <= fuel')%nat ->
     obs_ready obs' (Z.of_nat (List.length (r' :: rs2))) ->
     exists rs' gf',
     solve (rk3_do (ch_rhs2 d' p)) rk3_next_dt monitor' call' fuel' o' obs' y' = Some (Ok (rs', gf'))).
Proof.
  intros W L F show show6 read monitor monitor' call call' fuel fuel' o obs obs' reg f cfg dom raw d p bx by_ bz x y
    rs1 r r' rs2 gf RZ Q Q' HV HX H2 HT HM AX T1 T2 IS E a NL N1 VP SP PT PD CD CE CI BX BY BZ AY.
  pose (dom' := {| nx := nx dom; ny := nx dom; nz := 0; xbeg := xbeg dom; xend := xend dom;
             ybeg := ybeg dom; yend := yend raw; zbeg := 0%R; zend := zend raw;
             xbc := bx; ybc := by_; zbc := bz; nhalo := 2 |}).
  assert (HV' : valid_domain2 dom') by (unfold valid_domain2 in *; cbn [dom' nx ny nz nhalo]; lia).
  destruct (make2_ok dom' HV') as (d' & HM' & W' & D' & _).
  assert (DX : d2_dx d' = d2_dx d).
  { assert (G : forall (e : domain R) (k : disc2 R), make2 e = Ok k -> d2_dx k = ndiv (nsub (xend e) (xbeg e)) (nint (nx e))).
    { intros e k EK. unfold make2 in EK.
      repeat (match type of EK with (rbind ?z _ = _) => destruct z; cbn [rbind] in EK; try discriminate end).
      match type of EK with (match ?l with _ => _ end = _) => destruct l as [|? [|? [|? [|? [|? ?]]]]]; try discriminate end.
      injection EK as <-. reflexivity. }
    rewrite (G _ _ HM'), (G _ _ HM). reflexivity. }
  destruct (proj1 (one_array _ _) (proj1 (proj2 (proj2 AY)))) as (cy & EY & LY).
  destruct (pf_C68_resume_2d R Num_R W L show show6 read 0%R monitor monitor' call call' fuel fuel' o obs obs' dom dom' raw d d'
    p x y cy rs1 r r' rs2 gf) as (c & doc & o' & cy' & EC & EW & EO & ES & K); auto; try lia.
  { apply no_tolerance_R; auto. }
  { apply ngeb_R. exact NL. }
  assert (IR : In r (rs1 ++ r :: r' :: rs2)) by (apply in_or_app; right; left; reflexivity).
  assert (LC : exists u, holds_inside2 dom c u).
  { destruct (run_fit2 dom d p monitor call fuel o obs x _ gf r Q HV ltac:(lia) ltac:(lia) HM AX E IR) as (_ & c1 & EC1 & LC).
    assert (c1 = c) by (assert (X : [c1] = [c]) by (rewrite <- EC1; exact EC); congruence). subst c1. destruct (holds2_exists dom c HV LC) as (u & (_ & HU)). exists u. split; auto.
    intros. apply HU. apply inside_padded2; auto. lia. }
  destruct LC as (u & HC).
  destruct (pf_C55_domain_2d show show6 read dom raw d (status_of a) c u RZ HV HM HC HX N1 VP) as (doc1 & EW1 & ED).
  assert (doc1 = doc) by (assert (X : Ok doc1 = Ok doc) by (rewrite <- EW1; exact EW); congruence). subst doc1.
  exists c, doc, d', o', {| k_int := k_int y; k_sc := k_sc y; k_u := [cy']; k_du := k_du y; k_rest := k_rest y |}.
  split; [exact EC|]. split; [exact EW|]. split; [|exact K].
  unfold resume2, construct. rewrite ED. cbn [rbind].
  unfold geom_factory, geom_domain. rewrite BX, BY, BZ, CD. cbn [rbind nx ny nz xbeg xend ybeg yend zbeg zend].
  fold dom'. change (2 =? 2) with true. cbn iota. rewrite HM'. cbn [rbind].
  unfold rhs_factory. rewrite CE, CD. change (2 =? 2) with true.
  change (String.eqb "cahn-hilliard" "cahn-hilliard") with true. cbn iota. cbn [rbind initial_factory].
  rewrite EO. cbn [rbind]. unfold integrator_factory. rewrite CI. cbn [rbind]. rewrite EY. cbn [nth_error of_opt rbind].
  rewrite ES. cbn [rbind upd]. reflexivity.
Qed.

(** ** Examples *)
(** A 2D run of three steps on a 2x2 grid (rationals), the file after the first, and the restart. *)
Definition ex_zeros (n : Z) : list Q := map (fun _ => 0%Q) (zrange 0 n).
Definition ex_scratch (n : Z) : scratch Q :=
  {| sc_lap := ex_zeros n; sc_arg := ex_zeros n; sc_bih := ex_zeros n; sc_lin := ex_zeros n |}.
Definition ex_world (n : Z) (c : list Q) : rk3_world Q (scratch Q) unit :=
  let z := ex_zeros n in
  {| k_int := {| r_k1 := [z]; r_k2 := [z]; r_k3 := [z]; r_stage := [z] |}; k_sc := ex_scratch n;
     k_u := [c]; k_du := [z]; k_rest := tt |}.
Definition ex_opts68 (steps : Z) : time_options Q :=
  {| t_t0 := 1%Q; t_tfinal := 10%Q; t_dt_initial := (1 # 4)%Q; t_use_cfl := false; t_max_steps := steps;
     t_initial_step := 0; t_rel_tol := 0%Q; t_abs_tol := 0%Q |}.
Definition ex_p68 : ch_params Q := {| ch_m := 0%Q; ch_sigma := 1%Q; ch_eps2 := (1 # 3)%Q |}.
Definition ex_dom68 : domain Q := ex_dom 0%Q 2%Q 2 2 2 2 Periodic Periodic Periodic.
Definition ex_cfg (dim : Z) : config Q :=
  {| c_dimension := dim; c_nx := 9; c_ny := 9; c_nz := 9; c_xbeg := 7%Q; c_xend := 8%Q; c_ybeg := 0%Q; c_yend := 0%Q;
     c_zbeg := 0%Q; c_zend := 0%Q; c_bc_x := "periodic"; c_bc_y := "periodic"; c_bc_z := "periodic";
     c_equation := "cahn-hilliard"; c_integrator := "rk3ssp" |}.
Definition ex_raw : domain Q := ex_dom 5%Q 6%Q 9 9 9 9 Neumann Neumann Neumann.
Definition ex_no_call (l : unit) (i : Z) (t dt : Q) (x : rk3_world Q (scratch Q) unit) := Ok x.
Definition ex_reg : registry unit := [("rk3ssp", tt)].

Definition ex_first2 (c : list Q) (steps : Z) :=
  match make2 (N:=Num_Q) ex_dom68 with
  | Ok d => solve (N:=Num_Q) (rk3_do (N:=Num_Q) (ch_rhs2 (N:=Num_Q) d ex_p68)) rk3_next_dt (fun _ => []) ex_no_call 9
              (ex_opts68 steps) new_observable (ex_world (cells2 ex_dom68) c)
  | _ => None
  end.
(** Times, step sizes, numbers and interior values of a run. *)
Definition ex_show_run (inside : list Z) (rs : list (step_record (V:=Q) (X:=rk3_world Q (scratch Q) unit) (L:=unit))) :=
  map (fun r => (s_time r, s_dt r, g_iter (s_after r),
                 match k_u (g_world (s_after r)) with [c] => map (fun i => zget c i) inside | _ => [] end)) rs.
Definition ex_second2 (r : step_record (V:=Q) (X:=rk3_world Q (scratch Q) unit) (L:=unit)) (steps : Z) :=
  match make2 (N:=Num_Q) ex_dom68, k_u (g_world (s_after r)) with
  | Ok d, [c] =>
    match write2 ex_show ex_show (status_of (s_after r)) d c with
    | Ok doc =>
      match resume2 (N:=Num_Q) ex_read ex_reg (ex_cfg 2) (ex_opts68 steps) doc ex_raw
              (ex_world (cells2 ex_dom68) (map (fun _ => 77%Q) (zrange 0 (cells2 ex_dom68)))) with
      | Ok (d', o', y') =>
          solve (N:=Num_Q) (rk3_do (N:=Num_Q) (ch_rhs2 (N:=Num_Q) d' ex_p68)) rk3_next_dt (fun _ => []) ex_no_call 9 o'
            new_observable y'
      | _ => None
      end
    | _ => None
    end
  | _, _ => None
  end.
Definition ex_inside2 : list Z := match make2 (N:=Num_Q) ex_dom68 with Ok d => d2_interior d | _ => [] end.
Definition ex_both2 (c : list Q) (steps : Z) :=
  match ex_first2 c steps with
  | Some (Ok (r :: rs, _)) =>
      match ex_second2 r steps with
      | Some (Ok (rs', _)) => Some (ex_show_run ex_inside2 rs, ex_show_run ex_inside2 rs')
      | _ => None
      end
  | _ => None
  end.

(** The hypotheses of C68_resume_2d for that run. *)
Definition ex_c68 : list Q := map (fun _ => 1 # 2)%Q (zrange 0 (cells2 ex_dom68)).
Definition ex_prints_b (q : Q) : bool :=
  negb (String.eqb (ex_show q) "") && wordb (ex_show q) &&
  match ex_read (ex_show q) with Ok v => (Qnum v =? Qnum q) && (Pos.eqb (Qden v) (Qden q)) | _ => false end.
Lemma ex_prints_sound q : ex_prints_b q = true -> prints ex_show ex_read q.
Proof.
  unfold ex_prints_b. intros H. apply andb_prop in H as (H & C). apply andb_prop in H as (A & B).
  apply ex_prints; auto.
  - intros E. rewrite E in A. discriminate.
  - destruct (ex_read (ex_show q)) as [v| | |]; try discriminate. apply andb_prop in C as (C1 & C2).
    apply Z.eqb_eq in C1. apply Pos.eqb_eq in C2. destruct v, q. cbn in *. subst. reflexivity.
Qed.
Definition ex_hyps68 : bool :=
  match ex_first2 ex_c68 3 with
  | Some (Ok (r :: r' :: rs2, gf)) =>
      let a := s_after r in
      negb (ngeb (N:=Num_Q) (nadd (Num:=Num_Q) (g_time a) (g_dt a)) 10%Q) &&
      ex_prints_b (g_time a) && ex_prints_b (g_dt a) &&
      match k_u (g_world a) with [c] => forallb ex_prints_b c | _ => false end
  | _ => false
  end.
Lemma ex_hyps68_true : ex_hyps68 = true.
Proof. vm_compute. reflexivity. Qed.
Lemma ex_hypotheses68 : exists r r' rs2 gf,
  ex_first2 ex_c68 3 = Some (Ok ([] ++ r :: r' :: rs2, gf)) /\
  ngeb (N:=Num_Q) (nadd (Num:=Num_Q) (g_time (s_after r)) (g_dt (s_after r))) (t_tfinal (ex_opts68 3)) = false /\
  prints ex_show ex_read (g_time (s_after r)) /\ prints ex_show ex_read (g_dt (s_after r)) /\
  solution_prints2 ex_show ex_read ex_dom68 (g_world (s_after r)) /\
  allocated (cells2 ex_dom68) (ex_world (cells2 ex_dom68) ex_c68).
Proof.
  pose proof ex_hyps68_true as H. unfold ex_hyps68 in H.
  destruct (ex_first2 ex_c68 3) as [[[[|r [|r' rs2]] gf]| | |]|]; try discriminate.
  exists r, r', rs2, gf. split; [reflexivity|].
  cbn zeta in H. apply andb_prop in H as (H & C). apply andb_prop in H as (H & B). apply andb_prop in H as (A & A').
  split; [apply Bool.negb_true_iff in A; exact A|].
  split; [apply ex_prints_sound; auto|]. split; [apply ex_prints_sound; auto|]. split.
  - intros c i j v E I G. rewrite E in C. apply ex_prints_sound. eapply forallb_forall in C; [exact C|].
    unfold zget in G. destruct (slot2 ex_dom68 i j <? 0); [discriminate|]. eapply nth_error_In; eauto.
  - assert (Z : shaped 1 (cells2 ex_dom68) [ex_zeros (cells2 ex_dom68)]) by (apply one_array; eexists; split; reflexivity).
    split; [|split; [|split]].
    + intros k [E|[E|[E|[E|[]]]]]; rewrite <- E; exact Z.
    + repeat split.
    + apply one_array. eexists. split; reflexivity.
    + exact Z.
Qed.

Definition ex_p68o : ch_params Q := {| ch_m := (1 # 2)%Q; ch_sigma := 1%Q; ch_eps2 := (1 # 3)%Q |}.

(** The same with the adaptive integrator: five steps, the file after the fourth. *)
Definition ex_oworld (c : list Q) : ode23_world Q (scratch Q) unit :=
  let z := ex_zeros (cells2 ex_dom68) in
  {| e_int := {| o_k1 := [z]; o_k2 := [z]; o_k3 := [z]; o_k4 := [z]; o_stage := [z]; o_first := true; o_err := 0%Q |};
     e_pid := new_pid (1 # 100)%Q (1 # 1000)%Q 1%Q; e_sc := ex_scratch (cells2 ex_dom68); e_u := [c]; e_du := [z]; e_rest := tt |}.
Definition ex_osolve (d : disc2 Q) (o : time_options Q) (x : ode23_world Q (scratch Q) unit) :=
  solve (N:=Num_Q) (ode23_do (N:=Num_Q) (fun e l => fold_left (nmax (H:=Num_Q)) l e) (ch_rhs2 (N:=Num_Q) d ex_p68o))
    (ode23_next_dt (N:=Num_Q) (fun x _ => x)) (fun _ => []) (fun (_ : unit) _ _ _ x => Ok x) 9 o new_observable x.
Definition ex_ocheck : bool :=
  match make2 (N:=Num_Q) ex_dom68 with
  | Ok d =>
    match ex_osolve d (ex_opts68 5) (ex_oworld ex_c68) with
    | Some (Ok ([r1; r2; r3; r; r'], gf)) =>
      match e_u (g_world (s_after r)) with
      | [c] =>
        match write2 ex_show ex_show (status_of (s_after r)) d c with
        | Ok doc =>
          match time_options_for ex_read (ex_opts68 5) (Some doc), set_solution (N:=Num_Q) ex_read doc ex_raw (Target2 d ex_c68) with
          | Ok o', Ok (Target2 _ c') =>
            match ex_osolve d o' (ex_oworld c') with
            | Some (Ok ([q], gf')) =>
                negb (ngeb (N:=Num_Q) (nadd (Num:=Num_Q) (g_time (s_after r)) (g_dt (s_after r))) 10%Q) &&
                ((Qnum (s_time q) =? Qnum (s_time r')) && Pos.eqb (Qden (s_time q)) (Qden (s_time r'))) && true &&
                Qle_bool (s_dt q + (1 # 10000)) (s_dt r')
            | _ => false
            end
          | _, _ => false
          end
        | _ => false
        end
      | _ => false
      end
    | _ => false
    end
  | _ => false
  end.
Lemma set_solution_target2 {V} `{N : Num V} read doc raw d (c : list V) d' c' :
  set_solution read doc raw (Target2 d c) = Ok (Target2 d' c') -> d' = d.
Proof.
  unfold set_solution. intros H.
  repeat match type of H with
  | rbind ?z _ = _ => let E := fresh in destruct z eqn:E; cbn [rbind] in H; try discriminate
  | (let (_, _) := ?z in _) = _ => destruct z
  | (if ?z then _ else _) = _ => destruct z; try discriminate
  end; try congruence.
Qed.
Lemma ex_ocheck_true : ex_ocheck = true.
Proof. vm_compute. reflexivity. Qed.

Ltac dis H := cbv iota beta in H; lazymatch type of H with false = true => discriminate H | _ => idtac end.

Lemma pf_C68_adaptive_refuted :
  exists (dom : domain Q) (d : disc2 Q) (p : ch_params Q) (rmax : Q -> list Q -> Q) (pow : Q -> Q -> Q)
    (show : Q -> string) (read : string -> res Q) (raw : domain Q) (o o' : time_options Q)
    (x y : ode23_world Q (scratch Q) unit) (c cy cy' : list Q) (doc : list xml)
    (call : unit -> Z -> Q -> Q -> ode23_world Q (scratch Q) unit -> res (ode23_world Q (scratch Q) unit))
    rs1 r r' rs2 gf q rs' gf',
  let run := solve (N:=Num_Q) (ode23_do (N:=Num_Q) rmax (ch_rhs2 (N:=Num_Q) d p)) (ode23_next_dt (N:=Num_Q) pow)
               (fun _ => []) call 9 in
  make2 (N:=Num_Q) dom = Ok d /\ no_tolerance (N:=Num_Q) o /\
  run o new_observable x = Some (Ok (rs1 ++ r :: r' :: rs2, gf)) /\
  ngeb (N:=Num_Q) (nadd (Num:=Num_Q) (g_time (s_after r)) (g_dt (s_after r))) (t_tfinal o) = false /\
  e_u (g_world (s_after r)) = [c] /\ write2 show show (status_of (s_after r)) d c = Ok doc /\
  time_options_for read o (Some doc) = Ok o' /\
  set_solution (N:=Num_Q) read doc raw (Target2 d cy) = Ok (Target2 d cy') /\
  o_first (e_int y) = true /\
  run o' new_observable {| e_int := e_int y; e_pid := e_pid y; e_sc := e_sc y; e_u := [cy']; e_du := e_du y; e_rest := e_rest y |}
    = Some (Ok (q :: rs', gf')) /\
  s_time q = s_time r' /\ s_dt r' <> s_dt q.
Proof.
  pose proof ex_ocheck_true as H. unfold ex_ocheck in H.
  destruct (make2 (N:=Num_Q) ex_dom68) as [d| | |] eqn:ED; dis H.
  destruct (ex_osolve d (ex_opts68 5) (ex_oworld ex_c68)) as [[[[|r1 [|r2 [|r3 [|r [|r' [|? ?]]]]]] gf]| | |]|] eqn:ER; dis H.
  destruct (e_u (g_world (s_after r))) as [|c [|? ?]] eqn:EC; dis H.
  destruct (write2 ex_show ex_show (status_of (s_after r)) d c) as [doc| | |] eqn:EW; dis H.
  destruct (time_options_for ex_read (ex_opts68 5) (Some doc)) as [o'| | |] eqn:EO; dis H.
  destruct (set_solution (N:=Num_Q) ex_read doc ex_raw (Target2 d ex_c68)) as [[d2 c'|d2 c']| | |] eqn:ES; dis H.
  destruct (ex_osolve d o' (ex_oworld c')) as [[[[|q [|? ?]] gf']| | |]|] eqn:EQ; dis H.
  apply andb_prop in H as (H & H4). apply andb_prop in H as (H & H3). apply andb_prop in H as (H1 & H2).
  exists ex_dom68, d, ex_p68o, (fun e l => fold_left (nmax (H:=Num_Q)) l e), (fun x _ => x), ex_show, ex_read, ex_raw,
    (ex_opts68 5), o', (ex_oworld ex_c68), (ex_oworld ex_c68), c, ex_c68, c', doc, (fun _ _ _ _ x => Ok x),
    [r1; r2; r3], r, r', [], gf, q, [], gf'.
  cbn zeta. split; [exact ED|]. split; [split; reflexivity|]. split; [exact ER|].
  split; [apply Bool.negb_true_iff in H1; exact H1|]. split; [exact EC|]. split; [exact EW|]. split; [exact EO|].
  split; [rewrite ES; do 2 f_equal|]. 
  { eapply set_solution_target2; exact ES. }
  split; [reflexivity|]. split; [exact EQ|]. split.
  - apply andb_prop in H2 as (A & B). apply Z.eqb_eq in A. apply Pos.eqb_eq in B.
    destruct (s_time q), (s_time r'). cbn in A, B. congruence.
  - intros E. rewrite E in H4. apply Qle_bool_iff in H4. 
    assert (X : (s_dt q < s_dt q + (1 # 10000))%Q).
    { rewrite <- (Qplus_0_r (s_dt q)) at 1. apply Qplus_lt_r. reflexivity. }
    exact (Qlt_not_le _ _ X H4).
Qed.

(** ** What the driver builds *)
Lemma parse_bc_spec name b : parse_bc name = Ok b <-> bc_named name b.
Proof.
  unfold parse_bc, bc_named.
  destruct (String.eqb_spec name "periodic") as [->|N1].
  { split; [intros E; injection E as <-; auto|intros [(_ & ->)|[(E & _)|(E & _)]]; auto; discriminate]. }
  destruct (String.eqb_spec name "neumann") as [->|N2].
  { split; [intros E; injection E as <-; auto|intros [(E & _)|[(_ & ->)|(E & _)]]; auto; discriminate]. }
  destruct (String.eqb_spec name "dirichlet") as [->|N3].
  { split; [intros E; injection E as <-; auto|intros [(E & _)|[(E & _)|(_ & ->)]]; auto; discriminate]. }
  split; [discriminate|intros [(E & _)|[(E & _)|(E & _)]]; congruence].
Qed.
Lemma parse_bc_total name : (exists b, parse_bc name = Ok b) \/ parse_bc name = Fatal.
Proof.
  unfold parse_bc. destruct (String.eqb name "periodic"); eauto. destruct (String.eqb name "neumann"); eauto.
  destruct (String.eqb name "dirichlet"); eauto.
Qed.
Lemma reg_total {F} (reg : registry F) name : (exists f, reg_lookup reg name = Ok f) \/ reg_lookup reg name = Throw.
Proof. unfold reg_lookup. destruct (reg_find reg name); eauto. Qed.

Lemma pf_C69_construction :
  forall (V : Type) (N : Num V) (F : Type) (read : string -> res V) (reg : registry F) (cfg : config V)
    (o : time_options V) (raw : domain V),
  1 <= c_nx cfg -> 1 <= c_ny cfg -> 1 <= c_nz cfg ->
  let grid bx by_ bz := {| nx := c_nx cfg; ny := c_ny cfg; nz := c_nz cfg;
      xbeg := c_xbeg cfg; xend := c_xend cfg; ybeg := c_ybeg cfg; yend := c_yend cfg; zbeg := c_zbeg cfg; zend := c_zend cfg;
      xbc := bx; ybc := by_; zbc := bz; nhalo := 2 |} in
  (forall bx by_ bz f, bc_named (c_bc_x cfg) bx -> bc_named (c_bc_y cfg) by_ -> bc_named (c_bc_z cfg) bz ->
     reg_lookup reg (c_integrator cfg) = Ok f ->
     (c_dimension cfg = 2 -> c_equation cfg = "cahn-hilliard" ->
        exists d, make2 (grid bx by_ bz) = Ok d /\
          construct read reg cfg o None raw = Ok (Geom2 d, CahnHilliard2 d, RandomField, o, f)) /\
     (c_dimension cfg = 3 -> c_equation cfg = "cahn-hilliard" ->
        exists d, make3 (grid bx by_ bz) = Ok d /\
          construct read reg cfg o None raw = Ok (Geom3 d, CahnHilliard3 d, RandomField, o, f)) /\
     (c_dimension cfg = 3 -> c_equation cfg = "poisson" ->
        exists d, make3 (grid bx by_ bz) = Ok d /\
          construct read reg cfg o None raw = Ok (Geom3 d, Poisson3 d, ZeroField, o, f))) /\
  (forall r, construct read reg cfg o None raw = Ok r ->
     (exists bx by_ bz f, bc_named (c_bc_x cfg) bx /\ bc_named (c_bc_y cfg) by_ /\ bc_named (c_bc_z cfg) bz /\
        reg_lookup reg (c_integrator cfg) = Ok f) /\
     (c_dimension cfg = 2 /\ c_equation cfg = "cahn-hilliard" \/
      c_dimension cfg = 3 /\ (c_equation cfg = "cahn-hilliard" \/ c_equation cfg = "poisson"))) /\
  construct read reg cfg o None raw <> UB.
Proof.
  intros V N F read reg cfg o raw H1 H2 H3 grid.
  assert (M3 : forall bx by_ bz, exists d, make3 (grid bx by_ bz) = Ok d).
  { intros. destruct (make3_ok (grid bx by_ bz)) as (d & E & _); eauto. unfold valid_domain3. cbn [grid nx ny nz nhalo]. lia. }
  assert (M2 : forall bx by_ bz, exists d, make2 (grid bx by_ bz) = Ok d).
  { intros. destruct (make2_ok (grid bx by_ bz)) as (d & E & _); eauto. unfold valid_domain2. cbn [grid nx ny nz nhalo]. lia. }
  unfold construct, geom_factory, geom_domain. cbn [rbind].
  split; [|split].
  - intros bx by_ bz f A B C R. apply parse_bc_spec in A. apply parse_bc_spec in B. apply parse_bc_spec in C.
    rewrite A, B, C. cbn [rbind nx ny nz xbeg xend ybeg yend zbeg zend]. fold (grid bx by_ bz).
    destruct (M2 bx by_ bz) as (d2 & E2). destruct (M3 bx by_ bz) as (d3 & E3). rewrite E2, E3. cbn [rbind].
    unfold rhs_factory, initial_factory, integrator_factory, time_options_for. rewrite R.
    split; [|split]; intros -> ->; eexists; (split; reflexivity).
  - intros r E.
    destruct (parse_bc (c_bc_x cfg)) as [bx| | |] eqn:A; try discriminate.
    destruct (parse_bc (c_bc_y cfg)) as [by_| | |] eqn:B; try discriminate.
    destruct (parse_bc (c_bc_z cfg)) as [bz| | |] eqn:C; try discriminate.
    cbn [rbind nx ny nz xbeg xend ybeg yend zbeg zend] in E. fold (grid bx by_ bz) in E.
    destruct (M2 bx by_ bz) as (d2 & E2). destruct (M3 bx by_ bz) as (d3 & E3). rewrite E2, E3 in E. cbn [rbind] in E.
    unfold rhs_factory, initial_factory, integrator_factory, time_options_for in E.
    apply parse_bc_spec in A. apply parse_bc_spec in B. apply parse_bc_spec in C.
    destruct (Z.eqb_spec (c_dimension cfg) 2) as [D2|D2]; [|destruct (Z.eqb_spec (c_dimension cfg) 3) as [D3|D3]];
    cbn [rbind] in E; try discriminate;
    (destruct (String.eqb_spec (c_equation cfg) "cahn-hilliard") as [Q|Q]; [|destruct (String.eqb_spec (c_equation cfg) "poisson") as [P|P]]);
    cbn [rbind] in E; try discriminate;
    (destruct (reg_lookup reg (c_integrator cfg)) as [f| | |] eqn:RL; cbn [rbind] in E; try discriminate);
    (split; [exists bx, by_, bz, f; auto|auto]).
  - destruct (parse_bc_total (c_bc_x cfg)) as [(bx & A)|A]; rewrite A; cbn [rbind]; [|discriminate].
    destruct (parse_bc_total (c_bc_y cfg)) as [(by_ & B)|B]; rewrite B; cbn [rbind]; [|discriminate].
    destruct (parse_bc_total (c_bc_z cfg)) as [(bz & C)|C]; rewrite C; cbn [rbind]; [|discriminate].
    cbn [rbind nx ny nz xbeg xend ybeg yend zbeg zend]. fold (grid bx by_ bz).
    destruct (M2 bx by_ bz) as (d2 & E2). destruct (M3 bx by_ bz) as (d3 & E3). rewrite E2, E3. cbn [rbind].
    unfold rhs_factory, initial_factory, integrator_factory, time_options_for.
    destruct (reg_total reg (c_integrator cfg)) as [(f & R)|R]; rewrite R;
    destruct (c_dimension cfg =? 2); [|destruct (c_dimension cfg =? 3)| |destruct (c_dimension cfg =? 3)]; cbn [rbind]; try discriminate;
    (destruct (String.eqb (c_equation cfg) "cahn-hilliard"); [|destruct (String.eqb (c_equation cfg) "poisson")]); cbn [rbind]; discriminate.
Qed.

Lemma pf_C69_file_grid :
  forall (V : Type) (N : Num V) (F : Type) (read : string -> res V) (reg : registry F) (cfg cfg' : config V)
    (o : time_options V) (raw : domain V) (doc : list xml),
  c_dimension cfg' = c_dimension cfg -> c_bc_x cfg' = c_bc_x cfg -> c_bc_y cfg' = c_bc_y cfg -> c_bc_z cfg' = c_bc_z cfg ->
  c_equation cfg' = c_equation cfg -> c_integrator cfg' = c_integrator cfg ->
  construct read reg cfg' o (Some doc) raw = construct read reg cfg o (Some doc) raw.
Proof.
  intros V N F read reg cfg cfg' o raw doc E1 E2 E3 E4 E5 E6.
  unfold construct, geom_factory, geom_domain, rhs_factory, initial_factory, integrator_factory.
  rewrite E1, E2, E3, E4, E5, E6.
  destruct (read_domain read doc raw) as [[dom n]| | |]; reflexivity.
Qed.

Lemma pf_C69_dimension :
  forall (V : Type) (N : Num V) (W F : Type) (show show6 : V -> string) (read : string -> res V) (zero : V) (reg : registry F)
    (cfg : config V) (o : time_options V) (raw dom : domain V) (st : file_status V) (c : list V) (doc : list xml)
    (x : rk3_world V (scratch V) W),
  (forall (d : disc3 V) (u : Z -> Z -> Z -> V),
     valid_domain3 dom -> make3 dom = Ok d -> holds_inside3 dom c u ->
     nx dom <= 2147483647 -> ny dom <= 2147483647 -> nz dom <= 2147483647 ->
     vertices_print3 show read dom (d3_dx d) -> (forall i j k, inside3 dom i j k -> prints show read (u i j k)) ->
     write3 show show6 st d c = Ok doc ->
     forall r, resume2 read reg cfg o doc raw x <> Ok r) /\
  (forall (d : disc2 V) (u : Z -> Z -> V),
     read "0.0"%string = Ok zero -> valid_domain2 dom -> make2 dom = Ok d -> holds_inside2 dom c u ->
     nx dom <= 2147483647 -> vertices_print2 show read dom (d2_dx d) ->
     (forall i j, inside2 dom i j -> prints show read (u i j)) ->
     write2 show show6 st d c = Ok doc ->
     forall r, resume3 read reg cfg o doc raw x <> Ok r).
Proof.
  intros V N W F show show6 read zero reg cfg o raw dom st c doc x. split.
  - intros d u HV HM HC N1 N2 N3 VP PR EW r E.
    assert (LC : zlen c = cells3 dom) by apply HC.
    destruct (pf_C55_round_trip_3d V N show show6 read dom dom d d st c c u raw) as (doc1 & EW1 & _ & TH); auto.
    assert (doc1 = doc) by congruence. subst doc1.
    unfold resume2 in E. destruct (construct read reg cfg o (Some doc) raw) as [[[[[g e] i] o'] f]| | |]; try discriminate.
    cbn [rbind] in E. destruct e; try discriminate.
    destruct (of_opt (nth_error (k_u x) 0)); try discriminate. cbn [rbind] in E. rewrite TH in E. discriminate.
  - intros d u RZ HV HM HC N1 VP PR EW r E.
    assert (LC : zlen c = cells2 dom) by apply HC.
    destruct (pf_C55_round_trip_2d V N show show6 read zero dom dom d d st c c u raw) as (doc1 & EW1 & _ & TH); auto.
    assert (doc1 = doc) by congruence. subst doc1.
    unfold resume3 in E. destruct (construct read reg cfg o (Some doc) raw) as [[[[[g e] i] o'] f]| | |]; try discriminate.
    cbn [rbind] in E. destruct e; try discriminate.
    destruct (of_opt (nth_error (k_u x) 0)); try discriminate. cbn [rbind] in E. rewrite TH in E. discriminate.
Qed.

(** ** The step limit and the final file *)

Lemma pf_C70_limit :
  forall (V : Type) (N : Num V) (X L : Type) (do_step : X -> V -> V -> res X) (next_dt : X -> V -> res (X * V))
    (monitor : X -> list (string * V)) (call : L -> Z -> V -> V -> X -> res X) (fuel : nat)
    (o : time_options V) (obs : observable L) (x : X) rs1 r r' rs2 gf,
  0 <= t_initial_step o ->
  solve do_step next_dt monitor call fuel o obs x = Some (Ok (rs1 ++ r :: r' :: rs2, gf)) ->
  exists gf',
  solve do_step next_dt monitor call fuel (with_limit o (g_iter (s_after r))) obs x = Some (Ok (rs1 ++ [r], gf')) /\
  g_iter gf' = g_iter (s_after r) /\ g_time gf' = g_time (s_after r) /\ g_obs gf' = g_obs (s_after r).
Proof.
  intros V N X L do_step next_dt monitor call fuel o obs x rs1 r r' rs2 gf HI E. unfold solve in *.
  cbn [with_limit t_use_cfl t_initial_step t_t0 t_dt_initial]. destruct (t_use_cfl o); [discriminate|].
  edestruct (loop_stops do_step next_dt monitor call o fuel r r' rs2 gf) with (2 := E) as (y & dt & l & st & _ & E'); [exact HI|].
  eexists. split; [exact E'|]. auto.
Qed.

Lemma pf_C70_limit_unused :
  forall (V : Type) (N : Num V) (X L : Type) (do_step : X -> V -> V -> res X) (next_dt : X -> V -> res (X * V))
    (monitor : X -> list (string * V)) (call : L -> Z -> V -> V -> X -> res X) (fuel : nat)
    (o : time_options V) (obs : observable L) (x : X) (n : Z) rs gf,
  0 <= t_initial_step o -> 0 < n -> t_max_steps o = 0 \/ n <= t_max_steps o ->
  solve do_step next_dt monitor call fuel o obs x = Some (Ok (rs, gf)) ->
  (forall r, In r rs -> g_iter (s_after r) <= n) ->
  solve do_step next_dt monitor call fuel (with_limit o n) obs x = Some (Ok (rs, gf)).
Proof.
  intros V N X L do_step next_dt monitor call fuel o obs x n rs gf HI HN HO E LE. unfold solve in *.
  cbn [with_limit t_use_cfl t_initial_step t_t0 t_dt_initial]. destruct (t_use_cfl o); [discriminate|].
  eapply (loop_unlimited do_step next_dt monitor call o n fuel HN HO) with (2 := E); [exact HI|exact LE].
Qed.

Lemma pf_C70_final_state :
  forall (V : Type) (N : Num V) (S W L : Type) (do_step : rk3_world V S W -> V -> V -> res (rk3_world V S W))
    (monitor : rk3_world V S W -> list (string * V))
    (call : L -> Z -> V -> V -> rk3_world V S W -> res (rk3_world V S W)) (fuel : nat)
    (o : time_options V) (obs : observable L) (x : rk3_world V S W) rs1 r r' rs2 gf,
  0 <= t_initial_step o ->
  solve do_step rk3_next_dt monitor call fuel o obs x = Some (Ok (rs1 ++ r :: r' :: rs2, gf)) ->
  ngeb (nadd (g_time (s_after r)) (g_dt (s_after r))) (t_tfinal o) = false ->
  solve do_step rk3_next_dt monitor call fuel (with_limit o (g_iter (s_after r))) obs x = Some (Ok (rs1 ++ [r], s_after r)).
Proof.
  intros V N S W L do_step monitor call fuel o obs x rs1 r r' rs2 gf HI E NL. unfold solve in *.
  cbn [with_limit t_use_cfl t_initial_step t_t0 t_dt_initial]. destruct (t_use_cfl o); [discriminate|].
  edestruct (loop_stops do_step rk3_next_dt monitor call o fuel r r' rs2 gf) with (2 := E) as (y & dt & l & st & EC & E'); [exact HI|].
  apply compute_inv in EC as (e & ab & EN & _ & EL & EDT & _).
  apply rk3_next_inv in EN as (-> & ->). rewrite NL in EL. subst l. subst dt. rewrite E'.
  destruct (s_after r). reflexivity.
Qed.

Lemma pf_C70_interrupted_3d :
  forall (W L F : Type) (show show6 : R -> string) (read : string -> res R)
    (monitor monitor' : rk3_world R (scratch R) W -> list (string * R))
    (call call' : L -> Z -> R -> R -> rk3_world R (scratch R) W -> res (rk3_world R (scratch R) W))
    (fuel fuel' : nat) (o : time_options R) (obs obs' : observable L) (reg : registry F) (f : F) (cfg : config R)
    (dom raw : domain R) (d : disc3 R) (variant : Z) (p : ch_params R)
    (x y : rk3_world R (scratch R) W) rs1 r r' rs2 gf,
  leaves_solver_alone call -> leaves_solver_alone call' ->
  valid_domain3 dom -> (xbeg dom < xend dom)%R -> nhalo dom = 2 -> 2 <= nx dom /\ 2 <= ny dom /\ 2 <= nz dom ->
  make3 dom = Ok d -> 0 <= variant <= 2 -> allocated (cells3 dom) x ->
  t_rel_tol o = 0%R -> t_abs_tol o = 0%R -> 0 <= t_initial_step o ->
  solve (rk3_do (ch_rhs3 d variant p)) rk3_next_dt monitor call fuel o obs x = Some (Ok (rs1 ++ r :: r' :: rs2, gf)) ->
  let a := s_after r in
  (g_time a + g_dt a < t_tfinal o)%R ->
  nx dom <= 2147483647 -> ny dom <= 2147483647 -> nz dom <= 2147483647 ->
  vertices_print3 show read dom (d3_dx d) -> solution_prints3 show read dom (g_world a) ->
  prints show6 read (g_time a) -> prints show6 read (g_dt a) ->
  c_dimension cfg = 3 -> c_equation cfg = "cahn-hilliard" -> reg_lookup reg (c_integrator cfg) = Ok f ->
  parse_bc (c_bc_x cfg) = Ok (xbc dom) -> parse_bc (c_bc_y cfg) = Ok (ybc dom) -> parse_bc (c_bc_z cfg) = Ok (zbc dom) ->
  allocated (cells3 dom) y ->
  exists doc d' o' y',
    run_program (rk3_do (ch_rhs3 d variant p)) rk3_next_dt monitor call (file_of3 show show6 d) fuel
      (with_limit o (g_iter a)) obs x = Some (Ok (rs1 ++ [r], doc)) /\
    resume3 read reg cfg o doc raw y = Ok (d', o', y') /\
    (forall rs' gf',
     solve (rk3_do (ch_rhs3 d' variant p)) rk3_next_dt monitor' call' fuel' o' obs' y' = Some (Ok (rs', gf')) ->
     Forall2 (same_step3 dom) (r' :: rs2) rs') /\
    (callbacks_succeed (cells3 dom) call' -> (List.length (r' :: rs2) <= fuel')%nat ->
     obs_ready obs' (Z.of_nat (List.length (r' :: rs2))) ->
     exists rs' gf',
     solve (rk3_do (ch_rhs3 d' variant p)) rk3_next_dt monitor' call' fuel' o' obs' y' = Some (Ok (rs', gf'))).
Proof.
  intros W L F show show6 read monitor monitor' call call' fuel fuel' o obs obs' reg f cfg dom raw d variant p x y
    rs1 r r' rs2 gf Q Q' HV HX H2 HT HM VR AX T1 T2 IS E a NL N1 N2 N3 VP SP PT PD CD CE CI BX BY BZ AY.
  destruct (pf_C68_continuity_3d W L F show show6 read monitor monitor' call call' fuel fuel' o obs obs' reg f cfg dom raw d variant p x y
    rs1 r r' rs2 gf Q Q' HV HX H2 HT HM VR AX T1 T2 IS E NL N1 N2 N3 VP SP PT PD CD CE CI BX BY BZ AY)
    as (c & doc & d' & o' & y' & EC & EW & ER & K).
  exists doc, d', o', y'. split; [|split; [exact ER|exact K]].
  unfold run_program.
  pose proof (pf_C70_final_state R Num_R _ W L (rk3_do (ch_rhs3 d variant p)) monitor call fuel o obs x rs1 r r' rs2 gf IS E (ngeb_R _ _ NL)) as E2.
  unfold a. rewrite E2.
  assert (EF : file_of3 show show6 d (s_after r) = Ok doc).
  { unfold file_of3. change (k_u (g_world (s_after r)) = [c]) in EC. rewrite EC. cbn [nth_error of_opt rbind]. exact EW. }
  rewrite EF. reflexivity.
Qed.

Lemma pf_C70_interrupted_2d :
  forall (W L F : Type) (show show6 : R -> string) (read : string -> res R)
    (monitor monitor' : rk3_world R (scratch R) W -> list (string * R))
    (call call' : L -> Z -> R -> R -> rk3_world R (scratch R) W -> res (rk3_world R (scratch R) W))
    (fuel fuel' : nat) (o : time_options R) (obs obs' : observable L) (reg : registry F) (f : F) (cfg : config R)
    (dom raw : domain R) (d : disc2 R) (p : ch_params R) (bx by_ bz : bctype)
    (x y : rk3_world R (scratch R) W) rs1 r r' rs2 gf,
  read "0.0"%string = Ok 0%R ->
  leaves_solver_alone call -> leaves_solver_alone call' ->
  valid_domain2 dom -> (xbeg dom < xend dom)%R -> nhalo dom = 2 -> 2 <= nx dom ->
  make2 dom = Ok d -> allocated (cells2 dom) x ->
  t_rel_tol o = 0%R -> t_abs_tol o = 0%R -> 0 <= t_initial_step o ->
  solve (rk3_do (ch_rhs2 d p)) rk3_next_dt monitor call fuel o obs x = Some (Ok (rs1 ++ r :: r' :: rs2, gf)) ->
  let a := s_after r in
  (g_time a + g_dt a < t_tfinal o)%R ->
  nx dom <= 2147483647 ->
  vertices_print2 show read dom (d2_dx d) -> solution_prints2 show read dom (g_world a) ->
  prints show6 read (g_time a) -> prints show6 read (g_dt a) ->
  c_dimension cfg = 2 -> c_equation cfg = "cahn-hilliard" -> reg_lookup reg (c_integrator cfg) = Ok f ->
  parse_bc (c_bc_x cfg) = Ok bx -> parse_bc (c_bc_y cfg) = Ok by_ -> parse_bc (c_bc_z cfg) = Ok bz ->
  allocated (cells2 dom) y ->
  exists doc d' o' y',
    run_program (rk3_do (ch_rhs2 d p)) rk3_next_dt monitor call (file_of2 show show6 d) fuel
      (with_limit o (g_iter a)) obs x = Some (Ok (rs1 ++ [r], doc)) /\
    resume2 read reg cfg o doc raw y = Ok (d', o', y') /\
    (forall rs' gf',
     solve (rk3_do (ch_rhs2 d' p)) rk3_next_dt monitor' call' fuel' o' obs' y' = Some (Ok (rs', gf')) ->
     Forall2 (same_step2 dom) (r' :: rs2) rs') /\
    (callbacks_succeed (cells2 dom) call' -> (List.length (r' :: rs2) <= fuel')%nat ->
     obs_ready obs' (Z.of_nat (List.length (r' :: rs2))) ->
     exists rs' gf',
     solve (rk3_do (ch_rhs2 d' p)) rk3_next_dt monitor' call' fuel' o' obs' y' = Some (Ok (rs', gf'))).
Proof.
  intros W L F show show6 read monitor monitor' call call' fuel fuel' o obs obs' reg f cfg dom raw d p bx by_ bz x y
    rs1 r r' rs2 gf RZ Q Q' HV HX H2 HT HM AX T1 T2 IS E a NL N1 VP SP PT PD CD CE CI BX BY BZ AY.
  destruct (pf_C68_continuity_2d W L F show show6 read monitor monitor' call call' fuel fuel' o obs obs' reg f cfg dom raw d p bx by_ bz x y
    rs1 r r' rs2 gf RZ Q Q' HV HX H2 HT HM AX T1 T2 IS E NL N1 VP SP PT PD CD CE CI BX BY BZ AY)
    as (c & doc & d' & o' & y' & EC & EW & ER & K).
  exists doc, d', o', y'. split; [|split; [exact ER|exact K]].
  unfold run_program.
  pose proof (pf_C70_final_state R Num_R _ W L (rk3_do (ch_rhs2 d p)) monitor call fuel o obs x rs1 r r' rs2 gf IS E (ngeb_R _ _ NL)) as E2.
  unfold a. rewrite E2.
  assert (EF : file_of2 show show6 d (s_after r) = Ok doc).
  { unfold file_of2. change (k_u (g_world (s_after r)) = [c]) in EC. rewrite EC. cbn [nth_error of_opt rbind]. exact EW. }
  rewrite EF. reflexivity.
Qed.

(** The run of C68_2d_ex interrupted after its first step, and the second leg. *)
Definition ex_leg1 (o : time_options Q) :=
  match make2 (N:=Num_Q) ex_dom68 with
  | Ok d => run_program (N:=Num_Q) (rk3_do (N:=Num_Q) (ch_rhs2 (N:=Num_Q) d ex_p68)) rk3_next_dt (fun _ => []) ex_no_call
              (file_of2 ex_show ex_show d) 9 o new_observable (ex_world (cells2 ex_dom68) ex_c68)
  | _ => None
  end.
Definition ex_leg2 (o : time_options Q) (doc : list xml) :=
  match resume2 (N:=Num_Q) ex_read ex_reg (ex_cfg 2) o doc ex_raw
          (ex_world (cells2 ex_dom68) (map (fun _ => 77%Q) (zrange 0 (cells2 ex_dom68)))) with
  | Ok (d', o', y') =>
      solve (N:=Num_Q) (rk3_do (N:=Num_Q) (ch_rhs2 (N:=Num_Q) d' ex_p68)) rk3_next_dt (fun _ => []) ex_no_call 9 o'
        new_observable y'
  | _ => None
  end.
Definition ex_legs (o1 o2 : time_options Q) :=
  match ex_leg1 o1 with
  | Some (Ok (rs, doc)) =>
      match ex_leg2 o2 doc with
      | Some (Ok (rs', _)) => Some (map s_dt rs, ex_show_run ex_inside2 rs')
      | _ => None
      end
  | _ => None
  end.

Definition ex_until (t : Q) : time_options Q :=
  {| t_t0 := 1%Q; t_tfinal := t; t_dt_initial := (1 # 4)%Q; t_use_cfl := false; t_max_steps := 0;
     t_initial_step := 0; t_rel_tol := 0%Q; t_abs_tol := 0%Q |}.
Definition ex_later : bool :=
  match ex_leg1 (ex_until (11 # 8)) with
  | Some (Ok (rs, doc)) =>
      match ex_leg2 (ex_until (14 # 8)) doc with
      | Some (Ok (rs', gf')) =>
          forallb (fun r => Qeq_bool (s_dt r) (1 # 8)) rs' && (2 <=? zlen rs') && Qeq_bool (g_time gf') (14 # 8)
      | _ => false
      end
  | _ => false
  end.
Lemma ex_later_true : ex_later = true.
Proof. vm_compute. reflexivity. Qed.

Lemma pf_C70_later_final_time_refuted :
  exists (F : Type) (reg : registry F) (cfg : config Q) (show : Q -> string) (read : string -> res Q)
    (d d' : disc2 Q) (p : ch_params Q) (raw : domain Q) (o o2 o' : time_options Q)
    (call : unit -> Z -> Q -> Q -> rk3_world Q (scratch Q) unit -> res (rk3_world Q (scratch Q) unit))
    (x y y' : rk3_world Q (scratch Q) unit) (doc : list xml) rs rs' gf' (h : Q),
  o2 = {| t_t0 := t_t0 o; t_tfinal := t_tfinal o2; t_dt_initial := t_dt_initial o; t_use_cfl := t_use_cfl o;
          t_max_steps := t_max_steps o; t_initial_step := t_initial_step o; t_rel_tol := t_rel_tol o;
          t_abs_tol := t_abs_tol o |} /\
  run_program (N:=Num_Q) (rk3_do (N:=Num_Q) (ch_rhs2 (N:=Num_Q) d p)) rk3_next_dt (fun _ => []) call
    (file_of2 show show d) 9 o new_observable x = Some (Ok (rs, doc)) /\
  resume2 (N:=Num_Q) read reg cfg o2 doc raw y = Ok (d', o', y') /\
  solve (N:=Num_Q) (rk3_do (N:=Num_Q) (ch_rhs2 (N:=Num_Q) d' p)) rk3_next_dt (fun _ => []) call 9 o' new_observable y' =
    Some (Ok (rs', gf')) /\
  2 <= zlen rs' /\ (h < t_dt_initial o2)%Q /\ (forall r, In r rs' -> s_dt r == h)%Q /\ (g_time gf' == t_tfinal o2)%Q.
Proof.
  pose proof ex_later_true as H. unfold ex_later, ex_leg1 in H.
  destruct (make2 (N:=Num_Q) ex_dom68) as [d| | |] eqn:ED; dis H.
  match type of H with match ?z with _ => _ end = true => destruct z as [[[rs doc]| | |]|] eqn:E1 end; dis H.
  unfold ex_leg2 in H.
  match type of H with match match ?z with _ => _ end with _ => _ end = true =>
    destruct z as [[[d' o'] y']| | |] eqn:E2 end; dis H.
  match type of H with match ?z with _ => _ end = true => destruct z as [[[rs' gf']| | |]|] eqn:E3 end; dis H.
  apply andb_prop in H as (H & H3). apply andb_prop in H as (H1 & H2).
  exists unit, ex_reg, (ex_cfg 2), ex_show, ex_read, d, d', ex_p68, ex_raw, (ex_until (11 # 8)), (ex_until (14 # 8)), o',
    ex_no_call, (ex_world (cells2 ex_dom68) ex_c68),
    (ex_world (cells2 ex_dom68) (map (fun _ => 77%Q) (zrange 0 (cells2 ex_dom68)))), y', doc, rs, rs', gf', (1 # 8)%Q.
  split; [reflexivity|]. split; [exact E1|]. split; [exact E2|]. split; [exact E3|].
  split; [apply Z.leb_le; exact H2|]. split; [reflexivity|]. split.
  - intros r Hr. apply Qeq_bool_iff. eapply forallb_forall in H1; [exact H1|exact Hr].
  - apply Qeq_bool_iff. exact H3.
Qed.
