(** Proofs of C74. *)
From Coq Require Import ZArith Reals String List Lra Lia SpecFloat.
From Flocq Require Import IEEE754.BinarySingleNaN.
From Verif Require Import Outcome ZList ZListProofs Num SpecGrid ModelDisc3D ModelDisc2D ModelCH ModelObs ModelTime ModelRun
  ModelVTK SpecVTK ModelMain SpecTime SpecRestart SpecResume ModelDouble SpecDouble Disc3DProofs Disc2DProofs Make3Proofs Make2Proofs BC3Proofs
  CHProofs Time1Proofs Time3Proofs Step1Proofs RestartProofs Restart2Proofs VTKFinal RunFinal RestartFinal Double4Proofs DoubleFinal.
Import ListNotations.
Local Open Scope string_scope.
Local Open Scope list_scope.
Local Open Scope Z_scope.

Lemma valued3 {V W L} `{N : Num V} ok dom (a b : step_record (X:=rk3_world V (scratch V) W) (L:=L)) :
  0 <= nhalo dom -> valued ok 1 (cells3 dom) (P3 dom) a b -> same_values3 dom a b.
Proof.
  intros NH (A & w & F & G). split; [exact A|].
  destruct (fit_state _ _ _ _ _ F) as (ca & EA & LA). destruct (fit_state _ _ _ _ _ G) as (cb & EB & LB).
  destruct F as (_ & _ & _ & F). destruct G as (_ & _ & _ & G). rewrite EA in F. rewrite EB in G.
  exists ca, cb, (at3 dom w). split; [exact EA|]. split; [exact EB|]. split; apply state3; auto.
Qed.
Lemma valued2 {V W L} `{N : Num V} ok dom (a b : step_record (X:=rk3_world V (scratch V) W) (L:=L)) :
  0 <= nhalo dom -> valued ok 1 (cells2 dom) (P2 dom) a b -> same_values2 dom a b.
Proof.
  intros NH (A & w & F & G). split; [exact A|].
  destruct (fit_state _ _ _ _ _ F) as (ca & EA & LA). destruct (fit_state _ _ _ _ _ G) as (cb & EB & LB).
  destruct F as (_ & _ & _ & F). destruct G as (_ & _ & _ & G). rewrite EA in F. rewrite EB in G.
  exists ca, cb, (at2 dom w). split; [exact EA|]. split; [exact EB|]. split; apply state2; auto.
Qed.

Lemma resume_values3 {V} `{N : Num V} {W L} (show show6 : V -> String.string) (read : String.string -> res V)
    (monitor monitor' : rk3_world V (scratch V) W -> list (String.string * V))
    (call call' : L -> Z -> V -> V -> rk3_world V (scratch V) W -> res (rk3_world V (scratch V) W))
    (fuel fuel' : nat) (o o2 : time_options V) (obs obs' : observable L)
    (dom dom' raw : domain V) (d d' : disc3 V) (variant : Z) (p : ch_params V)
    (x y : rk3_world V (scratch V) W) (cy : list V) rs1 r rs2 gf (t' h' : V) :
  leaves_solver_alone call -> leaves_solver_alone call' ->
  valid_domain3 dom -> 2 <= nhalo dom -> nhalo dom <= nx dom /\ nhalo dom <= ny dom /\ nhalo dom <= nz dom ->
  make3 dom = Ok d -> 0 <= variant <= 2 -> allocated (cells3 dom) x -> 0 <= t_initial_step o ->
  solve (rk3_do (ch_rhs3 d variant p)) rk3_next_dt monitor call fuel o obs x = Some (Ok (rs1 ++ r :: rs2, gf)) ->
  let a := s_after r in
  nx dom <= 2147483647 -> ny dom <= 2147483647 -> nz dom <= 2147483647 ->
  vertices_print3 show read dom (d3_dx d) -> solution_prints3 show read dom (g_world a) ->
  word (show6 (g_time a)) -> read (show6 (g_time a)) = Ok t' ->
  word (show6 (g_dt a)) -> read (show6 (g_dt a)) = Ok h' ->
  nx dom' = nx dom -> ny dom' = ny dom -> nz dom' = nz dom -> nhalo dom' = nhalo dom ->
  xbc dom' = xbc dom -> ybc dom' = ybc dom -> zbc dom' = zbc dom -> make3 dom' = Ok d' -> d3_dx d' = d3_dx d ->
  allocated (cells3 dom) y -> k_u y = [cy] ->
  exists c doc o' cy',
    k_u (g_world a) = [c] /\ write3 show show6 (status_of a) d c = Ok doc /\
    time_options_for read o2 (Some doc) = Ok o' /\
    t_t0 o' = t' /\ t_dt_initial o' = h' /\ t_initial_step o' = g_iter a /\
    set_solution read doc raw (Target3 d' cy) = Ok (Target3 d' cy') /\
    forall rs' gf',
     solve (rk3_do (ch_rhs3 d' variant p)) rk3_next_dt monitor' call' fuel' o' obs'
       {| k_int := k_int y; k_sc := k_sc y; k_u := [cy']; k_du := k_du y; k_rest := k_rest y |} = Some (Ok (rs', gf')) ->
     in_lockstep (same_values3 dom) rs2 rs'.
Proof.
  intros Q Q' HV H2 HT HM VR AX IS E a N1 N2 N3 VP SP WT RT0 WD RD0 D1 D2 D3 D4 D5 D6 D7 HM' HDX AY EY.
  assert (IR : In r (rs1 ++ r :: rs2)) by (apply in_or_app; right; left; reflexivity).
  destruct (run_fit3 dom d variant p monitor call fuel o obs x _ gf r Q HV H2 HT HM VR AX E IR) as ((w0 & F0) & c & EC & LC).
  destruct (holds3_exists dom c HV LC) as (u & (_ & HU)).
  assert (HI : holds_inside3 dom c u).
  { split; auto. intros i j k I. apply HU. apply inside_padded3; auto. lia. }
  assert (HV' : valid_domain3 dom') by (unfold valid_domain3 in *; rewrite D1, D2, D3, D4; exact HV).
  assert (CE : cells3 dom' = cells3 dom) by (unfold cells3; rewrite D1, D2, D3, D4; reflexivity).
  assert (LY : zlen cy = cells3 dom').
  { destruct AY as (_ & _ & AY & _). rewrite EY in AY. apply one_array in AY as (cy2 & Ey & Ly). injection Ey as ->. congruence. }
  destruct (pf_C55_round_trip_3d V N show show6 read dom dom' d d' (status_of a) c cy u raw) as (doc & EW & (cy' & ES & HY & _) & _); auto.
  { intros i j k I. eapply SP; [exact EC|exact I|]. apply HI; auto. }
  pose proof (pf_C55_restart V N show show6 read (status_of a) t' h'
    {| rs_t0 := t_t0 o2; rs_step := t_initial_step o2; rs_dt := t_dt_initial o2 |} doc) as RT.
  cbn [status_of fs_iter fs_time fs_dt] in RT.
  assert (IB : t_initial_step o < g_iter a <= 2147483647).
  { unfold solve in E. destruct (t_use_cfl o); [discriminate|].
    apply (loop_iter (ch_rhs3 d variant p) monitor call o fuel _ _ _ _ E r IR). }
  specialize (RT ltac:(lia) WT RT0 WD RD0 (or_introl (ex_intro _ d (ex_intro _ c EW)))).
  exists c, doc, (resumed o2 {| rs_t0 := t'; rs_step := g_iter a; rs_dt := h' |}), cy'.
  split; [exact EC|]. split; [exact EW|]. split.
  { unfold time_options_for. rewrite RT. reflexivity. }
  split; [reflexivity|]. split; [reflexivity|]. split; [reflexivity|].
  split; [exact ES|].
  assert (HY' : holds_inside3 dom cy' u).
  { destruct HY as (LY' & HY). split; [congruence|]. intros i j k I. unfold slot3. rewrite <- D2, <- D3, <- D4. apply HY.
    unfold inside3 in *. rewrite D1, D2, D3. exact I. }
  assert (AY' : allocated (cells3 dom) {| k_int := k_int y; k_sc := k_sc y; k_u := [cy']; k_du := k_du y; k_rest := k_rest y |}).
  { destruct AY as (A1 & A2 & A3 & A4). repeat split; cbn [k_int k_sc k_u k_du]; try (apply A1; assumption); try apply A2; try apply A4.
    - intros [|e] b B; [|destruct e; discriminate]. cbn in B. injection B as <-. apply HY'. }
  assert (FA : state_holds 1 (cells3 dom) (P3 dom) (k_u (g_world (s_after r))) (of3 dom u)).
  { rewrite EC. apply state3; [lia|]. split; auto. intros i j k I. unfold at3.
    rewrite of3_slot by (apply inside_padded3; auto; lia). apply HI; auto. }
  assert (FY : fit (scratch_fits (cells3 dom)) 1 (cells3 dom) (P3 dom)
    {| k_int := k_int y; k_sc := k_sc y; k_u := [cy']; k_du := k_du y; k_rest := k_rest y |} (of3 dom u)).
  { apply (allocated_fit3 dom _ u cy'); auto. lia. }
  intros rs' gf' E' n q q' Qa Qb SZ. apply (valued3 (scratch_fits (cells3 dom))); [lia|].
  refine (resume_lockstep (ch_rhs3 d variant p) (ch_rhs3 d' variant p) (scratch_fits (cells3 dom)) 1 (cells3 dom) (P3 dom)
    (ch_f3 dom variant p (d3_dx d) (g_dt a)) (ch3_computes dom d variant p HV H2 HT HM VR)
    (ch3_same dom dom' d d' variant p HV H2 HT VR HM' HDX D1 D2 D3 D4 D5 D6 D7)
    monitor monitor' call call' Q Q' o (resumed o2 {| rs_t0 := t'; rs_step := g_iter a; rs_dt := h' |})
    fuel fuel' obs obs' x _ rs1 r rs2 gf rs' gf' w0 (of3 dom u) F0 E eq_refl FY FA E' n q q' Qa Qb SZ).
Qed.

Lemma resume_values2 {V} `{N : Num V} {W L} (show show6 : V -> String.string) (read : String.string -> res V) (zero : V)
    (monitor monitor' : rk3_world V (scratch V) W -> list (String.string * V))
    (call call' : L -> Z -> V -> V -> rk3_world V (scratch V) W -> res (rk3_world V (scratch V) W))
    (fuel fuel' : nat) (o o2 : time_options V) (obs obs' : observable L)
    (dom dom' raw : domain V) (d d' : disc2 V) (p : ch_params V)
    (x y : rk3_world V (scratch V) W) (cy : list V) rs1 r rs2 gf (t' h' : V) :
  read "0.0"%string = Ok zero -> leaves_solver_alone call -> leaves_solver_alone call' ->
  valid_domain2 dom -> 2 <= nhalo dom -> nhalo dom <= nx dom ->
  make2 dom = Ok d -> allocated (cells2 dom) x -> 0 <= t_initial_step o ->
  solve (rk3_do (ch_rhs2 d p)) rk3_next_dt monitor call fuel o obs x = Some (Ok (rs1 ++ r :: rs2, gf)) ->
  let a := s_after r in
  nx dom <= 2147483647 ->
  vertices_print2 show read dom (d2_dx d) -> solution_prints2 show read dom (g_world a) ->
  word (show6 (g_time a)) -> read (show6 (g_time a)) = Ok t' ->
  word (show6 (g_dt a)) -> read (show6 (g_dt a)) = Ok h' ->
  nx dom' = nx dom -> nhalo dom' = nhalo dom -> make2 dom' = Ok d' -> d2_dx d' = d2_dx d ->
  allocated (cells2 dom) y -> k_u y = [cy] ->
  exists c doc o' cy',
    k_u (g_world a) = [c] /\ write2 show show6 (status_of a) d c = Ok doc /\
    time_options_for read o2 (Some doc) = Ok o' /\
    t_t0 o' = t' /\ t_dt_initial o' = h' /\ t_initial_step o' = g_iter a /\
    set_solution read doc raw (Target2 d' cy) = Ok (Target2 d' cy') /\
    forall rs' gf',
     solve (rk3_do (ch_rhs2 d' p)) rk3_next_dt monitor' call' fuel' o' obs'
       {| k_int := k_int y; k_sc := k_sc y; k_u := [cy']; k_du := k_du y; k_rest := k_rest y |} = Some (Ok (rs', gf')) ->
     in_lockstep (same_values2 dom) rs2 rs'.
Proof.
  intros RZ Q Q' HV H2 HT HM AX IS E a N1 VP SP WT RT0 WD RD0 D1 D4 HM' HDX AY EY.
  assert (IR : In r (rs1 ++ r :: rs2)) by (apply in_or_app; right; left; reflexivity).
  destruct (run_fit2 dom d p monitor call fuel o obs x _ gf r Q HV H2 HT HM AX E IR) as ((w0 & F0) & c & EC & LC).
  destruct (holds2_exists dom c HV LC) as (u & (_ & HU)).
  assert (HI : holds_inside2 dom c u).
  { split; auto. intros i j I. apply HU. apply inside_padded2; auto. lia. }
  assert (HV' : valid_domain2 dom') by (unfold valid_domain2 in *; rewrite D1, D4; exact HV).
  assert (CE : cells2 dom' = cells2 dom) by (unfold cells2; rewrite D1, D4; reflexivity).
  assert (LY : zlen cy = cells2 dom').
  { destruct AY as (_ & _ & AY & _). rewrite EY in AY. apply one_array in AY as (cy2 & Ey & Ly). injection Ey as ->. congruence. }
  destruct (pf_C55_round_trip_2d V N show show6 read zero dom dom' d d' (status_of a) c cy u raw) as (doc & EW & (cy' & ES & HY & _) & _); auto.
  { intros i j I. eapply SP; [exact EC|exact I|]. apply HI; auto. }
  pose proof (pf_C55_restart V N show show6 read (status_of a) t' h'
    {| rs_t0 := t_t0 o2; rs_step := t_initial_step o2; rs_dt := t_dt_initial o2 |} doc) as RT.
  cbn [status_of fs_iter fs_time fs_dt] in RT.
  assert (IB : t_initial_step o < g_iter a <= 2147483647).
  { unfold solve in E. destruct (t_use_cfl o); [discriminate|].
    apply (loop_iter (ch_rhs2 d p) monitor call o fuel _ _ _ _ E r IR). }
  specialize (RT ltac:(lia) WT RT0 WD RD0 (or_intror (ex_intro _ d (ex_intro _ c EW)))).
  exists c, doc, (resumed o2 {| rs_t0 := t'; rs_step := g_iter a; rs_dt := h' |}), cy'.
  split; [exact EC|]. split; [exact EW|]. split.
  { unfold time_options_for. rewrite RT. reflexivity. }
  split; [reflexivity|]. split; [reflexivity|]. split; [reflexivity|].
  split; [exact ES|].
  assert (HY' : holds_inside2 dom cy' u).
  { destruct HY as (LY' & HY). split; [congruence|]. intros i j I. unfold slot2. rewrite <- D1, <- D4. apply HY.
    unfold inside2 in *. rewrite D1. exact I. }
  assert (AY' : allocated (cells2 dom) {| k_int := k_int y; k_sc := k_sc y; k_u := [cy']; k_du := k_du y; k_rest := k_rest y |}).
  { destruct AY as (A1 & A2 & A3 & A4). repeat split; cbn [k_int k_sc k_u k_du]; try (apply A1; assumption); try apply A2; try apply A4.
    - intros [|e] b B; [|destruct e; discriminate]. cbn in B. injection B as <-. apply HY'. }
  assert (FA : state_holds 1 (cells2 dom) (P2 dom) (k_u (g_world (s_after r))) (of2 dom u)).
  { rewrite EC. apply state2; [lia|]. split; auto. intros i j I. unfold at2.
    rewrite of2_slot by (apply inside_padded2; auto; lia). apply HI; auto. }
  assert (FY : fit (scratch_fits (cells2 dom)) 1 (cells2 dom) (P2 dom)
    {| k_int := k_int y; k_sc := k_sc y; k_u := [cy']; k_du := k_du y; k_rest := k_rest y |} (of2 dom u)).
  { apply (allocated_fit2 dom _ u cy'); auto. lia. }
  intros rs' gf' E' n q q' Qa Qb SZ. apply (valued2 (scratch_fits (cells2 dom))); [lia|].
  refine (resume_lockstep (ch_rhs2 d p) (ch_rhs2 d' p) (scratch_fits (cells2 dom)) 1 (cells2 dom) (P2 dom)
    (ch_f2 dom p (d2_dx d) (g_dt a)) (ch2_computes dom d p HV H2 HT HM)
    (ch2_same dom dom' d d' p HV H2 HT HM' HDX D1 D4)
    monitor monitor' call call' Q Q' o (resumed o2 {| rs_t0 := t'; rs_step := g_iter a; rs_dt := h' |})
    fuel fuel' obs obs' x _ rs1 r rs2 gf rs' gf' w0 (of2 dom u) F0 E eq_refl FY FA E' n q q' Qa Qb SZ).
Qed.

Lemma pf_C74_resume_3d :
  forall (N : Num double) (W L : Type)
    (monitor monitor' : rk3_world double (scratch double) W -> list (String.string * double))
    (call call' : L -> Z -> double -> double -> rk3_world double (scratch double) W -> res (rk3_world double (scratch double) W))
    (fuel fuel' : nat) (o o2 : time_options double) (obs obs' : observable L)
    (dom dom' raw : domain double) (d d' : disc3 double) (variant : Z) (p : ch_params double)
    (x y : rk3_world double (scratch double) W) (cy : list double) rs1 r rs2 gf,
  leaves_solver_alone call -> leaves_solver_alone call' ->
  valid_domain3 dom -> 2 <= nhalo dom -> nhalo dom <= nx dom /\ nhalo dom <= ny dom /\ nhalo dom <= nz dom ->
  make3 dom = Ok d -> 0 <= variant <= 2 -> allocated (cells3 dom) x -> 0 <= t_initial_step o ->
  solve (rk3_do (ch_rhs3 d variant p)) rk3_next_dt monitor call fuel o obs x = Some (Ok (rs1 ++ r :: rs2, gf)) ->
  let a := s_after r in
  is_finite (g_time a) = true -> (powerRZ 10 (-300) <= Rabs (value_of (g_time a)) <= powerRZ 10 300)%R ->
  short_decimal (g_dt a) ->
  nx dom <= 2147483647 -> ny dom <= 2147483647 -> nz dom <= 2147483647 ->
  nx dom' = nx dom -> ny dom' = ny dom -> nz dom' = nz dom -> nhalo dom' = nhalo dom ->
  xbc dom' = xbc dom -> ybc dom' = ybc dom -> zbc dom' = zbc dom -> make3 dom' = Ok d' -> d3_dx d' = d3_dx d ->
  allocated (cells3 dom) y -> k_u y = [cy] ->
  exists c doc o' cy',
    k_u (g_world a) = [c] /\ write3 show_value show_time (status_of a) d c = Ok doc /\
    time_options_for read_double o2 (Some doc) = Ok o' /\
    is_finite (t_t0 o') = true /\
    (Rabs (value_of (t_t0 o') - value_of (g_time a)) <= 51 / 100000000 * Rabs (value_of (g_time a)))%R /\
    t_dt_initial o' = g_dt a /\ t_initial_step o' = g_iter a /\
    set_solution read_double doc raw (Target3 d' cy) = Ok (Target3 d' cy') /\
    forall rs' gf',
     solve (rk3_do (ch_rhs3 d' variant p)) rk3_next_dt monitor' call' fuel' o' obs'
       {| k_int := k_int y; k_sc := k_sc y; k_u := [cy']; k_du := k_du y; k_rest := k_rest y |} = Some (Ok (rs', gf')) ->
     in_lockstep (same_values3 dom) rs2 rs'.
Proof.
  intros N W L monitor monitor' call call' fuel fuel' o o2 obs obs' dom dom' raw d d' variant p x y cy rs1 r rs2 gf
    Q Q' HV H2 HT HM VR AX IS E a FT BT SD N1 N2 N3 D1 D2 D3 D4 D5 D6 D7 HM' HDX AY EY.
  destruct (pf_C73_time_error (g_time a) FT BT) as (WT & t' & RT & FT' & ER).
  destruct (pf_C73_seven_digits (g_dt a) SD) as (WD & RD).
  destruct (resume_values3 show_value show_time read_double monitor monitor' call call' fuel fuel' o o2 obs obs' dom dom' raw d d'
    variant p x y cy rs1 r rs2 gf t' (g_dt a)) as (c & doc & o' & cy' & A1 & A2 & A3 & A4 & A5 & A6 & A7 & A8); auto.
  { split; [|split]; intros; apply all_print. }
  { intros c i j k v _ _ _. apply all_print. }
  exists c, doc, o', cy'. rewrite A4. repeat (split; [assumption|]). exact A8.
Qed.

Lemma pf_C74_resume_2d :
  forall (N : Num double) (W L : Type)
    (monitor monitor' : rk3_world double (scratch double) W -> list (String.string * double))
    (call call' : L -> Z -> double -> double -> rk3_world double (scratch double) W -> res (rk3_world double (scratch double) W))
    (fuel fuel' : nat) (o o2 : time_options double) (obs obs' : observable L)
    (dom dom' raw : domain double) (d d' : disc2 double) (p : ch_params double)
    (x y : rk3_world double (scratch double) W) (cy : list double) rs1 r rs2 gf,
  leaves_solver_alone call -> leaves_solver_alone call' ->
  valid_domain2 dom -> 2 <= nhalo dom -> nhalo dom <= nx dom ->
  make2 dom = Ok d -> allocated (cells2 dom) x -> 0 <= t_initial_step o ->
  solve (rk3_do (ch_rhs2 d p)) rk3_next_dt monitor call fuel o obs x = Some (Ok (rs1 ++ r :: rs2, gf)) ->
  let a := s_after r in
  is_finite (g_time a) = true -> (powerRZ 10 (-300) <= Rabs (value_of (g_time a)) <= powerRZ 10 300)%R ->
  short_decimal (g_dt a) ->
  nx dom <= 2147483647 ->
  nx dom' = nx dom -> nhalo dom' = nhalo dom -> make2 dom' = Ok d' -> d2_dx d' = d2_dx d ->
  allocated (cells2 dom) y -> k_u y = [cy] ->
  exists c doc o' cy',
    k_u (g_world a) = [c] /\ write2 show_value show_time (status_of a) d c = Ok doc /\
    time_options_for read_double o2 (Some doc) = Ok o' /\
    is_finite (t_t0 o') = true /\
    (Rabs (value_of (t_t0 o') - value_of (g_time a)) <= 51 / 100000000 * Rabs (value_of (g_time a)))%R /\
    t_dt_initial o' = g_dt a /\ t_initial_step o' = g_iter a /\
    set_solution read_double doc raw (Target2 d' cy) = Ok (Target2 d' cy') /\
    forall rs' gf',
     solve (rk3_do (ch_rhs2 d' p)) rk3_next_dt monitor' call' fuel' o' obs'
       {| k_int := k_int y; k_sc := k_sc y; k_u := [cy']; k_du := k_du y; k_rest := k_rest y |} = Some (Ok (rs', gf')) ->
     in_lockstep (same_values2 dom) rs2 rs'.
Proof.
  intros N W L monitor monitor' call call' fuel fuel' o o2 obs obs' dom dom' raw d d' p x y cy rs1 r rs2 gf
    Q Q' HV H2 HT HM AX IS E a FT BT SD N1 D1 D4 HM' HDX AY EY.
  destruct (pf_C73_time_error (g_time a) FT BT) as (WT & t' & RT & FT' & ER).
  destruct (pf_C73_seven_digits (g_dt a) SD) as (WD & RD).
  destruct (resume_values2 show_value show_time read_double (B754_zero false) monitor monitor' call call' fuel fuel' o o2 obs obs' dom dom' raw d d'
    p x y cy rs1 r rs2 gf t' (g_dt a)) as (c & doc & o' & cy' & A1 & A2 & A3 & A4 & A5 & A6 & A7 & A8); auto.
  { split; intros; apply all_print. }
  { intros c i j v _ _ _. apply all_print. }
  exists c, doc, o', cy'. rewrite A4. repeat (split; [assumption|]). exact A8.
Qed.

(** A run of doubles: three steps of 0.1, a file, two more steps; and the restart. *)
Definition ex_sq : domain double :=
  {| nx := 2; ny := 2; nz := 1; xbeg := dbl "0"; xend := dbl "1"; ybeg := dbl "0"; yend := dbl "1"; zbeg := dbl "0"; zend := dbl "0";
     xbc := Periodic; ybc := Periodic; zbc := Periodic; nhalo := 2 |}.
Definition ex_par : ch_params double := {| ch_m := dbl "0.05"; ch_sigma := dbl "1.5"; ch_eps2 := dbl "1e-4" |}.
Definition ex_start : list double := map (fun i => nmul (Num := Num_double) (dbl "0.1") (double_int (i mod 7))) (zrange 0 36).
Definition ex_wd (c : list double) : rk3_world double (scratch double) unit :=
  let z := repeat (dbl "0") 36 in
  {| k_int := {| r_k1 := [z]; r_k2 := [z]; r_k3 := [z]; r_stage := [z] |};
     k_sc := {| sc_lap := z; sc_arg := z; sc_bih := z; sc_lin := z |};
     k_u := [c]; k_du := [z]; k_rest := tt |}.
Definition ex_opt (steps : Z) : time_options double :=
  {| t_t0 := dbl "0"; t_tfinal := dbl "10"; t_dt_initial := dbl "0.1"; t_use_cfl := false; t_max_steps := steps;
     t_initial_step := 0; t_rel_tol := dbl "0"; t_abs_tol := dbl "0" |}.
Definition ex_none (l : unit) (i : Z) (t dt : double) (x : rk3_world double (scratch double) unit) : res (rk3_world double (scratch double) unit) := Ok x.
Definition ex_run (d : disc2 double) (o : time_options double) (c : list double) :=
  solve (N := Num_double) (rk3_do (N := Num_double) (ch_rhs2 (N := Num_double) d ex_par)) rk3_next_dt (fun _ => []) ex_none 20
    o new_observable (ex_wd c).
(** Times before, step sizes, numbers and first interior value of the steps. *)
Definition ex_steps (rs : list (step_record (V:=double) (X:=rk3_world double (scratch double) unit) (L:=unit))) :=
  map (fun r => (show_value (s_time r), show_value (s_dt r), g_iter (s_after r),
                 match k_u (g_world (s_after r)) with [c] => option_map show_value (zget c 14) | _ => None end)) rs.
(** The first run, the third of its steps, and the two steps of the restart. *)
Definition ex_restart (made : res (disc2 double)) (run : disc2 double -> time_options double -> list double ->
    option (res (list (step_record (V:=double) (X:=rk3_world double (scratch double) unit) (L:=unit)) *
                 integ (V:=double) (X:=rk3_world double (scratch double) unit) (L:=unit)))) :=
  match made with
  | Ok d =>
      match run d (ex_opt 5) ex_start with
      | Some (Ok (r1 :: r2 :: r :: rs2, _)) =>
          match k_u (g_world (s_after r)) with
          | [c] =>
              match write2 show_value show_time (status_of (s_after r)) d c with
              | Ok doc =>
                  match time_options_for read_double (ex_opt 5) (Some doc), set_solution (N := Num_double) read_double doc ex_sq (Target2 d (repeat (dbl "7") 36)) with
                  | Ok o', Ok (Target2 _ cy') =>
                      match run d o' cy' with
                      | Some (Ok (rs', _)) =>
                        Some (B2SF (g_time (s_after r)), B2SF (g_dt (s_after r)), ex_steps rs2, ex_steps rs')
                      | _ => None
                      end
                  | _, _ => None
                  end
              | _ => None
              end
          | _ => None
          end
      | _ => None
      end
  | _ => None
  end.
Lemma ex_restart_is : ex_restart (make2 (N := Num_double) ex_sq) ex_run =
  Some (S754_finite false 5404319552844596 (-54), S754_finite false 7205759403792794 (-56),
    [("3.0000000000000004e-01", "1.0000000000000001e-01", 4, Some "4.9509503098056740e-01");
     ("4.0000000000000002e-01", "1.0000000000000001e-01", 5, Some "4.9944978539266144e-01")],
    [("2.9999999999999999e-01", "1.0000000000000001e-01", 4, Some "4.9509503098056740e-01");
     ("4.0000000000000002e-01", "1.0000000000000001e-01", 5, Some "4.9944978539266144e-01")]).
Proof. vm_compute. reflexivity. Qed.

Lemma tenth_short (x : double) : B2SF x = S754_finite false 7205759403792794 (-56) -> short_decimal x.
Proof.
  intros E. assert (X : x = dbl "0.1") by (apply B2SF_inj; rewrite E; vm_compute; reflexivity). subst x. clear E.
  set (l := {| l_minus := false; l_plus := false; l_whole := [0]; l_fraction := [1]; l_exponent := None |}).
  assert (G : good_literal l) by (repeat split; cbn; try discriminate; try (repeat constructor; lia); auto).
  assert (V : literal_value l = (1 / 10)%R).
  { unfold literal_value, l. cbn [l_exponent l_whole l_fraction l_minus app List.length]. change (number [0; 1]) with 1.
    change (0 - Z.of_nat 1) with (-1). simpl powerRZ. lra. }
  assert (R0 : read_double (literal_text l) = Ok (dbl "0.1")) by (vm_compute; reflexivity).
  split; [vm_compute; reflexivity|]. exists (1 / 10)%R. split.
  { exists 1, (-1). split; [simpl powerRZ; lra|reflexivity]. }
  split.
  { right. rewrite Rabs_pos_eq by lra.
    change (powerRZ 2 (-1022)) with (/ 2 ^ (4 + 1018))%R. rewrite pow_add.
    assert (A : (1 <= 2 ^ 1018)%R) by (apply pow_R1_Rle; lra).
    assert (B : (2 ^ 4 = 16)%R) by (simpl; lra). rewrite B.
    replace (1 / 10)%R with (/ 10)%R by lra. apply Rinv_le_contravar; [lra|]. lra. }
  pose proof (pf_C73_read l G) as (H1 & H2). rewrite V in H1, H2.
  destruct (Rlt_or_le (Rabs (rounded (1 / 10))) largest) as [A|A].
  - destruct (H1 A) as (x & E & _ & Vx & _). rewrite R0 in E. rewrite (ok_inj _ _ E). exact Vx.
  - rewrite (H2 A) in R0. clear - R0. generalize dependent (dbl "0.1"). intros y H. discriminate H.
Qed.

Lemma tenths_range (x : double) : B2SF x = S754_finite false 5404319552844596 (-54) ->
  is_finite x = true /\ (powerRZ 10 (-300) <= Rabs (value_of x) <= powerRZ 10 300)%R.
Proof.
  intros E. split; [rewrite <- is_finite_SF_B2SF, E; reflexivity|].
  unfold value_of. rewrite <- SF2R_B2SF, E. unfold SF2R, Defs.F2R, cond_Zopp. cbn [Defs.Fnum Defs.Fexp].
  assert (B : (Raux.bpow Zaux.radix2 (-54) = / 18014398509481984)%R) by reflexivity. rewrite B.
  rewrite Rabs_pos_eq by (apply Rmult_le_pos; [apply IZR_le; lia|]; left; apply Rinv_0_lt_compat; lra).
  assert (A : (1 <= 10 ^ 299)%R) by (apply pow_R1_Rle; lra). split.
  - change (powerRZ 10 (-300)) with (/ 10 ^ (1 + 299))%R. rewrite pow_add, pow_1.
    apply Rle_trans with (/ 10)%R; [apply Rinv_le_contravar; lra|]. lra.
  - change (powerRZ 10 300) with (10 ^ (1 + 299))%R. rewrite pow_add, pow_1. lra.
Qed.

Lemma ex_alloc : allocated (cells2 ex_sq) (ex_wd ex_start).
Proof.
  assert (S1 : forall c : list double, zlen c = 36 -> shaped 1 (cells2 ex_sq) [c]).
  { intros c E. apply one_array. exists c. split; [reflexivity|exact E]. }
  assert (Z0 : zlen (repeat (dbl "0") 36) = 36) by reflexivity.
  split; [|split; [|split]].
  - intros k [<-|[<-|[<-|[<-|[]]]]]; apply S1; exact Z0.
  - repeat split; exact Z0.
  - apply S1. unfold ex_start. rewrite zlen_map. reflexivity.
  - apply S1. exact Z0.
Qed.

Lemma ex_invert made run l l' : ex_restart made run =
    Some (S754_finite false 5404319552844596 (-54), S754_finite false 7205759403792794 (-56), l, l') ->
  exists d rs1 r rs2 gf,
  made = Ok d /\ run d (ex_opt 5) ex_start = Some (Ok (rs1 ++ r :: rs2, gf)) /\
  is_finite (g_time (s_after r)) = true /\
  (powerRZ 10 (-300) <= Rabs (value_of (g_time (s_after r))) <= powerRZ 10 300)%R /\
  short_decimal (g_dt (s_after r)) /\ List.length rs2 = List.length l.
Proof.
  unfold ex_restart. intros H.
  destruct made as [d| | |]; try discriminate H.
  destruct (run d (ex_opt 5) ex_start) as [[[[|r1 [|r2 [|r rs2]]] gf]| | |]|] eqn:E2; try discriminate H.
  destruct (k_u (g_world (s_after r))) as [|c [|? ?]]; try discriminate H.
  destruct (write2 show_value show_time (status_of (s_after r)) d c) as [doc| | |]; try discriminate H.
  destruct (time_options_for read_double (ex_opt 5) (Some doc)) as [o'| | |]; try discriminate H.
  destruct (set_solution (N := Num_double) read_double doc ex_sq _) as [[|]| | |]; try discriminate H.
  match type of H with context [run ?a ?b ?c] => destruct (run a b c) as [[[rs' gf']| | |]|]; try discriminate H end.
  injection H as H1 H2 H3 H4. destruct (tenths_range _ H1) as (F & B).
  exists d, [r1; r2], r, rs2, gf. split; [reflexivity|]. split; [exact E2|]. split; [exact F|]. split; [exact B|].
  split; [exact (tenth_short _ H2)|]. rewrite <- H3. unfold ex_steps. rewrite map_length. reflexivity.
Qed.

(** Runs with steps of size dt to time tf, and their restarts after step k + 1: for every later step
    of the run and of the restarted one, whether its size is negative and whether it ends after tf. *)
Definition ex_to (dt tf : string) : time_options double :=
  {| t_t0 := dbl "0"; t_tfinal := dbl tf; t_dt_initial := dbl dt; t_use_cfl := false; t_max_steps := 100;
     t_initial_step := 0; t_rel_tol := dbl "0"; t_abs_tol := dbl "0" |}.
Definition ex_marks (o : time_options double) (q : step_record (V:=double) (X:=rk3_world double (scratch double) unit) (L:=unit)) : bool * bool :=
  (nltb (Num := Num_double) (s_dt q) (nint (Num := Num_double) 0), nltb (Num := Num_double) (t_tfinal o) (g_time (s_after q))).
Definition ex_after (k : nat) (o : time_options double)
    (made : res (disc2 double)) (run : disc2 double -> time_options double -> list double ->
    option (res (list (step_record (V:=double) (X:=rk3_world double (scratch double) unit) (L:=unit)) *
                 integ (V:=double) (X:=rk3_world double (scratch double) unit) (L:=unit)))) :=
  match made with
  | Ok d =>
      match run d o ex_start with
      | Some (Ok (rs, _)) =>
          match skipn k rs with
          | r :: rs2 =>
              match k_u (g_world (s_after r)) with
              | [c] =>
                  match write2 show_value show_time (status_of (s_after r)) d c with
                  | Ok doc =>
                      match time_options_for read_double o (Some doc), set_solution (N := Num_double) read_double doc ex_sq (Target2 d ex_start) with
                      | Ok o', Ok (Target2 _ cy') =>
                          match run d o' cy' with
                          | Some (Ok (rs', _)) =>
                              Some (ngeb (N := Num_double) (nadd (Num := Num_double) (g_time (s_after r)) (g_dt (s_after r))) (t_tfinal o),
                                map (ex_marks o) rs2, map (ex_marks o) rs')
                          | _ => None
                          end
                      | _, _ => None
                      end
                  | _ => None
                  end
              | _ => None
              end
          | [] => None
          end
      | _ => None
      end
  | _ => None
  end.
Lemma ex_after_invert k o made run n m m' : ex_after k o made run = Some (n, m, m') -> exists d rs1 r rs2 gf c doc o' d2 cy' rs' gf',
  made = Ok d /\ run d o ex_start = Some (Ok (rs1 ++ r :: rs2, gf)) /\
  k_u (g_world (s_after r)) = [c] /\ write2 show_value show_time (status_of (s_after r)) d c = Ok doc /\
  time_options_for read_double o (Some doc) = Ok o' /\
  set_solution (N := Num_double) read_double doc ex_sq (Target2 d ex_start) = Ok (Target2 d2 cy') /\
  run d o' cy' = Some (Ok (rs', gf')) /\
  ngeb (N := Num_double) (nadd (Num := Num_double) (g_time (s_after r)) (g_dt (s_after r))) (t_tfinal o) = n /\
  map (ex_marks o) rs2 = m /\ map (ex_marks o) rs' = m'.
Proof.
  unfold ex_after. intros H.
  destruct made as [d| | |]; try discriminate H.
  destruct (run d o ex_start) as [[[rs gf]| | |]|] eqn:E2; try discriminate H.
  destruct (skipn k rs) as [|r rs2] eqn:ES; try discriminate H.
  destruct (k_u (g_world (s_after r))) as [|c [|? ?]] eqn:E3; try discriminate H.
  destruct (write2 show_value show_time (status_of (s_after r)) d c) as [doc| | |] eqn:E4; try discriminate H.
  destruct (time_options_for read_double o (Some doc)) as [o'| | |] eqn:E5; try discriminate H.
  destruct (set_solution (N := Num_double) read_double doc ex_sq _) as [z| | |] eqn:E6; try discriminate H.
  destruct z as [d2 cy'|d2 cy']; try discriminate H.
  destruct (run d o' cy') as [[[rs' gf']| | |]|] eqn:E7; try discriminate H.
  injection H as H0 H1 H2. exists d, (firstn k rs), r, rs2, gf, c, doc, o', d2, cy', rs', gf'.
  rewrite <- ES, firstn_skipn. repeat (split; [first [reflexivity|assumption]|]). exact H2.
Qed.
Lemma ex_eleven : ex_after 6 (ex_to "1.1" "9.9") (make2 (N := Num_double) ex_sq) ex_run =
  Some (false, [(false, false); (false, false); (false, false)], [(false, false); (false, false)]).
Proof. vm_compute. reflexivity. Qed.
Lemma ex_seven : ex_after 2 (ex_to "0.7" "2.5") (make2 (N := Num_double) ex_sq) ex_run =
  Some (true, [(false, false)], [(false, true); (true, false)]).
Proof. vm_compute. reflexivity. Qed.

Lemma pf_C74_steps_refuted :
  exists (dom : domain double) (d d2 : disc2 double) (p : ch_params double) (o o' : time_options double)
    (x : rk3_world double (scratch double) unit) (c c0 cy' : list double) (doc : list xml) rs1 r rs2 gf rs' gf',
  let run := solve (N := Num_double) (rk3_do (N := Num_double) (ch_rhs2 (N := Num_double) d p)) rk3_next_dt (fun _ => [])
               (fun (l : unit) _ _ _ y => Ok y) 20 in
  make2 (N := Num_double) dom = Ok d /\ k_u x = [c0] /\
  run o new_observable x = Some (Ok (rs1 ++ r :: rs2, gf)) /\
  k_u (g_world (s_after r)) = [c] /\ write2 show_value show_time (status_of (s_after r)) d c = Ok doc /\
  ngeb (N := Num_double) (nadd (Num := Num_double) (g_time (s_after r)) (g_dt (s_after r))) (t_tfinal o) = false /\
  time_options_for read_double o (Some doc) = Ok o' /\
  set_solution (N := Num_double) read_double doc dom (Target2 d c0) = Ok (Target2 d2 cy') /\
  run o' new_observable {| k_int := k_int x; k_sc := k_sc x; k_u := [cy']; k_du := k_du x; k_rest := k_rest x |} = Some (Ok (rs', gf')) /\
  List.length rs2 = 3%nat /\ List.length rs' = 2%nat.
Proof.
  destruct (ex_after_invert _ _ _ _ _ _ _ ex_eleven) as (d & rs1 & r & rs2 & gf & c & doc & o' & d2 & cy' & rs' & gf' & A1 & A2 & A3 & A4 & A5 & A6 & A7 & A8 & A9 & A10).
  exists ex_sq, d, d2, ex_par, (ex_to "1.1" "9.9"), o', (ex_wd ex_start), c, ex_start, cy', doc, rs1, r, rs2, gf, rs', gf'.
  cbv zeta. split; [exact A1|]. split; [reflexivity|]. split; [exact A2|]. split; [exact A3|]. split; [exact A4|]. split; [exact A8|].
  split; [exact A5|]. split; [exact A6|]. split; [exact A7|].
  apply (f_equal (@List.length _)) in A9, A10. rewrite map_length in A9, A10. split; [exact A9|exact A10].
Qed.

Lemma pf_C74_last_step_refuted :
  exists (dom : domain double) (d d2 : disc2 double) (p : ch_params double) (o o' : time_options double)
    (x : rk3_world double (scratch double) unit) (c c0 cy' : list double) (doc : list xml) rs1 r q gf q1 q2 gf',
  let run := solve (N := Num_double) (rk3_do (N := Num_double) (ch_rhs2 (N := Num_double) d p)) rk3_next_dt (fun _ => [])
               (fun (l : unit) _ _ _ y => Ok y) 20 in
  make2 (N := Num_double) dom = Ok d /\ k_u x = [c0] /\
  run o new_observable x = Some (Ok (rs1 ++ [r; q], gf)) /\
  k_u (g_world (s_after r)) = [c] /\ write2 show_value show_time (status_of (s_after r)) d c = Ok doc /\
  time_options_for read_double o (Some doc) = Ok o' /\
  set_solution (N := Num_double) read_double doc dom (Target2 d c0) = Ok (Target2 d2 cy') /\
  run o' new_observable {| k_int := k_int x; k_sc := k_sc x; k_u := [cy']; k_du := k_du x; k_rest := k_rest x |} = Some (Ok ([q1; q2], gf')) /\
  nltb (Num := Num_double) (t_tfinal o) (g_time (s_after q1)) = true /\
  nltb (Num := Num_double) (s_dt q2) (nint (Num := Num_double) 0) = true.
Proof.
  destruct (ex_after_invert _ _ _ _ _ _ _ ex_seven) as (d & rs1 & r & rs2 & gf & c & doc & o' & d2 & cy' & rs' & gf' & A1 & A2 & A3 & A4 & A5 & A6 & A7 & A8 & A9 & A10).
  destruct rs2 as [|q [|? ?]]; try discriminate A9. destruct rs' as [|q1 [|q2 [|? ?]]]; try discriminate A10.
  assert (B1 := f_equal (fun l => match l with x :: _ => snd x | [] => false end) A10).
  assert (B2 := f_equal (fun l => match l with _ :: x :: _ => fst x | _ => false end) A10).
  exists ex_sq, d, d2, ex_par, (ex_to "0.7" "2.5"), o', (ex_wd ex_start), c, ex_start, cy', doc, rs1, r, q, gf, q1, q2, gf'.
  cbv zeta. split; [exact A1|]. split; [reflexivity|]. split; [exact A2|]. split; [exact A3|]. split; [exact A4|].
  split; [exact A5|]. split; [exact A6|]. split; [exact A7|]. split; [exact B1|exact B2].
Qed.
