(** Proofs of C80. *)
From Coq Require Import Ascii String Reals Lra QArith.
From Verif Require Import ModelLogger ModelOptions Outcome ZList ZListProofs Num ModelIndex ModelInt32 ModelDisc3D ModelDisc2D ModelCH ModelObs
  ModelTime ModelRun ModelReduce ModelMon ModelText ModelVTK ModelMain ModelProgram SpecGrid SpecField SpecOptions SpecTime SpecVTK SpecRestart SpecMon SpecProgram
  SpecReject ExampleNum Disc3DProofs Disc2DProofs Make3Proofs Make2Proofs VTKFinal OptionsFinal ProgramFinal RerunFinal EarlyFinal RejectProofs.
From Coq Require Import ZArith Lia ZifyBool ZifyNat List.
Local Open Scope string_scope.
Local Open Scope list_scope.
Local Open Scope Z_scope.

Lemma pf_C80_rejected :
  forall (V : Type) (N : Num V) (pl : platform V) (fuel : nat) (fs : string -> option string) (vts : string -> list xml)
    (other : members V -> option (res (pworld V))) (args : list string) (opts m : members V) (vm : vmap V) (q : request),
  parse_options (pl_read pl) (pl_lit pl) (pl_eps100 pl) (pl_max100 pl) fs args opts = Ok (Running m vm) ->
  unset (base_opts (pl_lit pl) (pl_eps100 pl) (pl_max100 pl)) opts ->
  requests m q "none" -> 1 <= q_nx q -> 1 <= q_ny q -> 1 <= q_nz q ->
  (unknown q -> madgicart pl fuel fs vts other args opts = Some Fatal) /\
  (~ unknown q -> unsupported q -> madgicart pl fuel fs vts other args opts = Some Throw).
Proof. intros. eapply rejects; eauto. Qed.

Definition re_request (dim variant : Z) (eq ti bcx : string) : request := {|
  q_dimension := dim; q_equation := eq; q_integrator := ti; q_variant := variant; q_bc_x := bcx; q_bc_y := "periodic"; q_bc_z := "neumann";
  q_nx := 4; q_ny := 6; q_nz := 8 |}.
Definition re_args (dim variant eq ti bcx cfl : string) : list string :=
  ["--dimension=" ++ dim; "--domain_resolution_x=4"; "--domain_resolution_y=6"; "--domain_resolution_z"; "8"; "--kernel_variant=" ++ variant;
   "--equation_type=" ++ eq; "--time_integrator=" ++ ti; "--bc_x=" ++ bcx; "--bc_z=neumann"; "--use_cfl_time_step=" ++ cfl]%string.
Definition re_list (q : request) (r : string) : list (string * value R) :=
  [("dimension", VInt (q_dimension q)); ("equation_type", VString (q_equation q)); ("time_integrator", VString (q_integrator q));
    ("kernel_variant", VInt (q_variant q)); ("bc_x", VString (q_bc_x q)); ("bc_y", VString (q_bc_y q)); ("bc_z", VString (q_bc_z q));
    ("domain_resolution_x", VInt (q_nx q)); ("domain_resolution_y", VInt (q_ny q)); ("domain_resolution_z", VInt (q_nz q));
    ("initial_condition_file", VString r)].
Lemma re_unset : unset (base_opts (pl_lit ex_platform) (pl_eps100 ex_platform) (pl_max100 ex_platform)) ex_members.
Proof. intros o _ _. reflexivity. Qed.
Lemma re_asked (q : request) args : ex_values args (map fst (re_list q "none")) = Some (map snd (re_list q "none")) ->
  exists m vm, ex_parsed args = Ok (Running m vm) /\ requests m q "none".
Proof. intros H. exact (ex_asked_list _ _ H). Qed.
Lemma re_walls : exists m vm, ex_parsed (re_args "3" "1" "cahn-hilliard" "rk3ssp" "walls" "0") = Ok (Running m vm) /\
  requests m (re_request 3 1 "cahn-hilliard" "rk3ssp" "walls") "none".
Proof. apply re_asked. vm_compute. reflexivity. Qed.
Lemma re_walls_unknown : unknown (re_request 3 1 "cahn-hilliard" "rk3ssp" "walls").
Proof. left. intros [E|[E|[E|[]]]]; discriminate. Qed.
Lemma re_euler : exists m vm, ex_parsed (re_args "3" "1" "cahn-hilliard" "euler" "neumann" "0") = Ok (Running m vm) /\
  requests m (re_request 3 1 "cahn-hilliard" "euler" "neumann") "none".
Proof. apply re_asked. vm_compute. reflexivity. Qed.
Lemma re_euler_unsupported : ~ unknown (re_request 3 1 "cahn-hilliard" "euler" "neumann") /\ unsupported (re_request 3 1 "cahn-hilliard" "euler" "neumann").
Proof.
  split.
  - unfold unknown. cbn. intros [U|[U|[U|[U|[U|(_ & _ & U)]]]]]; try (apply U; tauto). lia.
  - right. cbn. intros H. repeat (destruct H as [H|H]; [discriminate|]). exact H.
Qed.

Lemma pf_C80_cfl :
  forall (V : Type) (N : Num V) (pl : platform V) (fuel : nat) (fs : string -> option string) (vts : string -> list xml)
    (other : members V -> option (res (pworld V))) (args : list string) (opts m : members V) (vm : vmap V) (q : request),
  parse_options (pl_read pl) (pl_lit pl) (pl_eps100 pl) (pl_max100 pl) fs args opts = Ok (Running m vm) ->
  unset (base_opts (pl_lit pl) (pl_eps100 pl) (pl_max100 pl)) opts ->
  requests m q "none" -> 1 <= q_nx q -> 1 <= q_ny q -> 1 <= q_nz q -> ~ unknown q ->
  q_equation q = "cahn-hilliard" -> q_integrator q = "rk3ssp" \/ q_integrator q = "ode23" ->
  m "use_cfl_time_step" = VBool true ->
  madgicart pl fuel fs vts other args opts = Some Fatal.
Proof. intros. eapply cfl_refused; eauto. Qed.

Lemma re_cfl : exists m vm, ex_parsed (re_args "2" "1" "cahn-hilliard" "ode23" "neumann" "1") = Ok (Running m vm) /\
  requests m (re_request 2 1 "cahn-hilliard" "ode23" "neumann") "none" /\ m "use_cfl_time_step" = VBool true.
Proof.
  destruct (ex_asked_list (re_list (re_request 2 1 "cahn-hilliard" "ode23" "neumann") "none" ++ [("use_cfl_time_step", VBool true)])
    (re_args "2" "1" "cahn-hilliard" "ode23" "neumann" "1")) as (m & vm & E & H); [vm_compute; reflexivity|].
  exists m, vm. apply Forall_app in H as (H1 & H2). split; [exact E|]. split; [exact H1|]. inversion H2. auto.
Qed.
Lemma re_cfl_known : ~ unknown (re_request 2 1 "cahn-hilliard" "ode23" "neumann").
Proof. unfold unknown. cbn. intros [U|[U|[U|[U|[U|(_ & _ & U)]]]]]; try (apply U; tauto). lia. Qed.

Lemma pf_C80_command_line :
  forall (V : Type) (N : Num V) (pl : platform V) (fuel : nat) (fs : string -> option string) (vts : string -> list xml)
    (other : members V -> option (res (pworld V))) (items : list item) (cmd : list (string * string)) (opts : members V),
  let table := base_opts (pl_lit pl) (pl_eps100 pl) (pl_max100 pl) in
  Forall2 (fun i nv => item_sets table i (fst nv) (snd nv)) items cmd ->
  (forall s, pl_read pl s = Throw \/ exists v, pl_read pl s = Ok v) ->
  (NoDup (map fst cmd) -> (forall n v, In (n, v) cmd -> exists x, accepts table (pl_read pl) n v x) ->
   forall f, opened cmd opts f -> fs f = None ->
     (In "help" (map fst cmd) -> madgicart pl fuel fs vts other (flat_map item_args items) opts = Some (Ok (Quit 0))) /\
     (~ In "help" (map fst cmd) -> f <> "" -> madgicart pl fuel fs vts other (flat_map item_args items) opts = Some (Ok (Quit 1)))) /\
  (~ NoDup (map fst cmd) \/ (exists n v, In (n, v) cmd /\ forall x, ~ accepts table (pl_read pl) n v x) ->
   madgicart pl fuel fs vts other (flat_map item_args items) opts = Some Throw) /\
  (forall n v rest, stands_for_none table n -> v <> "" ->
   madgicart pl fuel fs vts other (flat_map item_args items ++ [("--" ++ n)%string] ++ rest) opts = Some Throw /\
   madgicart pl fuel fs vts other (flat_map item_args items ++ [("--" ++ n ++ "=" ++ v)%string] ++ rest) opts = Some Throw).
Proof.
  intros V N pl fuel fs vts other items cmd opts table IS RT. split; [|split].
  - intros ND AC f OP NF. destruct (pf_C57_exit V (pl_read pl) (pl_lit pl) (pl_eps100 pl) (pl_max100 pl) fs items cmd f opts IS ND AC OP NF) as (H1 & H2).
    split; [intros H; unfold madgicart; rewrite (H1 H)|intros H F; unfold madgicart; rewrite (H2 H F)]; reflexivity.
  - intros B. unfold madgicart. rewrite (pf_C57_bad_command_line V (pl_read pl) (pl_lit pl) (pl_eps100 pl) (pl_max100 pl) fs items cmd opts RT IS B). reflexivity.
  - intros n v rest SN NE.
    destruct (pf_C57_unknown_option V (pl_read pl) (pl_lit pl) (pl_eps100 pl) (pl_max100 pl) fs items cmd n v rest opts IS SN NE) as (H1 & H2).
    split; unfold madgicart; [rewrite H1|rewrite H2]; reflexivity.
Qed.

Definition re_table : list (opt R) := base_opts (pl_lit ex_platform) (pl_eps100 ex_platform) (pl_max100 ex_platform).
Lemma re_items : Forall2 (fun i nv => item_sets re_table i (fst nv) (snd nv)) [Help; FileName "nofile"] [("help", ""); ("config_file", "nofile")].
Proof. constructor; [split; reflexivity|]. constructor; [|constructor]. cbn. repeat split. intros (t & H). discriminate. Qed.
Lemma re_reads s : pl_read ex_platform s = Throw \/ exists v, pl_read ex_platform s = Ok v.
Proof. cbn. destruct (String.eqb s "0.5"); [right; eauto|left; reflexivity]. Qed.
Lemma re_quit0 : madgicart ex_platform 0 ex_none (fun _ => []) ea_other ["--help"; "nofile"] ex_members = Some (Ok (Quit 0)).
Proof. reflexivity. Qed.
Lemma re_quit1 : madgicart ex_platform 0 ex_none (fun _ => []) ea_other ["nofile"] ex_members = Some (Ok (Quit 1)).
Proof. reflexivity. Qed.
Lemma re_iterations : madgicart ex_platform 0 ex_none (fun _ => []) ea_other ["nofile"; "--iterations=3"] ex_members = Some Throw.
Proof. reflexivity. Qed.

Lemma pf_C80_restart_3d_in_2d :
  forall (V : Type) (N : Num V) (pl : platform V) (fuel : nat) (fs : string -> option string) (vts : string -> list xml)
    (other : members V -> option (res (pworld V))) (args : list string) (opts m : members V) (vm : vmap V)
    (r ti : string) (dom0 : domain V) (i : Z) (t dt : V) (u : Z -> Z -> Z -> V),
  parse_options (pl_read pl) (pl_lit pl) (pl_eps100 pl) (pl_max100 pl) fs args opts = Ok (Running m vm) ->
  unset (base_opts (pl_lit pl) (pl_eps100 pl) (pl_max100 pl)) opts ->
  given m [("dimension", VInt 2); ("equation_type", VString "cahn-hilliard"); ("time_integrator", VString ti); ("initial_condition_file", VString r)] ->
  ti = "rk3ssp" \/ ti = "ode23" -> r <> "none" ->
  is_file3 pl dom0 i t dt u (vts r) -> readable3 pl dom0 t dt u -> valid_domain3 dom0 ->
  nx dom0 <= 2147483647 -> ny dom0 <= 2147483647 -> nz dom0 <= 2147483647 ->
  exists e, madgicart pl fuel fs vts other args opts = Some e /\ forall a, e <> Ok a.
Proof.
  intros V N pl fuel fs vts other args opts m vm r ti dom0 i t dt u PO UN G TI NE (d & c & MK & HC & EW) (VP & PR & _) HV N1 N2 N3.
  unfold given in G. apply Forall_cons_iff in G as (G1 & G). apply Forall_cons_iff in G as (G2 & G). apply Forall_cons_iff in G as (G3 & G).
  apply Forall_cons_iff in G as (G4 & _). cbn [fst snd] in *.
  assert (LC : zlen c = cells3 dom0) by apply HC.
  assert (EX : d3_dx d = cell_size dom0).
  { destruct (make3_ok dom0 HV) as (d' & E' & W & ED & _). assert (d' = d) by congruence. subst d'. rewrite (wf_dx _ W), ED. reflexivity. }
  rewrite <- EX in VP.
  destruct (pf_C55_round_trip_3d V N (pl_show pl) (pl_show6 pl) (pl_read pl) dom0 dom0 d d {| fs_iter := i; fs_time := t; fs_dt := dt |} c c u (pl_raw pl))
    as (doc1 & EW1 & _ & TH); auto.
  assert (ED : doc1 = vts r) by congruence. rewrite ED in TH.
  apply (wrong_file pl fuel fs vts other args opts m vm PO UN r 2 ti); auto. intros; discriminate.
Qed.

Definition re_restart_args (dim : string) : list string := ea_restart_args dim "rk3ssp" "1" "0.5" "10".
Lemma re_unset_ea : unset (base_opts (pl_lit ea_platform) (pl_eps100 ea_platform) (pl_max100 ea_platform)) ex_members.
Proof. intros o _ _. reflexivity. Qed.
Lemma re_restart2 : exists m vm, parse_options (pl_read ea_platform) (pl_lit ea_platform) (pl_eps100 ea_platform) (pl_max100 ea_platform) ex_none
    (re_restart_args "2") ex_members = Ok (Running m vm) /\
  given m [("dimension", VInt 2); ("equation_type", VString "cahn-hilliard"); ("time_integrator", VString "rk3ssp"); ("initial_condition_file", VString "old")].
Proof. apply (rr_asked ea_platform ex_members). vm_compute. reflexivity. Qed.
Lemma re_restart3 : exists m vm, parse_options (pl_read ea_platform) (pl_lit ea_platform) (pl_eps100 ea_platform) (pl_max100 ea_platform) ex_none
    (re_restart_args "3") ex_members = Ok (Running m vm) /\
  given m [("dimension", VInt 3); ("equation_type", VString "cahn-hilliard"); ("time_integrator", VString "rk3ssp"); ("initial_condition_file", VString "old")].
Proof. apply (rr_asked ea_platform ex_members). vm_compute. reflexivity. Qed.

Lemma pf_C80_restart_2d_in_3d :
  forall (V : Type) (N : Num V) (pl : platform V) (fuel : nat) (fs : string -> option string) (vts : string -> list xml)
    (other : members V -> option (res (pworld V))) (args : list string) (opts m : members V) (vm : vmap V)
    (r ti : string) (dom0 : domain V) (i : Z) (t dt zero : V) (u : Z -> Z -> V),
  parse_options (pl_read pl) (pl_lit pl) (pl_eps100 pl) (pl_max100 pl) fs args opts = Ok (Running m vm) ->
  unset (base_opts (pl_lit pl) (pl_eps100 pl) (pl_max100 pl)) opts ->
  given m [("dimension", VInt 3); ("equation_type", VString "cahn-hilliard"); ("time_integrator", VString ti); ("initial_condition_file", VString r)] ->
  ti = "rk3ssp" \/ ti = "ode23" -> r <> "none" ->
  is_file2 pl dom0 i t dt u (vts r) -> readable2 pl dom0 t dt u -> pl_read pl "0.0" = Ok zero -> valid_domain2 dom0 -> nx dom0 <= 2147483647 ->
  exists e, madgicart pl fuel fs vts other args opts = Some e /\ forall a, e <> Ok a.
Proof.
  intros V N pl fuel fs vts other args opts m vm r ti dom0 i t dt zero u PO UN G TI NE (d & c & MK & HC & EW) (VP & PR & _) RZ HV N1.
  unfold given in G. apply Forall_cons_iff in G as (G1 & G). apply Forall_cons_iff in G as (G2 & G). apply Forall_cons_iff in G as (G3 & G).
  apply Forall_cons_iff in G as (G4 & _). cbn [fst snd] in *.
  assert (LC : zlen c = cells2 dom0) by apply HC.
  assert (EX : d2_dx d = cell_size dom0).
  { destruct (make2_ok dom0 HV) as (d' & E' & W & ED & _). assert (d' = d) by congruence. subst d'. rewrite (wf2_dx _ W), ED. reflexivity. }
  rewrite <- EX in VP.
  destruct (pf_C55_round_trip_2d V N (pl_show pl) (pl_show6 pl) (pl_read pl) zero dom0 dom0 d d {| fs_iter := i; fs_time := t; fs_dt := dt |} c c u (pl_raw pl))
    as (doc1 & EW1 & _ & TH); auto.
  assert (ED : doc1 = vts r) by congruence. rewrite ED in TH.
  apply (wrong_file pl fuel fs vts other args opts m vm PO UN r 3 ti); auto. intros; discriminate.
Qed.

Lemma re_zero : exists z, pl_read ea_platform "0.0" = Ok z.
Proof. eexists. reflexivity. Qed.

Lemma pf_C80_no_cells_refuted :
  forall (V : Type) (N : Num V) (pl : platform V) (fuel : nat) (fs : string -> option string) (vts : string -> list xml)
    (other : members V -> option (res (pworld V))) (args : list string) (opts m : members V) (vm : vmap V) (q : request),
  parse_options (pl_read pl) (pl_lit pl) (pl_eps100 pl) (pl_max100 pl) fs args opts = Ok (Running m vm) ->
  unset (base_opts (pl_lit pl) (pl_eps100 pl) (pl_max100 pl)) opts ->
  requests m q "none" -> q_nx q = 0 ->
  madgicart pl fuel fs vts other args opts = Some UB.
Proof. intros. eapply no_cells; eauto. Qed.

Definition re_flat : request := {|
  q_dimension := 2; q_equation := "cahn-hilliard"; q_integrator := "rk3ssp"; q_variant := 1; q_bc_x := "periodic"; q_bc_y := "periodic"; q_bc_z := "periodic";
  q_nx := 0; q_ny := 6; q_nz := 8 |}.
Lemma re_flat_asked : exists m vm, ex_parsed (ex_args "2" "rk3ssp" "0" "100" "20") = Ok (Running m vm) /\ requests m re_flat "none".
Proof. apply re_asked. vm_compute. reflexivity. Qed.

Lemma pf_C80_missing_file_refuted :
  forall (V : Type) (N : Num V) (pl : platform V) (fuel : nat) (fs : string -> option string) (vts : string -> list xml)
    (other : members V -> option (res (pworld V))) (args : list string) (opts m : members V) (vm : vmap V) (r : string),
  parse_options (pl_read pl) (pl_lit pl) (pl_eps100 pl) (pl_max100 pl) fs args opts = Ok (Running m vm) ->
  unset (base_opts (pl_lit pl) (pl_eps100 pl) (pl_max100 pl)) opts ->
  m "initial_condition_file" = VString r -> r <> "none" -> vts r = [] ->
  madgicart pl fuel fs vts other args opts = Some UB.
Proof. intros. eapply no_file; eauto. Qed.

Lemma re_missing : exists m vm, parse_options (pl_read ea_platform) (pl_lit ea_platform) (pl_eps100 ea_platform) (pl_max100 ea_platform) ex_none
    (re_restart_args "3") ex_members = Ok (Running m vm) /\ m "initial_condition_file" = VString "old".
Proof.
  destruct re_restart3 as (m & vm & E & G). exists m, vm. split; [exact E|]. unfold given in G. rewrite Forall_forall in G.
  exact (G ("initial_condition_file", VString "old") ltac:(cbn; auto)).
Qed.

