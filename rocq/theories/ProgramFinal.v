(** Proofs of C72. *)
From Coq Require Import String Reals Lra.
From Verif Require Import ModelLogger ModelOptions Outcome ZList ZListProofs Num ModelIndex ModelInt32 ModelDisc3D ModelDisc2D ModelCH ModelObs
  ModelTime ModelRun ModelReduce ModelMon ModelVTK ModelMain ModelProgram SpecGrid SpecField SpecTime SpecRestart SpecMon SpecProgram ExampleNum SumProofs FieldProofs MonFinal
  Program5Proofs Program6Proofs Program7Proofs Program8Proofs.
From Coq Require Import ZifyBool ZifyNat List.
Local Open Scope string_scope.
Local Open Scope list_scope.
Local Open Scope Z_scope.

(** ** Example: command lines and the settings they ask for. *)
Definition ex_platform : platform R := {|
  pl_read := fun s => if String.eqb s "0.5" then Ok (1 / 2)%R else Throw; pl_showg := fun _ => "x";
  pl_lit := fun m e => if m =? 0 then 0%R else (IZR m * powerRZ 10 e)%R; pl_eps100 := (/ 1000000)%R; pl_max100 := 1000000%R;
  pl_show := fun _ => "x"; pl_show6 := fun _ => "x"; pl_showe := fun _ => "x"; pl_table := fun l => String.concat "" l; pl_banner := "";
  pl_red := ex_reducers; pl_rmax := fun x _ => x; pl_hi := DBL_MAX; pl_lo := DBL_MIN; pl_pow := fun x _ => x;
  pl_draw := fun n => if Nat.even n then (1 / 100)%R else (- (1 / 200))%R;
  pl_raw := ex_dom 0%R 1%R 4 4 4 2 Periodic Periodic Periodic |}.
Definition ex_none : string -> option string := fun _ => None.
Definition ex_members : members R := fun _ => VString "".
Definition ex_args (dim integrator nx limit log : string) : list string :=
  ["--dimension=" ++ dim; "--domain_resolution_x=" ++ nx; "--domain_resolution_y=6"; "--domain_resolution_z"; "8";
   "--time_integrator=" ++ integrator; "--time_step_size=0.5"; "--max_time_steps=" ++ limit; "--m"; "0.5";
   "--log_frequency=" ++ log; "--save_every=3"; "--solution_output_file=run"]%string.
Definition ex_settings (nx limit log : Z) : settings R := {|
  s_nx := nx; s_ny := 6; s_nz := 8; s_xbeg := 0%R; s_xend := (IZR 1 * powerRZ 10 0)%R; s_ybeg := 0%R; s_zbeg := 0%R;
  s_bc_x := "periodic"; s_bc_y := "periodic"; s_bc_z := "periodic"; s_variant := 1; s_m := (1 / 2)%R;
  s_sigma := (IZR 2914488109293305 * powerRZ 10 (-13))%R; s_eps2 := (IZR 2419753086419753 * powerRZ 10 (-20))%R;
  s_t0 := 0%R; s_tfinal := (IZR 1 * powerRZ 10 0)%R; s_dt := (1 / 2)%R; s_max_steps := limit; s_log_every := log; s_save_every := 3;
  s_log_file := "maDGiCart"; s_output := "run" |}.
Definition ex_parsed (args : list string) : res (parsed R) :=
  parse_options (pl_read ex_platform) (pl_lit ex_platform) (pl_eps100 ex_platform) (pl_max100 ex_platform) ex_none args ex_members.
Definition ex_values (args names : list string) : option (list (value R)) :=
  match ex_parsed args with Ok (Running m _) => Some (map m names) | _ => None end.
Definition ex_asked (l : list (string * value R)) (args : list string) : Prop :=
  exists m vm, ex_parsed args = Ok (Running m vm) /\ given m l.
Lemma ex_asked_list l args : ex_values args (map fst l) = Some (map snd l) -> ex_asked l args.
Proof.
  unfold ex_values, ex_asked. destruct (ex_parsed args) as [[m vm|c]| | |]; try discriminate.
  intros E. exists m, vm. split; [reflexivity|]. injection E as E. unfold given. induction l as [|(n, v) l IH]; [constructor|].
  cbn [map fst snd] in E. injection E as E1 E2. constructor; [exact E1|apply IH; exact E2].
Qed.

Lemma pf_C72_run_rk3_3d :
  forall (pl : platform R) (fuel : nat) (fs : string -> option string) (vts : string -> list xml)
    (other : members R -> option (res (pworld R))) (args : list string) (opts m : members R) (vm : vmap R) (s : settings R)
    (bx by_ bz : bctype),
  parse_options (pl_read pl) (pl_lit pl) (pl_eps100 pl) (pl_max100 pl) fs args opts = Ok (Running m vm) ->
  asks m 3 "rk3ssp" "none" s ->
  sound s fuel -> bc_named (s_bc_x s) bx -> bc_named (s_bc_y s) by_ -> bc_named (s_bc_z s) bz ->
  let dom := grid_of s bx by_ bz in
  exists w, madgicart pl fuel fs vts other args opts = Some (Ok (Finished w)) /\
    story3 pl s dom [] [config_template (pl_showg pl) (pl_lit pl) (pl_eps100 pl) (pl_max100 pl) vm] (0, s_t0 s, s_dt s) (fun dt p => p = dt)
      (ssp3_3 (ch_rate3 dom s)) (ssp3_rate3 (ch_rate3 dom s)) (random3 dom (pl_draw pl) (s_m s)) w.
Proof.
  intros. apply run3_rk3 with (m := m); auto.
Qed.

Lemma ex_run_rk3_3d : ex_asked (asked 3 "rk3ssp" "none" (ex_settings 4 100 20)) (ex_args "3" "rk3ssp" "4" "100" "20").
Proof. apply ex_asked_list. vm_compute. reflexivity. Qed.

Lemma ex_sound : sound (ex_settings 4 100 20) 100 /\ bc_named "periodic" Periodic /\ reduces ex_platform.
Proof.
  split; [unfold sound; cbn; lia|]. split; [left; split; reflexivity|].
  split; [exact (proj1 ex_sum_ok)|]. split; [exact ex_reducers_ok|]. split; reflexivity.
Qed.

Lemma pf_C72_run_ode23_3d :
  forall (pl : platform R) (fuel : nat) (fs : string -> option string) (vts : string -> list xml)
    (other : members R -> option (res (pworld R))) (args : list string) (opts m : members R) (vm : vmap R) (s : settings R)
    (bx by_ bz : bctype) (tol lo hi : R),
  parse_options (pl_read pl) (pl_lit pl) (pl_eps100 pl) (pl_max100 pl) fs args opts = Ok (Running m vm) ->
  asks m 3 "ode23" "none" s ->
  given m [("time_rel_err_tol", VDouble tol); ("min_time_step_size", VDouble lo); ("max_time_step_size", VDouble hi)] ->
  sound s fuel -> bc_named (s_bc_x s) bx -> bc_named (s_bc_y s) by_ -> bc_named (s_bc_z s) bz ->
  let dom := grid_of s bx by_ bz in
  exists w, madgicart pl fuel fs vts other args opts = Some (Ok (Finished w)) /\
    story3 pl s dom ["time_err"%string] [config_template (pl_showg pl) (pl_lit pl) (pl_eps100 pl) (pl_max100 pl) vm] (0, s_t0 s, s_dt s) (within lo hi)
      (bs_step3 (ch_rate3 dom s)) (bs_rate3 (ch_rate3 dom s)) (random3 dom (pl_draw pl) (s_m s)) w.
Proof.
  intros. apply run3_ode23 with (m := m) (tol := tol); auto.
Qed.

Lemma ex_run_ode23_3d : ex_asked (asked 3 "ode23" "none" (ex_settings 4 100 20) ++
  [("time_rel_err_tol", VDouble (IZR 1 * powerRZ 10 (-2))%R); ("min_time_step_size", VDouble (/ 1000000)%R); ("max_time_step_size", VDouble 1000000%R)])
  (ex_args "3" "ode23" "4" "100" "20").
Proof. apply ex_asked_list. vm_compute. reflexivity. Qed.
Lemma ex_run_ode23_split_3d : exists m vm, ex_parsed (ex_args "3" "ode23" "4" "100" "20") = Ok (Running m vm) /\
  asks m 3 "ode23" "none" (ex_settings 4 100 20) /\
  given m [("time_rel_err_tol", VDouble (IZR 1 * powerRZ 10 (-2))%R); ("min_time_step_size", VDouble (/ 1000000)%R); ("max_time_step_size", VDouble 1000000%R)].
Proof. destruct ex_run_ode23_3d as (m & vm & E & G). exists m, vm. split; [exact E|]. apply Forall_app in G as (G1 & G2). split; assumption. Qed.

Lemma pf_C72_run_rk3_2d :
  forall (pl : platform R) (fuel : nat) (fs : string -> option string) (vts : string -> list xml)
    (other : members R -> option (res (pworld R))) (args : list string) (opts m : members R) (vm : vmap R) (s : settings R)
    (bx by_ bz : bctype),
  parse_options (pl_read pl) (pl_lit pl) (pl_eps100 pl) (pl_max100 pl) fs args opts = Ok (Running m vm) ->
  asks m 2 "rk3ssp" "none" s ->
  sound s fuel -> bc_named (s_bc_x s) bx -> bc_named (s_bc_y s) by_ -> bc_named (s_bc_z s) bz ->
  let dom := grid_of s bx by_ bz in
  exists w, madgicart pl fuel fs vts other args opts = Some (Ok (Finished w)) /\
    story2 pl s dom [] [config_template (pl_showg pl) (pl_lit pl) (pl_eps100 pl) (pl_max100 pl) vm] (0, s_t0 s, s_dt s) (fun dt p => p = dt)
      (ssp3_2 (ch_rate2 dom s)) (ssp3_rate2 (ch_rate2 dom s)) (random2 dom (pl_draw pl) (s_m s)) w.
Proof.
  intros. apply run2_rk3 with (m := m); auto.
Qed.

Lemma ex_run_rk3_2d : ex_asked (asked 2 "rk3ssp" "none" (ex_settings 4 100 20)) (ex_args "2" "rk3ssp" "4" "100" "20").
Proof. apply ex_asked_list. vm_compute. reflexivity. Qed.

Lemma pf_C72_run_ode23_2d :
  forall (pl : platform R) (fuel : nat) (fs : string -> option string) (vts : string -> list xml)
    (other : members R -> option (res (pworld R))) (args : list string) (opts m : members R) (vm : vmap R) (s : settings R)
    (bx by_ bz : bctype) (tol lo hi : R),
  parse_options (pl_read pl) (pl_lit pl) (pl_eps100 pl) (pl_max100 pl) fs args opts = Ok (Running m vm) ->
  asks m 2 "ode23" "none" s ->
  given m [("time_rel_err_tol", VDouble tol); ("min_time_step_size", VDouble lo); ("max_time_step_size", VDouble hi)] ->
  sound s fuel -> bc_named (s_bc_x s) bx -> bc_named (s_bc_y s) by_ -> bc_named (s_bc_z s) bz ->
  let dom := grid_of s bx by_ bz in
  exists w, madgicart pl fuel fs vts other args opts = Some (Ok (Finished w)) /\
    story2 pl s dom ["time_err"%string] [config_template (pl_showg pl) (pl_lit pl) (pl_eps100 pl) (pl_max100 pl) vm] (0, s_t0 s, s_dt s) (within lo hi)
      (bs_step2 (ch_rate2 dom s)) (bs_rate2 (ch_rate2 dom s)) (random2 dom (pl_draw pl) (s_m s)) w.
Proof.
  intros. apply run2_ode23 with (m := m) (tol := tol); auto.
Qed.

Lemma ex_run_ode23_2d : ex_asked (asked 2 "ode23" "none" (ex_settings 4 100 20) ++
  [("time_rel_err_tol", VDouble (IZR 1 * powerRZ 10 (-2))%R); ("min_time_step_size", VDouble (/ 1000000)%R); ("max_time_step_size", VDouble 1000000%R)])
  (ex_args "2" "ode23" "4" "100" "20").
Proof. apply ex_asked_list. vm_compute. reflexivity. Qed.
Lemma ex_run_ode23_split_2d : exists m vm, ex_parsed (ex_args "2" "ode23" "4" "100" "20") = Ok (Running m vm) /\
  asks m 2 "ode23" "none" (ex_settings 4 100 20) /\
  given m [("time_rel_err_tol", VDouble (IZR 1 * powerRZ 10 (-2))%R); ("min_time_step_size", VDouble (/ 1000000)%R); ("max_time_step_size", VDouble 1000000%R)].
Proof. destruct ex_run_ode23_2d as (m & vm & E & G). exists m, vm. split; [exact E|]. apply Forall_app in G as (G1 & G2). split; assumption. Qed.

Lemma pf_C72_mean_3d :
  forall (pl : platform R) (fuel : nat) (fs : string -> option string) (vts : string -> list xml)
    (other : members R -> option (res (pworld R))) (args : list string) (opts m : members R) (vm : vmap R) (s : settings R)
    (bx by_ bz : bctype) (ti : string),
  parse_options (pl_read pl) (pl_lit pl) (pl_eps100 pl) (pl_max100 pl) fs args opts = Ok (Running m vm) ->
  asks m 3 ti "none" s ->
  ti = "rk3ssp" \/ (ti = "ode23" /\ exists tol lo hi,
    given m [("time_rel_err_tol", VDouble tol); ("min_time_step_size", VDouble lo); ("max_time_step_size", VDouble hi)]) ->
  sound s fuel -> bc_named (s_bc_x s) bx -> bc_named (s_bc_y s) by_ -> bc_named (s_bc_z s) bz -> bx <> Neumann -> by_ <> Neumann -> bz <> Neumann ->
  exists w, madgicart pl fuel fs vts other args opts = Some (Ok (Finished w)) /\
    Forall (fun f => exists i t dt u, is_file3 pl (grid_of s bx by_ bz) i t dt u (snd f) /\
      mean3 (grid_of s bx by_ bz) u = s_m s) (w_files w).
Proof.
  intros pl fuel fs vts other args opts m vm s bx by_ bz ti PO A TI SO BX BY BZ PX PY PZ.
  assert (HV : valid_domain3 (grid_of s bx by_ bz)) by (destruct SO as (S1 & S2 & S3 & _); unfold valid_domain3; cbn; lia).
  assert (HP : all_periodic (grid_of s bx by_ bz)) by (repeat split; assumption).
  destruct TI as [->|(-> & tol & lo & hi & G)].
  - destruct (run3_rk3 pl fuel fs vts other args opts m vm s _ _ _ PO A SO BX BY BZ) as (w & E & ST). exists w. split; [exact E|].
    eapply (story_mean3 s _ HV); [|apply random_off3; exact HV|exact ST]. apply ssp_off3; auto.
  - destruct (run3_ode23 pl fuel fs vts other args opts m vm s _ _ _ tol lo hi PO A G SO BX BY BZ) as (w & E & ST). exists w. split; [exact E|].
    eapply (story_mean3 s _ HV); [|apply random_off3; exact HV|exact ST]. apply bs_off3; auto.
Qed.

Lemma pf_C72_mean_2d :
  forall (pl : platform R) (fuel : nat) (fs : string -> option string) (vts : string -> list xml)
    (other : members R -> option (res (pworld R))) (args : list string) (opts m : members R) (vm : vmap R) (s : settings R)
    (bx by_ bz : bctype) (ti : string),
  parse_options (pl_read pl) (pl_lit pl) (pl_eps100 pl) (pl_max100 pl) fs args opts = Ok (Running m vm) ->
  asks m 2 ti "none" s ->
  ti = "rk3ssp" \/ (ti = "ode23" /\ exists tol lo hi,
    given m [("time_rel_err_tol", VDouble tol); ("min_time_step_size", VDouble lo); ("max_time_step_size", VDouble hi)]) ->
  sound s fuel -> bc_named (s_bc_x s) bx -> bc_named (s_bc_y s) by_ -> bc_named (s_bc_z s) bz ->
  exists w, madgicart pl fuel fs vts other args opts = Some (Ok (Finished w)) /\
    Forall (fun f => exists i t dt u, is_file2 pl (grid_of s bx by_ bz) i t dt u (snd f) /\
      mean2 (grid_of s bx by_ bz) u = s_m s) (w_files w).
Proof.
  intros pl fuel fs vts other args opts m vm s bx by_ bz ti PO A TI SO BX BY BZ.
  assert (HV : valid_domain2 (grid_of s bx by_ bz)) by (destruct SO as (S1 & S2 & S3 & _); unfold valid_domain2; cbn; lia).
  destruct TI as [->|(-> & tol & lo & hi & G)].
  - destruct (run2_rk3 pl fuel fs vts other args opts m vm s _ _ _ PO A SO BX BY BZ) as (w & E & ST). exists w. split; [exact E|].
    eapply (story_mean2 s _ HV); [|apply random_off2; exact HV|exact ST]. apply ssp_off2; auto.
  - destruct (run2_ode23 pl fuel fs vts other args opts m vm s _ _ _ tol lo hi PO A G SO BX BY BZ) as (w & E & ST). exists w. split; [exact E|].
    eapply (story_mean2 s _ HV); [|apply random_off2; exact HV|exact ST]. apply bs_off2; auto.
Qed.

Lemma pf_C72_log_free_3d :
  forall (V : Type) (N : Num V) (pl : platform V) (fuel fuel' : nat) (fs fs' : string -> option string) (vts vts' : string -> list xml)
    (other other' : members V -> option (res (pworld V))) (args args' : list string) (opts opts' m m' : members V) (vm vm' : vmap V)
    (s s' : settings V) (bx by_ bz : bctype),
  parse_options (pl_read pl) (pl_lit pl) (pl_eps100 pl) (pl_max100 pl) fs args opts = Ok (Running m vm) ->
  parse_options (pl_read pl) (pl_lit pl) (pl_eps100 pl) (pl_max100 pl) fs' args' opts' = Ok (Running m' vm') ->
  asks m 3 "rk3ssp" "none" s -> asks m' 3 "rk3ssp" "none" s' -> same_but_log s s' ->
  sound s fuel -> sound s' fuel' -> bc_named (s_bc_x s) bx -> bc_named (s_bc_y s) by_ -> bc_named (s_bc_z s) bz ->
  neqb (nint 0 : V) (nint 0) = true ->
  exists w w', madgicart pl fuel fs vts other args opts = Some (Ok (Finished w)) /\
    madgicart pl fuel' fs' vts' other' args' opts' = Some (Ok (Finished w')) /\ w_files w = w_files w'.
Proof. intros. eapply log_free3; eassumption. Qed.

Lemma ex_log_free_3d : ex_asked (asked 3 "rk3ssp" "none" (ex_settings 4 100 7)) (ex_args "3" "rk3ssp" "4" "100" "7").
Proof. apply ex_asked_list. vm_compute. reflexivity. Qed.

Lemma ex_same : same_but_log (ex_settings 4 100 20) (ex_settings 4 100 7) /\ sound (ex_settings 4 100 7) 100 /\ neqb (nint 0 : R) (nint 0) = true.
Proof. split; [repeat split|]. split; [unfold sound; cbn; lia|exact zero_eq]. Qed.

Lemma pf_C72_log_free_2d :
  forall (V : Type) (N : Num V) (pl : platform V) (fuel fuel' : nat) (fs fs' : string -> option string) (vts vts' : string -> list xml)
    (other other' : members V -> option (res (pworld V))) (args args' : list string) (opts opts' m m' : members V) (vm vm' : vmap V)
    (s s' : settings V) (bx by_ bz : bctype),
  parse_options (pl_read pl) (pl_lit pl) (pl_eps100 pl) (pl_max100 pl) fs args opts = Ok (Running m vm) ->
  parse_options (pl_read pl) (pl_lit pl) (pl_eps100 pl) (pl_max100 pl) fs' args' opts' = Ok (Running m' vm') ->
  asks m 2 "rk3ssp" "none" s -> asks m' 2 "rk3ssp" "none" s' -> same_but_log s s' ->
  sound s fuel -> sound s' fuel' -> bc_named (s_bc_x s) bx -> bc_named (s_bc_y s) by_ -> bc_named (s_bc_z s) bz ->
  neqb (nint 0 : V) (nint 0) = true ->
  exists w w', madgicart pl fuel fs vts other args opts = Some (Ok (Finished w)) /\
    madgicart pl fuel' fs' vts' other' args' opts' = Some (Ok (Finished w')) /\ w_files w = w_files w'.
Proof. intros. eapply log_free2; eassumption. Qed.

Lemma ex_log_free_2d : ex_asked (asked 2 "rk3ssp" "none" (ex_settings 4 100 7)) (ex_args "2" "rk3ssp" "4" "100" "7").
Proof. apply ex_asked_list. vm_compute. reflexivity. Qed.

Lemma pf_C72_step_limit_3d_refuted :
  forall (V : Type) (N : Num V) (pl : platform V) (fuel : nat) (fs : string -> option string) (vts : string -> list xml)
    (other : members V -> option (res (pworld V))) (args : list string) (opts m : members V) (vm : vmap V) (s : settings V)
    (bx by_ bz : bctype),
  parse_options (pl_read pl) (pl_lit pl) (pl_eps100 pl) (pl_max100 pl) fs args opts = Ok (Running m vm) ->
  asks m 3 "rk3ssp" "none" s -> 2 <= s_nx s -> 2 <= s_ny s <= 2147483647 -> 2 <= s_nz s <= 2147483647 -> 0 <= s_variant s <= 2 ->
  bc_named (s_bc_x s) bx -> bc_named (s_bc_y s) by_ -> bc_named (s_bc_z s) bz ->
  s_log_every s <> 0 -> neqb (nint 0 : V) (nint 0) = true -> 2147483647 < s_max_steps s <= 4294967295 -> (1 <= fuel)%nat ->
  exists w f fin, madgicart pl fuel fs vts other args opts = Some (Ok (Finished w)) /\
    w_files w = every (s_save_every s) [f] ++ [fin] /\
    fst f = file_name3 s (base_of s) 1 /\ fst fin = file_name3 s (base_of s ++ "_final")%string 1.
Proof. intros. eapply wraps3; eassumption. Qed.

Lemma ex_limit_3d : ex_asked (asked 3 "rk3ssp" "none" (ex_settings 4 3000000000 20)) (ex_args "3" "rk3ssp" "4" "3000000000" "20").
Proof. apply ex_asked_list. vm_compute. reflexivity. Qed.

Lemma pf_C72_step_limit_2d_refuted :
  forall (V : Type) (N : Num V) (pl : platform V) (fuel : nat) (fs : string -> option string) (vts : string -> list xml)
    (other : members V -> option (res (pworld V))) (args : list string) (opts m : members V) (vm : vmap V) (s : settings V)
    (bx by_ bz : bctype),
  parse_options (pl_read pl) (pl_lit pl) (pl_eps100 pl) (pl_max100 pl) fs args opts = Ok (Running m vm) ->
  asks m 2 "rk3ssp" "none" s -> 2 <= s_nx s -> 2 <= s_ny s <= 2147483647 -> 2 <= s_nz s <= 2147483647 ->
  bc_named (s_bc_x s) bx -> bc_named (s_bc_y s) by_ -> bc_named (s_bc_z s) bz ->
  s_log_every s <> 0 -> neqb (nint 0 : V) (nint 0) = true -> 2147483647 < s_max_steps s <= 4294967295 -> (1 <= fuel)%nat ->
  exists w f fin, madgicart pl fuel fs vts other args opts = Some (Ok (Finished w)) /\
    w_files w = every (s_save_every s) [f] ++ [fin] /\
    fst f = file_name2 s (base_of s) 1 /\ fst fin = file_name2 s (base_of s ++ "_final")%string 1.
Proof. intros. eapply wraps2; eassumption. Qed.

Lemma ex_limit_2d : ex_asked (asked 2 "rk3ssp" "none" (ex_settings 4 3000000000 20)) (ex_args "2" "rk3ssp" "4" "3000000000" "20").
Proof. apply ex_asked_list. vm_compute. reflexivity. Qed.

Lemma pf_C72_zero_resolution_refuted :
  forall (V : Type) (N : Num V) (pl : platform V) (fuel : nat) (fs : string -> option string) (vts : string -> list xml)
    (other : members V -> option (res (pworld V))) (args : list string) (opts m : members V) (vm : vmap V) (s : settings V)
    (dim : Z) (ti : string),
  parse_options (pl_read pl) (pl_lit pl) (pl_eps100 pl) (pl_max100 pl) fs args opts = Ok (Running m vm) ->
  asks m dim ti "none" s -> s_nx s = 0 -> madgicart pl fuel fs vts other args opts = Some UB.
Proof. intros. eapply zero_resolution; eassumption. Qed.

Lemma ex_zero : ex_asked (asked 2 "rk3ssp" "none" (ex_settings 0 100 20)) (ex_args "2" "rk3ssp" "0" "100" "20").
Proof. apply ex_asked_list. vm_compute. reflexivity. Qed.

