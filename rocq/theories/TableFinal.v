(** Logs read as tables: the proofs and the examples. *)
From Coq Require Import String Reals.
From Verif Require Import ModelMG ModelMGCH ModelLogger ModelOptions Outcome ZList Num ModelText ModelDisc3D ModelDisc2D ModelVTK ModelProgram ModelImplicit ModelBanner SpecGrid SpecField SpecRestart SpecMon
  SpecMG SpecLogger SpecProgram SpecImplicit SpecPoissonRun SpecTable TableProofs BannerProofs TableRunProofs ExampleNum ProgramFinal RerunFinal EarlyFinal ImplicitFinal PoissonRunFinal PoissonImplicitFinal RestartRunFinal.
From Coq Require Import ZArith Ascii List Lia.
Import ListNotations.
Local Open Scope string_scope.
Local Open Scope list_scope.
Local Open Scope Z_scope.

(** An example: two messages, one of them with a line end in it, and fifty-one rows. *)
Definition ta_show (n : Z) : string := if n <? 0 then "-1.00000e+00" else if n =? 0 then "0.00000e+00" else "1.00000e+00".
Definition ta_entries : list (entry Z) :=
  [Says LInfo ("configuration" ++ nl ++ "dt 1")%string; Row [("iter", 1)] [("res_c", 0)] [("min_c", -1)]] ++
  repeat (Row [("iter", 1)] [("res_c", 1)] [("min_c", -1)]) 50 ++ [Says LDebug "done"; Says LWarning "1 2 3"].
Definition ta_plain (s : string) : bool :=
  forallb (fun c => negb (Ascii.eqb c " ") && negb (Ascii.eqb c "010") && negb (Ascii.eqb c "#")) (list_ascii_of_string s) && negb (String.eqb s "").
Lemma ta_word s : ta_plain s = true -> is_word s.
Proof.
  unfold ta_plain. intros H. apply andb_prop in H as (H & NE).
  assert (K : forall n c, String.get n s = Some c -> c <> " "%char /\ c <> "010"%char /\ c <> "#"%char).
  { clear NE. induction s as [|d s IH]; intros n c E; [destruct n; discriminate|]. cbn [list_ascii_of_string forallb] in H.
    apply andb_prop in H as (H1 & H2). destruct n as [|n]; [|apply (IH H2 n c E)]. cbn in E. injection E as <-.
    apply andb_prop in H1 as (H1 & H3). apply andb_prop in H1 as (H1 & H4).
    repeat split; apply Ascii.eqb_neq; apply Bool.negb_true_iff; assumption. }
  split; [split|split].
  - intros ->. discriminate NE.
  - intros n E. apply K in E. tauto.
  - intros n E. apply K in E. tauto.
  - intros n E. apply K in E. tauto.
Qed.
Lemma ta_show_word n : is_word (ta_show n) /\ (String.length (ta_show n) <= 12)%nat.
Proof. unfold ta_show. destruct (n <? 0); [|destruct (n =? 0)]; (split; [apply ta_word; reflexivity|cbn; lia]). Qed.
Lemma ta_legible : Forall (legible ta_show ["iter"; "res_c"; "min_c"]) (rows_of ta_entries).
Proof.
  assert (L : forall a b c, legible ta_show ["iter"; "res_c"; "min_c"] [("iter", a); ("res_c", b); ("min_c", c)]).
  { intros a b c. split; [reflexivity|]. split; cbn [map snd tl]; repeat (apply Forall_cons; [cbn [snd]; apply ta_show_word|]); apply Forall_nil. }
  apply Forall_forall. intros r H. unfold rows_of, ta_entries in H. apply in_flat_map in H as (e & H & R).
  apply in_app_iff in H as [[<-|[<-|[]]]|H]; [destruct R|destruct R as [<-|[]]; apply L|].
  apply in_app_iff in H as [H|[<-|[<-|[]]]]; [|destruct R|destruct R]. apply repeat_spec in H. subst e. destruct R as [<-|[]]. apply L.
Qed.
Lemma ta_one_line s : ta_plain s = true -> one_line s.
Proof. intros H. apply ta_word in H. apply H. Qed.
Lemma ta_stamp : one_line "12:00:00".
Proof. apply ta_one_line. reflexivity. Qed.
Lemma ta_comment : all_comment "#---".
Proof. unfold all_comment. cbn. repeat constructor. eexists. reflexivity. Qed.
Lemma ta_names : Forall is_word ["iter"; "res_c"; "min_c"].
Proof. repeat (constructor; [apply ta_word; reflexivity|]). constructor. Qed.
Lemma ta_done : exists g out, perform_all ta_show (fun _ => "#---"%string) "#---" new_logger (InitFile "a" LInfo :: flat_map entry_calls ta_entries) = Next g out.
Proof. eexists _, _. vm_compute. reflexivity. Qed.

(** The platform of the examples of C72 with a header and a banner as the program's. *)
Definition ta_platform : platform R := {|
  pl_read := pl_read ex_platform; pl_showg := pl_showg ex_platform; pl_lit := pl_lit ex_platform; pl_eps100 := pl_eps100 ex_platform; pl_max100 := pl_max100 ex_platform;
  pl_show := pl_show ex_platform; pl_show6 := pl_show6 ex_platform; pl_showe := fun _ => "1.00000e+00"; pl_table := fun _ => "#---"; pl_banner := "#---";
  pl_red := pl_red ex_platform; pl_rmax := pl_rmax ex_platform; pl_hi := pl_hi ex_platform; pl_lo := pl_lo ex_platform; pl_pow := pl_pow ex_platform;
  pl_draw := pl_draw ex_platform; pl_raw := pl_raw ex_platform |}.
Lemma ta_setting : sound (ex_settings 4 100 20) 100 /\ bc_named "periodic" Periodic /\ reduces ta_platform /\
  (forall header, all_comment (pl_table ta_platform header)) /\ all_comment (pl_banner ta_platform) /\
  forall row, readable (pl_showe ta_platform) row.
Proof.
  destruct ex_sound as (A & B & C). split; [exact A|]. split; [exact B|]. split; [exact C|].
  split; [intros h; exact ta_comment|]. split; [exact ta_comment|].
  intros row. unfold readable. cbn [pl_showe ta_platform]. split.
  - apply Forall_map, Forall_forall. intros p _. apply ta_word. reflexivity.
  - apply Forall_forall. intros p _. cbn. lia.
Qed.
(** The same of the platform of the examples of C79's restarts. *)
Definition tb_platform : platform R := {|
  pl_read := pl_read ea_platform; pl_showg := pl_showg ea_platform; pl_lit := pl_lit ea_platform; pl_eps100 := pl_eps100 ea_platform; pl_max100 := pl_max100 ea_platform;
  pl_show := pl_show ea_platform; pl_show6 := pl_show6 ea_platform; pl_showe := fun _ => "1.00000e+00"; pl_table := fun _ => "#---"; pl_banner := "#---";
  pl_red := pl_red ea_platform; pl_rmax := pl_rmax ea_platform; pl_hi := pl_hi ea_platform; pl_lo := pl_lo ea_platform; pl_pow := pl_pow ea_platform;
  pl_draw := pl_draw ea_platform; pl_raw := pl_raw ea_platform |}.
Lemma tb_setting : reduces tb_platform /\ (forall header, all_comment (pl_table tb_platform header)) /\ all_comment (pl_banner tb_platform) /\
  forall row, readable (pl_showe tb_platform) row.
Proof. destruct ta_setting as (_ & _ & A & B & C & D). exact (conj A (conj B (conj C D))). Qed.
Definition ta_time_err : Forall is_word ["time_err"] := ltac:(repeat (constructor; [apply ta_word; reflexivity|]); constructor).

Lemma pf_C90_table :
  forall (V : Type) (showe : V -> string) (table : list string -> string) (banner file : string) (l : level) (stamp : nat -> string)
    (names : list string) (entries : list (entry V)) g out,
  (forall n, one_line (stamp n)) -> (forall header, all_comment (table header)) -> all_comment banner ->
  rank l <= rank LWarning -> names <> [] -> Forall is_word names -> Forall (legible showe names) (rows_of entries) ->
  perform_all showe table banner new_logger (InitFile file l :: flat_map entry_calls entries) = Next g out ->
  table_in (file_text file stamp 0 out) =
    match rows_of entries with [] => [] | _ => [names] end ++ map (printed showe) (rows_of entries).
Proof. intros V showe table banner file l stamp names entries g out S T B L N W F P. exact (log_table showe table banner file l stamp S T B L names entries N W F g out P). Qed.

Lemma pf_C90_run_rk3_3d :
  forall (pl : platform R) (fuel : nat) (fs : string -> option string) (vts : string -> list xml)
    (other : members R -> option (res (pworld R))) (args : list string) (opts m : members R) (vm : vmap R) (s : settings R) (rel abs : R)
    (bx by_ bz : bctype) (stamp : nat -> string),
  parse_options (pl_read pl) (pl_lit pl) (pl_eps100 pl) (pl_max100 pl) fs args opts = Ok (Running m vm) ->
  asks_with m 3 "rk3ssp" "none" s rel abs ->
  sound s fuel -> bc_named (s_bc_x s) bx -> bc_named (s_bc_y s) by_ -> bc_named (s_bc_z s) bz ->
  reduces pl -> (forall n, one_line (stamp n)) -> (forall header, all_comment (pl_table pl header)) -> all_comment (pl_banner pl) ->
  exists w rows goodbye, madgicart pl fuel fs vts other args opts = Some (Ok (Finished w)) /\
    perform_all (pl_showe pl) (pl_table pl) (pl_banner pl) new_logger
      (log_requests (s_log_file s) [config_template (pl_showg pl) (pl_lit pl) (pl_eps100 pl) (pl_max100 pl) vm] rows ++ map (Message LInfo) goodbye) = Next (w_logger w) (w_out w) /\
    rows <> [] /\
    (Forall (readable (pl_showe pl)) (map columns_of rows) ->
     table_in (file_text (s_log_file s) stamp 0 (w_out w)) = ["iter"; "time"; "dt"; "res_c"; "abs_res"; "rel_res"; "min_c"; "max_c"; "grad_c_mag"] :: map (fun r => printed (pl_showe pl) (columns_of r)) rows).
Proof.
  intros pl fuel fs vts other args opts m vm s rel abs bx by_ bz stamp H0 H1 H2 H3 H4 H5 RD ST TA BA.
  destruct (pf_C79_run_rk3_3d pl fuel fs vts other args opts m vm s rel abs bx by_ bz H0 H1 H2 H3 H4 H5) as (w & E & H). exists w.
  destruct (story_table3 pl s _ [] _ stamp ST TA BA (Forall_nil _) (proj1 (proj2 (proj2 (proj2 (proj2 (proj2 H2)))))) rel abs _ _ _ _ _ _ H RD) as (rows & goodbye & R1 & R2 & R3).
  exists rows, goodbye. split; [exact E|]. split; [exact R1|]. split; [exact R2|]. exact R3.
Qed.

Lemma pf_C90_run_ode23_3d :
  forall (pl : platform R) (fuel : nat) (fs : string -> option string) (vts : string -> list xml)
    (other : members R -> option (res (pworld R))) (args : list string) (opts m : members R) (vm : vmap R) (s : settings R) (rel abs : R)
    (bx by_ bz : bctype) (tol lo hi : R) (stamp : nat -> string),
  parse_options (pl_read pl) (pl_lit pl) (pl_eps100 pl) (pl_max100 pl) fs args opts = Ok (Running m vm) ->
  asks_with m 3 "ode23" "none" s rel abs ->
  given m [("time_rel_err_tol", VDouble tol); ("min_time_step_size", VDouble lo); ("max_time_step_size", VDouble hi)] ->
  sound s fuel -> bc_named (s_bc_x s) bx -> bc_named (s_bc_y s) by_ -> bc_named (s_bc_z s) bz ->
  reduces pl -> (forall n, one_line (stamp n)) -> (forall header, all_comment (pl_table pl header)) -> all_comment (pl_banner pl) ->
  exists w rows goodbye, madgicart pl fuel fs vts other args opts = Some (Ok (Finished w)) /\
    perform_all (pl_showe pl) (pl_table pl) (pl_banner pl) new_logger
      (log_requests (s_log_file s) [config_template (pl_showg pl) (pl_lit pl) (pl_eps100 pl) (pl_max100 pl) vm] rows ++ map (Message LInfo) goodbye) = Next (w_logger w) (w_out w) /\
    rows <> [] /\
    (Forall (readable (pl_showe pl)) (map columns_of rows) ->
     table_in (file_text (s_log_file s) stamp 0 (w_out w)) = ["iter"; "time"; "dt"; "time_err"; "res_c"; "abs_res"; "rel_res"; "min_c"; "max_c"; "grad_c_mag"] :: map (fun r => printed (pl_showe pl) (columns_of r)) rows).
Proof.
  intros pl fuel fs vts other args opts m vm s rel abs bx by_ bz tol lo hi stamp H0 H1 H2 H3 H4 H5 H6 RD ST TA BA.
  destruct (pf_C79_run_ode23_3d pl fuel fs vts other args opts m vm s rel abs bx by_ bz tol lo hi H0 H1 H2 H3 H4 H5 H6) as (w & E & H). exists w.
  destruct (story_table3 pl s _ ["time_err"%string] _ stamp ST TA BA ta_time_err (proj1 (proj2 (proj2 (proj2 (proj2 (proj2 H3)))))) rel abs _ _ _ _ _ _ H RD) as (rows & goodbye & R1 & R2 & R3).
  exists rows, goodbye. split; [exact E|]. split; [exact R1|]. split; [exact R2|]. exact R3.
Qed.

Lemma pf_C90_run_rk3_2d :
  forall (pl : platform R) (fuel : nat) (fs : string -> option string) (vts : string -> list xml)
    (other : members R -> option (res (pworld R))) (args : list string) (opts m : members R) (vm : vmap R) (s : settings R) (rel abs : R)
    (bx by_ bz : bctype) (stamp : nat -> string),
  parse_options (pl_read pl) (pl_lit pl) (pl_eps100 pl) (pl_max100 pl) fs args opts = Ok (Running m vm) ->
  asks_with m 2 "rk3ssp" "none" s rel abs ->
  sound s fuel -> bc_named (s_bc_x s) bx -> bc_named (s_bc_y s) by_ -> bc_named (s_bc_z s) bz ->
  reduces pl -> (forall n, one_line (stamp n)) -> (forall header, all_comment (pl_table pl header)) -> all_comment (pl_banner pl) ->
  exists w rows goodbye, madgicart pl fuel fs vts other args opts = Some (Ok (Finished w)) /\
    perform_all (pl_showe pl) (pl_table pl) (pl_banner pl) new_logger
      (log_requests (s_log_file s) [config_template (pl_showg pl) (pl_lit pl) (pl_eps100 pl) (pl_max100 pl) vm] rows ++ map (Message LInfo) goodbye) = Next (w_logger w) (w_out w) /\
    rows <> [] /\
    (Forall (readable (pl_showe pl)) (map columns_of rows) ->
     table_in (file_text (s_log_file s) stamp 0 (w_out w)) = ["iter"; "time"; "dt"; "res_c"; "abs_res"; "rel_res"; "min_c"; "max_c"; "grad_c_mag"] :: map (fun r => printed (pl_showe pl) (columns_of r)) rows).
Proof.
  intros pl fuel fs vts other args opts m vm s rel abs bx by_ bz stamp H0 H1 H2 H3 H4 H5 RD ST TA BA.
  destruct (pf_C79_run_rk3_2d pl fuel fs vts other args opts m vm s rel abs bx by_ bz H0 H1 H2 H3 H4 H5) as (w & E & H). exists w.
  destruct (story_table2 pl s _ [] _ stamp ST TA BA (Forall_nil _) (proj1 (proj2 (proj2 (proj2 (proj2 (proj2 H2)))))) rel abs _ _ _ _ _ _ H RD) as (rows & goodbye & R1 & R2 & R3).
  exists rows, goodbye. split; [exact E|]. split; [exact R1|]. split; [exact R2|]. exact R3.
Qed.

Lemma pf_C90_run_ode23_2d :
  forall (pl : platform R) (fuel : nat) (fs : string -> option string) (vts : string -> list xml)
    (other : members R -> option (res (pworld R))) (args : list string) (opts m : members R) (vm : vmap R) (s : settings R) (rel abs : R)
    (bx by_ bz : bctype) (tol lo hi : R) (stamp : nat -> string),
  parse_options (pl_read pl) (pl_lit pl) (pl_eps100 pl) (pl_max100 pl) fs args opts = Ok (Running m vm) ->
  asks_with m 2 "ode23" "none" s rel abs ->
  given m [("time_rel_err_tol", VDouble tol); ("min_time_step_size", VDouble lo); ("max_time_step_size", VDouble hi)] ->
  sound s fuel -> bc_named (s_bc_x s) bx -> bc_named (s_bc_y s) by_ -> bc_named (s_bc_z s) bz ->
  reduces pl -> (forall n, one_line (stamp n)) -> (forall header, all_comment (pl_table pl header)) -> all_comment (pl_banner pl) ->
  exists w rows goodbye, madgicart pl fuel fs vts other args opts = Some (Ok (Finished w)) /\
    perform_all (pl_showe pl) (pl_table pl) (pl_banner pl) new_logger
      (log_requests (s_log_file s) [config_template (pl_showg pl) (pl_lit pl) (pl_eps100 pl) (pl_max100 pl) vm] rows ++ map (Message LInfo) goodbye) = Next (w_logger w) (w_out w) /\
    rows <> [] /\
    (Forall (readable (pl_showe pl)) (map columns_of rows) ->
     table_in (file_text (s_log_file s) stamp 0 (w_out w)) = ["iter"; "time"; "dt"; "time_err"; "res_c"; "abs_res"; "rel_res"; "min_c"; "max_c"; "grad_c_mag"] :: map (fun r => printed (pl_showe pl) (columns_of r)) rows).
Proof.
  intros pl fuel fs vts other args opts m vm s rel abs bx by_ bz tol lo hi stamp H0 H1 H2 H3 H4 H5 H6 RD ST TA BA.
  destruct (pf_C79_run_ode23_2d pl fuel fs vts other args opts m vm s rel abs bx by_ bz tol lo hi H0 H1 H2 H3 H4 H5 H6) as (w & E & H). exists w.
  destruct (story_table2 pl s _ ["time_err"%string] _ stamp ST TA BA ta_time_err (proj1 (proj2 (proj2 (proj2 (proj2 (proj2 H3)))))) rel abs _ _ _ _ _ _ H RD) as (rows & goodbye & R1 & R2 & R3).
  exists rows, goodbye. split; [exact E|]. split; [exact R1|]. split; [exact R2|]. exact R3.
Qed.

Lemma pf_C90_restart_rk3_3d :
  forall (pl : platform R) (fuel : nat) (fs : string -> option string) (vts : string -> list xml)
    (other : members R -> option (res (pworld R))) (args : list string) (opts m : members R) (vm : vmap R) (s : settings R) (rel abs : R)
    (bx by_ bz : bctype) (r : string) (dom0 : domain R) (i : Z) (t dt : R) (u : Z -> Z -> Z -> R) (stamp : nat -> string),
  parse_options (pl_read pl) (pl_lit pl) (pl_eps100 pl) (pl_max100 pl) fs args opts = Ok (Running m vm) ->
  asks_with m 3 "rk3ssp" r s rel abs -> r <> "none" ->
  is_file3 pl dom0 i t dt u (vts r) -> readable3 pl dom0 t dt u -> valid_domain3 dom0 -> 2 <= nx dom0 /\ 2 <= ny dom0 /\ 2 <= nz dom0 ->
  nx dom0 <= 2147483647 /\ ny dom0 <= 2147483647 /\ nz dom0 <= 2147483647 -> (xbeg dom0 < xend dom0)%R ->
  sound_from s i fuel -> bc_named (s_bc_x s) bx -> bc_named (s_bc_y s) by_ -> bc_named (s_bc_z s) bz ->
  reduces pl -> (forall n, one_line (stamp n)) -> (forall header, all_comment (pl_table pl header)) -> all_comment (pl_banner pl) ->
  exists w rows goodbye, madgicart pl fuel fs vts other args opts = Some (Ok (Finished w)) /\
    perform_all (pl_showe pl) (pl_table pl) (pl_banner pl) new_logger
      (log_requests (s_log_file s) [config_template (pl_showg pl) (pl_lit pl) (pl_eps100 pl) (pl_max100 pl) vm; "Using initial conditions file " ++ r]%string rows ++ map (Message LInfo) goodbye) = Next (w_logger w) (w_out w) /\
    rows <> [] /\
    (Forall (readable (pl_showe pl)) (map columns_of rows) ->
     table_in (file_text (s_log_file s) stamp 0 (w_out w)) = ["iter"; "time"; "dt"; "res_c"; "abs_res"; "rel_res"; "min_c"; "max_c"; "grad_c_mag"] :: map (fun r => printed (pl_showe pl) (columns_of r)) rows).
Proof.
  intros pl fuel fs vts other args opts m vm s rel abs bx by_ bz r dom0 i t dt u stamp H0 H1 H2 H3 H4 H5 H6 H7 H8 H9 H10 H11 H12 RD ST TA BA.
  destruct (pf_C79_restart_rk3_3d pl fuel fs vts other args opts m vm s rel abs bx by_ bz r dom0 i t dt u H0 H1 H2 H3 H4 H5 H6 H7 H8 H9 H10 H11 H12) as (w & E & H). exists w.
  destruct (story_table3 pl s _ [] _ stamp ST TA BA (Forall_nil _) (proj1 (proj2 (proj2 H9))) rel abs _ _ _ _ _ _ H RD) as (rows & goodbye & R1 & R2 & R3).
  exists rows, goodbye. split; [exact E|]. split; [exact R1|]. split; [exact R2|]. exact R3.
Qed.

Lemma pf_C90_restart_ode23_3d :
  forall (pl : platform R) (fuel : nat) (fs : string -> option string) (vts : string -> list xml)
    (other : members R -> option (res (pworld R))) (args : list string) (opts m : members R) (vm : vmap R) (s : settings R) (rel abs : R)
    (bx by_ bz : bctype) (tol lo hi : R) (r : string) (dom0 : domain R) (i : Z) (t dt : R) (u : Z -> Z -> Z -> R) (stamp : nat -> string),
  parse_options (pl_read pl) (pl_lit pl) (pl_eps100 pl) (pl_max100 pl) fs args opts = Ok (Running m vm) ->
  asks_with m 3 "ode23" r s rel abs -> r <> "none" ->
  given m [("time_rel_err_tol", VDouble tol); ("min_time_step_size", VDouble lo); ("max_time_step_size", VDouble hi)] ->
  is_file3 pl dom0 i t dt u (vts r) -> readable3 pl dom0 t dt u -> valid_domain3 dom0 -> 2 <= nx dom0 /\ 2 <= ny dom0 /\ 2 <= nz dom0 ->
  nx dom0 <= 2147483647 /\ ny dom0 <= 2147483647 /\ nz dom0 <= 2147483647 -> (xbeg dom0 < xend dom0)%R ->
  sound_from s i fuel -> bc_named (s_bc_x s) bx -> bc_named (s_bc_y s) by_ -> bc_named (s_bc_z s) bz ->
  reduces pl -> (forall n, one_line (stamp n)) -> (forall header, all_comment (pl_table pl header)) -> all_comment (pl_banner pl) ->
  exists w rows goodbye, madgicart pl fuel fs vts other args opts = Some (Ok (Finished w)) /\
    perform_all (pl_showe pl) (pl_table pl) (pl_banner pl) new_logger
      (log_requests (s_log_file s) [config_template (pl_showg pl) (pl_lit pl) (pl_eps100 pl) (pl_max100 pl) vm; "Using initial conditions file " ++ r]%string rows ++ map (Message LInfo) goodbye) = Next (w_logger w) (w_out w) /\
    rows <> [] /\
    (Forall (readable (pl_showe pl)) (map columns_of rows) ->
     table_in (file_text (s_log_file s) stamp 0 (w_out w)) = ["iter"; "time"; "dt"; "time_err"; "res_c"; "abs_res"; "rel_res"; "min_c"; "max_c"; "grad_c_mag"] :: map (fun r => printed (pl_showe pl) (columns_of r)) rows).
Proof.
  intros pl fuel fs vts other args opts m vm s rel abs bx by_ bz tol lo hi r dom0 i t dt u stamp H0 H1 H2 H3 H4 H5 H6 H7 H8 H9 H10 H11 H12 H13 RD ST TA BA.
  destruct (pf_C79_restart_ode23_3d pl fuel fs vts other args opts m vm s rel abs bx by_ bz tol lo hi r dom0 i t dt u H0 H1 H2 H3 H4 H5 H6 H7 H8 H9 H10 H11 H12 H13) as (w & E & H). exists w.
  destruct (story_table3 pl s _ ["time_err"%string] _ stamp ST TA BA ta_time_err (proj1 (proj2 (proj2 H10))) rel abs _ _ _ _ _ _ H RD) as (rows & goodbye & R1 & R2 & R3).
  exists rows, goodbye. split; [exact E|]. split; [exact R1|]. split; [exact R2|]. exact R3.
Qed.

Lemma pf_C90_restart_rk3_2d :
  forall (pl : platform R) (fuel : nat) (fs : string -> option string) (vts : string -> list xml)
    (other : members R -> option (res (pworld R))) (args : list string) (opts m : members R) (vm : vmap R) (s : settings R) (rel abs : R)
    (bx by_ bz : bctype) (r : string) (dom0 : domain R) (i : Z) (t dt : R) (u : Z -> Z -> R) (stamp : nat -> string),
  parse_options (pl_read pl) (pl_lit pl) (pl_eps100 pl) (pl_max100 pl) fs args opts = Ok (Running m vm) ->
  asks_with m 2 "rk3ssp" r s rel abs -> r <> "none" ->
  is_file2 pl dom0 i t dt u (vts r) -> readable2 pl dom0 t dt u -> pl_read pl "0.0" = Ok 0%R -> valid_domain2 dom0 -> 2 <= nx dom0 ->
  nx dom0 <= 2147483647 -> (xbeg dom0 < xend dom0)%R ->
  sound_from s i fuel -> bc_named (s_bc_x s) bx -> bc_named (s_bc_y s) by_ -> bc_named (s_bc_z s) bz ->
  reduces pl -> (forall n, one_line (stamp n)) -> (forall header, all_comment (pl_table pl header)) -> all_comment (pl_banner pl) ->
  exists w rows goodbye, madgicart pl fuel fs vts other args opts = Some (Ok (Finished w)) /\
    perform_all (pl_showe pl) (pl_table pl) (pl_banner pl) new_logger
      (log_requests (s_log_file s) [config_template (pl_showg pl) (pl_lit pl) (pl_eps100 pl) (pl_max100 pl) vm; "Using initial conditions file " ++ r]%string rows ++ map (Message LInfo) goodbye) = Next (w_logger w) (w_out w) /\
    rows <> [] /\
    (Forall (readable (pl_showe pl)) (map columns_of rows) ->
     table_in (file_text (s_log_file s) stamp 0 (w_out w)) = ["iter"; "time"; "dt"; "res_c"; "abs_res"; "rel_res"; "min_c"; "max_c"; "grad_c_mag"] :: map (fun r => printed (pl_showe pl) (columns_of r)) rows).
Proof.
  intros pl fuel fs vts other args opts m vm s rel abs bx by_ bz r dom0 i t dt u stamp H0 H1 H2 H3 H4 H5 H6 H7 H8 H9 H10 H11 H12 H13 RD ST TA BA.
  destruct (pf_C79_restart_rk3_2d pl fuel fs vts other args opts m vm s rel abs bx by_ bz r dom0 i t dt u H0 H1 H2 H3 H4 H5 H6 H7 H8 H9 H10 H11 H12 H13) as (w & E & H). exists w.
  destruct (story_table2 pl s _ [] _ stamp ST TA BA (Forall_nil _) (proj1 (proj2 (proj2 H10))) rel abs _ _ _ _ _ _ H RD) as (rows & goodbye & R1 & R2 & R3).
  exists rows, goodbye. split; [exact E|]. split; [exact R1|]. split; [exact R2|]. exact R3.
Qed.

Lemma pf_C90_restart_ode23_2d :
  forall (pl : platform R) (fuel : nat) (fs : string -> option string) (vts : string -> list xml)
    (other : members R -> option (res (pworld R))) (args : list string) (opts m : members R) (vm : vmap R) (s : settings R) (rel abs : R)
    (bx by_ bz : bctype) (tol lo hi : R) (r : string) (dom0 : domain R) (i : Z) (t dt : R) (u : Z -> Z -> R) (stamp : nat -> string),
  parse_options (pl_read pl) (pl_lit pl) (pl_eps100 pl) (pl_max100 pl) fs args opts = Ok (Running m vm) ->
  asks_with m 2 "ode23" r s rel abs -> r <> "none" ->
  given m [("time_rel_err_tol", VDouble tol); ("min_time_step_size", VDouble lo); ("max_time_step_size", VDouble hi)] ->
  is_file2 pl dom0 i t dt u (vts r) -> readable2 pl dom0 t dt u -> pl_read pl "0.0" = Ok 0%R -> valid_domain2 dom0 -> 2 <= nx dom0 ->
  nx dom0 <= 2147483647 -> (xbeg dom0 < xend dom0)%R ->
  sound_from s i fuel -> bc_named (s_bc_x s) bx -> bc_named (s_bc_y s) by_ -> bc_named (s_bc_z s) bz ->
  reduces pl -> (forall n, one_line (stamp n)) -> (forall header, all_comment (pl_table pl header)) -> all_comment (pl_banner pl) ->
  exists w rows goodbye, madgicart pl fuel fs vts other args opts = Some (Ok (Finished w)) /\
    perform_all (pl_showe pl) (pl_table pl) (pl_banner pl) new_logger
      (log_requests (s_log_file s) [config_template (pl_showg pl) (pl_lit pl) (pl_eps100 pl) (pl_max100 pl) vm; "Using initial conditions file " ++ r]%string rows ++ map (Message LInfo) goodbye) = Next (w_logger w) (w_out w) /\
    rows <> [] /\
    (Forall (readable (pl_showe pl)) (map columns_of rows) ->
     table_in (file_text (s_log_file s) stamp 0 (w_out w)) = ["iter"; "time"; "dt"; "time_err"; "res_c"; "abs_res"; "rel_res"; "min_c"; "max_c"; "grad_c_mag"] :: map (fun r => printed (pl_showe pl) (columns_of r)) rows).
Proof.
  intros pl fuel fs vts other args opts m vm s rel abs bx by_ bz tol lo hi r dom0 i t dt u stamp H0 H1 H2 H3 H4 H5 H6 H7 H8 H9 H10 H11 H12 H13 H14 RD ST TA BA.
  destruct (pf_C79_restart_ode23_2d pl fuel fs vts other args opts m vm s rel abs bx by_ bz tol lo hi r dom0 i t dt u H0 H1 H2 H3 H4 H5 H6 H7 H8 H9 H10 H11 H12 H13 H14) as (w & E & H). exists w.
  destruct (story_table2 pl s _ ["time_err"%string] _ stamp ST TA BA ta_time_err (proj1 (proj2 (proj2 H11))) rel abs _ _ _ _ _ _ H RD) as (rows & goodbye & R1 & R2 & R3).
  exists rows, goodbye. split; [exact E|]. split; [exact R1|]. split; [exact R2|]. exact R3.
Qed.

(** The surroundings of the examples. *)
Definition ta_cpuinfo : string := "processor : 0" ++ nl ++ "model name" ++ String tab ":" ++ " Some  CPU @ 2 GHz" ++ nl ++ "model name : other" ++ nl.
Definition ta_machine (dir : string) : surroundings := {|
  e_host := "node1"; e_user := Some "ada"; e_directory := dir; e_cpuinfo := Some ta_cpuinfo; e_gpu := None; e_gpus := 0; e_threads := Some 16;
  e_clock := "12:00:00"; e_branch := "main"; e_hash := "0123abc"; e_compiler := "gcc" |}.
Lemma ta_surroundings dir : plain_surroundings (ta_machine dir) /\ exists b, make_banner (ta_machine dir) = Ok b.
Proof.
  split; [|eexists; reflexivity]. unfold plain_surroundings, ta_machine. cbn [e_user e_gpu e_host e_clock e_branch e_hash e_compiler username device_model].
  split; [apply ta_one_line; reflexivity|]. split; [apply ta_one_line; reflexivity|].
  repeat (constructor; [apply ta_one_line; reflexivity|]). constructor.
Qed.
Lemma ta_home : one_line "/home/ada".
Proof. apply ta_one_line. reflexivity. Qed.
Lemma ta_broken : one_line "/home/a" /\ is_word "da" /\ e_directory (ta_machine ("/home/a" ++ nl ++ "da")) = ("/home/a" ++ nl ++ "da")%string.
Proof. split; [apply ta_one_line; reflexivity|]. split; [apply ta_word; reflexivity|reflexivity]. Qed.

Lemma pf_C90_banner :
  forall (e : surroundings) (b : string),
  make_banner e = Ok b -> plain_surroundings e -> one_line (e_directory e) ->
  all_comment b /\
  Forall (fun l => In l (text_lines b)) [
    ("#     Hostname           " ++ e_host e)%string;
    ("#     Username           " ++ match e_user e with Some u => u | None => "unknown" end)%string;
    ("#     Work directory     " ++ e_directory e)%string;
    ("#     Processor model    " ++ processor_model (e_cpuinfo e))%string].
Proof. intros e b M P D. split; [exact (banner_comment e b M P D)|exact (banner_shows e b M P D)]. Qed.

Lemma pf_C90_directory_refuted :
  forall (e : surroundings) (b first word : string),
  make_banner e = Ok b -> plain_surroundings e -> e_directory e = (first ++ nl ++ word)%string -> one_line first -> is_word word ->
  table_in b = [[word]].
Proof. intros e b first word M P D A W. exact (banner_broken e b first word M P A W D). Qed.

Lemma pf_C90_processor :
  (forall (before : list string) (b rest more : string),
   Forall one_line before -> Forall (fun l => forall r, l <> ("model name" ++ r)%string) before ->
   (forall n, String.get n b <> Some " "%char) -> one_line b -> one_line rest ->
   processor_model (Some (fold_right (fun l r => l ++ nl ++ r) ("model name" ++ b ++ " " ++ rest ++ nl ++ more) before)%string) = rest) /\
  (forall c, one_line (processor_model c)).
Proof. split; [exact processor_ok|exact processor_plain]. Qed.

Lemma pf_C90_hostname_refuted :
  forall (e : surroundings),
  ((String.length (e_host e) < 64)%nat -> exists b, make_banner e = Ok b) /\
  ((64 <= String.length (e_host e))%nat -> make_banner e = UB).
Proof.
  intros e. unfold make_banner, hostname. split; intros H.
  - replace (Z.of_nat (String.length (e_host e)) <? 64) with true by (symmetry; apply Z.ltb_lt; lia). eexists. reflexivity.
  - replace (Z.of_nat (String.length (e_host e)) <? 64) with false by (symmetry; apply Z.ltb_ge; lia). reflexivity.
Qed.

(** The platforms of the examples of C85 and C87, with the numbers and the table printed as in [ta_platform]. *)
Definition tc_plain (pl : platform R) : platform R := {|
  pl_read := pl_read pl; pl_showg := pl_showg pl; pl_lit := pl_lit pl; pl_eps100 := pl_eps100 pl; pl_max100 := pl_max100 pl;
  pl_show := pl_show pl; pl_show6 := pl_show6 pl; pl_showe := fun _ => "1.00000e+00"; pl_table := fun _ => "#---"; pl_banner := "#---";
  pl_red := pl_red pl; pl_rmax := pl_rmax pl; pl_hi := pl_hi pl; pl_lo := pl_lo pl; pl_pow := pl_pow pl;
  pl_draw := pl_draw pl; pl_raw := pl_raw pl |}.
Lemma tc_pr : (reduces (tc_plain pr_platform) /\ (forall header, all_comment (pl_table (tc_plain pr_platform) header)) /\ all_comment (pl_banner (tc_plain pr_platform)) /\
  forall row, readable (pl_showe (tc_plain pr_platform)) row).
Proof. destruct ta_setting as (_ & _ & A & B & C & D). exact (conj A (conj B (conj C D))). Qed.
Lemma tc_pi : (reduces (tc_plain pi_platform) /\ (forall header, all_comment (pl_table (tc_plain pi_platform) header)) /\ all_comment (pl_banner (tc_plain pi_platform)) /\
  forall row, readable (pl_showe (tc_plain pi_platform)) row).
Proof. destruct ta_setting as (_ & _ & A & B & C & D). exact (conj A (conj B (conj C D))). Qed.
Lemma tc_im : (reduces ta_platform /\ (forall header, all_comment (pl_table ta_platform header)) /\ all_comment (pl_banner ta_platform) /\
  forall row, readable (pl_showe ta_platform) row).
Proof. destruct ta_setting as (_ & _ & A & B & C & D). exact (conj A (conj B (conj C D))). Qed.

Lemma pf_C90_run_implicit :
  forall (pl : platform R) (nsin ncos : R -> R) (fuel : nat) (fs : string -> option string) (vts : string -> list xml)
    (other : members R -> option (res (pworld R))) (args : list string) (opts m : members R) (vm : vmap R) (s : settings R)
    (q : mg_options R) (bx by_ bz : bctype) (stamp : nat -> string),
  parse_options (pl_read pl) (pl_lit pl) (pl_eps100 pl) (pl_max100 pl) fs args opts = Ok (Running m vm) ->
  asks m 3 (integrator_name q) "none" s -> mg_asks m q ->
  sound s fuel -> mg_sound q s -> bc_named (s_bc_x s) bx -> bc_named (s_bc_y s) by_ -> bc_named (s_bc_z s) bz ->
  reduces pl -> (forall n, one_line (stamp n)) -> (forall header, all_comment (pl_table pl header)) -> all_comment (pl_banner pl) ->
  exists w rows, madgicart_all pl nsin ncos fuel fs vts other args opts = Some (Ok (Finished w)) /\
    perform_all (pl_showe pl) (pl_table pl) (pl_banner pl) new_logger
      (log_requests (s_log_file s) [config_template (pl_showg pl) (pl_lit pl) (pl_eps100 pl) (pl_max100 pl) vm] rows) = Next (w_logger w) (w_out w) /\
    rows <> [] /\
    (Forall (readable (pl_showe pl)) (map columns_of rows) ->
     table_in (file_text (s_log_file s) stamp 0 (w_out w)) = ["iter"; "time"; "dt"; "res_c"; "abs_res"; "rel_res"; "min_c"; "max_c"; "grad_c_mag"] :: map (fun r => printed (pl_showe pl) (columns_of r)) rows).
Proof.
  intros pl nsin ncos fuel fs vts other args opts m vm s q bx by_ bz stamp H0 H1 H2 H3 H4 H5 H6 H7 RD ST TA BA.
  destruct (pf_C84_run pl nsin ncos fuel fs vts other args opts m vm s q bx by_ bz H0 H1 H2 H3 H4 RD H5 H6 H7) as (w & E & H). exists w.
  destruct (implicit_table pl s _ [] _ stamp ST TA BA (Forall_nil _) (proj1 (proj2 (proj2 (proj2 (proj2 (proj2 H3)))))) _ _ _ _ _ _ H eq_refl) as (rows & R1 & R2 & R3).
  exists rows. split; [exact E|]. split; [exact R1|]. split; [exact R2|]. exact R3.
Qed.

Lemma pf_C90_poisson_rk3 :
  forall (pl : platform R) (fuel : nat) (fs : string -> option string) (vts : string -> list xml)
    (other : members R -> option (res (pworld R))) (args : list string) (opts m : members R) (vm : vmap R) (s : settings R) (rel abs : R)
    (bx by_ bz : bctype) (stamp : nat -> string),
  parse_options (pl_read pl) (pl_lit pl) (pl_eps100 pl) (pl_max100 pl) fs args opts = Ok (Running m vm) ->
  poisson_asks m 3 "rk3ssp" s rel abs ->
  poisson_sound s fuel -> bc_named (s_bc_x s) bx -> bc_named (s_bc_y s) by_ -> bc_named (s_bc_z s) bz ->
  reduces pl -> (forall n, one_line (stamp n)) -> (forall header, all_comment (pl_table pl header)) -> all_comment (pl_banner pl) ->
  exists w rows goodbye, madgicart_all pl sin cos fuel fs vts other args opts = Some (Ok (Finished w)) /\
    perform_all (pl_showe pl) (pl_table pl) (pl_banner pl) new_logger
      (log_requests (s_log_file s) [config_template (pl_showg pl) (pl_lit pl) (pl_eps100 pl) (pl_max100 pl) vm] rows ++ map (Message LInfo) goodbye) = Next (w_logger w) (w_out w) /\
    rows <> [] /\
    (Forall (readable (pl_showe pl)) (map columns_of rows) ->
     table_in (file_text (s_log_file s) stamp 0 (w_out w)) = ["iter"; "time"; "dt"; "res_c"; "abs_res"; "rel_res"; "min_c"; "max_c"; "grad_c_mag"] :: map (fun r => printed (pl_showe pl) (columns_of r)) rows).
Proof.
  intros pl fuel fs vts other args opts m vm s rel abs bx by_ bz stamp H0 H1 H2 H3 H4 H5 RD ST TA BA.
  destruct (pf_C85_run_rk3 pl fuel fs vts other args opts m vm s rel abs bx by_ bz H0 H1 H2 H3 H4 H5) as (w & E & H). exists w.
  destruct (story_table3 pl s _ [] _ stamp ST TA BA (Forall_nil _) (proj1 (proj2 (proj2 (proj2 (proj2 H2))))) rel abs _ _ _ _ _ _ H RD) as (rows & goodbye & R1 & R2 & R3).
  exists rows, goodbye. split; [exact E|]. split; [exact R1|]. split; [exact R2|]. exact R3.
Qed.

Lemma pf_C90_poisson_ode23 :
  forall (pl : platform R) (fuel : nat) (fs : string -> option string) (vts : string -> list xml)
    (other : members R -> option (res (pworld R))) (args : list string) (opts m : members R) (vm : vmap R) (s : settings R) (rel abs : R)
    (bx by_ bz : bctype) (tol lo hi : R) (stamp : nat -> string),
  parse_options (pl_read pl) (pl_lit pl) (pl_eps100 pl) (pl_max100 pl) fs args opts = Ok (Running m vm) ->
  poisson_asks m 3 "ode23" s rel abs ->
  given m [("time_rel_err_tol", VDouble tol); ("min_time_step_size", VDouble lo); ("max_time_step_size", VDouble hi)] ->
  poisson_sound s fuel -> bc_named (s_bc_x s) bx -> bc_named (s_bc_y s) by_ -> bc_named (s_bc_z s) bz ->
  reduces pl -> (forall n, one_line (stamp n)) -> (forall header, all_comment (pl_table pl header)) -> all_comment (pl_banner pl) ->
  exists w rows goodbye, madgicart_all pl sin cos fuel fs vts other args opts = Some (Ok (Finished w)) /\
    perform_all (pl_showe pl) (pl_table pl) (pl_banner pl) new_logger
      (log_requests (s_log_file s) [config_template (pl_showg pl) (pl_lit pl) (pl_eps100 pl) (pl_max100 pl) vm] rows ++ map (Message LInfo) goodbye) = Next (w_logger w) (w_out w) /\
    rows <> [] /\
    (Forall (readable (pl_showe pl)) (map columns_of rows) ->
     table_in (file_text (s_log_file s) stamp 0 (w_out w)) = ["iter"; "time"; "dt"; "time_err"; "res_c"; "abs_res"; "rel_res"; "min_c"; "max_c"; "grad_c_mag"] :: map (fun r => printed (pl_showe pl) (columns_of r)) rows).
Proof.
  intros pl fuel fs vts other args opts m vm s rel abs bx by_ bz tol lo hi stamp H0 H1 HG H2 H3 H4 H5 RD ST TA BA.
  destruct (pf_C85_run_ode23 pl fuel fs vts other args opts m vm s rel abs bx by_ bz tol lo hi H0 H1 HG H2 H3 H4 H5) as (w & E & H). exists w.
  destruct (story_table3 pl s _ ["time_err"%string] _ stamp ST TA BA ta_time_err (proj1 (proj2 (proj2 (proj2 (proj2 H2))))) rel abs _ _ _ _ _ _ H RD) as (rows & goodbye & R1 & R2 & R3).
  exists rows, goodbye. split; [exact E|]. split; [exact R1|]. split; [exact R2|]. exact R3.
Qed.

Lemma pf_C90_poisson_implicit :
  forall (pl : platform R) (fuel : nat) (fs : string -> option string) (vts : string -> list xml)
    (other : members R -> option (res (pworld R))) (args : list string) (opts m : members R) (vm : vmap R) (s : settings R)
    (q : mg_options R) (bx by_ bz : bctype) (stamp : nat -> string),
  parse_options (pl_read pl) (pl_lit pl) (pl_eps100 pl) (pl_max100 pl) fs args opts = Ok (Running m vm) ->
  poisson_asks m 3 (integrator_name q) s 0%R 0%R -> mg_asks m q ->
  poisson_sound s fuel -> mg_sound q s -> bc_named (s_bc_x s) bx -> bc_named (s_bc_y s) by_ -> bc_named (s_bc_z s) bz ->
  reduces pl -> (forall n, one_line (stamp n)) -> (forall header, all_comment (pl_table pl header)) -> all_comment (pl_banner pl) ->
  exists w rows, madgicart_all pl sin cos fuel fs vts other args opts = Some (Ok (Finished w)) /\
    perform_all (pl_showe pl) (pl_table pl) (pl_banner pl) new_logger
      (log_requests (s_log_file s) [config_template (pl_showg pl) (pl_lit pl) (pl_eps100 pl) (pl_max100 pl) vm] rows) = Next (w_logger w) (w_out w) /\
    rows <> [] /\
    (Forall (readable (pl_showe pl)) (map columns_of rows) ->
     table_in (file_text (s_log_file s) stamp 0 (w_out w)) = ["iter"; "time"; "dt"; "res_c"; "abs_res"; "rel_res"; "min_c"; "max_c"; "grad_c_mag"] :: map (fun r => printed (pl_showe pl) (columns_of r)) rows).
Proof.
  intros pl fuel fs vts other args opts m vm s q bx by_ bz stamp H0 H1 H2 H3 H4 H5 H6 H7 RD ST TA BA.
  destruct (pf_C87_run pl fuel fs vts other args opts m vm s q bx by_ bz H0 H1 H2 H3 H4 RD H5 H6 H7) as (w & E & H). exists w.
  destruct (implicit_table pl s _ [] _ stamp ST TA BA (Forall_nil _) (proj1 (proj2 (proj2 (proj2 (proj2 H3))))) _ _ _ _ _ _ H eq_refl) as (rows & R1 & R2 & R3).
  exists rows. split; [exact E|]. split; [exact R1|]. split; [exact R2|]. exact R3.
Qed.

Lemma tc_rr : (reduces (tc_plain rr_platform) /\ (forall header, all_comment (pl_table (tc_plain rr_platform) header)) /\ all_comment (pl_banner (tc_plain rr_platform)) /\
  forall row, readable (pl_showe (tc_plain rr_platform)) row).
Proof. destruct ta_setting as (_ & _ & A & B & C & D). exact (conj A (conj B (conj C D))). Qed.

Lemma pf_C90_restart_implicit :
  forall (pl : platform R) (nsin ncos : R -> R) (fuel : nat) (fs : string -> option string) (vts : string -> list xml)
    (other : members R -> option (res (pworld R))) (args : list string) (opts m : members R) (vm : vmap R) (s : settings R)
    (q : mg_options R) (bx by_ bz : bctype) (r : string) (dom0 : domain R) (i : Z) (t dt : R) (u : Z -> Z -> Z -> R) (stamp : nat -> string),
  parse_options (pl_read pl) (pl_lit pl) (pl_eps100 pl) (pl_max100 pl) fs args opts = Ok (Running m vm) ->
  asks m 3 (integrator_name q) r s -> mg_asks m q -> r <> "none" ->
  is_file3 pl dom0 i t dt u (vts r) -> readable3 pl dom0 t dt u -> valid_domain3 dom0 -> 2 <= nx dom0 /\ 2 <= ny dom0 /\ 2 <= nz dom0 ->
  nx dom0 <= 2147483647 /\ ny dom0 <= 2147483647 /\ nz dom0 <= 2147483647 -> (xbeg dom0 < xend dom0)%R ->
  sound_from s i fuel -> mg_fits q (nx dom0) (ny dom0) (nz dom0) -> reduces pl ->
  bc_named (s_bc_x s) bx -> bc_named (s_bc_y s) by_ -> bc_named (s_bc_z s) bz ->
  (forall n, one_line (stamp n)) -> (forall header, all_comment (pl_table pl header)) -> all_comment (pl_banner pl) ->
  exists w rows, madgicart_all pl nsin ncos fuel fs vts other args opts = Some (Ok (Finished w)) /\
    perform_all (pl_showe pl) (pl_table pl) (pl_banner pl) new_logger
      (log_requests (s_log_file s) [config_template (pl_showg pl) (pl_lit pl) (pl_eps100 pl) (pl_max100 pl) vm; "Using initial conditions file " ++ r]%string rows) = Next (w_logger w) (w_out w) /\
    rows <> [] /\
    (Forall (readable (pl_showe pl)) (map columns_of rows) ->
     table_in (file_text (s_log_file s) stamp 0 (w_out w)) = ["iter"; "time"; "dt"; "res_c"; "abs_res"; "rel_res"; "min_c"; "max_c"; "grad_c_mag"] :: map (fun r => printed (pl_showe pl) (columns_of r)) rows).
Proof.
  intros pl nsin ncos fuel fs vts other args opts m vm s q bx by_ bz r dom0 i t dt u stamp H0 H1 H2 H3 H4 H5 H6 H7 H8 H9 HS H11 RD H13 H14 H15 ST TA BA.
  destruct (pf_C88_restart pl nsin ncos fuel fs vts other args opts m vm s q bx by_ bz r dom0 i t dt u H0 H1 H2 H3 H4 H5 H6 H7 H8 H9 HS H11 RD H13 H14 H15) as (w & E & H). exists w.
  destruct (implicit_table pl s _ [] _ stamp ST TA BA (Forall_nil _) (proj1 (proj2 (proj2 HS))) _ _ _ _ _ _ H eq_refl) as (rows & R1 & R2 & R3).
  exists rows. split; [exact E|]. split; [exact R1|]. split; [exact R2|]. exact R3.
Qed.

Lemma pf_C90_poisson_restart_implicit :
  forall (pl : platform R) (fuel : nat) (fs : string -> option string) (vts : string -> list xml)
    (other : members R -> option (res (pworld R))) (args : list string) (opts m : members R) (vm : vmap R) (s : settings R)
    (q : mg_options R) (bx by_ bz : bctype) (r : string) (dom0 : domain R) (i : Z) (t dt : R) (u : Z -> Z -> Z -> R) (stamp : nat -> string),
  parse_options (pl_read pl) (pl_lit pl) (pl_eps100 pl) (pl_max100 pl) fs args opts = Ok (Running m vm) ->
  poisson_asks_from m 3 (integrator_name q) r s 0%R 0%R -> mg_asks m q -> r <> "none" ->
  is_file3 pl dom0 i t dt u (vts r) -> readable3 pl dom0 t dt u -> valid_domain3 dom0 -> 2 <= nx dom0 /\ 2 <= ny dom0 /\ 2 <= nz dom0 ->
  nx dom0 <= 2147483647 /\ ny dom0 <= 2147483647 /\ nz dom0 <= 2147483647 -> (xbeg dom0 < xend dom0)%R ->
  poisson_sound_from s i fuel -> mg_fits q (nx dom0) (ny dom0) (nz dom0) -> reduces pl ->
  bc_named (s_bc_x s) bx -> bc_named (s_bc_y s) by_ -> bc_named (s_bc_z s) bz ->
  (forall n, one_line (stamp n)) -> (forall header, all_comment (pl_table pl header)) -> all_comment (pl_banner pl) ->
  exists w rows, madgicart_all pl sin cos fuel fs vts other args opts = Some (Ok (Finished w)) /\
    perform_all (pl_showe pl) (pl_table pl) (pl_banner pl) new_logger
      (log_requests (s_log_file s) [config_template (pl_showg pl) (pl_lit pl) (pl_eps100 pl) (pl_max100 pl) vm; "Using initial conditions file " ++ r]%string rows) = Next (w_logger w) (w_out w) /\
    rows <> [] /\
    (Forall (readable (pl_showe pl)) (map columns_of rows) ->
     table_in (file_text (s_log_file s) stamp 0 (w_out w)) = ["iter"; "time"; "dt"; "res_c"; "abs_res"; "rel_res"; "min_c"; "max_c"; "grad_c_mag"] :: map (fun r => printed (pl_showe pl) (columns_of r)) rows).
Proof.
  intros pl fuel fs vts other args opts m vm s q bx by_ bz r dom0 i t dt u stamp H0 H1 H2 H3 H4 H5 H6 H7 H8 H9 HS H11 RD H13 H14 H15 ST TA BA.
  destruct (pf_C88_poisson pl fuel fs vts other args opts m vm s q bx by_ bz r dom0 i t dt u H0 H1 H2 H3 H4 H5 H6 H7 H8 H9 HS H11 RD H13 H14 H15) as (w & E & H). exists w.
  destruct (implicit_table pl s _ [] _ stamp ST TA BA (Forall_nil _) (proj1 (proj2 HS)) _ _ _ _ _ _ H eq_refl) as (rows & R1 & R2 & R3).
  exists rows. split; [exact E|]. split; [exact R1|]. split; [exact R2|]. exact R3.
Qed.

Lemma pf_C90_poisson_restart_rk3 :
  forall (pl : platform R) (fuel : nat) (fs : string -> option string) (vts : string -> list xml)
    (other : members R -> option (res (pworld R))) (args : list string) (opts m : members R) (vm : vmap R) (s : settings R) (rel abs : R)
    (bx by_ bz : bctype) (r : string) (dom0 : domain R) (i : Z) (t dt : R) (u : Z -> Z -> Z -> R) (stamp : nat -> string),
  parse_options (pl_read pl) (pl_lit pl) (pl_eps100 pl) (pl_max100 pl) fs args opts = Ok (Running m vm) ->
  poisson_asks_from m 3 "rk3ssp" r s rel abs -> r <> "none" ->
  is_file3 pl dom0 i t dt u (vts r) -> readable3 pl dom0 t dt u -> valid_domain3 dom0 -> 2 <= nx dom0 /\ 2 <= ny dom0 /\ 2 <= nz dom0 ->
  nx dom0 <= 2147483647 /\ ny dom0 <= 2147483647 /\ nz dom0 <= 2147483647 -> (xbeg dom0 < xend dom0)%R ->
  poisson_sound_from s i fuel -> bc_named (s_bc_x s) bx -> bc_named (s_bc_y s) by_ -> bc_named (s_bc_z s) bz ->
  reduces pl -> (forall n, one_line (stamp n)) -> (forall header, all_comment (pl_table pl header)) -> all_comment (pl_banner pl) ->
  exists w rows goodbye, madgicart_all pl sin cos fuel fs vts other args opts = Some (Ok (Finished w)) /\
    perform_all (pl_showe pl) (pl_table pl) (pl_banner pl) new_logger
      (log_requests (s_log_file s) [config_template (pl_showg pl) (pl_lit pl) (pl_eps100 pl) (pl_max100 pl) vm; "Using initial conditions file " ++ r]%string rows ++ map (Message LInfo) goodbye) = Next (w_logger w) (w_out w) /\
    rows <> [] /\
    (Forall (readable (pl_showe pl)) (map columns_of rows) ->
     table_in (file_text (s_log_file s) stamp 0 (w_out w)) = ["iter"; "time"; "dt"; "res_c"; "abs_res"; "rel_res"; "min_c"; "max_c"; "grad_c_mag"] :: map (fun r => printed (pl_showe pl) (columns_of r)) rows).
Proof.
  intros pl fuel fs vts other args opts m vm s rel abs bx by_ bz r dom0 i t dt u stamp H0 H1 H2 H3 H4 H5 H6 H7 H8 HS H10 H11 H12 RD ST TA BA.
  destruct (pf_C88_poisson_rk3 pl fuel fs vts other args opts m vm s rel abs bx by_ bz r dom0 i t dt u H0 H1 H2 H3 H4 H5 H6 H7 H8 HS H10 H11 H12) as (w & E & H). exists w.
  destruct (story_table3 pl s _ [] _ stamp ST TA BA (Forall_nil _) (proj1 (proj2 HS)) rel abs _ _ _ _ _ _ H RD) as (rows & goodbye & R1 & R2 & R3).
  exists rows, goodbye. split; [exact E|]. split; [exact R1|]. split; [exact R2|]. exact R3.
Qed.

Lemma pf_C90_poisson_restart_ode23 :
  forall (pl : platform R) (fuel : nat) (fs : string -> option string) (vts : string -> list xml)
    (other : members R -> option (res (pworld R))) (args : list string) (opts m : members R) (vm : vmap R) (s : settings R) (rel abs : R)
    (bx by_ bz : bctype) (r : string) (dom0 : domain R) (i : Z) (t dt : R) (u : Z -> Z -> Z -> R) (tol lo hi : R) (stamp : nat -> string),
  parse_options (pl_read pl) (pl_lit pl) (pl_eps100 pl) (pl_max100 pl) fs args opts = Ok (Running m vm) ->
  poisson_asks_from m 3 "ode23" r s rel abs ->
  given m [("time_rel_err_tol", VDouble tol); ("min_time_step_size", VDouble lo); ("max_time_step_size", VDouble hi)] -> r <> "none" ->
  is_file3 pl dom0 i t dt u (vts r) -> readable3 pl dom0 t dt u -> valid_domain3 dom0 -> 2 <= nx dom0 /\ 2 <= ny dom0 /\ 2 <= nz dom0 ->
  nx dom0 <= 2147483647 /\ ny dom0 <= 2147483647 /\ nz dom0 <= 2147483647 -> (xbeg dom0 < xend dom0)%R ->
  poisson_sound_from s i fuel -> bc_named (s_bc_x s) bx -> bc_named (s_bc_y s) by_ -> bc_named (s_bc_z s) bz ->
  reduces pl -> (forall n, one_line (stamp n)) -> (forall header, all_comment (pl_table pl header)) -> all_comment (pl_banner pl) ->
  exists w rows goodbye, madgicart_all pl sin cos fuel fs vts other args opts = Some (Ok (Finished w)) /\
    perform_all (pl_showe pl) (pl_table pl) (pl_banner pl) new_logger
      (log_requests (s_log_file s) [config_template (pl_showg pl) (pl_lit pl) (pl_eps100 pl) (pl_max100 pl) vm; "Using initial conditions file " ++ r]%string rows ++ map (Message LInfo) goodbye) = Next (w_logger w) (w_out w) /\
    rows <> [] /\
    (Forall (readable (pl_showe pl)) (map columns_of rows) ->
     table_in (file_text (s_log_file s) stamp 0 (w_out w)) = ["iter"; "time"; "dt"; "time_err"; "res_c"; "abs_res"; "rel_res"; "min_c"; "max_c"; "grad_c_mag"] :: map (fun r => printed (pl_showe pl) (columns_of r)) rows).
Proof.
  intros pl fuel fs vts other args opts m vm s rel abs bx by_ bz r dom0 i t dt u tol lo hi stamp H0 H1 H2 H3 H4 H5 H6 H7 H8 H9 HS H11 H12 H13 RD ST TA BA.
  destruct (pf_C88_poisson_ode23 pl fuel fs vts other args opts m vm s rel abs bx by_ bz r dom0 i t dt u tol lo hi H0 H1 H2 H3 H4 H5 H6 H7 H8 H9 HS H11 H12 H13) as (w & E & H). exists w.
  destruct (story_table3 pl s _ ["time_err"%string] _ stamp ST TA BA ta_time_err (proj1 (proj2 HS)) rel abs _ _ _ _ _ _ H RD) as (rows & goodbye & R1 & R2 & R3).
  exists rows, goodbye. split; [exact E|]. split; [exact R1|]. split; [exact R2|]. exact R3.
Qed.

