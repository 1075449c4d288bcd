(** Runs of the whole program, from the command line on, in any arithmetic. *)
From Coq Require Import String.
From Verif Require Import ModelLogger ModelOptions Outcome ZList ZListProofs Num Gather ModelIndex ModelInt32 ModelDisc3D ModelDisc2D ModelCH ModelObs
  ModelTime ModelRun ModelMon ModelVTK ModelMain ModelProgram SpecGrid SpecField SpecTime SpecRestart SpecProgram Disc3DProofs Make3Proofs
  Disc2DProofs Make2Proofs VTK2Proofs Time2Proofs Step1Proofs
  RestartProofs RestartFinal ProgramProofs Program2Proofs Program3Proofs Program4Proofs.
From Coq Require Import Lia ZifyBool ZifyNat List.
Local Open Scope string_scope.
Local Open Scope list_scope.
Local Open Scope Z_scope.

Section Random.
  Context {V : Type} `{N : Num V} (draw : nat -> V) (m : V).

  Lemma random_fill_total idx : forall n (c : list V) s t, (forall q, In q idx -> 0 <= q < zlen c) ->
    exists c' s', random_fill draw m n idx c s t = Ok (c', s') /\ zlen c' = zlen c.
  Proof.
    induction idx as [|q idx IH]; intros n c s t H; [do 2 eexists; split; reflexivity|]. cbn [random_fill].
    destruct (zset c q (nadd m (draw n))) as [c1|] eqn:E1; [|rewrite zset_some in E1 by (apply H; left; auto); discriminate]. cbn [of_opt rbind].
    assert (L1 : zlen c1 = zlen c) by (eapply zlen_zset; eauto).
    destruct (zget_some c1 q) as (v & Ev); [rewrite L1; apply H; left; auto|]. rewrite Ev. cbn [of_opt rbind].
    edestruct (IH (S n) c1) as (c' & s' & E & L); [|rewrite E; do 2 eexists; split; [reflexivity|congruence]].
    intros p Hp. rewrite L1. apply H. right; auto.
  Qed.

  Lemma shift_fill_total s idx : forall (c : list V), (forall q, In q idx -> 0 <= q < zlen c) ->
    exists c', shift_fill s idx c = Ok c' /\ zlen c' = zlen c.
  Proof.
    induction idx as [|q idx IH]; intros c H; [eexists; split; reflexivity|]. cbn [shift_fill].
    destruct (zget_some c q) as (v & Ev); [apply H; left; auto|]. rewrite Ev. cbn [of_opt rbind].
    match goal with |- context [zset c q ?x] => destruct (zset c q x) as [c1|] eqn:E1; [|rewrite zset_some in E1 by (apply H; left; auto); discriminate] end.
    cbn [of_opt rbind].
    assert (L1 : zlen c1 = zlen c) by (eapply zlen_zset; eauto).
    destruct (IH c1) as (c' & E & L). { intros p Hp. rewrite L1. apply H. right; auto. }
    rewrite E. exists c'. split; [reflexivity|congruence].
  Qed.

  Lemma random_initial_total idx (c : list V) : (forall q, In q idx -> 0 <= q < zlen c) ->
    exists c', random_initial draw m idx c = Ok c' /\ zlen c' = zlen c.
  Proof.
    intros H. unfold random_initial. destruct (random_fill_total idx 0 c (nint 0) (nint 0) H) as (c1 & s & E & L).
    rewrite E. cbn [rbind]. edestruct (shift_fill_total) as (c' & E' & L'); [|rewrite E'; exists c'; split; [reflexivity|congruence]].
    intros q Hq. rewrite L. apply H; auto.
  Qed.
End Random.

Section Whole.
  Context {V : Type} `{N : Num V} (pl : platform V) (fuel : nat) (fs : string -> option string) (vts : string -> list xml)
    (other : members V -> option (res (pworld V))) (args : list string) (opts m : members V) (vm : vmap V).
  Hypothesis PO : parse_options (pl_read pl) (pl_lit pl) (pl_eps100 pl) (pl_max100 pl) fs args opts = Ok (Running m vm).
  Variables (s : settings V) (restart_file : string).
  Hypothesis HM : 0 < s_max_steps s <= 4294967295.
  Hypothesis HL : s_log_every s <> 0.
  Local Notation file := (if String.eqb restart_file "none" then None else Some (vts restart_file)).

  Ltac reads H := unfold asks_with, asked_with, given in H; repeat (apply Forall_cons_iff in H; let E := fresh "O" in destruct H as (E & H); cbn [fst snd] in E); clear H.

  Definition template : string := config_template (pl_showg pl) (pl_lit pl) (pl_eps100 pl) (pl_max100 pl) vm.

  Lemma infos_ok l : forall g : logger V, exists g' out, perform_all (pl_showe pl) (pl_table pl) (pl_banner pl) g (map (Message LInfo) l) = Next g' out.
  Proof.
    induction l as [|x l IH]; intros g; [do 2 eexists; reflexivity|]. cbn [map perform_all perform].
    match goal with |- context [perform_all _ _ _ ?g1 (map _ l)] => destruct (IH g1) as (g' & out & E) end.
    rewrite E. do 2 eexists. reflexivity.
  Qed.

  Lemma start_ok f l : exists w0, start_log pl f l = Ok w0 /\ w_files w0 = [] /\ w_stats w0 = res_stats0 /\
    perform_all (pl_showe pl) (pl_table pl) (pl_banner pl) new_logger (InitFile f LTrace :: map (Message LInfo) l)
      = Next (w_logger w0) (w_out w0).
  Proof.
    unfold start_log. cbn [perform_all perform].
    match goal with |- context [perform_all _ _ _ ?g1 (map _ l)] => destruct (infos_ok l g1) as (g' & out & E) end.
    rewrite E. eexists. split; [reflexivity|]. repeat split.
  Qed.

  (** What follows the construction. *)
  Lemma program_after {rel abs} e i v p o f w' ti dim : asks_with m dim ti restart_file s rel abs -> build pl m file = Ok (e, i, v, p, o, f) ->
    (forall w0, w_files w0 = [] -> exists w1,
       match e with
       | CahnHilliard3 d =>
           run_with pl m fuel (scene3 pl (s_max_steps s) d) (create_real_array3 d)
             (ch_rhs3 d v p) (initial_values3 pl i file p d) o f (base_of s) (driver_observers (s_log_every s) (s_save_every s)) w0 (other m)
       | CahnHilliard2 d =>
           run_with pl m fuel (scene2 pl (s_max_steps s) d) (create_real_array2 d)
             (ch_rhs2 d p) (initial_values2 pl i file p d) o f (base_of s) (driver_observers (s_log_every s) (s_save_every s)) w0 (other m)
       | Poisson3 _ => other m
       end = Some (Ok w1) /\ w' w0 w1) ->
    exists w0 w1, w_files w0 = [] /\ w_stats w0 = res_stats0 /\
      perform_all (pl_showe pl) (pl_table pl) (pl_banner pl) new_logger (InitFile (s_log_file s) LTrace :: map (Message LInfo) (start_messages template restart_file))
        = Next (w_logger w0) (w_out w0) /\
      madgicart pl fuel fs vts other args opts = Some (Ok (Finished w1)) /\ w' w0 w1.
  Proof.
    intros A B R. destruct (start_ok (s_log_file s) (start_messages template restart_file)) as (w0 & E0 & F0 & S0 & P0).
    destruct (R w0 F0) as (w1 & E1 & H1). exists w0, w1. do 3 (split; [assumption|]). split; [|exact H1].
    unfold madgicart. rewrite PO. cbn [lift]. reads A.
    unfold get_string, get_int, get_unsigned.
    repeat match goal with H : m ?n = _ |- context [m ?n] => rewrite H; clear H end. cbn [lift].
    change (config_template (pl_showg pl) (pl_lit pl) (pl_eps100 pl) (pl_max100 pl) vm) with template.
    rewrite E0. cbn [lift]. rewrite B. cbn [lift].
    change (output_base (s_output s) (s_log_file s)) with (base_of s). rewrite E1. reflexivity.
  Qed.

  Definition name3 (b : string) (i : Z) : string := vts_name3 b (Z.max (ndigits (s_max_steps s)) 4) i.
  Definition name2 (b : string) (i : Z) : string := vts_name2 b (ndigits (s_max_steps s)) i.

  Definition ran3 (dom : domain V) (d : disc3 V) := run_result pl (scene3 pl (s_max_steps s) d) (base_of s) (cells3 dom) (P3 dom) name3 (s_log_every s) (s_save_every s).
  Definition ran2 (dom : domain V) (d : disc2 V) := run_result pl (scene2 pl (s_max_steps s) d) (base_of s) (cells2 dom) (P2 dom) name2 (s_log_every s) (s_save_every s).

  Definition started (w0 : pworld V) : Prop :=
    w_files w0 = [] /\ w_stats w0 = res_stats0 /\
    perform_all (pl_showe pl) (pl_table pl) (pl_banner pl) new_logger (InitFile (s_log_file s) LTrace :: map (Message LInfo) (start_messages template restart_file))
        = Next (w_logger w0) (w_out w0).

  Definition ran3_with (dom : domain V) (d : disc3 V) := run_result_with pl (scene3 pl (s_max_steps s) d) (base_of s) (cells3 dom) (P3 dom) name3 (s_log_every s) (s_save_every s).
  Definition ran2_with (dom : domain V) (d : disc2 V) := run_result_with pl (scene2 pl (s_max_steps s) d) (base_of s) (cells2 dom) (P2 dom) name2 (s_log_every s) (s_save_every s).

  (** Time options with which the loop runs to its end. *)
  Definition options_run (o : time_options V) : Prop :=
    t_use_cfl o = false /\ 0 <= t_initial_step o < INT_MAX /\ t_max_steps o <> 0 /\ t_max_steps o <= INT_MAX /\
    Z.max 1 (t_max_steps o - t_initial_step o) <= Z.of_nat fuel.
  Definition options_fit (o : time_options V) : Prop := no_tolerance o /\ options_run o.

  Lemma whole3_rk3_with {rel abs} dom d i v p o c a : asks_with m 3 "rk3ssp" restart_file s rel abs -> build pl m file = Ok (CahnHilliard3 d, i, v, p, o, Rk3ssp) ->
    valid_domain3 dom -> 2 <= nhalo dom -> nhalo dom <= nx dom /\ nhalo dom <= ny dom /\ nhalo dom <= nz dom -> make3 dom = Ok d -> 0 <= v <= 2 -> options_run o ->
    initial_values3 pl i file p d (create_real_array3 d) = Ok c -> state_holds 1 (cells3 dom) (P3 dom) [c] a ->
    exists w0 w, started w0 /\ madgicart pl fuel fs vts other args opts = Some (Ok (Finished w)) /\
      ran3_with dom d [] (fun dt p => p = dt) (rk3_next (ch_f3 dom v p (d3_dx d))) (rk3_slope (ch_f3 dom v p (d3_dx d))) o a w0 w.
  Proof.
    intros A B HV HN HX E VR (O2 & O3 & O4 & O5 & O6) EC HA.
    pose proof (new_array3_len dom d HV ltac:(lia) E) as LA.
    destruct (program_after _ _ _ _ _ _ (ran3_with dom d [] (fun dt p => p = dt) (rk3_next (ch_f3 dom v p (d3_dx d))) (rk3_slope (ch_f3 dom v p (d3_dx d))) o a) "rk3ssp" 3 A B)
      as (w0 & w1 & Q2 & Q3 & Q4 & Q5 & Q6).
    2:{ exists w0, w1. split; [repeat split; assumption|]. split; assumption. }
    intros w0 _. unfold run_with.
    apply run_rk3_ok with (c := c).
    - exact HL.
    - intros. apply scene3_name. lia.
    - apply scene3_monitor; [exact HV|lia|exact E].
    - apply scene3_write; [exact HV|lia|exact E].
    - apply scene3_idx; [exact HV|lia|exact E].
    - exact O2.
    - exact O3.
    - split; assumption.
    - apply ch3_computes; [exact HV|lia|lia|exact E|exact VR].
    - exact LA.
    - exact EC.
    - exact HA.
    - exact O6.
  Qed.
  Lemma whole3_rk3 dom d i v p o c a : asks m 3 "rk3ssp" restart_file s -> build pl m file = Ok (CahnHilliard3 d, i, v, p, o, Rk3ssp) ->
    valid_domain3 dom -> 2 <= nhalo dom -> nhalo dom <= nx dom /\ nhalo dom <= ny dom /\ nhalo dom <= nz dom -> make3 dom = Ok d -> 0 <= v <= 2 -> options_fit o ->
    initial_values3 pl i file p d (create_real_array3 d) = Ok c -> state_holds 1 (cells3 dom) (P3 dom) [c] a ->
    exists w0 w, started w0 /\ madgicart pl fuel fs vts other args opts = Some (Ok (Finished w)) /\
      ran3 dom d [] (fun dt p => p = dt) (rk3_next (ch_f3 dom v p (d3_dx d))) (rk3_slope (ch_f3 dom v p (d3_dx d))) o a w0 w.
  Proof.
    intros A B HV HN HX E VR (O1 & O2) EC HA.
    destruct (whole3_rk3_with dom d i v p o c a A B HV HN HX E VR O2 EC HA) as (w0 & w & H1 & H2 & H3).
    exists w0, w. split; [exact H1|]. split; [exact H2|]. apply plain; assumption.
  Qed.

  Lemma whole3_ode23_with {rel abs} dom d i v p o c a tol lo hi : asks_with m 3 "ode23" restart_file s rel abs -> given m [("time_rel_err_tol", VDouble tol); ("min_time_step_size", VDouble lo); ("max_time_step_size", VDouble hi)] -> build pl m file = Ok (CahnHilliard3 d, i, v, p, o, Ode23Integrator) ->
    valid_domain3 dom -> 2 <= nhalo dom -> nhalo dom <= nx dom /\ nhalo dom <= ny dom /\ nhalo dom <= nz dom -> make3 dom = Ok d -> 0 <= v <= 2 -> options_run o ->
    initial_values3 pl i file p d (create_real_array3 d) = Ok c -> state_holds 1 (cells3 dom) (P3 dom) [c] a ->
    exists w0 w, started w0 /\ madgicart pl fuel fs vts other args opts = Some (Ok (Finished w)) /\
      ran3_with dom d ["time_err"%string] (clamped lo hi) (bs23 (ch_f3 dom v p (d3_dx d))) (slope23 (ch_f3 dom v p (d3_dx d))) o a w0 w.
  Proof.
    intros A G B HV HN HX E VR (O2 & O3 & O4 & O5 & O6) EC HA.
    pose proof (new_array3_len dom d HV ltac:(lia) E) as LA.
    destruct (program_after _ _ _ _ _ _ (ran3_with dom d ["time_err"%string] (clamped lo hi) (bs23 (ch_f3 dom v p (d3_dx d))) (slope23 (ch_f3 dom v p (d3_dx d))) o a) "ode23" 3 A B)
      as (w0 & w1 & Q2 & Q3 & Q4 & Q5 & Q6).
    2:{ exists w0, w1. split; [repeat split; assumption|]. split; assumption. }
    intros w0 _. unfold run_with.
    reads G. unfold get_double. repeat match goal with H : m ?n = _ |- context [m ?n] => rewrite H; clear H end. cbn [lift].
    apply run_ode23_ok with (c := c).
    - exact HL.
    - intros. apply scene3_name. lia.
    - apply scene3_monitor; [exact HV|lia|exact E].
    - apply scene3_write; [exact HV|lia|exact E].
    - apply scene3_idx; [exact HV|lia|exact E].
    - exact O2.
    - exact O3.
    - split; assumption.
    - apply ch3_computes; [exact HV|lia|lia|exact E|exact VR].
    - reflexivity.
    - exact LA.
    - exact EC.
    - exact HA.
    - exact O6.
  Qed.
  Lemma whole3_ode23 dom d i v p o c a tol lo hi : asks m 3 "ode23" restart_file s -> given m [("time_rel_err_tol", VDouble tol); ("min_time_step_size", VDouble lo); ("max_time_step_size", VDouble hi)] -> build pl m file = Ok (CahnHilliard3 d, i, v, p, o, Ode23Integrator) ->
    valid_domain3 dom -> 2 <= nhalo dom -> nhalo dom <= nx dom /\ nhalo dom <= ny dom /\ nhalo dom <= nz dom -> make3 dom = Ok d -> 0 <= v <= 2 -> options_fit o ->
    initial_values3 pl i file p d (create_real_array3 d) = Ok c -> state_holds 1 (cells3 dom) (P3 dom) [c] a ->
    exists w0 w, started w0 /\ madgicart pl fuel fs vts other args opts = Some (Ok (Finished w)) /\
      ran3 dom d ["time_err"%string] (clamped lo hi) (bs23 (ch_f3 dom v p (d3_dx d))) (slope23 (ch_f3 dom v p (d3_dx d))) o a w0 w.
  Proof.
    intros A G B HV HN HX E VR (O1 & O2) EC HA.
    destruct (whole3_ode23_with dom d i v p o c a tol lo hi A G B HV HN HX E VR O2 EC HA) as (w0 & w & H1 & H2 & H3).
    exists w0, w. split; [exact H1|]. split; [exact H2|]. apply plain; assumption.
  Qed.

  Lemma whole2_rk3_with {rel abs} dom d i v p o c a : asks_with m 2 "rk3ssp" restart_file s rel abs -> build pl m file = Ok (CahnHilliard2 d, i, v, p, o, Rk3ssp) ->
    valid_domain2 dom -> 2 <= nhalo dom -> nhalo dom <= nx dom -> make2 dom = Ok d -> options_run o ->
    initial_values2 pl i file p d (create_real_array2 d) = Ok c -> state_holds 1 (cells2 dom) (P2 dom) [c] a ->
    exists w0 w, started w0 /\ madgicart pl fuel fs vts other args opts = Some (Ok (Finished w)) /\
      ran2_with dom d [] (fun dt p => p = dt) (rk3_next (ch_f2 dom p (d2_dx d))) (rk3_slope (ch_f2 dom p (d2_dx d))) o a w0 w.
  Proof.
    intros A B HV HN HX E (O2 & O3 & O4 & O5 & O6) EC HA.
    pose proof (new_array2_len dom d HV ltac:(lia) E) as LA.
    destruct (program_after _ _ _ _ _ _ (ran2_with dom d [] (fun dt p => p = dt) (rk3_next (ch_f2 dom p (d2_dx d))) (rk3_slope (ch_f2 dom p (d2_dx d))) o a) "rk3ssp" 2 A B)
      as (w0 & w1 & Q2 & Q3 & Q4 & Q5 & Q6).
    2:{ exists w0, w1. split; [repeat split; assumption|]. split; assumption. }
    intros w0 _. unfold run_with.
    apply run_rk3_ok with (c := c).
    - exact HL.
    - intros. apply scene2_name. lia.
    - apply scene2_monitor; [exact HV|lia|exact E].
    - apply scene2_write; [exact HV|lia|exact E].
    - apply scene2_idx; [exact HV|lia|exact E].
    - exact O2.
    - exact O3.
    - split; assumption.
    - apply ch2_computes; [exact HV|lia|lia|exact E].
    - exact LA.
    - exact EC.
    - exact HA.
    - exact O6.
  Qed.
  Lemma whole2_rk3 dom d i v p o c a : asks m 2 "rk3ssp" restart_file s -> build pl m file = Ok (CahnHilliard2 d, i, v, p, o, Rk3ssp) ->
    valid_domain2 dom -> 2 <= nhalo dom -> nhalo dom <= nx dom -> make2 dom = Ok d -> options_fit o ->
    initial_values2 pl i file p d (create_real_array2 d) = Ok c -> state_holds 1 (cells2 dom) (P2 dom) [c] a ->
    exists w0 w, started w0 /\ madgicart pl fuel fs vts other args opts = Some (Ok (Finished w)) /\
      ran2 dom d [] (fun dt p => p = dt) (rk3_next (ch_f2 dom p (d2_dx d))) (rk3_slope (ch_f2 dom p (d2_dx d))) o a w0 w.
  Proof.
    intros A B HV HN HX E (O1 & O2) EC HA.
    destruct (whole2_rk3_with dom d i v p o c a A B HV HN HX E O2 EC HA) as (w0 & w & H1 & H2 & H3).
    exists w0, w. split; [exact H1|]. split; [exact H2|]. apply plain; assumption.
  Qed.

  Lemma whole2_ode23_with {rel abs} dom d i v p o c a tol lo hi : asks_with m 2 "ode23" restart_file s rel abs -> given m [("time_rel_err_tol", VDouble tol); ("min_time_step_size", VDouble lo); ("max_time_step_size", VDouble hi)] -> build pl m file = Ok (CahnHilliard2 d, i, v, p, o, Ode23Integrator) ->
    valid_domain2 dom -> 2 <= nhalo dom -> nhalo dom <= nx dom -> make2 dom = Ok d -> options_run o ->
    initial_values2 pl i file p d (create_real_array2 d) = Ok c -> state_holds 1 (cells2 dom) (P2 dom) [c] a ->
    exists w0 w, started w0 /\ madgicart pl fuel fs vts other args opts = Some (Ok (Finished w)) /\
      ran2_with dom d ["time_err"%string] (clamped lo hi) (bs23 (ch_f2 dom p (d2_dx d))) (slope23 (ch_f2 dom p (d2_dx d))) o a w0 w.
  Proof.
    intros A G B HV HN HX E (O2 & O3 & O4 & O5 & O6) EC HA.
    pose proof (new_array2_len dom d HV ltac:(lia) E) as LA.
    destruct (program_after _ _ _ _ _ _ (ran2_with dom d ["time_err"%string] (clamped lo hi) (bs23 (ch_f2 dom p (d2_dx d))) (slope23 (ch_f2 dom p (d2_dx d))) o a) "ode23" 2 A B)
      as (w0 & w1 & Q2 & Q3 & Q4 & Q5 & Q6).
    2:{ exists w0, w1. split; [repeat split; assumption|]. split; assumption. }
    intros w0 _. unfold run_with.
    reads G. unfold get_double. repeat match goal with H : m ?n = _ |- context [m ?n] => rewrite H; clear H end. cbn [lift].
    apply run_ode23_ok with (c := c).
    - exact HL.
    - intros. apply scene2_name. lia.
    - apply scene2_monitor; [exact HV|lia|exact E].
    - apply scene2_write; [exact HV|lia|exact E].
    - apply scene2_idx; [exact HV|lia|exact E].
    - exact O2.
    - exact O3.
    - split; assumption.
    - apply ch2_computes; [exact HV|lia|lia|exact E].
    - reflexivity.
    - exact LA.
    - exact EC.
    - exact HA.
    - exact O6.
  Qed.
  Lemma whole2_ode23 dom d i v p o c a tol lo hi : asks m 2 "ode23" restart_file s -> given m [("time_rel_err_tol", VDouble tol); ("min_time_step_size", VDouble lo); ("max_time_step_size", VDouble hi)] -> build pl m file = Ok (CahnHilliard2 d, i, v, p, o, Ode23Integrator) ->
    valid_domain2 dom -> 2 <= nhalo dom -> nhalo dom <= nx dom -> make2 dom = Ok d -> options_fit o ->
    initial_values2 pl i file p d (create_real_array2 d) = Ok c -> state_holds 1 (cells2 dom) (P2 dom) [c] a ->
    exists w0 w, started w0 /\ madgicart pl fuel fs vts other args opts = Some (Ok (Finished w)) /\
      ran2 dom d ["time_err"%string] (clamped lo hi) (bs23 (ch_f2 dom p (d2_dx d))) (slope23 (ch_f2 dom p (d2_dx d))) o a w0 w.
  Proof.
    intros A G B HV HN HX E (O1 & O2) EC HA.
    destruct (whole2_ode23_with dom d i v p o c a tol lo hi A G B HV HN HX E O2 EC HA) as (w0 & w & H1 & H2 & H3).
    exists w0, w. split; [exact H1|]. split; [exact H2|]. apply plain; assumption.
  Qed.
End Whole.

(** ** New runs *)
Section Fresh.
  Context {V : Type} `{N : Num V} (pl : platform V) (fuel : nat) (fs : string -> option string) (vts : string -> list xml)
    (other : members V -> option (res (pworld V))) (args : list string) (opts m : members V) (vm : vmap V).
  Hypothesis PO : parse_options (pl_read pl) (pl_lit pl) (pl_eps100 pl) (pl_max100 pl) fs args opts = Ok (Running m vm).
  Variables (s : settings V) (bx by_ bz : bctype).
  Hypothesis SX : 2 <= s_nx s.
  Hypothesis SY : 2 <= s_ny s <= 2147483647.
  Hypothesis SZ : 2 <= s_nz s <= 2147483647.
  Hypothesis BX : bc_named (s_bc_x s) bx.
  Hypothesis BY : bc_named (s_bc_y s) by_.
  Hypothesis BZ : bc_named (s_bc_z s) bz.
  Hypothesis HM : 0 < s_max_steps s <= 4294967295.
  Hypothesis HL : s_log_every s <> 0.
  Hypothesis HF : Z.max 1 (int_of_unsigned (s_max_steps s)) <= Z.of_nat fuel.
  Hypothesis Z0 : neqb (nint 0 : V) (nint 0) = true.
  Local Notation dom := (grid_of s bx by_ bz).

  Lemma limit_ok {rel abs} : t_max_steps (options_with s rel abs) <> 0 /\ t_max_steps (options_with s rel abs) <= INT_MAX.
  Proof. clear - HM. cbn. unfold int_of_unsigned, int_max, INT_MAX. destruct (s_max_steps s <=? 2147483647) eqn:E; lia. Qed.

  Lemma valid3 : valid_domain3 dom.
  Proof. unfold valid_domain3. cbn [grid_of nx ny nz nhalo]. lia. Qed.
  Lemma valid2 : valid_domain2 dom.
  Proof. unfold valid_domain2. cbn [grid_of nx ny nz nhalo]. lia. Qed.

  Lemma fresh_run {rel abs} : options_run fuel (options_with s rel abs).
  Proof.
    split; [reflexivity|]. split; [cbn; unfold INT_MAX; lia|]. destruct (@limit_ok rel abs) as (H1 & H2).
    split; [exact H1|]. split; [exact H2|]. cbn [options_with t_max_steps t_initial_step]. lia.
  Qed.

  Lemma program3_rk3_with {rel abs} : asks_with m 3 "rk3ssp" "none" s rel abs -> 0 <= s_variant s <= 2 -> 
    exists d c, make3 dom = Ok d /\ random_initial (pl_draw pl) (s_m s) (d3_interior d) (create_real_array3 d) = Ok c /\
    forall a, state_holds 1 (cells3 dom) (P3 dom) [c] a ->
    exists w0 w, started pl vm s "none" w0 /\ madgicart pl fuel fs vts other args opts = Some (Ok (Finished w)) /\
      ran3_with pl s dom d [] (fun dt p => p = dt) (rk3_next (ch_f3 dom (s_variant s) (params_in s) (d3_dx d))) (rk3_slope (ch_f3 dom (s_variant s) (params_in s) (d3_dx d))) (options_with s rel abs) a w0 w.
  Proof.
    intros A VR.
    destruct (build3_ok pl m s bx by_ bz ltac:(lia) ltac:(lia) ltac:(lia) BX BY BZ "rk3ssp" Rk3ssp ltac:(reflexivity) A VR) as (d & E & B).
    pose proof (new_array3_len dom d valid3 ltac:(cbn; lia) E) as LA.
    destruct (random_initial_total (pl_draw pl) (s_m s) (d3_interior d) (create_real_array3 d)) as (c & EC & LC).
    { intros q Hq. rewrite LA. apply (scene3_idx pl dom d 1 valid3 ltac:(cbn; lia) E). exact Hq. }
    exists d, c. split; [exact E|]. split; [exact EC|]. intros a HA.
    apply (whole3_rk3_with pl fuel fs vts other args opts m vm PO s "none" HM HL dom d RandomField (s_variant s) (params_in s) (options_with s rel abs) c a A).
    - exact B.
    - exact valid3.
    - cbn; lia.
    - cbn [grid_of nhalo nx ny nz]; lia.
    - exact E.
    - exact VR.
    - exact fresh_run.
    - exact EC.
    - exact HA.
  Qed.
  Lemma program3_rk3 : asks m 3 "rk3ssp" "none" s -> 0 <= s_variant s <= 2 -> 
    exists d c, make3 dom = Ok d /\ random_initial (pl_draw pl) (s_m s) (d3_interior d) (create_real_array3 d) = Ok c /\
    forall a, state_holds 1 (cells3 dom) (P3 dom) [c] a ->
    exists w0 w, started pl vm s "none" w0 /\ madgicart pl fuel fs vts other args opts = Some (Ok (Finished w)) /\
      ran3 pl s dom d [] (fun dt p => p = dt) (rk3_next (ch_f3 dom (s_variant s) (params_in s) (d3_dx d))) (rk3_slope (ch_f3 dom (s_variant s) (params_in s) (d3_dx d))) (options_of s) a w0 w.
  Proof.
    intros A VR. destruct (program3_rk3_with A VR) as (d & c & E & EC & K).
    exists d, c. split; [exact E|]. split; [exact EC|]. intros a HA. destruct (K a HA) as (w0 & w & H1 & H2 & H3).
    exists w0, w. split; [exact H1|]. split; [exact H2|]. apply plain; [split; exact Z0|exact H3].
  Qed.

  Lemma program3_ode23_with {rel abs} tol lo hi : asks_with m 3 "ode23" "none" s rel abs -> 0 <= s_variant s <= 2 -> given m [("time_rel_err_tol", VDouble tol); ("min_time_step_size", VDouble lo); ("max_time_step_size", VDouble hi)] ->
    exists d c, make3 dom = Ok d /\ random_initial (pl_draw pl) (s_m s) (d3_interior d) (create_real_array3 d) = Ok c /\
    forall a, state_holds 1 (cells3 dom) (P3 dom) [c] a ->
    exists w0 w, started pl vm s "none" w0 /\ madgicart pl fuel fs vts other args opts = Some (Ok (Finished w)) /\
      ran3_with pl s dom d ["time_err"%string] (clamped lo hi) (bs23 (ch_f3 dom (s_variant s) (params_in s) (d3_dx d))) (slope23 (ch_f3 dom (s_variant s) (params_in s) (d3_dx d))) (options_with s rel abs) a w0 w.
  Proof.
    intros A VR G.
    destruct (build3_ok pl m s bx by_ bz ltac:(lia) ltac:(lia) ltac:(lia) BX BY BZ "ode23" Ode23Integrator ltac:(reflexivity) A VR) as (d & E & B).
    pose proof (new_array3_len dom d valid3 ltac:(cbn; lia) E) as LA.
    destruct (random_initial_total (pl_draw pl) (s_m s) (d3_interior d) (create_real_array3 d)) as (c & EC & LC).
    { intros q Hq. rewrite LA. apply (scene3_idx pl dom d 1 valid3 ltac:(cbn; lia) E). exact Hq. }
    exists d, c. split; [exact E|]. split; [exact EC|]. intros a HA.
    apply (whole3_ode23_with pl fuel fs vts other args opts m vm PO s "none" HM HL dom d RandomField (s_variant s) (params_in s) (options_with s rel abs) c a tol lo hi A G).
    - exact B.
    - exact valid3.
    - cbn; lia.
    - cbn [grid_of nhalo nx ny nz]; lia.
    - exact E.
    - exact VR.
    - exact fresh_run.
    - exact EC.
    - exact HA.
  Qed.
  Lemma program3_ode23 tol lo hi : asks m 3 "ode23" "none" s -> 0 <= s_variant s <= 2 -> given m [("time_rel_err_tol", VDouble tol); ("min_time_step_size", VDouble lo); ("max_time_step_size", VDouble hi)] ->
    exists d c, make3 dom = Ok d /\ random_initial (pl_draw pl) (s_m s) (d3_interior d) (create_real_array3 d) = Ok c /\
    forall a, state_holds 1 (cells3 dom) (P3 dom) [c] a ->
    exists w0 w, started pl vm s "none" w0 /\ madgicart pl fuel fs vts other args opts = Some (Ok (Finished w)) /\
      ran3 pl s dom d ["time_err"%string] (clamped lo hi) (bs23 (ch_f3 dom (s_variant s) (params_in s) (d3_dx d))) (slope23 (ch_f3 dom (s_variant s) (params_in s) (d3_dx d))) (options_of s) a w0 w.
  Proof.
    intros A VR G. destruct (program3_ode23_with tol lo hi A VR G) as (d & c & E & EC & K).
    exists d, c. split; [exact E|]. split; [exact EC|]. intros a HA. destruct (K a HA) as (w0 & w & H1 & H2 & H3).
    exists w0, w. split; [exact H1|]. split; [exact H2|]. apply plain; [split; exact Z0|exact H3].
  Qed.

  Lemma program2_rk3_with {rel abs} : asks_with m 2 "rk3ssp" "none" s rel abs -> 
    exists d c, make2 dom = Ok d /\ random_initial (pl_draw pl) (s_m s) (d2_interior d) (create_real_array2 d) = Ok c /\
    forall a, state_holds 1 (cells2 dom) (P2 dom) [c] a ->
    exists w0 w, started pl vm s "none" w0 /\ madgicart pl fuel fs vts other args opts = Some (Ok (Finished w)) /\
      ran2_with pl s dom d [] (fun dt p => p = dt) (rk3_next (ch_f2 dom (params_in s) (d2_dx d))) (rk3_slope (ch_f2 dom (params_in s) (d2_dx d))) (options_with s rel abs) a w0 w.
  Proof.
    intros A .
    destruct (build2_ok pl m s bx by_ bz ltac:(lia) ltac:(lia) ltac:(lia) BX BY BZ "rk3ssp" Rk3ssp ltac:(reflexivity) A) as (d & E & B).
    pose proof (new_array2_len dom d valid2 ltac:(cbn; lia) E) as LA.
    destruct (random_initial_total (pl_draw pl) (s_m s) (d2_interior d) (create_real_array2 d)) as (c & EC & LC).
    { intros q Hq. rewrite LA. apply (scene2_idx pl dom d 1 valid2 ltac:(cbn; lia) E). exact Hq. }
    exists d, c. split; [exact E|]. split; [exact EC|]. intros a HA.
    apply (whole2_rk3_with pl fuel fs vts other args opts m vm PO s "none" HM HL dom d RandomField (s_variant s) (params_in s) (options_with s rel abs) c a A).
    - exact B.
    - exact valid2.
    - cbn; lia.
    - cbn [grid_of nhalo nx ny nz]; lia.
    - exact E.
    - exact fresh_run.
    - exact EC.
    - exact HA.
  Qed.
  Lemma program2_rk3 : asks m 2 "rk3ssp" "none" s -> 
    exists d c, make2 dom = Ok d /\ random_initial (pl_draw pl) (s_m s) (d2_interior d) (create_real_array2 d) = Ok c /\
    forall a, state_holds 1 (cells2 dom) (P2 dom) [c] a ->
    exists w0 w, started pl vm s "none" w0 /\ madgicart pl fuel fs vts other args opts = Some (Ok (Finished w)) /\
      ran2 pl s dom d [] (fun dt p => p = dt) (rk3_next (ch_f2 dom (params_in s) (d2_dx d))) (rk3_slope (ch_f2 dom (params_in s) (d2_dx d))) (options_of s) a w0 w.
  Proof.
    intros A. destruct (program2_rk3_with A) as (d & c & E & EC & K).
    exists d, c. split; [exact E|]. split; [exact EC|]. intros a HA. destruct (K a HA) as (w0 & w & H1 & H2 & H3).
    exists w0, w. split; [exact H1|]. split; [exact H2|]. apply plain; [split; exact Z0|exact H3].
  Qed.

  Lemma program2_ode23_with {rel abs} tol lo hi : asks_with m 2 "ode23" "none" s rel abs -> given m [("time_rel_err_tol", VDouble tol); ("min_time_step_size", VDouble lo); ("max_time_step_size", VDouble hi)] ->
    exists d c, make2 dom = Ok d /\ random_initial (pl_draw pl) (s_m s) (d2_interior d) (create_real_array2 d) = Ok c /\
    forall a, state_holds 1 (cells2 dom) (P2 dom) [c] a ->
    exists w0 w, started pl vm s "none" w0 /\ madgicart pl fuel fs vts other args opts = Some (Ok (Finished w)) /\
      ran2_with pl s dom d ["time_err"%string] (clamped lo hi) (bs23 (ch_f2 dom (params_in s) (d2_dx d))) (slope23 (ch_f2 dom (params_in s) (d2_dx d))) (options_with s rel abs) a w0 w.
  Proof.
    intros A  G.
    destruct (build2_ok pl m s bx by_ bz ltac:(lia) ltac:(lia) ltac:(lia) BX BY BZ "ode23" Ode23Integrator ltac:(reflexivity) A) as (d & E & B).
    pose proof (new_array2_len dom d valid2 ltac:(cbn; lia) E) as LA.
    destruct (random_initial_total (pl_draw pl) (s_m s) (d2_interior d) (create_real_array2 d)) as (c & EC & LC).
    { intros q Hq. rewrite LA. apply (scene2_idx pl dom d 1 valid2 ltac:(cbn; lia) E). exact Hq. }
    exists d, c. split; [exact E|]. split; [exact EC|]. intros a HA.
    apply (whole2_ode23_with pl fuel fs vts other args opts m vm PO s "none" HM HL dom d RandomField (s_variant s) (params_in s) (options_with s rel abs) c a tol lo hi A G).
    - exact B.
    - exact valid2.
    - cbn; lia.
    - cbn [grid_of nhalo nx ny nz]; lia.
    - exact E.
    - exact fresh_run.
    - exact EC.
    - exact HA.
  Qed.
  Lemma program2_ode23 tol lo hi : asks m 2 "ode23" "none" s -> given m [("time_rel_err_tol", VDouble tol); ("min_time_step_size", VDouble lo); ("max_time_step_size", VDouble hi)] ->
    exists d c, make2 dom = Ok d /\ random_initial (pl_draw pl) (s_m s) (d2_interior d) (create_real_array2 d) = Ok c /\
    forall a, state_holds 1 (cells2 dom) (P2 dom) [c] a ->
    exists w0 w, started pl vm s "none" w0 /\ madgicart pl fuel fs vts other args opts = Some (Ok (Finished w)) /\
      ran2 pl s dom d ["time_err"%string] (clamped lo hi) (bs23 (ch_f2 dom (params_in s) (d2_dx d))) (slope23 (ch_f2 dom (params_in s) (d2_dx d))) (options_of s) a w0 w.
  Proof.
    intros A G. destruct (program2_ode23_with tol lo hi A G) as (d & c & E & EC & K).
    exists d, c. split; [exact E|]. split; [exact EC|]. intros a HA. destruct (K a HA) as (w0 & w & H1 & H2 & H3).
    exists w0, w. split; [exact H1|]. split; [exact H2|]. apply plain; [split; exact Z0|exact H3].
  Qed.
End Fresh.
