(** What the program refuses, and how it ends then. *)
From Coq Require Import String.
From Verif Require Import ModelLogger ModelOptions Outcome ZList ZListProofs Num ModelInt32 ModelDisc3D ModelDisc2D ModelCH ModelObs
  ModelTime ModelRun ModelMon ModelVTK ModelMain ModelProgram SpecGrid SpecOptions SpecRestart SpecProgram SpecReject
  Disc3DProofs Make3Proofs Disc2DProofs Make2Proofs OptionsProofs Options2Proofs Options3Proofs RestartFinal Program4Proofs Program5Proofs.
From Coq Require Import Lia ZifyBool List.
Local Open Scope string_scope.
Local Open Scope list_scope.
Local Open Scope Z_scope.

Section Typed.
  Context {V : Type} (read : string -> res V) (lit : Z -> Z -> V) (eps100 max100 : V).

  Lemma no_default_string o : In o (base_opts lit eps100 max100) -> o_kind o <> KFlag -> o_default o = None -> o_kind o = KString.
  Proof.
    intros I K D. cbn in I.
    repeat (destruct I as [I|I]; [subst o; cbn in D, K |- *; first [discriminate D|congruence|reflexivity]|]). destruct I.
  Qed.

  Lemma member_typed fs args (opts m : members V) vm o : parse_options read lit eps100 max100 fs args opts = Ok (Running m vm) ->
    unset (base_opts lit eps100 max100) opts -> In o (base_opts lit eps100 max100) -> o_kind o <> KFlag -> typed (o_kind o) (m (o_name o)).
  Proof.
    intros PO UN I K. destruct (running_values read (fun _ => EmptyString) lit eps100 max100 _ _ _ _ _ PO) as (F & A & B). specialize (A o I K). specialize (B o I).
    destruct (vm (o_name o)) as [[x b]|] eqn:E.
    - rewrite A. apply F in E as (o' & Fo & T). rewrite find_in in Fo by auto. injection Fo as <-. exact T.
    - rewrite B by auto. rewrite (UN o I A). rewrite no_default_string by auto. exact Logic.I.
  Qed.

  Definition has (n : string) (k : kind) : Prop := exists o, In o (base_opts lit eps100 max100) /\ o_name o = n /\ o_kind o = k.

  Lemma has_find n k : option_map o_kind (find_exact lit eps100 max100 n) = Some k -> has n k.
  Proof.
    destruct (find_exact lit eps100 max100 n) as [o|] eqn:E; [|discriminate]. intros H. injection H as <-.
    apply find_some_in in E as (I & <-). exists o. auto.
  Qed.

  Section Members.
    Variables (fs : string -> option string) (args : list string) (opts m : members V) (vm : vmap V).
    Hypothesis PO : parse_options read lit eps100 max100 fs args opts = Ok (Running m vm).
    Hypothesis UN : unset (base_opts lit eps100 max100) opts.

    Lemma double_member n : has n KDouble -> exists v, m n = VDouble v.
    Proof.
      intros (o & I & <- & K). pose proof (member_typed _ _ _ _ _ o PO UN I ltac:(congruence)) as T. rewrite K in T.
      destruct (m (o_name o)); cbn in T; try contradiction. eauto.
    Qed.
    Lemma int_member n : has n KInt -> exists v, m n = VInt v /\ -2147483648 <= v <= 2147483647.
    Proof.
      intros (o & I & <- & K). pose proof (member_typed _ _ _ _ _ o PO UN I ltac:(congruence)) as T. rewrite K in T.
      destruct (m (o_name o)); cbn in T; try contradiction. eauto.
    Qed.
    Lemma unsigned_member n : has n KUnsigned -> exists v, m n = VUnsigned v.
    Proof.
      intros (o & I & <- & K). pose proof (member_typed _ _ _ _ _ o PO UN I ltac:(congruence)) as T. rewrite K in T.
      destruct (m (o_name o)); cbn in T; try contradiction. eauto.
    Qed.
    Lemma bool_member n : has n KBool -> exists v, m n = VBool v.
    Proof.
      intros (o & I & <- & K). pose proof (member_typed _ _ _ _ _ o PO UN I ltac:(congruence)) as T. rewrite K in T.
      destruct (m (o_name o)); cbn in T; try contradiction. eauto.
    Qed.
    Lemma string_member n : has n KString -> exists v, m n = VString v.
    Proof.
      intros (o & I & <- & K). pose proof (member_typed _ _ _ _ _ o PO UN I ltac:(congruence)) as T. rewrite K in T.
      destruct (m (o_name o)); cbn in T; try contradiction. eauto.
    Qed.
  End Members.
End Typed.

Ltac is_option := apply has_find; reflexivity.

Section Reject.
  Context {V : Type} `{N : Num V} (pl : platform V).
  Variables (fuel : nat) (fs : string -> option string) (vts : string -> list xml)
    (other : members V -> option (res (pworld V))) (args : list string) (opts m : members V) (vm : vmap V).
  Hypothesis PO : parse_options (pl_read pl) (pl_lit pl) (pl_eps100 pl) (pl_max100 pl) fs args opts = Ok (Running m vm).
  Hypothesis UN : unset (base_opts (pl_lit pl) (pl_eps100 pl) (pl_max100 pl)) opts.
  Variable q : request.

  Ltac reads H := unfold requests, given in H; repeat (apply Forall_cons_iff in H; let E := fresh "O" in destruct H as (E & H); cbn [fst snd] in E); clear H.

  (** Everything before the construction succeeds. *)
  Lemma until_build r : m "initial_condition_file" = VString r ->
    exists k, madgicart pl fuel fs vts other args opts =
      lift (build pl m (if String.eqb r "none" then None else Some (vts r))) k.
  Proof.
    intros RS. unfold madgicart. rewrite PO. cbn [lift].
    destruct (string_member _ _ _ _ _ _ _ _ _ PO UN "log_file" ltac:(is_option)) as (lf & EL).
    destruct (string_member _ _ _ _ _ _ _ _ _ PO UN "solution_output_file" ltac:(is_option)) as (so & ES).
    unfold get_string at 1. rewrite EL. cbn [lift]. unfold get_string at 1. rewrite RS. cbn [lift].
    destruct (start_ok pl lf (start_messages (config_template (pl_showg pl) (pl_lit pl) (pl_eps100 pl) (pl_max100 pl) vm) r)) as (w0 & EW & _).
    rewrite EW. cbn [lift]. unfold get_string at 1. rewrite ES. cbn [lift]. eexists. reflexivity.
  Qed.

  Lemma doubles n : has (pl_lit pl) (pl_eps100 pl) (pl_max100 pl) n KDouble -> exists v, get_double m n = Ok v.
  Proof. intros H. destruct (double_member _ _ _ _ _ _ _ _ _ PO UN n H) as (v & E). exists v. unfold get_double. rewrite E. reflexivity. Qed.

  Lemma times_total : exists o, time_options_of m = Ok o.
  Proof.
    destruct (doubles "initial_time" ltac:(is_option)) as (v1 & E1). destruct (doubles "final_time" ltac:(is_option)) as (v2 & E2).
    destruct (doubles "time_step_size" ltac:(is_option)) as (v3 & E3). destruct (doubles "converged_rel_tol" ltac:(is_option)) as (v4 & E4).
    destruct (doubles "converged_abs_tol" ltac:(is_option)) as (v5 & E5).
    destruct (bool_member _ _ _ _ _ _ _ _ _ PO UN "use_cfl_time_step" ltac:(is_option)) as (b & E6).
    destruct (unsigned_member _ _ _ _ _ _ _ _ _ PO UN "max_time_steps" ltac:(is_option)) as (n & E7).
    unfold time_options_of. rewrite E1, E2, E3, E4, E5. unfold get_bool, get_unsigned. rewrite E6, E7. cbn [rbind]. eauto.
  Qed.
  Lemma params_total : exists p, params_of m = Ok p.
  Proof.
    destruct (doubles "m" ltac:(is_option)) as (v1 & E1). destruct (doubles "sigma" ltac:(is_option)) as (v2 & E2).
    destruct (doubles "eps2" ltac:(is_option)) as (v3 & E3). unfold params_of. rewrite E1, E2, E3. cbn [rbind]. eauto.
  Qed.

  Lemma far_total rn bn r nx : m rn = VInt r -> m "domain_resolution_x" = VInt nx -> 1 <= nx -> 0 <= r <= 2147483647 ->
    has (pl_lit pl) (pl_eps100 pl) (pl_max100 pl) bn KDouble -> exists v, far_end m rn bn = Ok v.
  Proof.
    intros ER EX NX RR HB. unfold far_end, get_int. rewrite ER, EX. cbn [rbind]. rewrite idiv_ok by lia. cbn [rbind].
    destruct (doubles "domain_x_end" ltac:(is_option)) as (v1 & E1). destruct (doubles "domain_x_begin" ltac:(is_option)) as (v2 & E2).
    destruct (doubles bn HB) as (v3 & E3). rewrite E1, E2, E3. cbn [rbind]. eauto.
  Qed.

  Lemma config_total : requests m q "none" -> 1 <= q_nx q -> 1 <= q_ny q -> 1 <= q_nz q ->
    exists cfg, config_of m true = Ok cfg /\ c_dimension cfg = q_dimension q /\ c_nx cfg = q_nx q /\ c_ny cfg = q_ny q /\ c_nz cfg = q_nz q /\
      c_bc_x cfg = q_bc_x q /\ c_bc_y cfg = q_bc_y q /\ c_bc_z cfg = q_bc_z q /\ c_equation cfg = q_equation q /\ c_integrator cfg = q_integrator q.
  Proof.
    intros A NX NY NZ. reads A.
    assert (RY : q_ny q <= 2147483647).
    { destruct (int_member _ _ _ _ _ _ _ _ _ PO UN "domain_resolution_y" ltac:(is_option)) as (v & E & B). rewrite O7 in E. injection E as <-. lia. }
    assert (RZ : q_nz q <= 2147483647).
    { destruct (int_member _ _ _ _ _ _ _ _ _ PO UN "domain_resolution_z" ltac:(is_option)) as (v & E & B). rewrite O8 in E. injection E as <-. lia. }
    destruct (far_total "domain_resolution_y" "domain_y_begin" (q_ny q) (q_nx q) O7 O6 NX ltac:(lia) ltac:(is_option)) as (fy & EFY).
    destruct (far_total "domain_resolution_z" "domain_z_begin" (q_nz q) (q_nx q) O8 O6 NX ltac:(lia) ltac:(is_option)) as (fz & EFZ).
    destruct (doubles "domain_x_begin" ltac:(is_option)) as (v1 & E1). destruct (doubles "domain_x_end" ltac:(is_option)) as (v2 & E2).
    destruct (doubles "domain_y_begin" ltac:(is_option)) as (v3 & E3). destruct (doubles "domain_z_begin" ltac:(is_option)) as (v4 & E4).
    unfold config_of. cbn [rbind]. rewrite EFY, EFZ, E1, E2, E3, E4. unfold get_int, get_string.
    rewrite O, O0, O1, O3, O4, O5, O6, O7, O8. cbn [rbind].
    eexists. split; [reflexivity|]. cbn. repeat split.
  Qed.

  Lemma parse_bc_known n : In n boundaries -> exists b, parse_bc n = Ok b.
  Proof. intros [<-|[<-|[<-|[]]]]; eexists; reflexivity. Qed.
  Lemma parse_bc_unknown n : ~ In n boundaries -> parse_bc n = Fatal.
  Proof.
    intros H. unfold parse_bc.
    repeat match goal with |- context [String.eqb n ?a] => destruct (String.eqb_spec n a) as [->|?]; [destruct H; cbn; tauto|] end. reflexivity.
  Qed.
  Lemma integrator_known n : In n integrator_names -> exists f, reg_lookup integrators n = Ok f.
  Proof. intros H. cbn in H. repeat destruct H as [<-|H]; [eexists; reflexivity..|contradiction]. Qed.
  Lemma integrator_unknown n : ~ In n integrator_names -> reg_lookup integrators n = Throw.
  Proof.
    intros H. unfold reg_lookup, integrators. cbn [reg_find].
    repeat match goal with |- context [String.eqb ?a n] => destruct (String.eqb_spec a n) as [<-|?]; [destruct H; cbn; tauto|]
      | |- context [String.eqb n ?a] => destruct (String.eqb_spec n a) as [->|?]; [destruct H; cbn; tauto|] end. reflexivity.
  Qed.

  Lemma build_refuses : requests m q "none" -> 1 <= q_nx q -> 1 <= q_ny q -> 1 <= q_nz q ->
    (unknown q -> build pl m None = Fatal) /\
    (~ unknown q -> unsupported q -> build pl m None = Throw).
  Proof.
    intros A NX NY NZ. destruct (config_total A NX NY NZ) as (cfg & EC & C1 & C2 & C3 & C4 & C5 & C6 & C7 & C8 & C9).
    assert (VR : get_int m "kernel_variant" = Ok (q_variant q)) by (reads A; unfold get_int; rewrite O2; reflexivity).
    destruct times_total as (o & EO). destruct params_total as (p & EP).
    unfold build. cbn [rbind]. rewrite EC. cbn [rbind]. unfold geom_factory, geom_domain. rewrite C5, C6, C7, C1, C2, C3, C4.
    destruct (in_dec string_dec (q_bc_x q) boundaries) as [BX|BX].
    2: { rewrite parse_bc_unknown by auto. split; [reflexivity|]. intros U. exfalso. apply U. unfold unknown. tauto. }
    destruct (parse_bc_known _ BX) as (bx & EX). rewrite EX. cbn [rbind].
    destruct (in_dec string_dec (q_bc_y q) boundaries) as [BY|BY].
    2: { rewrite parse_bc_unknown by auto. split; [reflexivity|]. intros U. exfalso. apply U. unfold unknown. tauto. }
    destruct (parse_bc_known _ BY) as (by_ & EY). rewrite EY. cbn [rbind].
    destruct (in_dec string_dec (q_bc_z q) boundaries) as [BZ|BZ].
    2: { rewrite parse_bc_unknown by auto. split; [reflexivity|]. intros U. exfalso. apply U. unfold unknown. tauto. }
    destruct (parse_bc_known _ BZ) as (bz & EZ). rewrite EZ. cbn [rbind nx ny nz xbeg xend ybeg yend zbeg zend].
    set (dom := {| nx := q_nx q |}).
    destruct (make3_ok dom) as (d3 & E3 & _). { unfold valid_domain3. cbn [dom nx ny nz nhalo]. lia. }
    destruct (make2_ok dom) as (d2 & E2 & _). { unfold valid_domain2. cbn [dom nx ny nz nhalo]. lia. }
    rewrite E2, E3. cbn [rbind]. unfold rhs_factory, initial_factory, integrator_factory, check_variant, time_options_for.
    rewrite C1, C8, C9, VR, EO, EP. cbn [rbind].
    destruct (Z.eqb_spec (q_dimension q) 2) as [D2|D2]; [|destruct (Z.eqb_spec (q_dimension q) 3) as [D3|D3]]; cbn [rbind].
    3: { split; [reflexivity|]. intros U. exfalso. apply U. unfold unknown. tauto. }
    - destruct (String.eqb_spec (q_equation q) "cahn-hilliard") as [Q|Q]; [|destruct (String.eqb_spec (q_equation q) "poisson") as [P|P]]; cbn [rbind].
      + split.
        * intros U. exfalso. unfold unknown in U.
          assert (In (q_equation q) equation_names) by (rewrite Q; cbn; auto).
          destruct U as [U|[U|[U|[U|[U|(_ & U & _)]]]]]; try tauto. lia.
        * intros _ [(P & _)|I]; [congruence|]. rewrite integrator_unknown by auto. reflexivity.
      + split; [|reflexivity]. intros U. exfalso. unfold unknown in U.
        assert (In (q_equation q) equation_names) by (rewrite P; cbn; auto).
        destruct U as [U|[U|[U|[U|[U|(U & _)]]]]]; tauto.
      + split; [reflexivity|]. intros U. exfalso. apply U. unfold unknown. right; right; right; right; left.
        intros [E|[E|[]]]; congruence.
    - destruct (String.eqb_spec (q_equation q) "cahn-hilliard") as [Q|Q]; [|destruct (String.eqb_spec (q_equation q) "poisson") as [P|P]]; cbn [rbind].
      + destruct ((0 <=? q_variant q) && (q_variant q <=? 2)) eqn:VQ; cbn [rbind].
        * split.
          -- intros U. exfalso. unfold unknown in U.
             assert (In (q_equation q) equation_names) by (rewrite Q; cbn; auto).
             destruct U as [U|[U|[U|[U|[U|(_ & _ & U)]]]]]; try tauto. lia.
          -- intros _ [(P & _)|I]; [congruence|]. rewrite integrator_unknown by auto. reflexivity.
        * split; [reflexivity|]. intros U. exfalso. apply U. unfold unknown. do 5 right. split; [auto|]. split; [auto|]. lia.
      + split.
        * intros U. exfalso. unfold unknown in U.
          assert (In (q_equation q) equation_names) by (rewrite P; cbn; auto).
          destruct U as [U|[U|[U|[U|[U|(U & _)]]]]]; tauto.
        * intros _ [(_ & P2)|I]; [congruence|]. rewrite integrator_unknown by auto. reflexivity.
      + split; [reflexivity|]. intros U. exfalso. apply U. unfold unknown. right; right; right; right; left.
        intros [E|[E|[]]]; congruence.
  Qed.

  Lemma rejects : requests m q "none" -> 1 <= q_nx q -> 1 <= q_ny q -> 1 <= q_nz q ->
    (unknown q -> madgicart pl fuel fs vts other args opts = Some Fatal) /\
    (~ unknown q -> unsupported q -> madgicart pl fuel fs vts other args opts = Some Throw).
  Proof.
    intros A NX NY NZ. destruct (build_refuses A NX NY NZ) as (B1 & B2).
    destruct (until_build "none") as (k & E). { reads A. exact O9. }
    rewrite E. cbn [String.eqb Ascii.eqb Bool.eqb]. change (String.eqb "none" "none") with true. cbn iota.
    split; [intros U; rewrite B1 by auto|intros U W; rewrite B2 by auto]; reflexivity.
  Qed.

  (** A grid without cells in x: the quotient of the resolutions divides by zero. *)
  Lemma no_cells : requests m q "none" -> q_nx q = 0 -> madgicart pl fuel fs vts other args opts = Some UB.
  Proof.
    intros A NX. destruct (until_build "none") as (k & E). { reads A. exact O9. }
    rewrite E. change (String.eqb "none" "none") with true. cbn iota. unfold build. cbn [rbind].
    reads A. rewrite NX in O6.
    destruct (doubles "domain_x_begin" ltac:(is_option)) as (v1 & E1). destruct (doubles "domain_x_end" ltac:(is_option)) as (v2 & E2).
    destruct (doubles "domain_y_begin" ltac:(is_option)) as (v3 & E3).
    unfold config_of, far_end. rewrite E1, E2, E3. unfold get_int. rewrite O, O6, O7, O8. cbn [rbind]. reflexivity.
  Qed.

  (** A restart file that does not exist or is not XML. *)
  Lemma no_file r : m "initial_condition_file" = VString r -> r <> "none" -> vts r = [] ->
    madgicart pl fuel fs vts other args opts = Some UB.
  Proof.
    intros RS NE EV. destruct (until_build r RS) as (k & E). rewrite E.
    destruct (String.eqb_spec r "none") as [Q|_]; [contradiction|]. rewrite EV. reflexivity.
  Qed.

  (** What follows the construction. *)
  Lemma after_build r e i v p o f : m "initial_condition_file" = VString r ->
    let file := if String.eqb r "none" then None else Some (vts r) in
    build pl m file = Ok (e, i, v, p, o, f) ->
    exists base obs maxs w0, madgicart pl fuel fs vts other args opts =
      after
        match e with
        | CahnHilliard3 d =>
            run_with pl m fuel (scene3 pl maxs d) (create_real_array3 d)
              (ch_rhs3 d v p) (initial_values3 pl i file p d) o f base obs w0 (other m)
        | CahnHilliard2 d =>
            run_with pl m fuel (scene2 pl maxs d) (create_real_array2 d)
              (ch_rhs2 d p) (initial_values2 pl i file p d) o f base obs w0 (other m)
        | Poisson3 _ => other m
        end
        (fun w => Ok (Finished w)).
  Proof.
    intros RS file B. unfold madgicart. rewrite PO. cbn [lift].
    destruct (string_member _ _ _ _ _ _ _ _ _ PO UN "log_file" ltac:(is_option)) as (lf & EL).
    destruct (string_member _ _ _ _ _ _ _ _ _ PO UN "solution_output_file" ltac:(is_option)) as (so & ES).
    unfold get_string at 1. rewrite EL. cbn [lift]. unfold get_string at 1. rewrite RS. cbn [lift].
    destruct (start_ok pl lf (start_messages (config_template (pl_showg pl) (pl_lit pl) (pl_eps100 pl) (pl_max100 pl) vm) r)) as (w0 & EW & _).
    rewrite EW. cbn [lift]. unfold get_string at 1. rewrite ES. cbn [lift]. fold file. rewrite B. cbn [lift].
    destruct (int_member _ _ _ _ _ _ _ _ _ PO UN "log_frequency" ltac:(is_option)) as (n1 & E1 & _).
    destruct (int_member _ _ _ _ _ _ _ _ _ PO UN "save_every" ltac:(is_option)) as (n2 & E2 & _).
    destruct (unsigned_member _ _ _ _ _ _ _ _ _ PO UN "max_time_steps" ltac:(is_option)) as (n3 & E3).
    unfold get_int at 1. rewrite E1. cbn [lift]. unfold get_int at 1. rewrite E2. cbn [lift]. unfold get_unsigned at 1. rewrite E3. cbn [lift].
    do 4 eexists. reflexivity.
  Qed.

  Lemma run_with_explicit {A} (x : option (res (pworld V))) (g : A) sn a rhs set o f base obs w0 :
    f = Rk3ssp \/ f = Ode23Integrator -> (forall c, set a <> Ok c) ->
    exists e, run_with pl m fuel sn a rhs set o f base obs w0 x = Some e /\ (set a = UB -> e = UB) /\ (set a = Fatal -> e = Fatal) /\ (set a = Throw -> e = Throw).
  Proof.
    intros F H.
    destruct (doubles "time_rel_err_tol" ltac:(is_option)) as (v1 & E1). destruct (doubles "min_time_step_size" ltac:(is_option)) as (v2 & E2).
    destruct (doubles "max_time_step_size" ltac:(is_option)) as (v3 & E3).
    destruct F as [-> | ->]; unfold run_with, run_rk3, run_ode23; rewrite ?E1, ?E2, ?E3; cbn [lift];
    (destruct (set a) as [c| | |] eqn:S; [exfalso; apply (H c); auto|..]); cbn [lift]; eexists; (split; [reflexivity|]);
    repeat split; (reflexivity || discriminate).
  Qed.

  Lemma run_with_cfl (x : option (res (pworld V))) sn a rhs set o f base obs w0 c :
    f = Rk3ssp \/ f = Ode23Integrator -> set a = Ok c -> t_use_cfl o = true ->
    run_with pl m fuel sn a rhs set o f base obs w0 x = Some Fatal.
  Proof.
    intros F S C.
    destruct (doubles "time_rel_err_tol" ltac:(is_option)) as (v1 & E1). destruct (doubles "min_time_step_size" ltac:(is_option)) as (v2 & E2).
    destruct (doubles "max_time_step_size" ltac:(is_option)) as (v3 & E3).
    destruct F as [-> | ->]; unfold run_with, run_rk3, run_ode23; rewrite ?E1, ?E2, ?E3; cbn [lift]; rewrite S; cbn [lift];
    unfold solve; rewrite C; reflexivity.
  Qed.

  Lemma cfl_refused : requests m q "none" -> 1 <= q_nx q -> 1 <= q_ny q -> 1 <= q_nz q -> ~ unknown q ->
    q_equation q = "cahn-hilliard" -> q_integrator q = "rk3ssp" \/ q_integrator q = "ode23" -> m "use_cfl_time_step" = VBool true ->
    madgicart pl fuel fs vts other args opts = Some Fatal.
  Proof.
    intros A NX NY NZ K Q TI CF. destruct (config_total A NX NY NZ) as (cfg & EC & C1 & C2 & C3 & C4 & C5 & C6 & C7 & C8 & C9).
    assert (VR : get_int m "kernel_variant" = Ok (q_variant q)) by (reads A; unfold get_int; rewrite O2; reflexivity).
    assert (RS : m "initial_condition_file" = VString "none") by (reads A; exact O9).
    destruct times_total as (o & EO). destruct params_total as (p & EP).
    assert (CO : t_use_cfl o = true).
    { unfold time_options_of in EO. unfold get_bool in EO. rewrite CF in EO.
      destruct (get_double m "initial_time"); try discriminate. cbn [rbind] in EO.
      destruct (get_double m "final_time"); try discriminate. cbn [rbind] in EO.
      destruct (get_double m "time_step_size"); try discriminate. cbn [rbind] in EO.
      destruct (get_unsigned m "max_time_steps"); try discriminate. cbn [rbind] in EO.
      destruct (get_double m "converged_rel_tol"); try discriminate. cbn [rbind] in EO.
      destruct (get_double m "converged_abs_tol"); try discriminate. cbn [rbind] in EO. injection EO as <-. reflexivity. }
    assert (BX : In (q_bc_x q) boundaries) by (destruct (in_dec string_dec (q_bc_x q) boundaries); [auto|exfalso; apply K; unfold unknown; tauto]).
    assert (BY : In (q_bc_y q) boundaries) by (destruct (in_dec string_dec (q_bc_y q) boundaries); [auto|exfalso; apply K; unfold unknown; tauto]).
    assert (BZ : In (q_bc_z q) boundaries) by (destruct (in_dec string_dec (q_bc_z q) boundaries); [auto|exfalso; apply K; unfold unknown; tauto]).
    destruct (parse_bc_known _ BX) as (bx & EX). destruct (parse_bc_known _ BY) as (by_ & EY). destruct (parse_bc_known _ BZ) as (bz & EZ).
    assert (RI : exists f, reg_lookup integrators (q_integrator q) = Ok f /\ (f = Rk3ssp \/ f = Ode23Integrator)).
    { destruct TI as [-> | ->]; eexists; (split; [reflexivity|auto]). }
    destruct RI as (f & EF & FF).
    set (dom := {| nx := q_nx q; ny := q_ny q; nz := q_nz q; xbeg := c_xbeg cfg; xend := c_xend cfg; ybeg := c_ybeg cfg; yend := c_yend cfg;
                   zbeg := c_zbeg cfg; zend := c_zend cfg; xbc := bx; ybc := by_; zbc := bz; nhalo := 2 |}).
    assert (V3 : valid_domain3 dom) by (unfold valid_domain3; cbn [dom nx ny nz nhalo]; lia).
    assert (V2 : valid_domain2 dom) by (unfold valid_domain2; cbn [dom nx ny nz nhalo]; lia).
    destruct (make3_ok dom V3) as (d3 & E3 & _). destruct (make2_ok dom V2) as (d2 & E2 & _).
    destruct (Z.eq_dec (q_dimension q) 2) as [D|D].
    - assert (B : build pl m None = Ok (CahnHilliard2 d2, RandomField, q_variant q, p, o, f)).
      { unfold build. cbn [rbind]. rewrite EC. cbn [rbind]. unfold geom_factory, geom_domain. rewrite C5, C6, C7, C1, C2, C3, C4, EX, EY, EZ.
        cbn [rbind nx ny nz xbeg xend ybeg yend zbeg zend]. fold dom. rewrite D. cbn [Z.eqb Pos.eqb]. rewrite E2. cbn [rbind].
        unfold rhs_factory, initial_factory, integrator_factory, check_variant, time_options_for. rewrite C1, C8, C9, VR, EO, EP, D, Q. cbn [rbind].
        change (String.eqb "cahn-hilliard" "cahn-hilliard") with true. cbn [rbind Z.eqb Pos.eqb]. rewrite EF. reflexivity. }
      destruct (after_build "none" _ _ _ _ _ _ RS B) as (base & obs & maxs & w0 & E). rewrite E.
      destruct (random_initial_total (pl_draw pl) (ch_m p) (d2_interior d2) (create_real_array2 d2)) as (c & ECI & LC).
      { intros z Hz. rewrite (new_array2_len dom d2 V2 ltac:(cbn; lia) E2). apply (scene2_idx pl dom d2 1 V2 ltac:(cbn; lia) E2). exact Hz. }
      rewrite (run_with_cfl _ _ _ _ _ _ _ _ _ _ c FF); [reflexivity| |exact CO].
      exact ECI.
    - assert (D3 : q_dimension q = 3) by (destruct (Z.eq_dec (q_dimension q) 3); [auto|exfalso; apply K; unfold unknown; tauto]).
      assert (VV : 0 <= q_variant q <= 2).
      { destruct (Z.le_gt_cases 0 (q_variant q)), (Z.le_gt_cases (q_variant q) 2); try lia; exfalso; apply K; unfold unknown; do 5 right; (split; [auto|]); (split; [auto|]); lia. }
      assert (B : build pl m None = Ok (CahnHilliard3 d3, RandomField, q_variant q, p, o, f)).
      { unfold build. cbn [rbind]. rewrite EC. cbn [rbind]. unfold geom_factory, geom_domain. rewrite C5, C6, C7, C1, C2, C3, C4, EX, EY, EZ.
        cbn [rbind nx ny nz xbeg xend ybeg yend zbeg zend]. fold dom. rewrite D3. cbn [Z.eqb Pos.eqb]. rewrite E3. cbn [rbind].
        unfold rhs_factory, initial_factory, integrator_factory, check_variant, time_options_for. rewrite C1, C8, C9, VR, EO, EP, D3, Q. cbn [rbind].
        change (String.eqb "cahn-hilliard" "cahn-hilliard") with true. cbn [rbind Z.eqb Pos.eqb].
        replace ((0 <=? q_variant q) && (q_variant q <=? 2)) with true by lia. cbn [rbind]. rewrite EF. reflexivity. }
      destruct (after_build "none" _ _ _ _ _ _ RS B) as (base & obs & maxs & w0 & E). rewrite E.
      destruct (random_initial_total (pl_draw pl) (ch_m p) (d3_interior d3) (create_real_array3 d3)) as (c & ECI & LC).
      { intros z Hz. rewrite (new_array3_len dom d3 V3 ltac:(cbn; lia) E3). apply (scene3_idx pl dom d3 1 V3 ltac:(cbn; lia) E3). exact Hz. }
      rewrite (run_with_cfl _ _ _ _ _ _ _ _ _ _ c FF); [reflexivity| |exact CO].
      exact ECI.
  Qed.

  (** A restart file written in the other number of dimensions. *)
  Definition failed {A} (e : res A) : Prop := forall a, e <> Ok a.
  Lemma lift_failed {A B} (r : res A) (k : A -> option (res B)) : failed r -> exists e, lift r k = Some e /\ failed e.
  Proof. intros H. destruct r as [a| | |]; [exfalso; apply (H a); auto|..]; eexists; (split; [reflexivity|intros b; discriminate]). Qed.

  Lemma rhs_cases cfg g e : rhs_factory (V:=V) cfg g = Ok e -> c_equation cfg = "cahn-hilliard" ->
    (c_dimension cfg = 2 /\ exists d, e = CahnHilliard2 d) \/ (c_dimension cfg = 3 /\ exists d, e = CahnHilliard3 d).
  Proof.
    unfold rhs_factory. intros E Q. rewrite Q in E. change (String.eqb "cahn-hilliard" "cahn-hilliard") with true in E. cbn iota in E.
    destruct (Z.eqb_spec (c_dimension cfg) 2); [|destruct (Z.eqb_spec (c_dimension cfg) 3)]; try discriminate;
    destruct g; try discriminate; injection E as <-; eauto.
  Qed.

  Lemma build_inv file e i v p o f : build pl m file = Ok (e, i, v, p, o, f) ->
    exists cfg g, config_of m (match file with Some _ => false | None => true end) = Ok cfg /\ rhs_factory cfg g = Ok e /\
      initial_factory cfg (match file with Some _ => true | None => false end) = Ok i /\ reg_lookup integrators (c_integrator cfg) = Ok f.
  Proof.
    unfold build. intros E.
    match type of E with rbind ?x _ = _ => destruct x as [from| | |]; try discriminate end. cbn [rbind] in E.
    destruct (config_of m _) as [cfg| | |] eqn:EC; try discriminate. cbn [rbind] in E.
    destruct (geom_factory cfg from) as [g| | |]; try discriminate. cbn [rbind] in E.
    destruct (rhs_factory cfg g) as [e'| | |] eqn:ER; try discriminate. cbn [rbind] in E.
    destruct (check_variant m e'); try discriminate. cbn [rbind] in E.
    destruct (params_of m); try discriminate. cbn [rbind] in E.
    destruct (initial_factory cfg _) as [i'| | |] eqn:EI; try discriminate. cbn [rbind] in E.
    destruct (time_options_of m); try discriminate. cbn [rbind] in E.
    destruct (time_options_for _ _ _); try discriminate. cbn [rbind] in E.
    unfold integrator_factory in E. destruct (reg_lookup integrators (c_integrator cfg)) as [f'| | |] eqn:EF; try discriminate. cbn [rbind] in E.
    assert (e' = e /\ i' = i /\ f' = f) as (<- & <- & <-) by (repeat split; congruence).
    exists cfg, g. auto.
  Qed.
  Lemma config_inv fresh cfg : config_of m fresh = Ok cfg ->
    get_int m "dimension" = Ok (c_dimension cfg) /\ get_string m "equation_type" = Ok (c_equation cfg) /\ get_string m "time_integrator" = Ok (c_integrator cfg).
  Proof.
    unfold config_of. intros E.
    repeat match type of E with rbind ?x _ = _ => let Q := fresh "Q" in destruct x eqn:Q; try discriminate; cbn [rbind] in E end.
    injection E as <-. cbn [c_dimension c_equation c_integrator]. auto.
  Qed.

  Lemma wrong_file r dim ti : m "initial_condition_file" = VString r -> r <> "none" ->
    m "dimension" = VInt dim -> m "equation_type" = VString "cahn-hilliard" -> m "time_integrator" = VString ti -> ti = "rk3ssp" \/ ti = "ode23" ->
    (dim = 2 -> forall d c, set_solution (pl_read pl) (vts r) (pl_raw pl) (Target2 d c) = Throw) ->
    (dim = 3 -> forall d c, set_solution (pl_read pl) (vts r) (pl_raw pl) (Target3 d c) = Throw) ->
    exists e, madgicart pl fuel fs vts other args opts = Some e /\ failed e.
  Proof.
    intros RS NE DM EQ TI RK H2 H3. assert (RB : String.eqb r "none" = false) by (apply String.eqb_neq; exact NE).
    destruct (build pl m (Some (vts r))) as [[[[[[e i] v] p] o] f]| | |] eqn:B.
    2-4: destruct (until_build r RS) as (k & E); rewrite RB in E; rewrite E, B; eexists; (split; [reflexivity|intros a; discriminate]).
    destruct (build_inv _ _ _ _ _ _ _ B) as (cfg & g & EC & ER & EI & EF). apply config_inv in EC as (C1 & C2 & C3).
    unfold get_int in C1. rewrite DM in C1. unfold get_string in C2, C3. rewrite EQ in C2. rewrite TI in C3.
    injection C1 as C1. injection C2 as C2. injection C3 as C3. rewrite <- C3 in EF.
    assert (FF : f = Rk3ssp \/ f = Ode23Integrator) by (destruct RK as [-> | ->]; cbn in EF; injection EF as <-; auto).
    cbn in EI. assert (i = FromFile) by congruence. subst i.
    pose proof (after_build r e FromFile v p o f RS) as AB. rewrite RB in AB. destruct (AB B) as (base & obs & maxs & w0 & E). rewrite E.
    destruct (rhs_cases cfg g e ER (eq_sym C2)) as [(D & d & ->)|(D & d & ->)].
    - destruct (run_with_explicit (other m) tt (scene2 pl maxs d) (create_real_array2 d) (ch_rhs2 d p)
        (initial_values2 pl FromFile (Some (vts r)) p d) o f base obs w0 FF) as (x & EX & _ & _ & T).
      { intros c. unfold initial_values2. rewrite H2 by lia. discriminate. }
      rewrite EX. rewrite T by (unfold initial_values2; rewrite H2 by lia; reflexivity).
      exists Throw. split; [reflexivity|intros a; discriminate].
    - destruct (run_with_explicit (other m) tt (scene3 pl maxs d) (create_real_array3 d) (ch_rhs3 d v p)
        (initial_values3 pl FromFile (Some (vts r)) p d) o f base obs w0 FF) as (x & EX & _ & _ & T).
      { intros c. unfold initial_values3. rewrite H3 by lia. discriminate. }
      rewrite EX. rewrite T by (unfold initial_values3; rewrite H3 by lia; reflexivity).
      exists Throw. split; [reflexivity|intros a; discriminate].
  Qed.
End Reject.
