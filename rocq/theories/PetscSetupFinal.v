(** Proofs of C78. *)
From Verif Require Import ModelLogger ModelOptions Outcome Num ExampleNum ModelInt32 ModelObs ModelTime ModelVTK ModelMain ModelPetscSetup SpecPetscSetup.
From Coq Require Import String Ascii ZArith NArith QArith Bool Lia List.
Import ListNotations.
Local Open Scope string_scope.
Local Open Scope list_scope.
Local Open Scope Z_scope.

(** ** Words *)
Lemma white_space c : is_space c = white c.
Proof. destruct c as [[|] [|] [|] [|] [|] [|] [|] [|]]; reflexivity. Qed.

Local Arguments white : simpl never.

Lemma scan_blank g s : blank g -> forall w ws, scan_words s = (w, ws) ->
  exists w' ws', scan_words (g ++ s)%string = (w', ws') /\ add_word w' ws' = add_word w ws.
Proof.
  induction g as [|c g IH]; cbn; intros B w ws E.
  - exists w, ws. split; [exact E|reflexivity].
  - destruct B as (C & B). destruct (IH B w ws E) as (w' & ws' & E' & A). rewrite E', white_space, C.
    exists "", (add_word w' ws'). split; [reflexivity|]. cbn. exact A.
Qed.

Lemma scan_solid w : solid w -> forall rest ws, scan_words rest = ("", ws) -> scan_words (w ++ rest)%string = (w, ws).
Proof.
  induction w as [|c w IH]; cbn; intros S rest ws E; [exact E|]. destruct S as (C & S). rewrite (IH S rest ws E), white_space, C. reflexivity.
Qed.

Lemma scan_starts rest : starts_blank rest -> scan_words rest = ("", words rest).
Proof.
  unfold words. destruct rest as [|c r]; cbn; [reflexivity|]. intros C. destruct (scan_words r) as [w ws]. rewrite white_space, C. reflexivity.
Qed.

Lemma words_blank g s : blank g -> words (g ++ s)%string = words s.
Proof.
  intros B. unfold words at 2. destruct (scan_words s) as [w ws] eqn:E. destruct (scan_blank g s B w ws E) as (w' & ws' & E' & A).
  unfold words. rewrite E'. exact A.
Qed.

Lemma words_spelled ws s : spells ws s -> words s = ws.
Proof.
  induction 1 as [g B | g w ws rest B NE S SB H IH].
  - induction g as [|c g IHg]; [reflexivity|]. cbn in B. destruct B as (C & B). specialize (IHg B).
    unfold words in *. cbn. destruct (scan_words g) as [w' ws']. rewrite white_space, C. cbn. exact IHg.
  - rewrite (words_blank g _ B). unfold words. rewrite (scan_solid w S rest (words rest) (scan_starts rest SB)), IH.
    destruct w as [|c w]; [congruence|reflexivity].
Qed.

Lemma spells_app g ws s : blank g -> spells ws s -> spells ws (g ++ s)%string.
Proof.
  assert (A : forall a b c : string, ((a ++ b) ++ c = a ++ (b ++ c))%string) by (induction a; cbn; congruence).
  assert (BA : forall a b, blank a -> blank b -> blank (a ++ b)%string).
  { induction a as [|c a IH]; cbn; intros b; [auto|]. intros (C & B) B'. split; auto. }
  intros B H. destruct H as [g' B' | g' w ws rest B' NE S SB H].
  - apply spells_end. auto.
  - rewrite <- A. apply spells_word; auto.
Qed.

Lemma spelled_words s : spells (words s) s /\
  (forall w ws, scan_words s = (w, ws) -> exists rest, s = (w ++ rest)%string /\ solid w /\ starts_blank rest /\ spells ws rest).
Proof.
  induction s as [|c s (IH1 & IH2)].
  - split; [exact (spells_end "" I)|]. cbn. intros w ws [= <- <-]. exists "". repeat split. exact (spells_end "" I).
  - destruct (scan_words s) as [w ws] eqn:E. destruct (IH2 w ws eq_refl) as (rest & -> & S & SB & H). 
    destruct (is_space c) eqn:C; pose proof C as CW; rewrite white_space in CW.
    + assert (K : spells (add_word w ws) (String c (w ++ rest))).
      { apply (spells_app (String c "") _ (w ++ rest)%string); [cbn; auto|]. destruct w as [|a w]; [exact H|].
        apply (spells_word "" (String a w) ws rest); cbn; auto; discriminate. }
      split.
      * unfold words. cbn. rewrite E, C. cbn. exact K.
      * cbn. rewrite E, C. intros w' ws' [= <- <-]. exists (String c (w ++ rest)). cbn. repeat split; auto.
    + split.
      * unfold words. cbn. rewrite E, C. cbn.
        apply (spells_word "" (String c w) ws rest); cbn; auto; discriminate.
      * cbn. rewrite E, C. intros w' ws' [= <- <-]. exists rest. cbn. repeat split; auto.
Qed.

Lemma full_command_words args : forall s, fold_left (fun s a => (s ++ a ++ " ")%string) args s =
  (s ++ String.concat "" (map (fun a => (a ++ " ")%string) args))%string.
Proof.
  assert (A : forall a b c : string, ((a ++ b) ++ c = a ++ (b ++ c))%string) by (induction a; cbn; congruence).
  induction args as [|a l IH]; cbn [fold_left map String.concat]; intros s.
  - induction s as [|c s IHs]; [reflexivity|]. cbn. cbn in IHs. rewrite <- IHs. reflexivity.
  - rewrite IH. destruct (map (fun a0 => (a0 ++ " ")%string) l) as [|b r] eqn:E.
    + cbn [String.concat]. rewrite !A. reflexivity.
    + rewrite !A. reflexivity.
Qed.

Lemma pf_C78_words :
  forall (V : Type) (N : Num V) (real_max : V) (po ts_type : string) (o : time_options V) (ao : adaptive_options V) (step : V),
  exists ws rest,
    spells ws po /\ (forall ws', spells ws' po -> ws' = ws) /\
    petsc_setup real_max po ts_type o ao step =
      [Say LInfo ("Initializing Petsc with command line options: " ++ String.concat "" (map (fun a => (a ++ " ")%string) ("maDG" :: ws)));
       PetscInitialize ("maDG" :: ws); Say LInfo "Petsc initialization complete."] ++ rest /\
    (forall args, ~ In (PetscInitialize args) rest).
Proof.
  intros V N real_max po ts_type o ao step. exists (words po), (initialize_petsc real_max ts_type o ao step).
  split; [exact (proj1 (spelled_words po))|]. split; [intros ws' H; symmetry; exact (words_spelled ws' po H)|]. split.
  - unfold petsc_setup, environment_calls, petsc_args, full_command. rewrite full_command_words. reflexivity.
  - intros args H. unfold initialize_petsc, type_calls in H.
    repeat match type of H with
    | context [String.eqb ts_type ?x] => destruct (String.eqb ts_type x)
    | context [ao_adaptive ao] => destruct (ao_adaptive ao)
    end; cbn in H; repeat (destruct H as [H|H]; [discriminate H|]); exact H.
Qed.

(** ** The database *)
Lemma in_force_app n a b : in_force n (a ++ b) = match in_force n b with Some v => Some v | None => in_force n a end.
Proof.
  induction a as [|(m, v) a IH]; cbn.
  - destruct (in_force n b); reflexivity.
  - rewrite IH. destruct (in_force n b); reflexivity.
Qed.

(** The final state, for each of the names. *)
Section Final.
  Context {V : Type} `{N : Num V}.
  Variables (real_max : V) (number : string -> V) (integer : string -> Z).

  Definition ts_type_of (name : string) : option string :=
    if String.eqb name "petsc_ode23" then Some "rk" else if String.eqb name "petsc_jfnk_bdf" then Some "bdf" else None.
  Definition rk_type_of (name : string) : option string := if String.eqb name "petsc_ode23" then Some "3bs" else None.
  Definition jacobian_of (name : string) : jacobian_source :=
    if String.eqb name "petsc_ode23" then NoJacobian
    else if String.eqb name "petsc_jfnk_bdf" then Coloured false else ProgramFunction.

  Definition before (name : string) (ws : list string) (o : time_options V) (ao : adaptive_options V) (step : V) : stepper V := {|
    p_database := options_in ws ++ imposed name; p_solvers := options_in ws ++ imposed name;
    p_type := ts_type_of name; p_rk := rk_type_of name; p_jacobian := jacobian_of name;
    p_rhs := true; p_monitor := true; p_post := true; p_match := true;
    p_dt := Some (if ao_adaptive ao then t_dt_initial o else step); p_time := Some (t_t0 o); p_step := t_initial_step o;
    p_adapt := Some (if ao_adaptive ao then "basic" else "none");
    p_limits := if ao_adaptive ao then Some (ao_min ao, ao_max ao) else None;
    p_tol := if ao_adaptive ao then Some (ao_rel_tol ao, ao_rel_tol ao) else None;
    p_max_steps := Some (if t_max_steps o =? 0 then int_max else t_max_steps o);
    p_max_time := Some (if ModelTime.nonzero (t_tfinal o) then t_tfinal o else real_max) |}.

  Lemma fold_options l : forall s : stepper V,
    fold_left (after_call number integer) (set_options l) s =
    {| p_database := p_database s ++ l; p_solvers := p_solvers s; p_type := p_type s; p_rk := p_rk s; p_jacobian := p_jacobian s;
       p_rhs := p_rhs s; p_monitor := p_monitor s; p_post := p_post s; p_match := p_match s; p_dt := p_dt s; p_time := p_time s;
       p_step := p_step s; p_adapt := p_adapt s; p_limits := p_limits s; p_tol := p_tol s; p_max_steps := p_max_steps s;
       p_max_time := p_max_time s |}.
  Proof.
    induction l as [|(n, v) l IH]; intros [].
    - cbn. rewrite app_nil_r. reflexivity.
    - unfold set_options in *. cbn [map fold_left fst snd]. rewrite IH. cbn. rewrite <- app_assoc. reflexivity.
  Qed.

  Lemma setup_state name ts_type po ws o ao step :
    In (name, ts_type) petsc_integrators -> spells ws po ->
    stepper_after number integer (petsc_setup real_max po ts_type o ao step) = from_options number integer (before name ws o ao step).
  Proof.
    intros I SP. unfold petsc_setup, environment_calls, petsc_args. rewrite (words_spelled ws po SP).
    unfold petsc_integrators in I. cbn [In] in I.
    destruct I as [[= <- <-]|[[= <- <-]|[[= <- <-]|[]]]]; unfold stepper_after, initialize_petsc, type_calls, jfnk_calls, jacobian_calls;
      cbn [String.eqb Ascii.eqb Bool.eqb]; rewrite !fold_left_app; cbn [fold_left app];
      rewrite ?fold_left_app, ?fold_options; unfold before; destruct (ao_adaptive ao); cbn; unfold from_options; cbn; rewrite ?app_nil_r; reflexivity.
  Qed.
End Final.

Lemma chosen_none {A} (f : string -> A) n db old : in_force n db = None -> chosen f n db old = old.
Proof. intros E. unfold chosen. rewrite E. reflexivity. Qed.

Lemma imposed_free name n : In name (map fst petsc_integrators) -> In n stepper_options -> in_force n (imposed name) = None.
Proof.
  unfold petsc_integrators, stepper_options. cbn [In map fst]. intros [<-|[<-|[<-|[]]]] H;
    repeat (destruct H as [<-|H]; [reflexivity|]); destruct H.
Qed.

Lemma db_free name n ws : In name (map fst petsc_integrators) -> In n stepper_options ->
  in_force n (options_in ws ++ imposed name) = in_force n (options_in ws).
Proof. intros I H. rewrite in_force_app, (imposed_free name n I H). reflexivity. Qed.

Lemma in_name {name ts_type : string} : In (name, ts_type) petsc_integrators -> In name (map fst petsc_integrators).
Proof. intros I. apply in_map_iff. exists (name, ts_type). auto. Qed.

Lemma pf_C78_settings :
  forall (V : Type) (N : Num V) (real_max : V) (number : string -> V) (integer : string -> Z) (name ts_type po : string)
    (ws : list string) (o : time_options V) (ao : adaptive_options V) (step : V),
  In (name, ts_type) petsc_integrators -> spells ws po ->
  (forall n, In n stepper_options -> in_force n (options_in ws) = None) ->
  let s := stepper_after number integer (petsc_setup real_max po ts_type o ao step) in
  p_time s = Some (t_t0 o) /\ p_step s = t_initial_step o /\
  p_max_steps s = Some (if t_max_steps o =? 0 then 2147483647 else t_max_steps o) /\
  p_max_time s = Some (if neqb (t_tfinal o) (nint 0) then real_max else t_tfinal o) /\
  p_match s = true /\ p_rhs s = true /\ p_monitor s = true /\ p_post s = true /\
  (ao_adaptive ao = true -> p_dt s = Some (t_dt_initial o) /\ p_adapt s = Some "basic" /\
     p_limits s = Some (ao_min ao, ao_max ao) /\ p_tol s = Some (ao_rel_tol ao, ao_rel_tol ao)) /\
  (ao_adaptive ao = false -> p_dt s = Some step /\ p_adapt s = Some "none") /\
  (name = "petsc_ode23" -> p_type s = Some "rk" /\ p_rk s = Some "3bs" /\ p_jacobian s = NoJacobian) /\
  (name = "petsc_jfnk_bdf" -> p_type s = Some "bdf" /\ exists alive, p_jacobian s = Coloured alive) /\
  (name = "petsc_jacobian_bdf" -> p_jacobian s = ProgramFunction).
Proof.
  intros V N real_max number integer name ts_type po ws o ao step I SP FREE s.
  assert (F : forall n, In n stepper_options -> in_force n (options_in ws ++ imposed name) = None)
    by (intros n H; rewrite (db_free name n ws (in_name I) H); exact (FREE n H)).
  subst s. rewrite (setup_state real_max number integer name ts_type po ws o ao step I SP).
  unfold from_options, before.
  cbn [p_database p_solvers p_type p_rk p_jacobian p_rhs p_monitor p_post p_match p_dt p_time p_step p_adapt p_limits p_tol p_max_steps p_max_time].
  rewrite !chosen_none by (apply F; unfold stepper_options; cbn; tauto).
  assert (NZ : (if ModelTime.nonzero (t_tfinal o) then t_tfinal o else real_max) = (if neqb (t_tfinal o) (nint 0) then real_max else t_tfinal o))
    by (unfold ModelTime.nonzero; destruct (neqb (t_tfinal o) (nint 0)); reflexivity).
  rewrite NZ. repeat (split; [reflexivity|]).
  split; [intros ->; repeat split|]. split; [intros ->; repeat split|].
  split; [intros ->; repeat split|]. split; [intros ->; split; [reflexivity|eexists; reflexivity]|]. intros ->. reflexivity.
Qed.

Lemma pf_C78_user :
  forall (V : Type) (N : Num V) (real_max : V) (number : string -> V) (integer : string -> Z) (name ts_type po : string)
    (ws : list string) (o : time_options V) (ao : adaptive_options V) (step : V) (v : string),
  In (name, ts_type) petsc_integrators -> spells ws po ->
  let s := stepper_after number integer (petsc_setup real_max po ts_type o ao step) in
  (in_force "-ts_type" (options_in ws) = Some (Some v) -> p_type s = Some v) /\
  (in_force "-ts_rk_type" (options_in ws) = Some (Some v) -> p_rk s = Some v) /\
  (in_force "-ts_dt" (options_in ws) = Some (Some v) -> p_dt s = Some (number v)) /\
  (in_force "-ts_init_time" (options_in ws) = Some (Some v) -> p_time s = Some (number v)) /\
  (in_force "-ts_adapt_type" (options_in ws) = Some (Some v) -> p_adapt s = Some v) /\
  (in_force "-ts_max_steps" (options_in ws) = Some (Some v) -> p_max_steps s = Some (integer v)) /\
  (in_force "-ts_max_time" (options_in ws) = Some (Some v) -> p_max_time s = Some (number v)).
Proof.
  intros V N real_max number integer name ts_type po ws o ao step v I SP s. subst s.
  rewrite (setup_state real_max number integer name ts_type po ws o ao step I SP).
  unfold from_options, before, chosen.
  cbn [p_database p_solvers p_type p_rk p_jacobian p_rhs p_monitor p_post p_match p_dt p_time p_step p_adapt p_limits p_tol p_max_steps p_max_time].
  repeat split; intros E; rewrite (db_free name _ ws (in_name I)) by (unfold stepper_options; cbn; tauto); rewrite E; reflexivity.
Qed.

Lemma pf_C78_solver_options :
  forall (V : Type) (N : Num V) (real_max : V) (number : string -> V) (integer : string -> Z) (name ts_type po : string)
    (ws : list string) (o : time_options V) (ao : adaptive_options V) (step : V) (n : string),
  In (name, ts_type) petsc_integrators -> spells ws po ->
  let s := stepper_after number integer (petsc_setup real_max po ts_type o ao step) in
  (forall v, In (n, v) (imposed name) -> in_force n (p_solvers s) = Some v) /\
  (~ In n (map fst (imposed name)) -> in_force n (p_solvers s) = in_force n (options_in ws)).
Proof.
  intros V N real_max number integer name ts_type po ws o ao step n I SP s. subst s.
  rewrite (setup_state real_max number integer name ts_type po ws o ao step I SP).
  unfold from_options, before. cbn [p_solvers p_database]. rewrite in_force_app. split.
  - intros v H. unfold petsc_integrators in I. cbn [In] in I.
    destruct I as [[= <- <-]|[[= <- <-]|[[= <- <-]|[]]]]; cbn [imposed String.eqb Ascii.eqb Bool.eqb app map In] in H;
      repeat (destruct H as [[= <- <-]|H]; [reflexivity|]); destruct H.
  - intros NI. assert (G : forall l : list (string * option string), ~ In n (map fst l) -> in_force n l = None).
    { induction l as [|(m, w) l IH]; cbn; [reflexivity|]. intros X. rewrite IH by tauto.
      destruct (String.eqb_spec m n) as [->|]; [tauto|reflexivity]. }
    rewrite (G _ NI). reflexivity.
Qed.

(** ** Findings *)
Definition setup_doc : list xml :=
  [Elem "VTKFile" [] "" [Elem "StructuredGrid" [] "" [Elem "FieldData" [] "" [
     Elem "DataArray" [("Name", "TimeStepSize")] "0.5" []]]]].
Definition setup_read (s : string) : res Q := if String.eqb s "0.5" then Ok (1#2)%Q else Throw.
Definition setup_o : time_options Q := {|
  t_t0 := 0%Q; t_tfinal := 1%Q; t_dt_initial := (1#4)%Q; t_use_cfl := false; t_max_steps := 10; t_initial_step := 0;
  t_rel_tol := 0%Q; t_abs_tol := 0%Q |}.
Definition setup_ao (b : bool) : adaptive_options Q := {| ao_adaptive := b; ao_rel_tol := 1%Q; ao_min := 0%Q; ao_max := 1%Q |}.

Lemma pf_C78_restart_step_refuted :
  (forall (V : Type) (N : Num V) (real_max : V) (number : string -> V) (integer : string -> Z) (read : string -> res V)
     (name ts_type po : string) (ws : list string) (o o' : time_options V) (doc : list xml) (ao : adaptive_options V) (step : V),
   In (name, ts_type) petsc_integrators -> spells ws po -> in_force "-ts_dt" (options_in ws) = None ->
   time_options_for read o (Some doc) = Ok o' -> ao_adaptive ao = false ->
   p_dt (stepper_after number integer (petsc_setup real_max po ts_type o' ao step)) = Some step) /\
  (exists (read : string -> res Q) (o o' : time_options Q) (doc : list xml) (ao : adaptive_options Q),
   time_options_for read o (Some doc) = Ok o' /\ ao_adaptive ao = false /\ t_dt_initial o' <> t_dt_initial o /\
   p_dt (stepper_after (fun _ => 0%Q) (fun _ => 0) (petsc_setup (N:=Num_Q) 1%Q "" "ode23" o' ao (t_dt_initial o))) = Some (t_dt_initial o)).
Proof.
  split.
  - intros V N real_max number integer read name ts_type po ws o o' doc ao step I SP FR _ NA.
    rewrite (setup_state real_max number integer name ts_type po ws o' ao step I SP). unfold from_options, before. cbn [p_dt p_database].
    rewrite chosen_none, NA; [reflexivity|].
    rewrite (db_free name _ ws (in_name I)) by (unfold stepper_options; cbn; tauto). exact FR.
  - exists setup_read, setup_o, (resumed setup_o {| rs_t0 := 0%Q; rs_step := 0; rs_dt := (1#2)%Q |}), setup_doc, (setup_ao false).
    split; [reflexivity|]. split; [reflexivity|]. split; [discriminate|reflexivity].
Qed.

Lemma pf_C78_type_refuted :
  forall (V : Type) (N : Num V) (real_max : V) (number : string -> V) (integer : string -> Z) (ts_type po : string)
    (ws : list string) (o : time_options V) (ao : adaptive_options V) (step : V),
  In ("petsc_jacobian_bdf", ts_type) petsc_integrators -> spells ws po -> in_force "-ts_type" (options_in ws) = None ->
  p_type (stepper_after number integer (petsc_setup real_max po ts_type o ao step)) = None.
Proof.
  intros V N real_max number integer ts_type po ws o ao step I SP FR.
  rewrite (setup_state real_max number integer _ ts_type po ws o ao step I SP). unfold from_options, before. cbn [p_type p_database].
  rewrite chosen_none; [reflexivity|].
  rewrite (db_free _ _ ws (in_name I)) by (unfold stepper_options; cbn; tauto). exact FR.
Qed.

Lemma pf_C78_coloring_refuted :
  forall (V : Type) (N : Num V) (real_max : V) (number : string -> V) (integer : string -> Z) (ts_type po : string)
    (o : time_options V) (ao : adaptive_options V) (step : V),
  In ("petsc_jfnk_bdf", ts_type) petsc_integrators ->
  p_jacobian (stepper_after number integer (petsc_setup real_max po ts_type o ao step)) = Coloured false.
Proof.
  intros V N real_max number integer ts_type po o ao step I.
  rewrite (setup_state real_max number integer _ ts_type po (words po) o ao step I (proj1 (spelled_words po))). reflexivity.
Qed.
