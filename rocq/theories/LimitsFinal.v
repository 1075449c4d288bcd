(** Runs without a step limit or a log frequency: the proofs and the examples. *)
From Coq Require Import String Reals.
From Verif Require Import ModelLogger ModelOptions Outcome ZList Num ModelDisc3D ModelDisc2D ModelCH ModelTime ModelVTK ModelMain ModelProgram ModelMG ModelMGCH ModelImplicit
  SpecGrid SpecField SpecTime SpecRestart SpecMon SpecProgram SpecLimits LimitsProofs ProgramFinal.
From Coq Require Import ZArith List Lia.
Local Open Scope string_scope.
Local Open Scope list_scope.
Local Open Scope Z_scope.

Lemma pf_C89_never_finishes :
  forall (V : Type) (N : Num V) (pl : platform V) (nsin ncos : V -> V) (fuel : nat) (fs : string -> option string) (vts : string -> list xml)
    (other : members V -> option (res (pworld V))) (args : list string) (opts m : members V) (vm : vmap V) (ti : string),
  parse_options (pl_read pl) (pl_lit pl) (pl_eps100 pl) (pl_max100 pl) fs args opts = Ok (Running m vm) ->
  m "time_integrator" = VString ti -> In ti ["rk3ssp"; "ode23"; "bdf1"; "steady"] ->
  m "log_frequency" = VInt 0 \/ m "max_time_steps" = VUnsigned 0 ->
  forall e, madgicart_all pl nsin ncos fuel fs vts other args opts <> Some (Ok e).
Proof. intros. eapply never_all; eauto. Qed.

Lemma li_no_limit : ex_asked (asked 3 "rk3ssp" "none" (ex_settings 4 0 20)) (ex_args "3" "rk3ssp" "4" "0" "20").
Proof. apply ex_asked_list. vm_compute. reflexivity. Qed.
Lemma li_no_limit_2d : ex_asked (asked 2 "ode23" "none" (ex_settings 4 0 20)) (ex_args "2" "ode23" "4" "0" "20").
Proof. apply ex_asked_list. vm_compute. reflexivity. Qed.
Lemma li_no_log : ex_asked (asked 3 "ode23" "none" (ex_settings 4 100 0)) (ex_args "3" "ode23" "4" "100" "0").
Proof. apply ex_asked_list. vm_compute. reflexivity. Qed.
Lemma li_no_log_2d : ex_asked (asked 2 "rk3ssp" "none" (ex_settings 4 100 0)) (ex_args "2" "rk3ssp" "4" "100" "0").
Proof. apply ex_asked_list. vm_compute. reflexivity. Qed.
Lemma li_implicit : ex_asked [("time_integrator", VString "steady"); ("max_time_steps", VUnsigned 0)] (ex_args "3" "steady" "4" "0" "20").
Proof. apply ex_asked_list. vm_compute. reflexivity. Qed.
Lemma li_usable : usable (ex_settings 4 0 20) /\ usable (ex_settings 4 100 0) /\ bc_named "periodic" Periodic.
Proof. unfold usable. cbn. repeat split; try lia. left. split; reflexivity. Qed.
Lemma li_never : exists m vm, ex_parsed (ex_args "3" "steady" "4" "0" "20") = Ok (Running m vm) /\ m "time_integrator" = VString "steady" /\
  m "max_time_steps" = VUnsigned 0.
Proof.
  destruct li_implicit as (m & vm & E & G). exists m, vm. split; [exact E|]. unfold given in G.
  apply Forall_cons_iff in G as (G1 & G). apply Forall_cons_iff in G as (G2 & _). split; [exact G1|exact G2].
Qed.

Lemma pf_C89_no_limit :
  forall (V : Type) (N : Num V) (pl : platform V) (fuel : nat) (fs : string -> option string) (vts : string -> list xml)
    (other : members V -> option (res (pworld V))) (args : list string) (opts m : members V) (vm : vmap V) (s : settings V) (rel abs : V)
    (bx by_ bz : bctype) (dim : Z) (ti : string),
  parse_options (pl_read pl) (pl_lit pl) (pl_eps100 pl) (pl_max100 pl) fs args opts = Ok (Running m vm) ->
  asks_with m dim ti "none" s rel abs -> dim = 2 \/ dim = 3 -> ti = "rk3ssp" \/ ti = "ode23" ->
  usable s -> bc_named (s_bc_x s) bx -> bc_named (s_bc_y s) by_ -> bc_named (s_bc_z s) bz ->
  s_max_steps s = 0 ->
  (madgicart pl fuel fs vts other args opts = None \/ madgicart pl fuel fs vts other args opts = Some UB) /\
  (s_save_every s <> 0 -> (0 < fuel)%nat -> madgicart pl fuel fs vts other args opts = Some UB).
Proof.
  intros V N pl fuel fs vts other args opts m vm s rel abs bx by_ bz dim ti PO A D T U BX BY BZ W.
  assert (K : lost_outcome (s_log_every s) (s_save_every s) fuel (madgicart pl fuel fs vts other args opts)).
  { destruct T as [-> | ->]; destruct D as [-> | ->].
    - eapply (lost2 pl fuel fs vts other args opts m vm PO s bx by_ bz rel abs U BX BY BZ (or_intror W) "rk3ssp" Rk3ssp eq_refl); [discriminate|exact A].
    - eapply (lost3 pl fuel fs vts other args opts m vm PO s bx by_ bz rel abs U BX BY BZ (or_intror W) "rk3ssp" Rk3ssp eq_refl); [discriminate|exact A].
    - eapply (lost2 pl fuel fs vts other args opts m vm PO s bx by_ bz rel abs U BX BY BZ (or_intror W) "ode23" Ode23Integrator eq_refl); [discriminate|exact A].
    - eapply (lost3 pl fuel fs vts other args opts m vm PO s bx by_ bz rel abs U BX BY BZ (or_intror W) "ode23" Ode23Integrator eq_refl); [discriminate|exact A]. }
  destruct K as (K1 & K2). split; [exact K1|]. intros S F. apply K2; auto.
Qed.

Lemma pf_C89_no_log :
  forall (V : Type) (N : Num V) (pl : platform V) (fuel : nat) (fs : string -> option string) (vts : string -> list xml)
    (other : members V -> option (res (pworld V))) (args : list string) (opts m : members V) (vm : vmap V) (s : settings V) (rel abs : V)
    (bx by_ bz : bctype) (dim : Z) (ti : string),
  parse_options (pl_read pl) (pl_lit pl) (pl_eps100 pl) (pl_max100 pl) fs args opts = Ok (Running m vm) ->
  asks_with m dim ti "none" s rel abs -> dim = 2 \/ dim = 3 -> ti = "rk3ssp" \/ ti = "ode23" ->
  usable s -> bc_named (s_bc_x s) bx -> bc_named (s_bc_y s) by_ -> bc_named (s_bc_z s) bz ->
  s_log_every s = 0 -> (0 < fuel)%nat ->
  madgicart pl fuel fs vts other args opts = Some UB.
Proof.
  intros V N pl fuel fs vts other args opts m vm s rel abs bx by_ bz dim ti PO A D T U BX BY BZ W F.
  assert (K : lost_outcome (s_log_every s) (s_save_every s) fuel (madgicart pl fuel fs vts other args opts)).
  { destruct T as [-> | ->]; destruct D as [-> | ->].
    - eapply (lost2 pl fuel fs vts other args opts m vm PO s bx by_ bz rel abs U BX BY BZ (or_introl W) "rk3ssp" Rk3ssp eq_refl); [discriminate|exact A].
    - eapply (lost3 pl fuel fs vts other args opts m vm PO s bx by_ bz rel abs U BX BY BZ (or_introl W) "rk3ssp" Rk3ssp eq_refl); [discriminate|exact A].
    - eapply (lost2 pl fuel fs vts other args opts m vm PO s bx by_ bz rel abs U BX BY BZ (or_introl W) "ode23" Ode23Integrator eq_refl); [discriminate|exact A].
    - eapply (lost3 pl fuel fs vts other args opts m vm PO s bx by_ bz rel abs U BX BY BZ (or_introl W) "ode23" Ode23Integrator eq_refl); [discriminate|exact A]. }
  apply K; auto.
Qed.

