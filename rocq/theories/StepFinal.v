(** Proofs of the properties of the explicit integrators. *)
From Coq Require Import ZArith QArith List Reals Lra Lia.
From Coq Require String.
From Verif Require Import Outcome ZList ZListProofs Num Kernel SpecGrid ModelDisc3D ModelDisc2D ModelCH SpecField
  ModelReduce SpecMatrix ReduceProofs ModelObs ModelTime ModelRun SpecTime ExampleNum
  Disc3DProofs BC3Proofs Make3Proofs Disc2DProofs Make2Proofs Stencil3Proofs CHProofs SumProofs FieldProofs
  Time1Proofs Time2Proofs Time3Proofs Step1Proofs Step2Proofs.
Import ListNotations.
Local Open Scope Z_scope.
Local Open Scope list_scope.

(** ** Loops *)
Lemma ew_si {V} (size : Z) (body : Z -> prog V) reads f (m : mem V) :
  (forall i, body i = ew_prog reads f i) -> (0 < length m)%nat -> (forall l, In l m -> zlen l = size) ->
  (forall a, In a reads -> (a < length m)%nat) ->
  exists m', schedule_independent (map body (zrange 0 size)) m m'.
Proof. intros A B C D. destruct (ew_loop size body reads f m A B C D) as (m' & H & _). eauto. Qed.

Lemma pf_C13_vector_updates :
  forall (V : Type) (N : Num V) (size : Z) (a b c d : list V) (dt p q r : V),
  zlen a = size -> zlen b = size -> zlen c = size -> zlen d = size ->
  let cells := zrange 0 size in
  (exists m', schedule_independent (map (stage1_body dt p) cells) [a; b; c] m') /\
  (exists m', schedule_independent (map (stage2_body dt p q) cells) [a; b; c; d] m') /\
  (exists m', schedule_independent (map (residual_body p q r) cells) [a; b; c; d] m') /\
  (exists m', schedule_independent (map (update_body dt) cells) [a; b] m') /\
  (exists m', schedule_independent (map copy_body cells) [a; b] m').
Proof.
  intros V N size a b c d dt p q r A B C D cells. unfold cells.
  assert (FL : forall l, In l [a; b; c; d] -> zlen l = size) by (intros l [<-|[<-|[<-|[<-|[]]]]]; auto).
  split; [|split; [|split; [|split]]].
  - apply (ew_si size _ [1%nat; 2%nat] (fun l => match l with [s; k] => (s + dt * p * k)%num | _ => nint 0 end)); auto.
    + simpl; lia. + intros l Hl; apply FL; simpl in *; tauto. + intros x [<-|[<-|[]]]; simpl; lia.
  - apply (ew_si size _ [1%nat; 2%nat; 3%nat]
      (fun l => match l with [s; k1; k2] => (s + dt * (p * k1 + q * k2))%num | _ => nint 0 end)); auto.
    + simpl; lia. + intros x [<-|[<-|[<-|[]]]]; simpl; lia.
  - apply (ew_si size _ [1%nat; 2%nat; 3%nat]
      (fun l => match l with [k1; k2; k3] => (p * k1 + q * k2 + r * k3)%num | _ => nint 0 end)); auto.
    + simpl; lia. + intros x [<-|[<-|[<-|[]]]]; simpl; lia.
  - apply (ew_si size _ [0%nat; 1%nat] (fun l => match l with [s; k] => (s + dt * k)%num | _ => nint 0 end)); auto.
    + simpl; lia. + intros l Hl; apply FL; simpl in *; tauto. + intros x [<-|[<-|[]]]; simpl; lia.
  - apply (ew_si size _ [1%nat] (fun l => match l with [s] => s | _ => nint 0 end)); auto.
    + simpl; lia. + intros l Hl; apply FL; simpl in *; tauto. + intros x [<-|[]]; simpl; lia.
Qed.

(** ** Mean conservation *)
Lemma mean3_total (dom : domain R) u m : valid_domain3 dom -> mean3 dom u = m -> (total3 dom u = m * cells_inside3 dom)%R.
Proof.
  intros (A & B & C & _) H. unfold mean3 in H. unfold cells_inside3. rewrite <- H.
  assert (IZR (nx dom) <> 0)%R by (apply not_0_IZR; lia).
  assert (IZR (ny dom) <> 0)%R by (apply not_0_IZR; lia).
  assert (IZR (nz dom) <> 0)%R by (apply not_0_IZR; lia). field. auto.
Qed.
Lemma mean2_total (dom : domain R) u m : valid_domain2 dom -> mean2 dom u = m -> (total2 dom u = m * cells_inside2 dom)%R.
Proof.
  intros (A & _) H. unfold mean2 in H. unfold cells_inside2. rewrite <- H.
  assert (IZR (nx dom) <> 0)%R by (apply not_0_IZR; lia). field. auto.
Qed.

Lemma T3_of (dom : domain R) u : valid_domain3 dom -> T3 dom (of3 dom u) = total3 dom u.
Proof.
  intros (_ & _ & _ & H). unfold T3, total3. apply sum3_ext. intros i j k Hi Hj Hk. unfold at3.
  apply of3_slot, inside_padded3; auto. split; auto.
Qed.
Lemma T2_of (dom : domain R) u : valid_domain2 dom -> T2 dom (of2 dom u) = total2 dom u.
Proof.
  intros (_ & H). unfold T2, total2. apply sum2_ext. intros i j Hi Hj. unfold at2.
  apply of2_slot, inside_padded2; auto. split; auto.
Qed.
Lemma holds_of3 (dom : domain R) c u : valid_domain3 dom -> holds_inside3 dom c u ->
  state_holds 1 (cells3 dom) (P3 dom) [c] (of3 dom u).
Proof.
  intros (_ & _ & _ & H) (L & HC). apply state3; auto. split; auto. intros i j k I. unfold at3.
  rewrite of3_slot by (apply inside_padded3; auto). auto.
Qed.
Lemma holds_of2 (dom : domain R) c u : valid_domain2 dom -> holds_inside2 dom c u ->
  state_holds 1 (cells2 dom) (P2 dom) [c] (of2 dom u).
Proof.
  intros (_ & H) (L & HC). apply state2; auto. split; auto. intros i j I. unfold at2.
  rewrite of2_slot by (apply inside_padded2; auto). auto.
Qed.

Lemma out3 (dom : domain R) s w T0 u0 : valid_domain3 dom -> state_holds 1 (cells3 dom) (P3 dom) s w -> T3 dom w = T0 ->
  T0 = total3 dom u0 -> exists c' u', s = [c'] /\ holds_inside3 dom c' u' /\ mean3 dom u' = mean3 dom u0.
Proof.
  intros HV HS HT E. destruct (proj1 (one_array _ _) (proj1 HS)) as (c & -> & L).
  exists c, (at3 dom w). split; auto. split.
  - apply state3; auto. apply HV.
  - unfold mean3. unfold T3 in HT. rewrite HT, E. reflexivity.
Qed.
Lemma out2 (dom : domain R) s w T0 u0 : valid_domain2 dom -> state_holds 1 (cells2 dom) (P2 dom) s w -> T2 dom w = T0 ->
  T0 = total2 dom u0 -> exists c' u', s = [c'] /\ holds_inside2 dom c' u' /\ mean2 dom u' = mean2 dom u0.
Proof.
  intros HV HS HT E. destruct (proj1 (one_array _ _) (proj1 HS)) as (c & -> & L).
  exists c, (at2 dom w). split; auto. split.
  - apply state2; auto. apply HV.
  - unfold mean2. unfold T2 in HT. rewrite HT, E. reflexivity.
Qed.

Lemma all4 {A} (Q : A -> Prop) a b c d : (forall k, In k [a; b; c; d] -> Q k) -> Q a /\ Q b /\ Q c /\ Q d.
Proof. intros H. repeat split; apply H; simpl; auto. Qed.
Lemma all5 {A} (Q : A -> Prop) a b c d e : (forall k, In k [a; b; c; d; e] -> Q k) -> Q a /\ Q b /\ Q c /\ Q d /\ Q e.
Proof. intros H. repeat split; apply H; simpl; auto 6. Qed.

Lemma pf_C17_rk3_3d :
  forall (W : Type) (dom : domain R) (d : disc3 R) (variant : Z) (p : ch_params R)
    (x : rk3_world R (scratch R) W) (c0 : list R) (u0 : Z -> Z -> Z -> R) (t0 : R) (dts : list R),
  valid_domain3 dom -> 2 <= nhalo dom -> nhalo dom <= nx dom /\ nhalo dom <= ny dom /\ nhalo dom <= nz dom ->
  xbc dom <> Neumann /\ ybc dom <> Neumann /\ zbc dom <> Neumann ->
  make3 dom = Ok d -> 0 <= variant <= 2 ->
  (forall k, In k [r_k1 (k_int x); r_k2 (k_int x); r_k3 (k_int x); r_stage (k_int x)] -> shaped 1 (cells3 dom) k) ->
  scratch_fits (cells3 dom) (k_sc x) -> shaped 1 (cells3 dom) (k_du x) ->
  k_u x = [c0] -> holds_inside3 dom c0 u0 -> (ch_sigma p = 0%R \/ mean3 dom u0 = ch_m p) ->
  exists xs, run_steps (rk3_do (ch_rhs3 d variant p)) x t0 dts = Ok xs /\ length xs = length dts /\
    forall x', In x' xs -> exists c' u', k_u x' = [c'] /\ holds_inside3 dom c' u' /\ mean3 dom u' = mean3 dom u0.
Proof.
  intros W dom d variant p x c0 u0 t0 dts HV HN HT AP HM VR SK SF SD EU HC REST.
  pose proof (ch3_computes dom d variant p HV HN HT HM VR) as C.
  destruct (run_steps_total (rk3_do (ch_rhs3 d variant p))
    (rk3_inv (T3 dom) (scratch_fits (cells3 dom)) 1 (cells3 dom) (P3 dom) (total3 dom u0) (W:=W))) with (dts := dts) (x := x) (t := t0)
    as (xs & E & L & A).
  - intros y t dt HY. apply (rk3_do_inv (T3 dom) (T3_lin dom) (T3_ext dom) _ (ch_sigma p) (ch_m p * cells_inside3 dom)
      (fun t u => T3_source dom variant p (d3_dx d) t u HV AP) _ _ _ _ _ C); auto.
    destruct REST as [H|H]; auto. right. apply mean3_total; auto.
  - split; [exact (all4 _ _ _ _ _ SK)|]. split; [exact SF|]. split; [exact SD|].
    exists (of3 dom u0). rewrite EU. split; [apply holds_of3; auto|apply T3_of; auto].
  - exists xs. split; auto. split; auto. intros x' Hx. destruct (A x' Hx) as (_ & _ & _ & w & HW & TW).
    eapply out3; eauto.
Qed.

Lemma pf_C17_ode23_3d :
  forall (W : Type) (rmax : R -> list R -> R) (dom : domain R) (d : disc3 R) (variant : Z) (p : ch_params R)
    (x : ode23_world R (scratch R) W) (c0 : list R) (u0 : Z -> Z -> Z -> R) (t0 : R) (dts : list R),
  valid_domain3 dom -> 2 <= nhalo dom -> nhalo dom <= nx dom /\ nhalo dom <= ny dom /\ nhalo dom <= nz dom ->
  xbc dom <> Neumann /\ ybc dom <> Neumann /\ zbc dom <> Neumann ->
  make3 dom = Ok d -> 0 <= variant <= 2 ->
  (forall k, In k [o_k1 (e_int x); o_k2 (e_int x); o_k3 (e_int x); o_k4 (e_int x); o_stage (e_int x)] ->
     shaped 1 (cells3 dom) k) ->
  o_first (e_int x) = true ->
  scratch_fits (cells3 dom) (e_sc x) -> shaped 1 (cells3 dom) (e_du x) ->
  e_u x = [c0] -> holds_inside3 dom c0 u0 -> (ch_sigma p = 0%R \/ mean3 dom u0 = ch_m p) ->
  exists xs, run_steps (ode23_do rmax (ch_rhs3 d variant p)) x t0 dts = Ok xs /\ length xs = length dts /\
    forall x', In x' xs -> exists c' u', e_u x' = [c'] /\ holds_inside3 dom c' u' /\ mean3 dom u' = mean3 dom u0.
Proof.
  intros W rmax dom d variant p x c0 u0 t0 dts HV HN HT AP HM VR SK FI SF SD EU HC REST.
  pose proof (ch3_computes dom d variant p HV HN HT HM VR) as C.
  destruct (run_steps_total (ode23_do rmax (ch_rhs3 d variant p))
    (ode23_inv (T3 dom) (ch_f3 dom variant p (d3_dx d)) (scratch_fits (cells3 dom)) 1 (cells3 dom) (P3 dom) (total3 dom u0) (W:=W)))
    with (dts := dts) (x := x) (t := t0) as (xs & E & L & A).
  - intros y t dt HY. apply (ode23_do_inv (T3 dom) (T3_lin dom) (T3_ext dom) _ (ch_sigma p) (ch_m p * cells_inside3 dom)
      (fun t u => T3_source dom variant p (d3_dx d) t u HV AP) _ _ _ _ _ C); auto.
    destruct REST as [H|H]; auto. right. apply mean3_total; auto.
  - split; [exact (all5 _ _ _ _ _ _ SK)|]. split; [exact SF|]. split; [exact SD|].
    exists (of3 dom u0). rewrite EU. split; [apply holds_of3; auto|]. split; [apply T3_of; auto|]. congruence.
  - exists xs. split; auto. split; auto. intros x' Hx. destruct (A x' Hx) as (_ & _ & _ & w & HW & TW & _).
    eapply out3; eauto.
Qed.

Lemma pf_C17_rk3_2d :
  forall (W : Type) (dom : domain R) (d : disc2 R) (p : ch_params R)
    (x : rk3_world R (scratch R) W) (c0 : list R) (u0 : Z -> Z -> R) (t0 : R) (dts : list R),
  valid_domain2 dom -> 2 <= nhalo dom -> nhalo dom <= nx dom -> make2 dom = Ok d ->
  (forall k, In k [r_k1 (k_int x); r_k2 (k_int x); r_k3 (k_int x); r_stage (k_int x)] -> shaped 1 (cells2 dom) k) ->
  scratch_fits (cells2 dom) (k_sc x) -> shaped 1 (cells2 dom) (k_du x) ->
  k_u x = [c0] -> holds_inside2 dom c0 u0 -> (ch_sigma p = 0%R \/ mean2 dom u0 = ch_m p) ->
  exists xs, run_steps (rk3_do (ch_rhs2 d p)) x t0 dts = Ok xs /\ length xs = length dts /\
    forall x', In x' xs -> exists c' u', k_u x' = [c'] /\ holds_inside2 dom c' u' /\ mean2 dom u' = mean2 dom u0.
Proof.
  intros W dom d p x c0 u0 t0 dts HV HN HT HM SK SF SD EU HC REST.
  pose proof (ch2_computes dom d p HV HN HT HM) as C.
  destruct (run_steps_total (rk3_do (ch_rhs2 d p))
    (rk3_inv (T2 dom) (scratch_fits (cells2 dom)) 1 (cells2 dom) (P2 dom) (total2 dom u0) (W:=W))) with (dts := dts) (x := x) (t := t0)
    as (xs & E & L & A).
  - intros y t dt HY. apply (rk3_do_inv (T2 dom) (T2_lin dom) (T2_ext dom) _ (ch_sigma p) (ch_m p * cells_inside2 dom)
      (fun t u => T2_source dom p (d2_dx d) t u HV) _ _ _ _ _ C); auto.
    destruct REST as [H|H]; auto. right. apply mean2_total; auto.
  - split; [exact (all4 _ _ _ _ _ SK)|]. split; [exact SF|]. split; [exact SD|].
    exists (of2 dom u0). rewrite EU. split; [apply holds_of2; auto|apply T2_of; auto].
  - exists xs. split; auto. split; auto. intros x' Hx. destruct (A x' Hx) as (_ & _ & _ & w & HW & TW).
    eapply out2; eauto.
Qed.

Lemma pf_C17_ode23_2d :
  forall (W : Type) (rmax : R -> list R -> R) (dom : domain R) (d : disc2 R) (p : ch_params R)
    (x : ode23_world R (scratch R) W) (c0 : list R) (u0 : Z -> Z -> R) (t0 : R) (dts : list R),
  valid_domain2 dom -> 2 <= nhalo dom -> nhalo dom <= nx dom -> make2 dom = Ok d ->
  (forall k, In k [o_k1 (e_int x); o_k2 (e_int x); o_k3 (e_int x); o_k4 (e_int x); o_stage (e_int x)] ->
     shaped 1 (cells2 dom) k) ->
  o_first (e_int x) = true ->
  scratch_fits (cells2 dom) (e_sc x) -> shaped 1 (cells2 dom) (e_du x) ->
  e_u x = [c0] -> holds_inside2 dom c0 u0 -> (ch_sigma p = 0%R \/ mean2 dom u0 = ch_m p) ->
  exists xs, run_steps (ode23_do rmax (ch_rhs2 d p)) x t0 dts = Ok xs /\ length xs = length dts /\
    forall x', In x' xs -> exists c' u', e_u x' = [c'] /\ holds_inside2 dom c' u' /\ mean2 dom u' = mean2 dom u0.
Proof.
  intros W rmax dom d p x c0 u0 t0 dts HV HN HT HM SK FI SF SD EU HC REST.
  pose proof (ch2_computes dom d p HV HN HT HM) as C.
  destruct (run_steps_total (ode23_do rmax (ch_rhs2 d p))
    (ode23_inv (T2 dom) (ch_f2 dom p (d2_dx d)) (scratch_fits (cells2 dom)) 1 (cells2 dom) (P2 dom) (total2 dom u0) (W:=W)))
    with (dts := dts) (x := x) (t := t0) as (xs & E & L & A).
  - intros y t dt HY. apply (ode23_do_inv (T2 dom) (T2_lin dom) (T2_ext dom) _ (ch_sigma p) (ch_m p * cells_inside2 dom)
      (fun t u => T2_source dom p (d2_dx d) t u HV) _ _ _ _ _ C); auto.
    destruct REST as [H|H]; auto. right. apply mean2_total; auto.
  - split; [exact (all5 _ _ _ _ _ _ SK)|]. split; [exact SF|]. split; [exact SD|].
    exists (of2 dom u0). rewrite EU. split; [apply holds_of2; auto|]. split; [apply T2_of; auto|]. congruence.
  - exists xs. split; auto. split; auto. intros x' Hx. destruct (A x' Hx) as (_ & _ & _ & w & HW & TW & _).
    eapply out2; eauto.
Qed.

Lemma pf_C17_solve_rk3_3d :
  forall (W L : Type) (monitor : rk3_world R (scratch R) W -> list (String.string * R))
    (call : L -> Z -> R -> R -> rk3_world R (scratch R) W -> res (rk3_world R (scratch R) W))
    (fuel : nat) (o : time_options R) (obs : observable L) rs gf
    (dom : domain R) (d : disc3 R) (variant : Z) (p : ch_params R)
    (x : rk3_world R (scratch R) W) (c0 : list R) (u0 : Z -> Z -> Z -> R),
  (forall l i t dt y y', call l i t dt y = Ok y' ->
     k_int y' = k_int y /\ k_sc y' = k_sc y /\ k_u y' = k_u y /\ k_du y' = k_du y) ->
  valid_domain3 dom -> 2 <= nhalo dom -> nhalo dom <= nx dom /\ nhalo dom <= ny dom /\ nhalo dom <= nz dom ->
  xbc dom <> Neumann /\ ybc dom <> Neumann /\ zbc dom <> Neumann ->
  make3 dom = Ok d -> 0 <= variant <= 2 ->
  (forall k, In k [r_k1 (k_int x); r_k2 (k_int x); r_k3 (k_int x); r_stage (k_int x)] -> shaped 1 (cells3 dom) k) ->
  scratch_fits (cells3 dom) (k_sc x) -> shaped 1 (cells3 dom) (k_du x) ->
  k_u x = [c0] -> holds_inside3 dom c0 u0 -> (ch_sigma p = 0%R \/ mean3 dom u0 = ch_m p) ->
  solve (rk3_do (ch_rhs3 d variant p)) rk3_next_dt monitor call fuel o obs x = Some (Ok (rs, gf)) ->
  forall g, In g (gf :: map s_after rs) ->
    exists c' u', k_u (g_world g) = [c'] /\ holds_inside3 dom c' u' /\ mean3 dom u' = mean3 dom u0.
Proof.
  intros W L monitor call fuel o obs rs gf dom d variant p x c0 u0 QU HV HN HT AP HM VR SK SF SD EU HC REST E g Hg.
  pose proof (ch3_computes dom d variant p HV HN HT HM VR) as C.
  unfold solve in E. destruct (t_use_cfl o); [discriminate|].
  apply (loop_keeps _ _ _ _ (rk3_inv (T3 dom) (scratch_fits (cells3 dom)) 1 (cells3 dom) (P3 dom) (total3 dom u0) (W:=W))) in E.
  - assert (HI : rk3_inv (T3 dom) (scratch_fits (cells3 dom)) 1 (cells3 dom) (P3 dom) (total3 dom u0) (g_world g)).
    { destruct E as (E1 & E2). destruct Hg as [<-|Hg]; auto. apply in_map_iff in Hg as (r & <- & Hr). auto. }
    destruct HI as (_ & _ & _ & w & HW & TW). eapply out3; eauto.
  - intros y t dt y' HY EY.
    destruct (rk3_do_inv (T3 dom) (T3_lin dom) (T3_ext dom) _ (ch_sigma p) (ch_m p * cells_inside3 dom)
      (fun t u => T3_source dom variant p (d3_dx d) t u HV AP) _ _ _ _ _ C (total3 dom u0) (W:=W)) with (x := y) (t := t) (dt := dt)
      as (y2 & E2 & I2); auto.
    + destruct REST as [H|H]; auto. right. apply mean3_total; auto.
    + congruence.
  - intros l i t dt y y' (A1 & A2 & A3 & A4) EY. destruct (QU _ _ _ _ _ _ EY) as (Q1 & Q2 & Q3 & Q4).
    unfold rk3_inv. rewrite Q1, Q2, Q3, Q4. auto.
  - intros y dt y' dt' HY EY. injection EY as <- <-. auto.
  - split; [exact (all4 _ _ _ _ _ SK)|]. split; [exact SF|]. split; [exact SD|].
    exists (of3 dom u0). cbn [g_world]. rewrite EU. split; [apply holds_of3; auto|apply T3_of; auto].
Qed.

Lemma pf_C17_solve_ode23_3d :
  forall (W L : Type) (monitor : ode23_world R (scratch R) W -> list (String.string * R))
    (call : L -> Z -> R -> R -> ode23_world R (scratch R) W -> res (ode23_world R (scratch R) W))
    (rmax : R -> list R -> R) (pow : R -> R -> R)
    (fuel : nat) (o : time_options R) (obs : observable L) rs gf
    (dom : domain R) (d : disc3 R) (variant : Z) (p : ch_params R)
    (x : ode23_world R (scratch R) W) (c0 : list R) (u0 : Z -> Z -> Z -> R),
  (forall l i t dt y y', call l i t dt y = Ok y' ->
     e_int y' = e_int y /\ e_sc y' = e_sc y /\ e_u y' = e_u y /\ e_du y' = e_du y) ->
  valid_domain3 dom -> 2 <= nhalo dom -> nhalo dom <= nx dom /\ nhalo dom <= ny dom /\ nhalo dom <= nz dom ->
  xbc dom <> Neumann /\ ybc dom <> Neumann /\ zbc dom <> Neumann ->
  make3 dom = Ok d -> 0 <= variant <= 2 ->
  (forall k, In k [o_k1 (e_int x); o_k2 (e_int x); o_k3 (e_int x); o_k4 (e_int x); o_stage (e_int x)] ->
     shaped 1 (cells3 dom) k) ->
  o_first (e_int x) = true ->
  scratch_fits (cells3 dom) (e_sc x) -> shaped 1 (cells3 dom) (e_du x) ->
  e_u x = [c0] -> holds_inside3 dom c0 u0 -> (ch_sigma p = 0%R \/ mean3 dom u0 = ch_m p) ->
  solve (ode23_do rmax (ch_rhs3 d variant p)) (ode23_next_dt pow) monitor call fuel o obs x = Some (Ok (rs, gf)) ->
  forall g, In g (gf :: map s_after rs) ->
    exists c' u', e_u (g_world g) = [c'] /\ holds_inside3 dom c' u' /\ mean3 dom u' = mean3 dom u0.
Proof.
  intros W L monitor call rmax pow fuel o obs rs gf dom d variant p x c0 u0 QU HV HN HT AP HM VR SK FI SF SD EU HC REST E g Hg.
  pose proof (ch3_computes dom d variant p HV HN HT HM VR) as C.
  unfold solve in E. destruct (t_use_cfl o); [discriminate|].
  apply (loop_keeps _ _ _ _ (ode23_inv (T3 dom) (ch_f3 dom variant p (d3_dx d)) (scratch_fits (cells3 dom)) 1 (cells3 dom)
     (P3 dom) (total3 dom u0) (W:=W))) in E.
  - assert (HI : ode23_inv (T3 dom) (ch_f3 dom variant p (d3_dx d)) (scratch_fits (cells3 dom)) 1 (cells3 dom) (P3 dom)
        (total3 dom u0) (g_world g)).
    { destruct E as (E1 & E2). destruct Hg as [<-|Hg]; auto. apply in_map_iff in Hg as (r & <- & Hr). auto. }
    destruct HI as (_ & _ & _ & w & HW & TW & _). eapply out3; eauto.
  - intros y t dt y' HY EY.
    destruct (ode23_do_inv (T3 dom) (T3_lin dom) (T3_ext dom) _ (ch_sigma p) (ch_m p * cells_inside3 dom)
      (fun t u => T3_source dom variant p (d3_dx d) t u HV AP) _ _ _ _ _ C (total3 dom u0) (W:=W)) with (x := y) (t := t) (dt := dt)
      (rmax := rmax) as (y2 & E2 & I2); auto.
    + destruct REST as [H|H]; auto. right. apply mean3_total; auto.
    + congruence.
  - intros l i t dt y y' (A1 & A2 & A3 & A4) EY. destruct (QU _ _ _ _ _ _ EY) as (Q1 & Q2 & Q3 & Q4).
    unfold ode23_inv. rewrite Q1, Q2, Q3, Q4. auto.
  - intros y dt y' dt' (A1 & A2 & A3 & A4) EY. unfold ode23_next_dt in EY.
    destruct (adapt_step pow (e_pid y) (o_err (e_int y)) dt) as [[q st]| | |]; try discriminate.
    cbn [rbind] in EY. injection EY as <- <-. unfold ode23_inv. cbn [e_int e_sc e_u e_du]. auto.
  - split; [exact (all5 _ _ _ _ _ _ SK)|]. split; [exact SF|]. split; [exact SD|].
    exists (of3 dom u0). cbn [g_world]. rewrite EU. split; [apply holds_of3; auto|]. split; [apply T3_of; auto|].
    cbn [g_world]. congruence.
Qed.

(** A small world for the examples: one array per state. *)
Definition ex_rk3 {V} (z u : list V) : rk3_world V unit unit :=
  {| k_int := {| r_k1 := [z]; r_k2 := [z]; r_k3 := [z]; r_stage := [z] |}; k_sc := tt; k_u := [u]; k_du := [z]; k_rest := tt |}.
Definition ex_ode {V} (zero : V) (zs u : state V) : ode23_world V unit unit :=
  {| e_int := {| o_k1 := zs; o_k2 := zs; o_k3 := zs; o_k4 := zs; o_stage := zs; o_first := true; o_err := zero |};
     e_pid := {| p_errtol := zero; p_minstep := zero; p_maxstep := zero; p_steps := []; p_errs := [] |};
     e_sc := tt; e_u := u; e_du := zs; e_rest := tt |}.
(** The 3D Cahn-Hilliard equation on a 3x2x2 periodic grid, rationals. *)
Definition ex_dom17 : domain Q := ex_dom 0%Q 3%Q 3 2 2 2 Periodic Periodic Periodic.
Definition ex_p17 : ch_params Q := {| ch_m := (1 # 4)%Q; ch_sigma := 2%Q; ch_eps2 := (1 # 3)%Q |}.
Definition ex_u17 (i j k : Z) : Q := if ((i =? 0) && (j =? 0) && (k =? 0))%Z then 3%Q else 0%Q.
Definition ex_run17 : option (list Q) :=
  match make3 (N:=Num_Q) ex_dom17 with
  | Ok d =>
    match make_ch3 (N:=Num_Q) d 1 with
    | Ok sc =>
      let z := map (fun _ => 0%Q) (zrange 0 (cells3 ex_dom17)) in
      let x := {| k_int := {| r_k1 := [z]; r_k2 := [z]; r_k3 := [z]; r_stage := [z] |}; k_sc := sc;
                  k_u := [tabulate3 ex_dom17 ex_u17]; k_du := [z]; k_rest := tt |} in
      match run_steps (N:=Num_Q) (rk3_do (N:=Num_Q) (ch_rhs3 (N:=Num_Q) d 1 ex_p17)) x 0%Q [1 # 10]%Q with
      | Ok xs =>
          Some (map (fun x => match k_u x with
                     | [c] => fold_left (fun a q => Qred (a + match zget c q with Some v => v | None => 0 end)%Q)
                                (d3_interior d) 0%Q
                     | _ => (-1)%Q end) xs)
      | _ => None
      end
    | _ => None
    end
  | _ => None
  end.

(** ** RK3 *)

Lemma pf_C48_shu_osher :
  forall (S : Type) (eval : rhs_fun R S) (ok : S -> Prop) (nv : nat) (size : Z) (P : Z -> Prop)
    (f : R -> (nat -> Z -> R) -> nat -> Z -> R) (o : rk3 R) (sc : S) (u du : state R) (t dt : R) (w : nat -> Z -> R),
  computes eval ok nv size P f ->
  (forall k, In k [r_k1 o; r_k2 o; r_k3 o; r_stage o] -> shaped nv size k) ->
  ok sc -> state_holds nv size P u w -> shaped nv size du ->
  exists o' sc' u' du', rk3_step eval o sc u du t dt = Ok (o', sc', u', du') /\
    state_holds nv size P u' (shu_osher f t dt w) /\
    ok sc' /\ shaped nv size du' /\ (forall k, In k [r_k1 o'; r_k2 o'; r_k3 o'; r_stage o'] -> shaped nv size k).
Proof.
  intros S eval ok nv size P f o sc u du t dt w C SK OK HU HD.
  destruct (rk3_step_spec eval ok nv size P f C o sc u du t dt w (all4 _ _ _ _ _ SK) OK HU HD)
    as (o' & sc' & u' & du' & E & (A1 & A2 & A3 & A4) & B & HU' & HD').
  exists o', sc', u', du'. split; auto. rewrite <- rk3_next_shu_osher. split; auto. split; auto.
  split; [exact (proj1 HD')|]. intros k [<-|[<-|[<-|[<-|[]]]]]; auto.
Qed.

Lemma pf_C48_time_polynomial :
  forall (a b c : nat -> Z -> R) (t dt : R) (u : nat -> Z -> R) (e : nat) (i : Z),
  shu_osher (fun t _ e i => a e i + b e i * t + c e i * t ^ 2)%R t dt u e i =
  (u e i + (a e i * ((t + dt) - t) + b e i * ((t + dt) ^ 2 - t ^ 2) / 2 + c e i * ((t + dt) ^ 3 - t ^ 3) / 3))%R.
Proof. intros. unfold shu_osher. field. Qed.

Lemma pf_C48_linear :
  forall (A : (nat -> Z -> R) -> nat -> Z -> R) (t dt : R) (u : nat -> Z -> R) (e : nat) (i : Z),
  (forall (a b : R) v w e i, A (fun e i => a * v e i + b * w e i)%R e i = (a * A v e i + b * A w e i)%R) ->
  (forall v w, (forall e i, v e i = w e i) -> forall e i, A v e i = A w e i) ->
  shu_osher (fun _ => A) t dt u e i =
  (u e i + dt * A u e i + dt ^ 2 / 2 * A (A u) e i + dt ^ 3 / 6 * A (A (A u)) e i)%R.
Proof.
  intros A t dt u e i LIN EXT. unfold shu_osher.
  assert (E1 : forall e i, A (fun e i => u e i + dt * A u e i)%R e i = (A u e i + dt * A (A u) e i)%R).
  { intros x y. rewrite (EXT _ (fun e i => 1 * u e i + dt * A u e i)%R) by (intros; ring). rewrite LIN. ring. }
  assert (E2 : forall e i, A (fun e i => 3 / 4 * u e i + 1 / 4 * (u e i + dt * A u e i
        + dt * A (fun e0 i0 => u e0 i0 + dt * A u e0 i0) e i))%R e i =
     (A u e i + dt / 2 * A (A u) e i + dt ^ 2 / 4 * A (A (A u)) e i)%R).
  { intros x y.
    rewrite (EXT _ (fun e i => 1 * (fun e i => 1 * u e i + dt / 2 * A u e i) e i + dt ^ 2 / 4 * A (A u) e i)%R)
      by (intros; rewrite E1; field).
    rewrite !LIN. field. }
  rewrite E2, E1. field.
Qed.

(** The test system: one component per elementary differential up to order three. *)
Definition tree_rhs (t : R) (u : nat -> Z -> R) (e : nat) (i : Z) : R :=
  match e with 0%nat => 1 | 1%nat => u 0%nat i | 2%nat => (u 0%nat i) ^ 2 | _ => u 1%nat i end.

Lemma pf_C48_order :
  forall (t dt : R) (i : Z),
  let u := shu_osher tree_rhs t dt (fun _ _ => 0%R) in
  u 0%nat i = dt /\ u 1%nat i = (dt ^ 2 / 2)%R /\ u 2%nat i = (dt ^ 3 / 3)%R /\ u 3%nat i = (dt ^ 3 / 6)%R.
Proof. intros. unfold u, shu_osher, tree_rhs. repeat split; field. Qed.

(** ** ODE23 *)

Lemma pf_C49_first_stage :
  forall (V : Type) (N : Num V) (S W L : Type) (eval : rhs_fun V S) (ok : S -> Prop) (nv : nat) (size : Z) (P : Z -> Prop)
    (f : V -> (nat -> Z -> V) -> nat -> Z -> V) (rmax : V -> list V -> V) (pow : V -> V -> V)
    (monitor : ode23_world V S W -> list (String.string * V))
    (call : L -> Z -> V -> V -> ode23_world V S W -> res (ode23_world V S W))
    (fuel : nat) (o : time_options V) (obs : observable L) (x : ode23_world V S W) rs gf (u0 : nat -> Z -> V),
  (forall d : V, nmul (nint 1) d = d) ->
  computes eval ok nv size P f ->
  (forall l i t d y y', call l i t d y = Ok y' ->
     e_int y' = e_int y /\ e_sc y' = e_sc y /\ e_u y' = e_u y /\ e_du y' = e_du y) ->
  (forall k, In k [o_k1 (e_int x); o_k2 (e_int x); o_k3 (e_int x); o_k4 (e_int x); o_stage (e_int x)] -> shaped nv size k) ->
  o_first (e_int x) = true -> ok (e_sc x) -> state_holds nv size P (e_u x) u0 -> shaped nv size (e_du x) ->
  solve (ode23_do rmax eval) (ode23_next_dt pow) monitor call fuel o obs x = Some (Ok (rs, gf)) ->
  exists us, length us = Datatypes.S (length rs) /\ nth_error us 0 = Some u0 /\
    forall k r, nth_error rs k = Some r -> exists u u',
      nth_error us k = Some u /\ nth_error us (Datatypes.S k) = Some u' /\
      state_holds nv size P (e_u (g_world (s_after r))) u' /\
      state_holds nv size P (o_k1 (e_int (g_world (s_after r)))) (f (s_time r) u).
Proof.
  intros V N S W L eval ok nv size P f rmax pow monitor call fuel o obs x rs gf u0 ONE C QU SK FI OK HU HD E.
  destruct (fsal_chain eval ok nv size P f C ONE rmax pow monitor call QU fuel o obs x rs gf u0 E (all5 _ _ _ _ _ _ SK)
    FI OK HU HD) as (us & A & B & D).
  exists us. split; auto. split; auto. intros k r Hr. destruct (D k r Hr) as (u & u' & D1 & D2 & _ & D4 & D5).
  exists u, u'. auto.
Qed.

Lemma pf_C49_scheme :
  forall (S W L : Type) (eval : rhs_fun R S) (ok : S -> Prop) (nv : nat) (size : Z) (P : Z -> Prop)
    (f : R -> (nat -> Z -> R) -> nat -> Z -> R) (rmax : R -> list R -> R) (pow : R -> R -> R)
    (monitor : ode23_world R S W -> list (String.string * R))
    (call : L -> Z -> R -> R -> ode23_world R S W -> res (ode23_world R S W))
    (fuel : nat) (o : time_options R) (obs : observable L) (x : ode23_world R S W) rs gf (u0 : nat -> Z -> R),
  computes eval ok nv size P f ->
  (forall l i t d y y', call l i t d y = Ok y' ->
     e_int y' = e_int y /\ e_sc y' = e_sc y /\ e_u y' = e_u y /\ e_du y' = e_du y) ->
  (forall k, In k [o_k1 (e_int x); o_k2 (e_int x); o_k3 (e_int x); o_k4 (e_int x); o_stage (e_int x)] -> shaped nv size k) ->
  o_first (e_int x) = true -> ok (e_sc x) -> state_holds nv size P (e_u x) u0 -> shaped nv size (e_du x) ->
  solve (ode23_do rmax eval) (ode23_next_dt pow) monitor call fuel o obs x = Some (Ok (rs, gf)) ->
  exists us, length us = Datatypes.S (length rs) /\ nth_error us 0 = Some u0 /\
    forall k r, nth_error rs k = Some r -> exists u,
      nth_error us k = Some u /\ nth_error us (Datatypes.S k) = Some (bogacki_shampine f (s_time r) (s_dt r) u) /\
      state_holds nv size P (e_u (g_world (s_after r))) (bogacki_shampine f (s_time r) (s_dt r) u) /\
      state_holds nv size P (o_k1 (e_int (g_world (s_after r)))) (f (s_time r) u).
Proof.
  intros S W L eval ok nv size P f rmax pow monitor call fuel o obs x rs gf u0 C QU SK FI OK HU HD E.
  assert (ONE : forall d : R, nmul (nint 1) d = d) by (intros d; cbn [nmul nint Num_R]; ring).
  destruct (fsal_chain eval ok nv size P f C ONE rmax pow monitor call QU fuel o obs x rs gf u0 E (all5 _ _ _ _ _ _ SK)
    FI OK HU HD) as (us & A & B & D).
  exists us. split; auto. split; auto. intros k r Hr. destruct (D k r Hr) as (u & u' & D1 & D2 & -> & D4 & D5).
    rewrite bs_next_spec in D2, D4. exists u. auto.
Qed.

Lemma pf_C49_order :
  (forall (t dt : R) (i : Z),
   let u := bogacki_shampine tree_rhs t dt (fun _ _ => 0%R) in
   u 0%nat i = dt /\ u 1%nat i = (dt ^ 2 / 2)%R /\ u 2%nat i = (dt ^ 3 / 3)%R /\ u 3%nat i = (dt ^ 3 / 6)%R) /\
  (forall (a b c : nat -> Z -> R) (t dt : R) (u : nat -> Z -> R) (e : nat) (i : Z),
   bogacki_shampine (fun t _ e i => a e i + b e i * t + c e i * t ^ 2)%R t dt u e i =
   (u e i + (a e i * ((t + dt) - t) + b e i * ((t + dt) ^ 2 - t ^ 2) / 2 + c e i * ((t + dt) ^ 3 - t ^ 3) / 3))%R).
Proof.
  split.
  - intros. unfold u, bogacki_shampine, bs_k3, bs_k2, bs_k1, tree_rhs. repeat split; field.
  - intros. unfold bogacki_shampine, bs_k3, bs_k2, bs_k1. field.
Qed.

Lemma pf_C49_error :
  forall (S : Type) (eval : rhs_fun R S) (ok : S -> Prop) (nv : nat) (size : Z) (P : Z -> Prop)
    (f : R -> (nat -> Z -> R) -> nat -> Z -> R) (rmax : R -> list R -> R) (o : ode23 R) (sc : S) (u du : state R)
    (t dt : R) (w : nat -> Z -> R),
  computes eval ok nv size P f -> keeps_zero eval ok nv size P ->
  (forall i l, reduction nmax i i l (rmax i l)) -> (forall i, P i \/ ~ P i) -> (0 <= dt <= 1)%R ->
  (forall k, In k [o_k1 o; o_k2 o; o_k3 o; o_k4 o; o_stage o] -> shaped nv size k) ->
  ok sc -> state_holds nv size P u w -> shaped nv size du ->
  (o_first o = false -> state_holds nv size P (o_k4 o) (f t w)) ->
  (forall k, In k [o_k1 o; o_k2 o; o_k3 o; o_k4 o] -> zero_off nv size P k) ->
  exists o' sc' u' du', ode23_step rmax eval o sc u du t dt = Ok (o', sc', u', du') /\
    (0 <= o_err o')%R /\
    (forall e i, (e < nv)%nat -> 0 <= i < size -> P i ->
       (Rabs (bogacki_shampine f t dt w e i - bs_embedded f t dt w e i) <= o_err o')%R) /\
    (o_err o' = 0%R \/ exists e i, (e < nv)%nat /\ 0 <= i < size /\ P i /\
       o_err o' = Rabs (bogacki_shampine f t dt w e i - bs_embedded f t dt w e i)).
Proof.
  intros S eval ok nv size P f rmax o sc u du t dt w C Z RM DEC DT SK OK HU HD K4 ZK.
  destruct (all4 _ _ _ _ _ ZK) as (Z1 & Z2 & Z3 & Z4).
  exact (ode23_error eval ok nv size P f C Z rmax o sc u du t dt w RM DEC DT (all5 _ _ _ _ _ _ SK) OK HU HD K4 Z1 Z2 Z3 Z4).
Qed.

(** Sequential maximum over the rationals. *)
Definition seq_max (i : Q) (l : list Q) : Q := fold_left (nmax (H:=Num_Q)) l i.

Lemma pf_C49_error_large_step_refuted :
  exists (x x' : ode23_world Q unit unit),
  o_first (e_int x) = true /\ e_u x = [[0]; [0]]%Q /\
  ode23_do (N:=Num_Q) seq_max (fun _ s t _ => Ok (tt, s, [[Qred (t * t)]; [0]]%Q)) x 0%Q 2%Q = Ok x' /\
  e_u x' = [[8 # 3]; [0]]%Q /\
  (0 + 2 * (7 # 24) * 0 ^ 2 + 2 * (1 # 4) * 1 ^ 2 + 2 * (1 # 3) * (3 # 2) ^ 2 + 2 * (1 # 8) * 2 ^ 2 == 3)%Q /\
  o_err (e_int x') = (2 # 3)%Q.
Proof.
  exists (ex_ode 0%Q [[0]; [0]]%Q [[0]; [0]]%Q). eexists.
  split; [reflexivity|]. split; [reflexivity|]. split; [vm_compute; reflexivity|].
  split; [reflexivity|]. split; reflexivity.
Qed.

(** One more use of an integrator after its state was set anew, as a second solve would. *)
Definition with_solution {V S W} (x : ode23_world V S W) (u : state V) : ode23_world V S W :=
  {| e_int := e_int x; e_pid := e_pid x; e_sc := e_sc x; e_u := u; e_du := e_du x; e_rest := e_rest x |}.

Lemma pf_C49_second_solve_refuted :
  exists (x x1 x2 : ode23_world Q unit unit) (k : Q),
  let eval := fun (_ : unit) s (_ : Q) (_ : state Q) => Ok (tt, s, map (map (fun v => Qred (- v)))%Q s) in
  o_first (e_int x) = true /\ e_u x = [[1]]%Q /\
  ode23_do (N:=Num_Q) seq_max eval x 0%Q (1 # 2)%Q = Ok x1 /\
  ode23_do (N:=Num_Q) seq_max eval (with_solution x1 [[5]]%Q) 0%Q (1 # 2)%Q = Ok x2 /\
  o_k1 (e_int x2) = [[k]] /\ ~ (k == -5)%Q.
Proof.
  exists (ex_ode 0%Q [[0]]%Q [[1]]%Q). do 3 eexists. cbn zeta.
  split; [reflexivity|]. split; [reflexivity|]. split; [vm_compute; reflexivity|].
  split; [vm_compute; reflexivity|]. split; [reflexivity|]. vm_compute. discriminate.
Qed.

Lemma inside3_dec {V} (dom : domain V) (i j k : Z) : inside3 dom i j k \/ ~ inside3 dom i j k.
Proof. unfold inside3. lia. Qed.

Lemma pf_ch_ex : forall (dom : domain R) (d : disc3 R) (variant : Z) (p : ch_params R),
  valid_domain3 dom -> 2 <= nhalo dom -> nhalo dom <= nx dom /\ nhalo dom <= ny dom /\ nhalo dom <= nz dom ->
  make3 dom = Ok d -> 0 <= variant <= 2 ->
  let P := fun z => exists i j k, inside3 dom i j k /\ z = slot3 dom i j k in
  exists f, computes (ch_rhs3 d variant p) (scratch_fits (cells3 dom)) 1 (cells3 dom) P f /\
    keeps_zero (ch_rhs3 d variant p) (scratch_fits (cells3 dom)) 1 (cells3 dom) P.
Proof.
  intros dom d variant p HV HN HT HM VR P. exists (ch_f3 dom variant p (d3_dx d)). split.
  - apply ch3_computes; auto.
  - apply ch3_zero; auto.
Qed.
Lemma pf_ch2_ex : forall (dom : domain R) (d : disc2 R) (p : ch_params R),
  valid_domain2 dom -> 2 <= nhalo dom -> nhalo dom <= nx dom -> make2 dom = Ok d ->
  let P := fun z => exists i j, inside2 dom i j /\ z = slot2 dom i j in
  exists f, computes (ch_rhs2 d p) (scratch_fits (cells2 dom)) 1 (cells2 dom) P f /\
    keeps_zero (ch_rhs2 d p) (scratch_fits (cells2 dom)) 1 (cells2 dom) P.
Proof.
  intros dom d p HV HN HT HM P. exists (ch_f2 dom p (d2_dx d)). split.
  - apply ch2_computes; auto.
  - apply ch2_zero; auto.
Qed.
