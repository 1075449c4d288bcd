(** Vocabulary for restarts whose times need not agree. *)
From Coq Require Import List.
From Verif Require Import Outcome ZList Num SpecGrid ModelDisc3D ModelCH ModelTime ModelRun.
Import ListNotations.

Section Spec.
  Context {V S W L : Type} `{N : Num V}.

  (** Two steps, of two runs on grids with the cells of dom, end with the same step number and
      the same value in every interior cell. *)
  Definition same_values3 (dom : domain V) (a b : step_record (V:=V) (X:=rk3_world V S W) (L:=L)) : Prop :=
    g_iter (s_after a) = g_iter (s_after b) /\
    exists ca cb u, k_u (g_world (s_after a)) = [ca] /\ k_u (g_world (s_after b)) = [cb] /\
      holds_inside3 dom ca u /\ holds_inside3 dom cb u.
  Definition same_values2 (dom : domain V) (a b : step_record (V:=V) (X:=rk3_world V S W) (L:=L)) : Prop :=
    g_iter (s_after a) = g_iter (s_after b) /\
    exists ca cb u, k_u (g_world (s_after a)) = [ca] /\ k_u (g_world (s_after b)) = [cb] /\
      holds_inside2 dom ca u /\ holds_inside2 dom cb u.

  (** The n-th steps of two runs are related whenever the sizes of all steps up to them agree. *)
  Definition in_lockstep (related : step_record -> step_record -> Prop)
      (l l' : list (step_record (V:=V) (X:=rk3_world V S W) (L:=L))) : Prop :=
    forall n a b, nth_error l n = Some a -> nth_error l' n = Some b ->
      (forall m x y, (m <= n)%nat -> nth_error l m = Some x -> nth_error l' m = Some y -> s_dt x = s_dt y) ->
      related a b.
End Spec.
