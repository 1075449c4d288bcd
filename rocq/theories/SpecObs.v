(** What a history of registrations, frequency changes and notifications means. *)
From Verif Require Import ZList ModelObs.

Section Spec.
  Context {L : Type}.

  (** The observers of event e registered in h, in order of registration. *)
  Definition registered (h : list (obs_op L)) (e : event) : list L :=
    flat_map (fun op => match op with
                        | Register e' f => if event_eqb e e' then [f] else []
                        | _ => []
                        end) h.

  (** The last frequency set for e, or 1. *)
  Definition frequency (h : list (obs_op L)) (e : event) : Z :=
    fold_left (fun n op => match op with
                           | SetFrequency e' n' => if event_eqb e e' then n' else n
                           | _ => n
                           end) h 1.

  (** The part of h after the first registration for e. *)
  Fixpoint since_registered (h : list (obs_op L)) (e : event) : list (obs_op L) :=
    match h with
    | [] => []
    | Register e' _ :: h' => if event_eqb e e' then h' else since_registered h' e
    | _ :: h' => since_registered h' e
    end.

  (** The number of notifications of e since it has observers. *)
  Definition notified (h : list (obs_op L)) (e : event) : Z :=
    zlen (filter (fun op => match op with Notify e' => event_eqb e e' | _ => false end)
                 (since_registered h e)).
End Spec.
