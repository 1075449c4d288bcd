(** Observers, factory registries and unique object names (/repo/utils). *)
From Verif Require Import Outcome ZList.
From Coq Require Import String.

Definition INT_MAX : Z := 2147483647.

(** [enum class Event] (utils/observer.hpp:11). *)
Inductive event : Type := TimeStepComplete | SolutionUpdate.

Definition event_eqb (a b : event) : bool :=
  match a, b with
  | TimeStepComplete, TimeStepComplete => true
  | SolutionUpdate, SolutionUpdate => true
  | _, _ => false
  end.

(** The three maps of [class Observable] (utils/observer.hpp:61-63).  [o_observers e] is
    [None] when the event has no entry in [observers_].  [L] is the type of callbacks. *)
Record observable (L : Type) : Type := {
  o_observers : event -> option (list L);
  o_freq : event -> Z;
  o_count : event -> Z
}.
Arguments o_observers {L}.
Arguments o_freq {L}.
Arguments o_count {L}.

Definition set_at {A} (f : event -> A) (e : event) (x : A) : event -> A :=
  fun e' => if event_eqb e e' then x else f e'.

(** [Observable()] (utils/observer.hpp:23-29). *)
Definition new_observable {L} : observable L :=
  {| o_observers := fun _ => None; o_freq := fun _ => 1; o_count := fun _ => 0 |}.

(** [registerObserver] (utils/observer.hpp:33-37): [observers_[event].push_back(...)]. *)
Definition register_observer {L} (o : observable L) (e : event) (f : L) : observable L :=
  {| o_observers := set_at (o_observers o) e
       (Some (match o_observers o e with Some l => l | None => [] end ++ [f]));
     o_freq := o_freq o; o_count := o_count o |}.

(** [setNotifyFrequency] (utils/observer.hpp:58). *)
Definition set_notify_frequency {L} (o : observable L) (e : event) (freq : Z) : observable L :=
  {| o_observers := o_observers o; o_freq := set_at (o_freq o) e freq; o_count := o_count o |}.

(** [notifyObservers] (utils/observer.hpp:40-56): the callbacks to run, in order, and the
    object afterwards.  The remainder by a zero frequency and the increment of the largest
    int are undefined.  (The increment happens after the callbacks ran; no callback of the
    code base notifies, so the order is not observable.) *)
Definition notify_observers {L} (o : observable L) (e : event) : res (list L * observable L) :=
  match o_observers o e with
  | None => Ok ([], o)
  | Some l =>
      if (o_freq o e =? 0)%Z then UB
      else if (INT_MAX <=? o_count o e)%Z then UB
      else Ok (if (Z.rem (o_count o e) (o_freq o e) =? 0)%Z then l else [],
               {| o_observers := o_observers o; o_freq := o_freq o;
                  o_count := set_at (o_count o) e (o_count o e + 1) |})
  end.

(** The public operations of an [Observable], and a history of them. *)
Inductive obs_op (L : Type) : Type :=
| Register (e : event) (f : L)
| SetFrequency (e : event) (freq : Z)
| Notify (e : event).
Arguments Register {L}.
Arguments SetFrequency {L}.
Arguments Notify {L}.

Definition obs_step {L} (o : observable L) (op : obs_op L) : res (list L * observable L) :=
  match op with
  | Register e f => Ok ([], register_observer o e f)
  | SetFrequency e n => Ok ([], set_notify_frequency o e n)
  | Notify e => notify_observers o e
  end.

(** The callbacks run by each operation of a history. *)
Fixpoint obs_run {L} (o : observable L) (h : list (obs_op L)) : res (list (list L)) :=
  match h with
  | [] => Ok []
  | op :: h' =>
      match obs_step o op with
      | Ok (calls, o') =>
          match obs_run o' h' with Ok cs => Ok (calls :: cs) | UB => UB | Fatal => Fatal | Throw => Throw end
      | UB => UB
      | Fatal => Fatal
      | Throw => Throw
      end
  end.

(** [FactoryRegistry] (utils/registry.hpp:17-61): a [std::map] from names to factories,
    here its entries in any order.  [insert] does nothing when the key is present. *)
Definition registry (F : Type) : Type := list (string * F).

Fixpoint reg_find {F} (r : registry F) (name : string) : option F :=
  match r with
  | [] => None
  | (n, f) :: r' => if String.eqb n name then Some f else reg_find r' name
  end.

(** [add] (utils/registry.hpp:31-35); the returned flag is always true. *)
Definition reg_add {F} (r : registry F) (name : string) (f : F) : registry F * bool :=
  (match reg_find r name with Some _ => r | None => (name, f) :: r end, true).

(** [lookup] (utils/registry.hpp:38-45). *)
Definition reg_lookup {F} (r : registry F) (name : string) : res F :=
  match reg_find r name with Some f => Ok f | None => Throw end.

(** A history of registrations. *)
Definition reg_history {F} (h : list (string * F)) : registry F :=
  fold_left (fun r nf => fst (reg_add r (fst nf) (snd nf))) h [].
