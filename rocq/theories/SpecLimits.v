(** Settings whose limits are missing or too large. *)
From Verif Require Import SpecProgram.
From Coq Require Import ZArith.
Local Open Scope Z_scope.

(** The grid and the scheme of these settings are usable; nothing is said about the numbers of steps. *)
Definition usable {V} (s : settings V) : Prop :=
  2 <= s_nx s /\ 2 <= s_ny s <= 2147483647 /\ 2 <= s_nz s <= 2147483647 /\ 0 <= s_variant s <= 2.
