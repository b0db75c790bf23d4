(** BpSpec.v -- back-pressure by a BitDriver on the ready signal (C139). *)
From Verif Require Import Base.
Local Open Scope list_scope.

(** The number of cycles in which a generator of (on, off) pairs asks for the signal to be 1. *)
Definition on_cycles (gen : list (Z * Z)) : nat := list_sum (map (fun p => Z.to_nat (fst p)) gen).

(** With [on] cycles on and [off] cycles off, again and again: how many cycles have passed with
    the j-th cycle that is on (j counted from 1). *)
Definition nth_on (on off j : nat) : nat :=
  Nat.div (j - 1) on * (on + off) + Nat.modulo (j - 1) on + 1.
