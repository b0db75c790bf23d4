(** SigSpec.v -- what C103 demands. *)
From Verif Require Import SigModel.
Local Open Scope list_scope.

(** the values the signal settles to, step by step, from the one of the call on *)
Fixpoint values (v : logic) (steps : list (list logic)) : list logic :=
  v :: match steps with [] => [] | s :: r => values (last s v) r end.
(** [n] is the first step whose settled value satisfies [P] *)
Definition first_step (P : logic -> Prop) (vs : list logic) (n : nat) : Prop :=
  (exists x, nth_error vs n = Some x /\ P x) /\ forall k x, k < n -> nth_error vs k = Some x -> ~ P x.
Definition known (v : logic) : Prop := v = L0 \/ v = L1.
