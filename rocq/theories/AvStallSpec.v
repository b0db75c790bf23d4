(** AvStallSpec.v -- how long an Avalon memory makes a writing master wait. *)
From Verif Require Import Base Async CompatSpec AvMemModel.
Local Open Scope list_scope.

(** a cycle in which a master requests a write and the memory does not accept it *)
Definition stalled (x : am_in * am_out) : Prop := v_write (fst x) = L1 /\ w_wait (snd x) = L1.
(** the same, and no read is requested *)
Definition stalled_write (x : am_in * am_out) : Prop := stalled x /\ v_read (fst x) <> L1.

(** never more than [n] consecutive cycles of kind [P] *)
Definition at_most {X} (P : X -> Prop) (n : nat) (tr : list X) : Prop :=
  forall pre mid post, tr = pre ++ mid ++ post -> Forall P mid -> length mid <= n.

(** requests are for at least one beat *)
Definition some_beats (i : am_in) : Prop :=
  v_read i = L1 \/ v_write i = L1 -> bval (v_bcount i) <> Some 0%Z.
