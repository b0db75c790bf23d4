(** AvWidSpec.v -- what C120 demands. *)
From Verif Require Import Base Async AvWidModel.
Local Open Scope list_scope.

(** in no cycle of [w] is the read data other than [d], or flagged valid *)
Definition unanswered (d : bits) (w : world am_state am_in am_out) : Prop :=
  forall o, In o (out w :: map snd (trace w)) -> w_data o = d /\ w_valid o <> L1.
(** nobody reads, in the cycles behind and ahead *)
Definition no_reads (w : world am_state am_in am_out) : Prop :=
  forall i, In i (map fst (trace w) ++ ins w) -> v_read i <> L1.
