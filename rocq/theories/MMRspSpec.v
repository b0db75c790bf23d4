(** MMRspSpec.v -- Avalon-MM slaves that answer within D cycles (C142). *)
From Verif Require Import Base Async MMModel MMSpec.
Local Open Scope list_scope.

Section Spec.
Context (c : mm_cfg).
(** a read or write is requested; it is granted; read data is there *)
Definition requested (y : mm_in * mm_out) : bool := is1 (q_read (snd y)) || is1 (q_write (snd y)).
Definition granted (y : mm_in * mm_out) : bool := if a_wait c then match i_wait (fst y) with L0 => true | _ => false end else true.
Definition data_there (y : mm_in * mm_out) : bool := is1 (i_rdv (fst y)).

(** In any [D] consecutive cycles with a request the slave grants at least once, and in any [D]
    consecutive cycles without one (on a bus with readdatavalid) it gives data at least once. *)
Definition responds_within (D : nat) (tr : list (mm_in * mm_out)) : Prop :=
  forall before window after, tr = before ++ window ++ after -> length window = D ->
    (forallb requested window = true -> existsb granted window = true) /\
    (a_rdv c = true -> existsb requested window = false -> existsb data_there window = true).

(** a write: the synchronising cycle and the request; a read: then up to D - 1 cycles without data *)
Definition op_bound (D : nat) (x : mm_op) : nat := match x with MMWrite _ _ => D + 1 | MMRead _ => 2 * D end.
Definition ops_bound (D : nat) (ops : list mm_op) : nat := list_sum (map (op_bound D) ops).
End Spec.
