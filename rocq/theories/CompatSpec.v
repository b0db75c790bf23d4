(** CompatSpec.v -- integer value of a byte string. *)
From Verif Require Import Base.
Local Open Scope Z_scope.

(** int.from_bytes(b, "little") *)
Fixpoint from_le (b : bytes) : Z :=
  match b with [] => 0 | x :: r => x + 256 * from_le r end.

(** int.from_bytes(b, "big") *)
Definition from_be (b : bytes) : Z := from_le (rev b).
