(** Compat1Spec.v -- the arguments of create_binary that mean the same on both versions of cocotb. *)
From Verif Require Import Base CompatModel.
Local Open Scope Z_scope.

(** a str has a character for each bit; bytes fit, and the word is not a single bit; an int
    is refused by both versions (negative), or fits and, with big_endian, is 0 or needs all the bits *)
Definition portable (src : binsrc) (n : nat) (big : bool) : Prop :=
  match src with
  | BStr s => length s = n
  | BBytes b => n <> 1%nat /\ (8 * length b <= n)%nat
  | BInt z => z < 0 \/ (z < 2 ^ Z.of_nat n /\ (big = true -> z = 0 \/ 2 ^ (Z.of_nat n - 1) <= z))
  end.
