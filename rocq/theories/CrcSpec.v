(** CrcSpec.v -- transmission errors, for C126. *)
From Verif Require Import Base.
Local Open Scope Z_scope.

(** bit [k] of a byte string in the order of transmission: the bits of the first byte
    first, the least significant bit of each byte first *)
Definition wire_bit (m : bytes) (k : nat) : bool := Z.testbit (nth (k / 8) m 0) (Z.of_nat (k mod 8)).

(** [flips m m' k]: bit [k] arrived wrong *)
Definition flips (m m' : bytes) (k : nat) : Prop := wire_bit m k <> wire_bit m' k.

(** the strings are different and all wrong bits lie within [n] consecutive bits *)
Definition burst (n : nat) (m m' : bytes) : Prop :=
  m <> m' /\ exists a, forall k, flips m m' k -> (a <= k < a + n)%nat.

(** one or two bits arrived wrong *)
Definition two_bits (m m' : bytes) : Prop :=
  m <> m' /\ exists i j, forall k, flips m m' k -> k = i \/ k = j.
