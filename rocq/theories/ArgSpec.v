(** ArgSpec.v -- vocabulary for C129: integers and signals of [n] bits. *)
From Verif Require Export Base.
Local Open Scope Z_scope.

(** a negative number whose two's complement has [n] bits *)
Definition negative (n : nat) (z : Z) : Prop := - 2 ^ (Z.of_nat n - 1) <= z < 0.
(** the number read back from the signal *)
Definition wrapped (n : nat) (z : Z) : Z := z + 2 ^ Z.of_nat n.
(** a number that has no [n]-bit representation at all *)
Definition too_big (n : nat) (z : Z) : Prop := 2 ^ Z.of_nat n <= z \/ z < - 2 ^ (Z.of_nat n - 1).
(** an address as a non-negative number: negative ones that have a two's complement wrap, those too
    small for that become one too big *)
Definition shown (n : nat) (a : Z) : Z :=
  if a <? 0 then (if - 2 ^ (Z.of_nat n - 1) <=? a then wrapped n a else wrapped n (a mod 2 ^ Z.of_nat n)) else a.
