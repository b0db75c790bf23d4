(** AvInitSpec.v -- C127: an Avalon memory constructed with any dictionary and latencies. *)
From Verif Require Import Base Async CompatSpec AvMemModel AvMemSpec.
Local Open Scope list_scope.

Section Init.
Context (c : am_cfg).
(** As [answers] (AvMemSpec.v), but with what the dictionary holds (an integer, or nothing)
    instead of the word on the bus. *)
Fixpoint due_values (k free : nat) (m : memory) (d : nat -> nat) (l : list am_in) : list (nat * option Z) :=
  match l with
  | [] => []
  | i :: r =>
      if reads c i
      then let t := Nat.max (k + 1 + d 0) free in
           (t, m (num (v_addr i))) :: due_values (S k) (S t) (mem_after c m i) (fun j => d (S j)) r
      else due_values (S k) free (mem_after c m i) d r
  end.
(** it can be put on readdata *)
Definition fits (v : option Z) : Prop := forall z, v = Some z -> (0 <= z < 2 ^ Z.of_nat (m_width c))%Z.
End Init.
