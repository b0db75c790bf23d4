(** HandshakeSpec.v -- valid/ready handshakes as an observer sees them.  A cycle is
    (what the receiver drives, what the sender drives), sampled at the ending edge. *)
From Verif Require Import Base.
Local Open Scope list_scope.

Section Handshake.
Context {TI TO : Type}.
Context (offered : TO -> bool).   (* the sender offers a word *)
Context (accepts : TI -> bool).   (* the receiver accepts *)

Definition transferred (c : TI * TO) : bool := offered (snd c) && accepts (fst c).

(** the words transferred, in order *)
Definition transfers (tr : list (TI * TO)) : list TO := map snd (filter transferred tr).

(** A word offered and not accepted is still offered, unchanged, in the next cycle. *)
Fixpoint stable (tr : list (TI * TO)) : Prop :=
  match tr with
  | [] => True
  | c :: r =>
      match r with
      | [] => True
      | c' :: _ => offered (snd c) = true -> accepts (fst c) = false -> snd c' = snd c
      end /\ stable r
  end.

(** number of cycles in which the receiver accepts *)
Definition ready_cycles (l : list TI) : nat := length (filter accepts l).
End Handshake.
