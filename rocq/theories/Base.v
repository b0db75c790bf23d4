(** Base.v -- exceptions as values, four-valued logic, logic vectors.

    Shared vocabulary of all models.  Python exceptions are values of [exn];
    a Python function that may raise returns [res A]. *)
From Coq Require Export ZArith Lia Bool Arith List.
From Coq Require Export ZifyBool ZifyNat.
Export ListNotations.

(** Python exceptions that the modelled code raises or lets through. *)
Inductive exn : Type :=
| EAttribute | EType | EValue | EIndex | EKey | EName | EUnboundLocal
| ERuntime | EAssertion | EStopIteration | ENotImplemented
| EAvalonProtocol            (* monitors/avalon.py:24 *)
| EAXIProtocol (xresp : Z)   (* drivers/amba.py:41-44, carries the response *)
| EAXILength                 (* drivers/amba.py:47, AXIReadBurstLengthMismatch *)
| EOPB                       (* drivers/opb.py:18 *)
| EUser (n : nat).           (* exception raised by user code (callback, socket, ...) *)

Inductive res (A : Type) : Type :=
| Ok (a : A)
| Err (e : exn).
Arguments Ok {A} a.
Arguments Err {A} e.

Definition rbind {A B} (r : res A) (f : A -> res B) : res B :=
  match r with Ok a => f a | Err e => Err e end.

Definition is_ok {A} (r : res A) : bool := match r with Ok _ => true | Err _ => false end.

(** Values of one bit as delivered by the simulator.  cocotb has nine values;
    every value other than 0, 1 and Z is represented by [LX] (simplification:
    the code only distinguishes "1", "0" and "not resolvable"). *)
Inductive logic : Type := L0 | L1 | LX | LZ.

Definition logic_eqb (a b : logic) : bool :=
  match a, b with
  | L0, L0 | L1, L1 | LX, LX | LZ, LZ => true
  | _, _ => false
  end.

Lemma logic_eqb_spec a b : reflect (a = b) (logic_eqb a b).
Proof. destruct a, b; simpl; constructor; congruence. Qed.

Lemma logic_eqb_eq a b : logic_eqb a b = true <-> a = b.
Proof. destruct (logic_eqb_spec a b); split; congruence. Qed.

(** [str(sig.value) == "1"]: the idiom used everywhere in the code. *)
Definition is1 (l : logic) : bool := logic_eqb l L1.

Lemma is1_true l : is1 l = true <-> l = L1.
Proof. apply logic_eqb_eq. Qed.

(** [int(sig.value)] on a one-bit signal: ValueError when not 0/1. *)
Definition logic_int (l : logic) : res Z :=
  match l with L0 => Ok 0%Z | L1 => Ok 1%Z | _ => Err EValue end.

(** A logic vector, leftmost (most significant) bit first, as [str(value)] prints it. *)
Definition bits := list logic.

Definition zeros (n : nat) : bits := repeat L0 n.
Definition xs (n : nat) : bits := repeat LX n.

(** byte strings *)
Definition bytes := list Z.
Definition is_byte (z : Z) : Prop := (0 <= z < 256)%Z.
Definition is_byteb (z : Z) : bool := ((0 <=? z) && (z <? 256))%Z.
Definition all_bytes (b : bytes) : Prop := Forall is_byte b.

Definition bit_of_bool (b : bool) : logic := if b then L1 else L0.

(** [zbits n z]: the n low bits of z, most significant first. *)
Fixpoint zbits (n : nat) (z : Z) : bits :=
  match n with
  | O => []
  | S n' => bit_of_bool (Z.testbit z (Z.of_nat n')) :: zbits n' z
  end.

(** unsigned value of a vector; [None] if some bit is not 0/1. *)
Fixpoint bval (l : bits) : option Z :=
  match l with
  | [] => Some 0%Z
  | b :: r =>
      match b, bval r with
      | L0, Some v => Some v
      | L1, Some v => Some (2 ^ Z.of_nat (length r) + v)%Z
      | _, _ => None
      end
  end.

Definition resolvable (l : bits) : bool :=
  forallb (fun b => match b with L0 | L1 => true | _ => false end) l.

(** keep [simpl] away from integer arithmetic *)
#[global] Arguments Z.add : simpl never.
#[global] Arguments Z.sub : simpl never.
#[global] Arguments Z.mul : simpl never.
#[global] Arguments Z.pow : simpl never.
#[global] Arguments Z.modulo : simpl never.
#[global] Arguments Z.div : simpl never.
#[global] Arguments Z.of_nat : simpl never.
#[global] Arguments Z.to_nat : simpl never.
#[global] Arguments Z.testbit : simpl never.
