(** BenchSpec.v -- what a test bench with a reference model should find out. *)
From Verif Require Import BenchModel ScoreboardSpec.
Local Open Scope list_scope.

Section Spec.
Context {A T : Type}.
(** the inputs and the outputs of channel [k] *)
Definition inputs (k : nat) (l : list (bench_ev A T)) : list A :=
  flat_map (fun e => match e with BIn k' a => if Nat.eqb k' k then [a] else [] | BOut _ _ => [] end) l.
Definition outputs (k : nat) (l : list (bench_ev A T)) : list T :=
  flat_map (fun e => match e with BOut k' t => if Nat.eqb k' k then [t] else [] | BIn _ _ => [] end) l.

(** what a reference model predicts for a sequence of inputs *)
Fixpoint predicted (model : list A -> A -> list T) (before l : list A) : list T :=
  match l with
  | [] => []
  | a :: r => model before a ++ predicted model (before ++ [a]) r
  end.

(** what should come out of a channel, in all *)
Definition should (c : chan A T) (ins : list A) : list T := h_first c ++ predicted (h_model c) [] ins.

(** the history of one channel as seen by its scoreboard interface: predictions and
    outputs *)
Fixpoint channel_history (model : list A -> A -> list T) (k : nat) (before : list A)
         (l : list (bench_ev A T)) : list (ev T) :=
  match l with
  | [] => []
  | BIn k' a :: r => if Nat.eqb k' k then map Exp (model before a) ++ channel_history model k (before ++ [a]) r
                     else channel_history model k before r
  | BOut k' t :: r => if Nat.eqb k' k then Got t :: channel_history model k before r
                      else channel_history model k before r
  end.

(** channels do not share monitors or lists *)
Definition separate (chans : list (chan A T)) : Prop :=
  NoDup (map h_mon chans) /\ NoDup (map h_loc chans).
End Spec.

(** the flip-flop test: in every clock cycle one input [d] and one output [q], seen by the
    two monitors in either order *)
Definition dff_cycles {T} (cs : list (bool * T * T)) : list (bench_ev T T) :=
  flat_map (fun '(first_in, d, q) => if first_in : bool then [BIn 0 d; BOut 0 q] else [BOut 0 q; BIn 0 d]) cs.
