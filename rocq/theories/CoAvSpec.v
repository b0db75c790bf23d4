(** CoAvSpec.v -- several tasks using one AvalonMaster. *)
From Verif Require Import Base Async MMModel CoModel CoAvModel.
Local Open Scope list_scope.

(** how a task has ended; Susp if it has not *)
Definition ended {TS TI TO A} (x : task TS TI TO A) : outcome A :=
  match x with TEnd r => r | _ => Susp end.
Definition omap {A B} (f : A -> B) (r : outcome A) : outcome B :=
  match r with Done a => Done (f a) | Exn e => Exn e | Susp => Susp | Fuel => Fuel end.
Definition returned {A} (r : outcome A) : Prop := exists a, r = Done a.

(** the results of calls, given those of the reads among them *)
Fixpoint replies (ops : list mm_op) (ds : list bits) : list (option bits) :=
  match ops, ds with
  | [], _ => []
  | MMWrite _ _ :: r, _ => None :: replies r ds
  | MMRead _ :: r, d :: ds' => Some d :: replies r ds'
  | MMRead _ :: _, [] => []
  end.

Section Spec.
Context (c : mm_cfg) (fuel : nat).
Notation world := (world bool mm_in mm_out).

Definition mm_call (x : mm_op) : M bool mm_in mm_out (option bits) :=
  match x with
  | MMRead a => bind (mm_read c fuel a true) (fun d => ret (Some d))
  | MMWrite a v => bind (mm_write c fuel a v) (fun _ => ret None)
  end.
(** a call that comes in cycle [n], or right now if it is later than that *)
Definition call_at (n : nat) (x : mm_op) : M bool mm_in mm_out (option bits) :=
  fun w => (edges (n - length (trace w)) ;; mm_call x) w.
(** One call after the other, in the order in which they come, each when the one before is
    over: the results, and the bus.  After a call that has raised or not returned the bus
    stays locked (C76). *)
Fixpoint in_turn (calls : list (nat * mm_op)) (w : world) : list (outcome (option bits)) * world :=
  match calls with
  | [] => ([], w)
  | (n, x) :: r =>
      match call_at n x w with
      | (Done d, w') => let '(os, w2) := in_turn r w' in (Done d :: os, w2)
      | (o, w') => (o :: map (fun _ => Susp) r, w')
      end
  end.
(** ... when the call after the next comes, this call is over: at most one call waits for another *)
Fixpoint one_waiting (calls : list (nat * mm_op)) (w : world) : Prop :=
  match calls with
  | [] => True
  | (n, x) :: r =>
      match call_at n x w with
      | (Done _, w') => match r with _ :: (n3, _) :: _ => length (trace w') < n3 | _ => True end /\ one_waiting r w'
      | _ => True
      end
  end.
(** the tasks are listed in the order of their calls *)
Fixpoint by_arrival (calls : list (nat * mm_op)) : Prop :=
  match calls with [] => True | (n, _) :: r => Forall (fun x => n <= fst x) r /\ by_arrival r end.
Definition supported (x : mm_op) : Prop :=
  match x with MMRead _ => a_read c = true | MMWrite _ _ => a_write c = true end.
(** each task makes one call *)
Definition single (calls : list (nat * mm_op)) : list (nat * list mm_op) := map (fun x => (fst x, [snd x])) calls.
End Spec.
