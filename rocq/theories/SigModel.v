(** SigModel.v -- BusDriver._wait_for_signal and _wait_for_nsignal
    (src/cocotb_bus/drivers/__init__.py:270-294) on a signal whose changes inside a time step
    are visible.

    A time step is the list of the values the signal takes in it, in order: [] if it is not
    changed, several if it has glitches.  [v] is the value the signal had before.
    (MMModel.v has _wait_for_nsignal as the Avalon master uses it, on settled values.) *)
From Verif Require Export Base.
Local Open Scope list_scope.

(** the value in the ReadOnly phase of the step *)
(* drivers/__init__.py:277, 290: the value in the read-only phase *)
Definition settled (v : logic) (step : list logic) : logic := last step v.

(** RisingEdge(signal) fires in the step: some change is one to 1 *)
Fixpoint rises (v : logic) (step : list logic) : bool :=
  match step with
  | [] => false
  | x :: r => match v, x with
              | L1, _ => rises x r
              | _, L1 => true
              | _, _ => rises x r
              end
  end.
(** Edge(signal) fires in the step: some assignment changes the value *)
(* drivers/__init__.py:292: await Edge(signal) *)
Fixpoint changes (v : logic) (step : list logic) : bool :=
  match step with
  | [] => false
  | x :: r => negb (logic_eqb v x) || changes x r
  end.

(** How a call ends, and in which time step (0 is the one of the call; after a return the
    coroutine goes on in the step after it, 281/294).  [Waiting]: it has not ended. *)
Inductive ended := Returned (n : nat) | Raised (n : nat) (e : exn) | Waiting.

(** await RisingEdge(signal) / Edge(signal), then ReadOnly (279-280, 292-293): the step in
    which the trigger fires, the settled value there and the steps after it *)
Fixpoint next_fire (fires : logic -> list logic -> bool) (n : nat) (v : logic) (steps : list (list logic))
  : option (nat * logic * list (list logic)) :=
  match steps with
  | [] => None
  | s :: r => if fires v s then Some (n, settled v s, r) else next_fire fires (S n) (settled v s) r
  end.

(** the loops (278-281, 291-294); [want] is the value compared with; int() of a value
    that is neither 0 nor 1 raises ValueError.  In step [n] the signal has settled to [v]. *)
Fixpoint wait_loop (want : logic) (fires : logic -> list logic -> bool) (fuel : nat) (n : nat) (v : logic) (steps : list (list logic)) : ended :=
  match fuel with
  | O => Waiting
  | S f =>
      match v with
      | L0 | L1 =>
          if logic_eqb v want then Returned n
          else match next_fire fires (S n) v steps with
               | None => Waiting
               | Some (n', v', r) => wait_loop want fires f n' v' r
               end
      | _ => Raised n EValue
      end
  end.

(** _wait_for_signal (270-281) and _wait_for_nsignal (283-294), called in a step that settles
    to [v]; every turn of the loop uses up a step, so that there is always enough fuel *)
Definition wait_for_signal (v : logic) (steps : list (list logic)) : ended :=
  wait_loop L1 rises (S (length steps)) 0 v steps.
(* drivers/__init__.py:283-294 *)
Definition wait_for_nsignal (v : logic) (steps : list (list logic)) : ended :=
  wait_loop L0 changes (S (length steps)) 0 v steps.
