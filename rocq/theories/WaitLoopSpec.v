(** WaitLoopSpec.v -- what C122 demands: a task that calls wait_for_recv in a loop,
      while True: handle(await monitor.wait_for_recv())
    where handling takes time or not. *)
From Verif Require Export MonitorModel MonitorSpec.
Local Open Scope list_scope.

Section Spec.
Context {T : Type}.
(** the transactions received *)
Definition receptions (l : list (wact T)) : list T :=
  flat_map (fun a => match a with ARecv t => [t] | _ => [] end) l.
Definition returned (x : wtask T) : Prop := exists r n, tstatus x = WDone r n.

(** the calls of the schedule are those of one such loop: no timeout, and the next call is made
    when the one before has returned *)
Definition one_loop (l : list (wact T)) : Prop :=
  forall l1 b l2, l = l1 ++ AWait b :: l2 -> b = false /\ Forall returned (tasks (wrun T l1)).
(** what the calls have returned, in order *)
Definition got (l : list (wact T)) : list T :=
  flat_map (fun x => match tstatus x with WDone (Some t) _ => [t] | _ => [] end) (tasks (wrun T l)).

(** whenever a transaction is received, a call is waiting that no earlier transaction has woken *)
Definition attentive (l : list (wact T)) : Prop :=
  forall l1 t l2, l = l1 ++ ARecv t :: l2 -> exists x, In x (tasks (wrun T l1)) /\ tstatus x = WBlocked.

(** the elements of [a] are found in [b], in this order *)
Inductive within : list T -> list T -> Prop :=
| w_nil : within [] []
| w_skip a b t : within a b -> within a (b ++ [t])
| w_take a b t : within a b -> within (a ++ [t]) (b ++ [t]).
End Spec.
