(** StE2EModel.v -- a whole test bench for the plain Avalon-ST bus: words appended to the
    driver (drivers/avalon.py:512-597), its send thread, the bus, the monitor
    (monitors/avalon.py:28-71) and a scoreboard on that monitor.  The parts are DriverModel,
    AvalonSTModel and ScoreboardModel; here they are put together. *)
From Verif Require Export Base Async DriverModel AvalonSTModel.
Local Open Scope list_scope.

(** the calls of _driver_send the send thread made, with their sync argument
    (drivers/__init__.py:185, 207-209); a transaction is whatever the test appended: an
    int, bytes or a bit string *)
Definition word_calls (l : list (ev binsrc)) : list (binsrc * bool) :=
  flat_map (fun e => match e with VStart i s => [(i_tx i, s)] | _ => [] end) l.

(** those calls on the bus, one after the other (the thread makes one at a time); before
    each the thread may have slept any number of cycles waiting for something to send *)
(* drivers/avalon.py:548-594 once per word, each after a pause of the caller *)
Definition st_send_gaps (width : nat) (has_ready : bool) (fuel : nat) (gws : list (nat * (binsrc * bool))) :
  M valid logic st_out unit :=
  for_each (fun gw => edges (fst gw) ;; st_send width has_ready fuel (fst (snd gw)) (snd (snd gw))) gws.
