(** E2EModel.v -- a whole test bench: packets appended to the packetized Avalon-ST
    driver, its send thread, the bus, the packet monitor, and a scoreboard on that monitor.
    The parts are DriverModel, PktModel and ScoreboardModel; here they are put together. *)
From Verif Require Export Base Async DriverModel PktModel.
Local Open Scope list_scope.

(** a transaction: append(bytes, channel=...) (drivers/__init__.py:108-130; the channel
    keyword is passed on to _driver_send, 185) *)
Definition ptx : Type := (bytes * option Z)%type.

(** the calls of _driver_send the send thread made (drivers/__init__.py:185, 207-209) *)
Definition thread_calls (l : list (ev ptx)) : list packet :=
  flat_map (fun e => match e with VStart i s => [Packet (fst (i_tx i)) s (snd (i_tx i))] | _ => [] end) l.

(** those calls on the bus, one after the other (the thread makes one at a time); before
    each the thread may have slept any number of cycles waiting for something to send *)
(* drivers/avalon.py:828-860 once per packet, each after a pause of the caller *)
Definition pk_send_gaps (c : pcfg) (fuel : nat) (gps : list (nat * packet)) : M valid logic pk_out unit :=
  for_each (fun gp => edges (fst gp) ;;
                      pk_send c fuel (p_data (snd gp)) (p_sync (snd gp)) (p_channel (snd gp))) gps.
