(** XgE2EModel.v -- a whole test bench for XGMII: packets appended to the driver
    (drivers/xgmii.py:91-202), its send thread, the bus, the monitor (monitors/xgmii.py) and a
    scoreboard on that monitor.  The parts are DriverModel, XgModel and ScoreboardModel; here
    they are put together.
    Simplified: as in XgModel.v a delivered packet is its payload, so that the scoreboard
    compares byte strings (the monitor wraps them in scapy's Ether, 152-153).  The monitor has
    no attribute [name] (monitors/xgmii.py:43-62): the scoreboard's sb_run is for a test that
    assigns one, its receive_all with [false] for one that does not. *)
From Verif Require Export Base Async DriverModel XgModel.
Local Open Scope list_scope.

(** the calls of _driver_send the send thread made, with their sync argument
    (drivers/__init__.py:185, 207-209); a transaction is the packet appended *)
Definition xg_calls (l : list (ev bytes)) : list (bool * bytes) :=
  flat_map (fun e => match e with VStart i s => [(s, i_tx i)] | _ => [] end) l.

(** the driver is constructed (xgmii.py:96-117), then the thread makes those calls, one at a
    time; before each it may have slept any number of cycles waiting for something to send *)
Definition xg_bench (width : nat) (interleaved bound : bool) (crc32 : bytes -> Z)
           (calls : list (nat * (bool * bytes))) : M Z unit bits unit :=
  construct width interleaved bound ;;
  send_all width interleaved bound crc32 (map (fun c => (fst c, fst (snd c), snd (snd c))) calls).
