(** GuModel.v -- a call that its caller gives up, by cocotb.triggers.with_timeout or by killing
    the calling task.  cocotb raises CancelledError at the await where the call waits (trusted):
    - read and write of AvalonMaster (drivers/avalon.py:93-197) and OPBMaster
      (drivers/opb.py:45-123) have no try/finally: nothing is released or driven any more;
    - AXI4Master (drivers/amba.py:381, 487, 512) uses "async with", which releases the lock;
      nothing is driven any more.  In AxiModel.v the locks are not part of the state. *)
From Verif Require Import Base Async.
Local Open Scope list_scope.

Section GiveUp.
Context {TS TI TO : Type}.
Notation world := (world TS TI TO).

(** The call [m] made in [w] still waits when the cycles of [w] have passed, and is given up:
    [w'] is what it leaves. *)
(* drivers/avalon.py:93-197 and others: the task that awaits the access is killed *)
Definition given_up {A} (m : M TS TI TO A) (w w' : world) : Prop := m w = (Susp, w').

(** after the next edge; [l] are the cycles that follow *)
(* drivers/avalon.py:93-197 and others: the driver as the next caller finds it *)
Definition afterwards (w' : world) (l : list TI) : world := World (st w') PActive (out w') (trace w') l.
End GiveUp.
