(** LockModel.v -- the bus lock of [Driver] (drivers/__init__.py:82-83, 92-100).

    Tasks are numbered.  A step is the code a task runs between two awaits; a
    schedule is an arbitrary list of steps.  A task that holds the lock is
    somewhere between the return of [_acquire_lock] and its call of
    [_release_lock] (drivers/avalon.py, drivers/amba.py and drivers/opb.py use it
    this way around every bus access). *)
From Verif Require Export Base.

Inductive lstat :=
| LkIdle              (* not using the bus *)
| LkWaiting           (* inside busy_event.wait() (line 94), event not set *)
| LkWoken             (* the wait is over, not yet resumed *)
| LkHolding.          (* _acquire_lock has returned *)

(* drivers/__init__.py:82-83: busy_event, busy, and the callers of _acquire_lock *)
Record lock := Lock {
  busy : bool;                 (* self.busy *)
  busy_event : bool;           (* self.busy_event *)
  stat : nat -> lstat          (* per task *)
}.

(** __init__ (82-83) *)
Definition lock_init : lock := Lock false false (fun _ => LkIdle).

(* drivers/__init__.py:92-100: where a caller is *)
Definition set_stat (f : nat -> lstat) (t : nat) (s : lstat) : nat -> lstat :=
  fun u => if Nat.eqb u t then s else f u.

(* drivers/__init__.py:92-100: what a caller does *)
Inductive lact :=
| KAcquire (t : nat)    (* task t calls _acquire_lock *)
| KResume (t : nat)     (* the scheduler resumes a woken task *)
| KRelease (t : nat)    (* a holder calls _release_lock *)
| KFail (t : nat).      (* an exception leaves the access of a holder (no caller
                           of _acquire_lock uses try/finally) *)

(** after the wait: lines 95-96 *)
Definition grant (k : lock) (t : nat) : lock := Lock true false (set_stat (stat k) t LkHolding).

(** event.set() ends the wait of every waiting task *)
(* drivers/__init__.py:100: self.busy_event.set() *)
Definition wake_all (f : nat -> lstat) : nat -> lstat :=
  fun u => match f u with LkWaiting => LkWoken | s => s end.

(** Steps that are not enabled change nothing. *)
Definition lstep (k : lock) (a : lact) : lock :=
  match a with
  | KAcquire t =>
      match stat k t with
      | LkIdle =>
          if busy k                                                               (* 93 *)
          then Lock (busy k) (busy_event k)                                       (* 94 *)
                    (set_stat (stat k) t (if busy_event k then LkWoken else LkWaiting))
          else grant k t                                                          (* 95-96 *)
      | _ => k
      end
  | KResume t => match stat k t with LkWoken => grant k t | _ => k end            (* 95-96 *)
  | KRelease t =>
      match stat k t with
      | LkHolding => Lock false true (wake_all (set_stat (stat k) t LkIdle))      (* 98-100 *)
      | _ => k
      end
  | KFail t =>
      match stat k t with
      | LkHolding => Lock (busy k) (busy_event k) (set_stat (stat k) t LkIdle)
      | _ => k
      end
  end.

(* drivers/__init__.py:92-100: a history *)
Definition lrun (acts : list lact) (k : lock) : lock := fold_left lstep acts k.
