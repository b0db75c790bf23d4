(** MonitorModel.v -- model of class Monitor and BusMonitor.in_reset
    (src/cocotb_bus/monitors/__init__.py). *)
From Verif Require Export Base.
Export ListNotations.

Section Monitor.
Variable T : Type.                        (* transactions *)

(** A callback is identified by a number; [beh log c t] is what calling it with
    [t] does, given the calls made so far: the callbacks it registers on this
    same monitor (add_callback), and the exception it raises, if any (after
    registering). *)
Variable beh : list (nat * T) -> nat -> T -> list nat * option exn.

(** Monitor object (52-62).  [calls] is the observable log of callback
    invocations, (position in the callback list, transaction); [events] the
    values given to the user's event, if there is one. *)
Record monitor : Type := mkMon {
  callbacks : list nat;        (* self._callbacks *)
  recvq : list T;              (* self._recvQ *)
  received : nat;              (* self.stats.received_transactions *)
  has_event : bool;            (* self._event is not None *)
  events : list T;
  notified : list T;           (* every self._wait_event.set() with its data (151-154) *)
  calls : list (nat * T)
}.

(** Monitor.__init__ (52-71) *)
Definition mon_init (callback : option nat) (event : bool) : monitor :=
  mkMon (match callback with Some c => [c] | None => [] end) [] 0 event [] [] [].

(** add_callback (88-97) *)
Definition add_callback (m : monitor) (c : nat) : monitor :=
  mkMon (callbacks m ++ [c]) (recvq m) (received m) (has_event m) (events m) (notified m) (calls m).

(** [for callback in self._callbacks: callback(transaction)] (138-139).  Python
    iterates over the live list by index, so callbacks appended meanwhile are
    visited too.  [None]: out of fuel (a callback that always registers another
    one makes the loop endless). *)
Fixpoint run_callbacks (fuel : nat) (m : monitor) (i : nat) (t : T) : option (monitor * res unit) :=
  match fuel with
  | O => None
  | S f =>
      match nth_error (callbacks m) i with
      | None => Some (m, Ok tt)
      | Some c =>
          let '(added, ex) := beh (calls m) c t in
          let m1 := mkMon (callbacks m ++ added) (recvq m) (received m) (has_event m)
                          (events m) (notified m) (calls m ++ [(i, t)]) in
          match ex with
          | Some e => Some (m1, Err e)
          | None => run_callbacks f m1 (S i) t
          end
      end
  end.

(** _recv (132-154) *)
Definition recv (fuel : nat) (m : monitor) (t : T) : option (monitor * res unit) :=
  let m0 := mkMon (callbacks m) (recvq m) (S (received m)) (has_event m)
                  (events m) (notified m) (calls m) in                            (* 135 *)
  match run_callbacks fuel m0 0 t with                                            (* 138-139 *)
  | None => None
  | Some (m1, Err e) => Some (m1, Err e)
  | Some (m1, Ok _) =>
      let q := match callbacks m1 with [] => recvq m1 ++ [t] | _ => recvq m1 end in (* 142-143 *)
      let ev := if has_event m1 then events m1 ++ [t] else events m1 in           (* 145-148 *)
      Some (mkMon (callbacks m1) q (received m1) (has_event m1) ev
                  (notified m1 ++ [t]) (calls m1), Ok tt)                          (* 151-154 *)
  end.

(** operations from outside: add_callback, or the monitoring coroutine
    recovering a transaction *)
(* monitors/__init__.py:88, 132: add_callback, _recv *)
Inductive mon_op : Type := OAdd (c : nat) | ORecv (t : T).

(** A history.  If _recv raises, the monitoring coroutine dies with the
    exception: nothing further is received (later ORecv are ignored), callbacks
    can still be added. *)
(* monitors/__init__.py:88-154: a history *)
Fixpoint mon_run (fuel : nat) (ops : list mon_op) (m : monitor) (dead : option exn)
  : option (monitor * option exn) :=
  match ops with
  | [] => Some (m, dead)
  | OAdd c :: r => mon_run fuel r (add_callback m c) dead
  | ORecv t :: r =>
      match dead with
      | Some _ => mon_run fuel r m dead
      | None =>
          match recv fuel m t with
          | None => None
          | Some (m', Ok _) => mon_run fuel r m' None
          | Some (m', Err e) => mon_run fuel r m' (Some e)
          end
      end
  end.

(** __len__ and __getitem__ (82-86); non-negative index *)
Definition mon_len (m : monitor) : nat := length (recvq m).
(* monitors/__init__.py:85-86 *)
Definition mon_getitem (m : monitor) (i : nat) : res T :=
  match nth_error (recvq m) i with Some t => Ok t | None => Err EIndex end.

(** ** wait_for_recv (99-118) as a transition system

    Tasks that called wait_for_recv are numbered in call order.  A task blocks
    in [_wait_event.wait()] (the event is never left set: 152-154 sets and
    clears without yielding), possibly racing a Timer.  [set()] wakes every
    blocked task; a woken task resumes at some later scheduler step and then
    reads [_wait_event_data]. *)
(* monitors/__init__.py:99-118: where a caller of wait_for_recv is *)
Inductive wstatus : Type :=
| WBlocked                        (* waiting *)
| WWoken                          (* event fired, not resumed yet *)
| WTimedOut                       (* timer fired first, not resumed yet *)
| WDone (r : option T) (at_ : nat).  (* returned r, after [at_] receptions *)

(** one call of wait_for_recv: receptions notified before it, whether a timeout
    was given (truthy, line 110), status *)
Record wtask : Type := mkTask { tstart : nat; ttimeout : bool; tstatus : wstatus }.

(* monitors/__init__.py:58-59: the event, its data, and those that wait *)
Record waits : Type := mkWaits {
  wdata : option T;               (* self._wait_event_data *)
  whist : list T;                 (* transactions notified so far *)
  tasks : list wtask
}.

(* monitors/__init__.py:58-59 *)
Definition waits_init : waits := mkWaits None [] [].

Inductive wact : Type :=
| AWait (timeout : bool)          (* some task calls wait_for_recv(timeout) *)
| ARecv (t : T)                   (* _recv reaches line 152 *)
| ATimer (i : nat)                (* the timer of task i fires *)
| AResume (i : nat).              (* the scheduler resumes task i *)

(* monitors/__init__.py:99-118: one of the callers goes on *)
Fixpoint upd {A} (l : list A) (i : nat) (f : A -> A) : list A :=
  match l, i with
  | [], _ => []
  | a :: r, O => f a :: r
  | a :: r, S j => a :: upd r j f
  end.

(* monitors/__init__.py:152: self._wait_event.set() *)
Definition wake (x : wtask) : wtask :=
  match tstatus x with
  | WBlocked => mkTask (tstart x) (ttimeout x) WWoken
  | _ => x
  end.

(** First(event, timer) (112): the timer only counts if it fires first *)
Definition fire (x : wtask) : wtask :=
  match tstatus x, ttimeout x with
  | WBlocked, true => mkTask (tstart x) (ttimeout x) WTimedOut
  | _, _ => x
  end.

Definition resume (data : option T) (now : nat) (x : wtask) : wtask :=
  match tstatus x with
  | WWoken => mkTask (tstart x) (ttimeout x) (WDone data now)                    (* 118 *)
  | WTimedOut => mkTask (tstart x) (ttimeout x) (WDone None now)                 (* 113-114 *)
  | _ => x
  end.

Definition wstep (w : waits) (a : wact) : waits :=
  match a with
  | AWait tmo => mkWaits (wdata w) (whist w) (tasks w ++ [mkTask (length (whist w)) tmo WBlocked])
  | ARecv t => mkWaits (Some t) (whist w ++ [t]) (map wake (tasks w))            (* 152-154 *)
  | ATimer i => mkWaits (wdata w) (whist w) (upd (tasks w) i fire)
  | AResume i => mkWaits (wdata w) (whist w) (upd (tasks w) i (resume (wdata w) (length (whist w))))
  end.

(* monitors/__init__.py:99-154: a history *)
Definition wrun (l : list wact) : waits := fold_left wstep l waits_init.

End Monitor.

Arguments OAdd {T} c.
Arguments ORecv {T} t.
Arguments AWait {T} timeout.
Arguments ARecv {T} t.
Arguments ATimer {T} i.
Arguments AResume {T} i.
Arguments WBlocked {T}.
Arguments WWoken {T}.
Arguments WTimedOut {T}.
Arguments WDone {T} r at_.
Arguments mkTask {T} tstart ttimeout tstatus.
Arguments tstart {T} w.
Arguments ttimeout {T} w.
Arguments tstatus {T} w.
Arguments wdata {T} w.
Arguments whist {T} w.
Arguments tasks {T} w.
Arguments callbacks {T} m.
Arguments recvq {T} m.
Arguments received {T} m.
Arguments has_event {T} m.
Arguments events {T} m.
Arguments notified {T} m.
Arguments calls {T} m.

(** BusMonitor.in_reset (189-196): the optional reset signals' current values;
    int() of an unresolvable value raises ValueError. *)
Definition in_reset (reset_n reset : option bits) : res bool :=
  match reset_n with
  | Some v => match bval v with Some z => Ok (negb (negb (Z.eqb z 0))) | None => Err EValue end
  | None =>
      match reset with
      | Some v => match bval v with Some z => Ok (negb (Z.eqb z 0)) | None => Err EValue end
      | None => Ok false
      end
  end.
