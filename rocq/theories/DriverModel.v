(** DriverModel.v -- model of the send queue and the send thread of [Driver]
    (src/cocotb_bus/drivers/__init__.py:71-210).

    cocotb runs one coroutine at a time; a coroutine keeps control until its
    next [await].  The model is therefore a transition system whose steps are
    the pieces of code between two awaits of the send thread, interleaved
    arbitrarily with calls of [append], [clear], [kill] and [send] by other
    coroutines.  A schedule is a list of [action]s. *)
From Verif Require Export Base.

Section Driver.
(** transactions *)
Context (T : Type).

(** One queue entry, the tuple of __init__.py:129.  The callback is an opaque
    function, identified by a number; [i_event] says whether an event was given.
    [i_sync_kw]: the kwargs contain the key "sync", which collides with the
    explicit sync= of line 208 (Python raises TypeError when making the call). *)
Record item := Item {
  i_tx : T;
  i_callback : option nat;
  i_event : option nat;
  i_sync_kw : bool
}.

(** What user code called back can do to the driver: append and clear. *)
(* drivers/__init__.py:190-191: what a callback may do with the driver *)
Inductive cbop := CAppend (i : item) | CClear.

(** Behaviour of callbacks: the effects on this driver, and an exception or not. *)
Context (beh : nat -> T -> list cbop * option exn).

(** The send thread. *)
Inductive thread :=
| TReady                            (* scheduled to run at the top of the loop (line 194, or after line 198) *)
| TAsleep                           (* inside self._pending.wait() (line 198), event not set *)
| TSending (i : item) (sync : bool) (* inside _driver_send (line 185) *)
| TDead (e : option exn).           (* ended by an exception, or killed *)

(** Observable events, in order. *)
(* drivers/__init__.py:185-191: what is seen of a driver *)
Inductive ev :=
| VAppend (i : item)                (* append(...) was called *)
| VClear                            (* clear() was called *)
| VStart (i : item) (sync : bool)   (* _driver_send(tx, sync=...) called by the send thread *)
| VReject (i : item)                (* taken from the queue, the call itself raised TypeError *)
| VSent (i : item)                  (* _driver_send returned *)
| VEvent (k : nat)                  (* event.set() *)
| VCallback (c : nat) (t : T)       (* callback(transaction) called *)
| VDone (i : item)                  (* the send thread is done with this entry *)
| VDead (e : option exn)            (* the send thread ended *)
| VDirect (t : T) (sync : bool)     (* _driver_send called by a user's send() *)
| VDirectDone (t : T).

(* drivers/__init__.py:78-90: the attributes of the object *)
Record driver := Driver_ {
  sendq : list item;                (* self._sendQ *)
  pending : bool;                   (* self._pending *)
  thr : thread;                     (* self._thread *)
  direct : list T;                  (* send() calls of other coroutines in progress *)
  log : list ev
}.

(** Driver.__init__ (78-90): empty queue, thread scheduled. *)
Definition drv_init : driver := Driver_ [] false TReady [] [].

(* drivers/__init__.py:185-191: something becomes visible *)
Definition emit (es : list ev) (d : driver) : driver :=
  Driver_ (sendq d) (pending d) (thr d) (direct d) (log d ++ es).
(* drivers/__init__.py:90, 106, 193-210: where the thread is *)
Definition set_thr (t : thread) (d : driver) : driver :=
  Driver_ (sendq d) (pending d) t (direct d) (log d).

(** append (108-130): queue, then _pending.set(), which schedules the thread if
    it waits. *)
Definition append (i : item) (d : driver) : driver :=
  Driver_ (sendq d ++ [i]) true
          (match thr d with TAsleep => TReady | t => t end)
          (direct d) (log d ++ [VAppend i]).

(** clear (132-134) *)
Definition clear (d : driver) : driver :=
  Driver_ [] (pending d) (thr d) (direct d) (log d ++ [VClear]).

(* drivers/__init__.py:108-134, called inside a callback *)
Definition run_cbop (d : driver) (o : cbop) : driver :=
  match o with CAppend i => append i d | CClear => clear d end.

(* drivers/__init__.py:185-191: an exception ends the thread *)
Definition die (e : option exn) (d : driver) : driver :=
  emit [VDead e] (set_thr (TDead e) d).

(** await self._pending.wait() (198): returns at once if the event is set *)
Definition pending_wait (d : driver) : driver :=
  set_thr (if pending d then TReady else TAsleep) d.

(** The inner loop head (204-209), entered with [synchronised]: take the next
    entry and call _send, or, when the queue is empty, go round the outer loop:
    lines 196-198 clear the event and wait. *)
Definition inner_loop (synchronised : bool) (d : driver) : driver :=
  match sendq d with
  | [] => pending_wait (Driver_ [] false (thr d) (direct d) (log d))       (* 196-198 *)
  | i :: q =>
      let d := Driver_ q (pending d) (thr d) (direct d) (log d) in         (* 205 *)
      if i_sync_kw i then die (Some EType) (emit [VReject i] d)            (* 207-209 *)
      else emit [VStart i (negb synchronised)]
                (set_thr (TSending i (negb synchronised)) d)
  end.

(** The rest of _send after _driver_send has returned (187-191), then the inner
    loop again (204).  An exception of the callback ends the thread. *)
Definition finish (i : item) (d : driver) : driver :=
  let d := emit [VSent i] d in
  let d := match i_event i with Some k => emit [VEvent k] d | None => d end in
  match i_callback i with
  | None => inner_loop true (emit [VDone i] d)
  | Some c =>
      let d := emit [VCallback c (i_tx i)] d in
      let '(ops, r) := beh c (i_tx i) in
      let d := fold_left run_cbop ops d in
      match r with
      | None => inner_loop true (emit [VDone i] d)
      | Some e => die (Some e) d
      end
  end.

Inductive action :=
| AAppend (i : item)       (* another coroutine calls append *)
| AClear                   (* ... clear *)
| AKill                    (* ... kill (102-106) *)
| ARun                     (* the scheduler resumes the send thread at the loop head *)
| AFinish (r : option exn) (* _driver_send of the send thread returns / raises *)
| ADirect (t : T) (sync : bool)   (* another coroutine calls send() (136-147) *)
| ADirectDone (n : nat).          (* the n-th direct send in progress returns *)

(* drivers/__init__.py:136-147: a blocking send ends *)
Definition remove_nth {A} (n : nat) (l : list A) : list A := firstn n l ++ skipn (S n) l.

(** Actions that are not enabled leave the state unchanged. *)
(* drivers/__init__.py:102-210: one action of the test or of the simulator *)
Definition step (d : driver) (a : action) : driver :=
  match a with
  | AAppend i => append i d
  | AClear => clear d
  | AKill => match thr d with TDead _ => d | _ => die None d end
  | ARun => match thr d with TReady => inner_loop false d | _ => d end
  | AFinish r =>
      match thr d with
      | TSending i _ => match r with None => finish i d | Some e => die (Some e) d end
      | _ => d
      end
  | ADirect t s => Driver_ (sendq d) (pending d) (thr d) (direct d ++ [t]) (log d ++ [VDirect t s])
  | ADirectDone n =>
      match nth_error (direct d) n with
      | Some t => Driver_ (sendq d) (pending d) (thr d) (remove_nth n (direct d)) (log d ++ [VDirectDone t])
      | None => d
      end
  end.

(* drivers/__init__.py:102-210: a history of actions *)
Definition run (acts : list action) (d : driver) : driver := fold_left step acts d.
End Driver.

Arguments Item {T}. Arguments i_tx {T}. Arguments i_callback {T}. Arguments i_event {T}. Arguments i_sync_kw {T}.
Arguments CAppend {T}. Arguments CClear {T}.
Arguments TReady {T}. Arguments TAsleep {T}. Arguments TSending {T}. Arguments TDead {T}.
Arguments VAppend {T}. Arguments VClear {T}. Arguments VStart {T}. Arguments VReject {T}. Arguments VSent {T}.
Arguments VEvent {T}. Arguments VCallback {T}. Arguments VDone {T}. Arguments VDead {T}.
Arguments VDirect {T}. Arguments VDirectDone {T}.
Arguments Driver_ {T}. Arguments sendq {T}. Arguments pending {T}. Arguments thr {T}. Arguments direct {T}. Arguments log {T}.
Arguments drv_init {T}.
Arguments AAppend {T}. Arguments AClear {T}. Arguments AKill {T}. Arguments ARun {T}. Arguments AFinish {T}.
Arguments ADirect {T}. Arguments ADirectDone {T}.
Arguments emit {T}. Arguments set_thr {T}. Arguments append {T}. Arguments clear {T}. Arguments die {T}.
Arguments inner_loop {T}. Arguments run_cbop {T}.
