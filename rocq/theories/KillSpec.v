(** KillSpec.v -- what C101 and C102 demand.  Driver.kill (drivers/__init__.py:102-106) is
    the action [AKill] of DriverModel. *)
From Verif Require Export StE2ESpec.
Local Open Scope list_scope.

Section Spec.
Context {T : Type}.
(** what the send thread does: it hands entries to the protocol, sets events, calls callbacks *)
Definition by_thread (e : ev T) : bool :=
  match e with
  | VStart _ _ | VReject _ | VSent _ | VEvent _ | VCallback _ _ | VDone _ => true
  | _ => false
  end.
(** what a test's own send() calls do *)
Definition by_send (e : ev T) : bool := match e with VDirect _ _ => true | _ => false end.
Definition is_dead (e : ev T) : bool := match e with VDead _ => true | _ => false end.
(** the send() calls of a schedule *)
Definition sends_of (acts : list (action T)) : list (ev T) :=
  flat_map (fun a => match a with ADirect t s => [VDirect t s] | _ => [] end) acts.
(** a queue that is only appended to and cleared by the test *)
Definition undrained (acts : list (action T)) (q : list (item T)) : list (item T) :=
  fold_left (fun q a => match a with AAppend i => q ++ [i] | AClear => [] | _ => q end) acts q.
End Spec.

(** what the monitor reports, up to the kill and in the cycles [J] after it: nobody drives
    the bus any more, so it stays as it was at the kill *)
Definition after_kill (has_ready be : bool) (w : world valid logic st_out) (J : list logic) : list bytes * option exn :=
  st_monitor has_ready be (trace w ++ held (out w) J).
