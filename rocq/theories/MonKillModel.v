(** MonKillModel.v -- a Monitor as a whole: construction, callbacks, receptions,
    wait_for_recv and kill in any order (src/cocotb_bus/monitors/__init__.py). *)
From Verif Require Export MonitorModel.
Local Open Scope list_scope.

(** A callable object: functions and methods have a __qualname__, instances with
    __call__ and functools.partial objects have not. *)
(* monitors/__init__.py:94-97: a callback, with or without __qualname__ *)
Record callable : Type := mkCallable { named : bool; ident : nat }.

(** self._thread (71): the monitoring coroutine goes on, or has ended: killed
    (None), or by an exception *)
Inductive thread : Type := Running | Ended (e : option exn).

Section Whole.
Variable T : Type.
Variable beh : list (nat * T) -> nat -> T -> list nat * option exn.

(* monitors/__init__.py:52-74: a monitor with its waiting tasks and its thread *)
Record whole : Type := mkWhole { mon : monitor T; wts : waits T; thr : thread }.

(** add_callback (88-97): the log message reads callback.__qualname__ before the
    callback is registered *)
Definition add_callable (m : monitor T) (c : callable) : res (monitor T) :=
  if named c then Ok (add_callback T m (ident c)) else Err EAttribute.

(** Monitor.__init__ (52-71) *)
Definition construct (callback : option callable) (event : bool) : res whole :=
  let m0 := mon_init T None event in
  rbind (match callback with None => Ok m0 | Some c => add_callable m0 c end)      (* 67-68 *)
        (fun m => Ok (mkWhole m (waits_init T) Running)).                          (* 71 *)

(** [if timeout:] (110); a timeout is a number of time steps *)
Definition truthy (timeout : option nat) : bool :=
  match timeout with None | Some O => false | Some (S _) => true end.

(* monitors/__init__.py:76-154: what may happen to a monitor *)
Inductive wop : Type :=
| WAdd (c : callable)             (* add_callback *)
| WRecv (t : T)                   (* the coroutine recovers a transaction *)
| WKill                           (* kill *)
| WWait (timeout : option nat)    (* some task calls wait_for_recv(timeout) *)
| WTimer (i : nat)                (* the timer of that task number i fires *)
| WResume (i : nat).              (* the scheduler resumes that task *)

(** kill (73-77); killing a task that has ended does nothing *)
Definition kill (t : thread) : thread := match t with Running => Ended None | Ended e => Ended e end.

(** One operation: the new state and what the caller of add_callback gets.  [None]:
    endless loop over callbacks, see MonitorModel.v *)
(* monitors/__init__.py:76-154 *)
Definition whole_step (fuel : nat) (s : whole) (o : wop) : option (whole * res unit) :=
  match o with
  | WAdd c => match add_callable (mon s) c with
              | Ok m => Some (mkWhole m (wts s) (thr s), Ok tt)
              | Err e => Some (s, Err e)
              end
  | WRecv t =>
      match thr s with
      | Ended _ => Some (s, Ok tt)
      | Running =>
          match recv T beh fuel (mon s) t with
          | None => None
          | Some (m, Ok _) => Some (mkWhole m (wstep T (wts s) (ARecv t)) Running, Ok tt)
          | Some (m, Err e) => Some (mkWhole m (wts s) (Ended (Some e)), Ok tt)
          end
      end
  | WKill => Some (mkWhole (mon s) (wts s) (kill (thr s)), Ok tt)
  | WWait t => Some (mkWhole (mon s) (wstep T (wts s) (AWait (truthy t))) (thr s), Ok tt)
  | WTimer i => Some (mkWhole (mon s) (wstep T (wts s) (ATimer i)) (thr s), Ok tt)
  | WResume i => Some (mkWhole (mon s) (wstep T (wts s) (AResume i)) (thr s), Ok tt)
  end.
(* monitors/__init__.py:76-154: a history *)
Fixpoint whole_run (fuel : nat) (s : whole) (ops : list wop) : option whole :=
  match ops with
  | [] => Some s
  | o :: r => match whole_step fuel s o with None => None | Some (s', _) => whole_run fuel s' r end
  end.
End Whole.
Arguments mon {T} w.
Arguments wts {T} w.
Arguments thr {T} w.
Arguments WAdd {T} c.
Arguments WRecv {T} t.
Arguments WKill {T}.
Arguments WWait {T} timeout.
Arguments WTimer {T} i.
Arguments WResume {T} i.
