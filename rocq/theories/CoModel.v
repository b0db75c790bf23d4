(** CoModel.v -- several cocotb tasks on one clock: a model of cocotb's scheduler for the
    tasks of a test that share a driver object (trusted, like Async.v, as the description of
    what cocotb does; /repo contains no scheduler).

    A task is a tree of the actions it performs.  Between two awaits it runs without
    interruption.  Of the tasks that can run the first in the list runs (cocotb runs them in
    the order in which they began to wait: simplification; the theorems hold for every order
    of the list).  Time is divided into cycles as in Async.v; within a cycle: right after the
    edge, after a change of an input signal, read-only, later. *)
From Verif Require Export Base Async.
Local Open Scope list_scope.

Section Tree.
Context {TS TI TO : Type}.

(** what a task does next.  [TS]: the attributes of the shared object; there is one shared
    cocotb Event (busy_event, drivers/__init__.py:82). *)
Inductive co (A : Type) : Type :=
| CRet (a : A)
| CExn (e : exn)
| CFuel                                       (* out of loop fuel *)
| CGet (k : TS -> co A)
| CPut (s : TS) (k : co A)
| CDrive (f : TO -> TO) (k : co A)            (* sig.value = v *)
| CInput (k : TI -> co A)                     (* reading the signals, in the read-only phase or later *)
| CEdge (k : co A)                            (* await RisingEdge(clock) *)
| CReadOnly (k : co A)                        (* await ReadOnly() *)
| CMid (k : co A)                             (* await NextTimeStep() *)
| CEdgeOf (key : TI -> logic) (k : co A)      (* await Edge(signal) *)
| CWait (k : co A)                            (* await event.wait() *)
| CSet (k : co A)                             (* event.set() *)
| CClear (k : co A).                          (* event.clear() *)

(* no code in /repo: one part of a coroutine after another *)
Fixpoint cbind {A B} (t : co A) (f : A -> co B) : co B :=
  match t with
  | CRet _ a => f a
  | CExn _ e => CExn B e
  | CFuel _ => CFuel B
  | CGet _ k => CGet B (fun s => cbind (k s) f)
  | CPut _ s k => CPut B s (cbind k f)
  | CDrive _ g k => CDrive B g (cbind k f)
  | CInput _ k => CInput B (fun i => cbind (k i) f)
  | CEdge _ k => CEdge B (cbind k f)
  | CReadOnly _ k => CReadOnly B (cbind k f)
  | CMid _ k => CMid B (cbind k f)
  | CEdgeOf _ key k => CEdgeOf B key (cbind k f)
  | CWait _ k => CWait B (cbind k f)
  | CSet _ k => CSet B (cbind k f)
  | CClear _ k => CClear B (cbind k f)
  end.

(* no code in /repo: while True, with fuel *)
Fixpoint cloop {L A} (fuel : nat) (body : L -> co (L + A)) (l : L) : co A :=
  match fuel with
  | O => CFuel A
  | S f => cbind (body l) (fun r => match r with inl l' => cloop f body l' | inr a => CRet A a end)
  end.

(** a task on its own, in terms of Async.v; the state is the object and the event *)
(* no code in /repo: a task with no others, in the terms of Async.v *)
Fixpoint alone {A} (t : co A) : M (TS * bool) TI TO A :=
  match t with
  | CRet _ a => ret a
  | CExn _ e => raise e
  | CFuel _ => fun w => (Fuel, w)
  | CGet _ k => bind get (fun x : TS * bool => alone (k (fst x)))
  | CPut _ s k => bind get (fun x : TS * bool => put (s, snd x) ;; alone k)
  | CDrive _ f k => drive f ;; alone k
  | CInput _ k => i <- input ;; alone (k i)
  | CEdge _ k => edge ;; alone k
  | CReadOnly _ k => readonly ;; alone k
  | CMid _ k => midstep ;; alone k
  | CEdgeOf _ key k => edge_of logic_eqb key ;; alone k
  | CWait _ k => bind get (fun x : TS * bool => if snd x then alone k else (fun w => (Susp, w)))
  | CSet _ k => bind get (fun x : TS * bool => put (fst x, true) ;; alone k)
  | CClear _ k => bind get (fun x : TS * bool => put (fst x, false) ;; alone k)
  end.
End Tree.
Arguments co : clear implicits.
Arguments CRet {TS TI TO A}. Arguments CExn {TS TI TO A}. Arguments CFuel {TS TI TO A}.
Arguments CGet {TS TI TO A}. Arguments CPut {TS TI TO A}. Arguments CDrive {TS TI TO A}.
Arguments CInput {TS TI TO A}. Arguments CEdge {TS TI TO A}. Arguments CReadOnly {TS TI TO A}.
Arguments CMid {TS TI TO A}. Arguments CEdgeOf {TS TI TO A}. Arguments CWait {TS TI TO A}.
Arguments CSet {TS TI TO A}. Arguments CClear {TS TI TO A}.

Section Machine.
Context {TS TI TO A : Type}.
Notation co := (co TS TI TO A).

(** what a task waits for, with what it does then; or how it has ended *)
(* no code in /repo: what a task waits for *)
Inductive task :=
| TReady (t : co)
| TEdge (t : co)
| TReadOnly (t : co)
| TMid (t : co)
| TEdgeOf (key : TI -> logic) (v : logic) (t : co)
| TWait (t : co)
| TEnd (r : outcome A).

(** the whole simulation; [ins] as in Async.v *)
(* no code in /repo: the tasks, the lock of drivers/__init__.py:92-100, the signals *)
Record mach := Mach {
  m_obj : TS; m_event : bool; m_ph : phase; m_out : TO; m_trace : list (TI * TO); m_ins : list TI;
  m_tasks : list task }.

(** A task runs until its next await: the object, the event, whether the event was set
    meanwhile, what is driven, and what the task waits for.  Without an input signal to read
    the simulation is over ([TEnd Susp]). *)
(* no code in /repo: a task runs up to its next await *)
Fixpoint seg (t : co) (s : TS) (ev woke : bool) (p : phase) (o : TO) (i : option TI)
  : TS * bool * bool * TO * task :=
  match t with
  | CRet a => (s, ev, woke, o, TEnd (Done a))
  | CExn e => (s, ev, woke, o, TEnd (Exn e))
  | CFuel => (s, ev, woke, o, TEnd Fuel)
  | CGet k => seg (k s) s ev woke p o i
  | CPut s' k => seg k s' ev woke p o i
  | CDrive f k => match p with
                  | PReadOnly => (s, ev, woke, o, TEnd (Exn ERuntime))
                  | _ => seg k s ev woke p (f o) i
                  end
  | CInput k => match i with Some x => seg (k x) s ev woke p o i | None => (s, ev, woke, o, TEnd Susp) end
  | CEdge k => (s, ev, woke, o, TEdge k)
  | CReadOnly k => match p with
                   | PReadOnly => (s, ev, woke, o, TEnd (Exn ERuntime))
                   | _ => (s, ev, woke, o, TReadOnly k)
                   end
  | CMid k => (s, ev, woke, o, TMid k)
  | CEdgeOf key k => match i with
                     | Some x => (s, ev, woke, o, TEdgeOf key (key x) k)
                     | None => (s, ev, woke, o, TEnd Susp)
                     end
  | CWait k => if ev then seg k s ev woke p o i else (s, ev, woke, o, TWait k)
  | CSet k => seg k s true true p o i
  | CClear k => seg k s false woke p o i
  end.

(** the first task that can run *)
(* no code in /repo: the next task to run *)
Fixpoint first_ready (l : list task) : option (list task * co * list task) :=
  match l with
  | [] => None
  | TReady t :: r => Some ([], t, r)
  | x :: r => match first_ready r with Some (a, t, b) => Some (x :: a, t, b) | None => None end
  end.

(** triggers *)
(* drivers/__init__.py:100: self.busy_event.set() wakes all that wait *)
Definition on_wake (x : task) : task := match x with TWait t => TReady t | _ => x end.
(* no code in /repo: the clock's rising edge *)
Definition on_edge (x : task) : task := match x with TEdge t => TReady t | _ => x end.
(* no code in /repo: the read-only phase begins *)
Definition on_readonly (x : task) : task := match x with TReadOnly t => TReady t | _ => x end.
(* no code in /repo: the next time step *)
Definition on_mid (x : task) : task := match x with TMid t => TReady t | _ => x end.
(* drivers/__init__.py:292: await Edge(signal) *)
Definition fires (i : TI) (x : task) : bool :=
  match x with TEdgeOf key v _ => negb (logic_eqb (key i) v) | _ => false end.
(* drivers/__init__.py:292: await Edge(signal) *)
Definition on_change (i : TI) (x : task) : task :=
  match x with TEdgeOf _ _ t => if fires i x then TReady t else x | _ => x end.
(* no code in /repo: some task awaits ReadOnly() *)
Definition wants_readonly (x : task) : bool := match x with TReadOnly _ => true | _ => false end.
(* no code in /repo: some task awaits NextTimeStep() *)
Definition wants_mid (x : task) : bool := match x with TMid _ => true | _ => false end.
(* no code in /repo: the phase in which signals may be driven *)
Definition is_active (p : phase) : bool := match p with PActive => true | _ => false end.
(* no code in /repo: the read-only phase *)
Definition is_readonly (p : phase) : bool := match p with PReadOnly => true | _ => false end.

(** nobody can run: time passes; None at the end of the simulation *)
(* no code in /repo: nothing can run, time goes on *)
Definition advance (m : mach) : option mach :=
  match m_ins m with
  | [] => None
  | i :: r =>
      if is_active (m_ph m) && existsb (fires i) (m_tasks m) then
        Some (Mach (m_obj m) (m_event m) PMid (m_out m) (m_trace m) (m_ins m) (map (on_change i) (m_tasks m)))
      else if negb (is_readonly (m_ph m)) && existsb wants_readonly (m_tasks m) then
        Some (Mach (m_obj m) (m_event m) PReadOnly (m_out m) (m_trace m) (m_ins m) (map on_readonly (m_tasks m)))
      else if existsb wants_mid (m_tasks m) then
        Some (Mach (m_obj m) (m_event m) PMid (m_out m) (m_trace m) (m_ins m) (map on_mid (m_tasks m)))
      else
        Some (Mach (m_obj m) (m_event m) PActive (m_out m) (m_trace m ++ [(i, m_out m)]) r (map on_edge (m_tasks m)))
  end.

(* no code in /repo: one step of the scheduler *)
Definition step (m : mach) : option mach :=
  match first_ready (m_tasks m) with
  | Some (a, t, b) =>
      let '(s, ev, woke, o, x) := seg t (m_obj m) (m_event m) false (m_ph m) (m_out m) (hd_error (m_ins m)) in
      let wk := if woke then map on_wake else fun l => l in
      Some (Mach s ev (m_ph m) o (m_trace m) (m_ins m) (wk a ++ x :: wk b))
  | None => advance m
  end.

(** the simulation from [m] ends in [m'] *)
(* no code in /repo: any number of steps *)
Inductive steps : mach -> mach -> Prop :=
| steps_refl m : steps m m
| steps_step m m1 m2 : step m = Some m1 -> steps m1 m2 -> steps m m2.
(* no code in /repo: no step is left *)
Definition ends (m m' : mach) : Prop := steps m m' /\ step m' = None.
End Machine.
Arguments task : clear implicits.
Arguments mach : clear implicits.
