(** BitModel.v -- a BitDriver object that is started and stopped any number of times
    (src/cocotb_bus/drivers/__init__.py:19-68).

    DrvUtilModel.v has the coroutine of one start() by itself; here the object is modelled
    with all tasks ever started on it, which share the generator in self._generator. *)
From Verif Require Export Base DrvUtilModel.
Local Open Scope list_scope.
Local Open Scope Z_scope.

(** A task: created by start_soon and not yet run, waiting for an edge in line 65 or 68
    with so many edges to go, ended by an exception, or killed. *)
Inductive tstate :=
| TNew (generator : option (list (Z * Z)))
| TOn (left off : Z)
| TOff (left : Z)
| TEnd (e : exn)
| TKilled.
(** [t_run]: the task is to run in the current time step (it is new, or its edge has come) *)
Record btask := BTask { t_run : bool; t_state : tstate }.
(** the object: the value of the signal, self._generator (as the pairs it still yields),
    the tasks in the order of their creation, and self._cr (27-30) *)
Record bitobj := BitObj { o_signal : logic; o_generator : option (list (Z * Z)); o_tasks : list btask; o_cr : option nat }.
Definition bit_construct (signal : logic) (generator : option (list (Z * Z))) : bitobj := BitObj signal generator [] None.

(** from line 61 to the next await: the state of the task, what is left of the generator,
    the value of the signal *)
Fixpoint tw_loop (gen : list (Z * Z)) (v : logic) : tstate * list (Z * Z) * logic :=
  match gen with
  | [] => (TEnd ERuntime, [], v)                                          (* 62, PEP 479 *)
  | (on, off) :: g =>
      if 0 <? on then (TOn on off, g, L1)                                 (* 63-65 *)
      else if 0 <? off then (TOff off, g, L0)                             (* 66-68 *)
      else tw_loop g L0
  end.
Definition tw_next (gen : option (list (Z * Z))) (v : logic) : tstate * option (list (Z * Z)) * logic :=
  match gen with
  | Some g => let '(s, g, v) := tw_loop g v in (s, Some g, v)
  | None => (TEnd EType, None, v)                     (* next(None); not reachable, see 53-56 *)
  end.
(** a task runs until its next await *)
Definition tw_resume (s : tstate) (gen : option (list (Z * Z))) (v : logic) : tstate * option (list (Z * Z)) * logic :=
  match s with
  | TNew (Some g) => tw_next (Some g) v                                   (* 55-56 *)
  | TNew None => match gen with Some _ => tw_next gen v | None => (TEnd (EUser 0), None, v) end   (* 53-54 *)
  | TOn n off => if 1 <? n then (TOn (n - 1) off, gen, v)
                 else if 0 <? off then (TOff off, gen, L0)
                 else tw_next gen L0
  | TOff n => if 1 <? n then (TOff (n - 1), gen, v) else tw_next gen v
  | TEnd _ | TKilled => (s, gen, v)
  end.

(** all tasks that are to run do so; tasks that wait for the same edge in the order of
    their creation (simplification: cocotb runs them in the order in which they began to wait) *)
(* drivers/__init__.py:61-68: all tasks waiting for the edge run, in turn *)
Fixpoint resume_all (ts : list btask) (gen : option (list (Z * Z))) (v : logic) : list btask * option (list (Z * Z)) * logic :=
  match ts with
  | [] => ([], gen, v)
  | t :: r =>
      let '(t, gen, v) := if t_run t then let '(s, gen, v) := tw_resume (t_state t) gen v in (BTask false s, gen, v) else (t, gen, v) in
      let '(r, gen, v) := resume_all r gen v in
      (t :: r, gen, v)
  end.
(* drivers/__init__.py:61-68: one rising edge *)
Definition resumed (o : bitobj) : bitobj :=
  let '(ts, gen, v) := resume_all (o_tasks o) (o_generator o) (o_signal o) in BitObj v gen ts (o_cr o).
(* drivers/__init__.py:65, 68: the task awaits the edge *)
Definition waits (s : tstate) : bool := match s with TOn _ _ | TOff _ => true | _ => false end.

(** What happens: the test calls start or stop; the scheduler runs the tasks that are to
    run in this time step; the time step ends and the next rising edge comes (before which
    those tasks have run).  A test that has waited for the same edge can call start or stop
    before or after the tasks have run. *)
(* drivers/__init__.py:32-50: start, stop, new tasks begin, a clock cycle *)
Inductive bact := AStart (generator : option (list (Z * Z))) | AStop | ATasks | ACycle.
(* drivers/__init__.py:46-50: what is seen: the signal, an exception *)
Inductive bout := OVal (v : logic) | ORaise (e : exn).
(* drivers/__init__.py:50: the task killed, in the list of all tasks *)
Fixpoint update {A} (n : nat) (x : A) (l : list A) : list A :=
  match l, n with
  | [], _ => []
  | _ :: r, O => x :: r
  | y :: r, S n' => y :: update n' x r
  end.
(** The value the signal has in each cycle, and the exceptions of start and stop. *)
Definition bit_step (a : bact) (o : bitobj) : list bout * bitobj :=
  match a with
  | AStart g => ([], BitObj (o_signal o) (o_generator o) (o_tasks o ++ [BTask true (TNew g)]) (Some (length (o_tasks o))))   (* 46 *)
  | AStop =>                                                              (* 48-50 *)
      match o_cr o with
      | None => ([ORaise EAttribute], o)
      | Some i =>
          match nth_error (o_tasks o) i with
          | Some (BTask _ (TEnd e)) => ([], o)             (* kill() of an ended task does nothing *)
          | _ => ([], BitObj (o_signal o) (o_generator o) (update i (BTask false TKilled) (o_tasks o)) (o_cr o))
          end
      end
  | ATasks => ([], resumed o)
  | ACycle =>
      let o := resumed o in
      ([OVal (o_signal o)],
       BitObj (o_signal o) (o_generator o) (map (fun t => BTask (waits (t_state t)) (t_state t)) (o_tasks o)) (o_cr o))
  end.
Fixpoint bit_run (acts : list bact) (o : bitobj) : list bout * bitobj :=
  match acts with
  | [] => ([], o)
  | a :: r => let '(x, o) := bit_step a o in let '(y, o) := bit_run r o in (x ++ y, o)
  end.
