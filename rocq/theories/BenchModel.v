(** BenchModel.v -- a test bench in the style of examples/dff/tests/dff_cocotb.py (73-115)
    and examples/endian_swapper/tests/test_endian_swapper.py (142-188): several input
    monitors whose callback is a reference model of the design, which appends what the
    design should produce to a list; several output monitors; one Scoreboard with an
    interface for every output monitor and its list.  The parts are Monitor._recv, which
    calls the callback with each transaction once (monitors/__init__.py:132-154; see
    MonitorModel.v), and the Scoreboard (ScoreboardModel.v). *)
From Verif Require Export ScoreboardModel.
Local Open Scope list_scope.

Section Bench.
Variables A T : Type.        (* transactions at the inputs and at the outputs *)
Variable ty : T -> nat.
Variable eqb : T -> T -> bool.
Variable str : T -> string.
Variable fn : nat -> list T -> T -> T.

(** One channel: the output monitor, its list and what is in it at the beginning
    ([init_val] in dff_cocotb.py:92), the reorder depth, and the reference model: what it
    appends for an input, as a function of the inputs before and the current one. *)
Record chan : Type := Chan {
  h_mon : nat; h_loc : nat; h_first : list T; h_depth : nat; h_model : list A -> A -> list T }.

(** building it: for every channel the list and add_interface (dff_cocotb.py:92-94) *)
Definition build (fail_immediately : bool) (chans : list chan) : sb T :=
  fold_left (fun s c =>
     fst (add_interface T (set_heap T s (h_loc c) (h_first c)) (h_mon c) true (EList (h_loc c)) NoFn
                        (Z.of_nat (h_depth c)) true))
    chans (sb_init T fail_immediately).

(** what happens: the input monitor of channel [k] receives, or its output monitor *)
(* scoreboard.py:162-245: what happens on a test bench's interfaces *)
Inductive bench_ev : Type := BIn (k : nat) (a : A) | BOut (k : nat) (t : T).

(* scoreboard.py:39-46: the scoreboard, and what its model functions were given *)
Record bench : Type := Bench { b_sb : sb T; b_seen : nat -> list A }.

(* scoreboard.py:214-243 *)
Definition bench_step (chans : list chan) (b : bench) (e : bench_ev) : bench :=
  match e with
  | BIn k a =>
      match nth_error chans k with
      | None => b
      | Some c =>                                       (* the model's appends *)
          Bench (fst (sb_run T ty eqb str fn (b_sb b)
                        (map (SExpect (h_loc c)) (h_model c (b_seen b k) a))))
                (upd_fun (b_seen b) k (b_seen b k ++ [a]))
      end
  | BOut k t =>
      match nth_error chans k with
      | None => b
      | Some c => Bench (fst (receive T ty eqb str fn (b_sb b) (h_mon c) t)) (b_seen b)
      end
  end.
(* scoreboard.py:162-245: add_interface for each channel, then the events *)
Definition bench_run (fail_immediately : bool) (chans : list chan) (l : list bench_ev) : bench :=
  fold_left (bench_step chans) l (Bench (build fail_immediately chans) (fun _ => [])).
(** scoreboard.result at the end *)
(* scoreboard.py:48-84: result, at the end *)
Definition bench_verdict (fail_immediately : bool) (chans : list chan) (l : list bench_ev) : res unit :=
  result T (b_sb (bench_run fail_immediately chans l)).
End Bench.
Arguments Chan {A T} h_mon h_loc h_first h_depth h_model.
Arguments h_mon {A T} c. Arguments h_loc {A T} c. Arguments h_first {A T} c.
Arguments h_depth {A T} c. Arguments h_model {A T} c.
Arguments BIn {A T} k a. Arguments BOut {A T} k t.
Arguments Bench {A T}. Arguments b_sb {A T} b. Arguments b_seen {A T} b.
