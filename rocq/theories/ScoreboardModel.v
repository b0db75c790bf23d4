(** ScoreboardModel.v -- model of src/cocotb_bus/scoreboard.py (class Scoreboard)
    together with the part of Monitor._recv that calls its callbacks. *)
From Coq Require Export String.
From Verif Require Export Base.
Export ListNotations.
Local Open Scope list_scope.

Section Scoreboard.
(** Transactions with Python's type(), == and str().  [a != b] is taken to be
    [not (a == b)].  [fn i] are callable expected outputs, as functions of the
    transactions they were called with before and the current one. *)
Variable T : Type.
Variable ty : T -> nat.
Variable eqb : T -> T -> bool.
Variable str : T -> string.
Variable fn : nat -> list T -> T -> T.

(** expected_output: a list object (identified by its location) or a callable *)
(* scoreboard.py:165, 225: a list or a function *)
Inductive expected_output : Type := EList (loc : nat) | EFun (id : nat).

(** the closure check_received_transaction (214-243) *)
Record iface : Type := mkIface {
  i_exp : expected_output; i_depth : Z; i_strict : bool }.

(** what a monitor calls back: a scoreboard closure, or a user's compare_fn
    (assumed not to touch this scoreboard) *)
(* scoreboard.py:205, 245: what add_interface registers *)
Inductive callback : Type := CbCheck (i : iface) | CbUser.

(** compare_fn argument *)
(* scoreboard.py:166, 203-210 *)
Inductive compare_arg : Type := NoFn | FnCallable | FnNotCallable.

(** Scoreboard object, the expected lists (shared mutable objects), the
    callback lists of the monitors, and the monitors whose coroutine ended with
    an exception. *)
Record sb : Type := mkSb {
  heap : nat -> list T;
  fcalls : nat -> list T;
  errors : nat;                                      (* 44 *)
  expected : list (nat * expected_output);           (* 45: dict keyed by monitor *)
  imm : bool;                                        (* 46 *)
  cbs : nat -> list callback;
  dead : list nat
}.

(** Scoreboard.__init__ (39-46) *)
Definition sb_init (fail_immediately : bool) : sb :=
  mkSb (fun _ => []) (fun _ => []) 0 [] fail_immediately (fun _ => []) [].

(* scoreboard.py:107, 194: update of a dictionary or attribute *)
Definition upd_fun {B} (f : nat -> B) (k : nat) (v : B) : nat -> B :=
  fun x => if Nat.eqb x k then v else f x.

(* scoreboard.py:234: expected_output.pop(i) *)
Definition set_heap (s : sb) (l : nat) (v : list T) : sb :=
  mkSb (upd_fun (heap s) l v) (fcalls s) (errors s) (expected s) (imm s) (cbs s) (dead s).
(* scoreboard.py:107, 122, 236: self.errors += 1 *)
Definition add_error (s : sb) : sb :=
  mkSb (heap s) (fcalls s) (S (errors s)) (expected s) (imm s) (cbs s) (dead s).

(** compare (86-160), logging omitted.  Returns the new error count and whether
    an AssertionError is raised. *)
Definition compare (s : sb) (got exp : T) (strict_type : bool) : sb * res unit :=
  if strict_type && negb (Nat.eqb (ty got) (ty exp)) then                     (* 106 *)
    (add_error s, if imm s then Err EAssertion else Ok tt)                     (* 107-115 *)
  else
    let same := if strict_type then eqb got exp                                (* 121 *)
                else String.eqb (str got) (str exp) in                         (* 117-118 *)
    if negb same then (add_error s, if imm s then Err EAssertion else Ok tt)   (* 122-152 *)
    else (s, Ok tt).

(** for i in range(min(reorder_depth + 1, len(expected_output))): ... else i = 0
    (229-233): index of the first match among the first [n] elements *)
Fixpoint find_match (n : nat) (l : list T) (t : T) : option nat :=
  match n, l with
  | S n', e :: r => if eqb e t then Some 0 else
                      match find_match n' r t with Some i => Some (S i) | None => None end
  | _, _ => None
  end.

(* scoreboard.py:229-233 *)
Definition pick (depth : Z) (l : list T) (t : T) : nat :=
  match find_match (Z.to_nat (depth + 1)) l t with Some i => i | None => 0 end.

(** expected_output.pop(i) (234) on a list with more than i elements *)
Definition pop (l : list T) (i : nat) : option (T * list T) :=
  match nth_error l i with
  | Some e => Some (e, firstn i l ++ skipn (S i) l)
  | None => None
  end.

(** check_received_transaction (214-243), for a monitor with a [name] attribute
    (see [check_any] for the others) *)
Definition check_received (s : sb) (i : iface) (t : T) : sb * res unit :=
  match i_exp i with
  | EFun f =>                                                                  (* 225-226 *)
      let s1 := mkSb (heap s) (upd_fun (fcalls s) f (fcalls s f ++ [t])) (errors s)
                     (expected s) (imm s) (cbs s) (dead s) in
      compare s1 t (fn f (fcalls s f) t) (i_strict i)
  | EList l =>
      match pop (heap s l) (pick (i_depth i) (heap s l) t) with
      | Some (e, rest) => compare (set_heap s l rest) t e (i_strict i)          (* 228-234, 243 *)
      | None => (add_error s, if imm s then Err EAssertion else Ok tt)          (* 235-241 *)
      end
  end.

(** the loop of Monitor._recv over the callbacks (monitors/__init__.py:138-139) *)
Fixpoint deliver (s : sb) (l : list callback) (t : T) : sb * res unit :=
  match l with
  | [] => (s, Ok tt)
  | CbUser :: r => deliver s r t
  | CbCheck i :: r =>
      match check_received s i t with
      | (s', Ok _) => deliver s' r t
      | (s', Err e) => (s', Err e)
      end
  end.

(** a monitor receives a transaction; an exception ends its coroutine, after
    which it receives nothing *)
(* monitors/__init__.py:138-139: every callback of the monitor *)
Definition receive (s : sb) (m : nat) (t : T) : sb * res unit :=
  if existsb (Nat.eqb m) (dead s) then (s, Ok tt)
  else match deliver s (cbs s m) t with
       | (s', Ok _) => (s', Ok tt)
       | (s', Err e) => (mkSb (heap s') (fcalls s') (errors s') (expected s') (imm s')
                              (cbs s') (m :: dead s'), Err e)
       end.

(** dict assignment self.expected[monitor] = expected_output (194) *)
Fixpoint set_expected (d : list (nat * expected_output)) (m : nat) (e : expected_output) :=
  match d with
  | [] => [(m, e)]
  | (m', e') :: r => if Nat.eqb m' m then (m', e) :: r else (m', e') :: set_expected r m e
  end.

(* monitors/__init__.py:97: self._callbacks.append(callback) *)
Definition register (s : sb) (m : nat) (c : callback) : sb :=
  mkSb (heap s) (fcalls s) (errors s) (expected s) (imm s) (upd_fun (cbs s) m (cbs s m ++ [c])) (dead s).

(** add_interface (162-245) *)
Definition add_interface (s : sb) (m : nat) (is_monitor : bool) (e : expected_output)
           (cf : compare_arg) (depth : Z) (strict : bool) : sb * res unit :=
  let s := mkSb (heap s) (fcalls s) (errors s) (set_expected (expected s) m e) (imm s) (cbs s) (dead s) in
  if negb is_monitor then (s, Err EType)                                       (* 197-201 *)
  else match cf with
       | FnCallable => (register s m CbUser, Ok tt)                            (* 203-206 *)
       | FnNotCallable => (s, Err EType)                                       (* 207-210 *)
       | NoFn => (register s m (CbCheck (mkIface e depth strict)), Ok tt)      (* 214-245 *)
       end.

(** result (48-84) *)
Definition leftover (s : sb) (e : expected_output) : bool :=
  match e with
  | EFun _ => false                                                            (* 58-64 *)
  | EList l => negb (Nat.eqb (length (heap s l)) 0)                            (* 65-81 *)
  end.

Definition result (s : sb) : res unit :=
  if existsb (fun me => leftover s (snd me)) (expected s) then Err EAssertion  (* 82 *)
  else if negb (Nat.eqb (errors s) 0) then Err EAssertion                      (* 83 *)
  else Ok tt.                                                                  (* 84 *)

(** a history of the test: the testbench appends to an expected list, a monitor
    receives, an interface is added *)
(* scoreboard.py:162-245: what a test does *)
Inductive sop : Type :=
| SExpect (l : nat) (t : T)
| SRecv (m : nat) (t : T)
| SAdd (m : nat) (is_monitor : bool) (e : expected_output) (cf : compare_arg) (depth : Z) (strict : bool).

(* scoreboard.py:162-245 *)
Definition sb_step (s : sb) (o : sop) : sb * res unit :=
  match o with
  | SExpect l t => (set_heap s l (heap s l ++ [t]), Ok tt)
  | SRecv m t => receive s m t
  | SAdd m im e cf d st => add_interface s m im e cf d st
  end.

(** every operation's outcome, and the final state *)
(* scoreboard.py:162-245: a history *)
Fixpoint sb_run (s : sb) (ops : list sop) : sb * list (res unit) :=
  match ops with
  | [] => (s, [])
  | o :: r => let '(s1, x) := sb_step s o in
              let '(s2, xs) := sb_run s1 r in (s2, x :: xs)
  end.

(** ** Monitors without the attribute [name]

    check_received_transaction first looks at monitor.name (218): AttributeError if
    the monitor has none.  BusMonitor.__init__ sets it (monitors/__init__.py:177);
    Monitor.__init__ (monitors/__init__.py:52-74) and the XGMII monitor
    (monitors/xgmii.py:43-62) do not. *)
(* scoreboard.py:214-243, also for a monitor without a name (218-221) *)
Definition check_any (has_name : bool) (s : sb) (i : iface) (t : T) : sb * res unit :=
  if has_name then check_received s i t else (s, Err EAttribute).
(* monitors/__init__.py:138-139 *)
Fixpoint deliver_any (has_name : bool) (s : sb) (l : list callback) (t : T) : sb * res unit :=
  match l with
  | [] => (s, Ok tt)
  | CbUser :: r => deliver_any has_name s r t
  | CbCheck i :: r =>
      match check_any has_name s i t with
      | (s', Ok _) => deliver_any has_name s' r t
      | (s', Err e) => (s', Err e)
      end
  end.
(* monitors/__init__.py:138-139 *)
Definition receive_any (has_name : bool) (s : sb) (m : nat) (t : T) : sb * res unit :=
  if existsb (Nat.eqb m) (dead s) then (s, Ok tt)
  else match deliver_any has_name s (cbs s m) t with
       | (s', Ok _) => (s', Ok tt)
       | (s', Err e) => (mkSb (heap s') (fcalls s') (errors s') (expected s') (imm s')
                              (cbs s') (m :: dead s'), Err e)
       end.
(** a sequence of receptions of one monitor *)
(* monitors/__init__.py:138-139, for several transactions *)
Fixpoint receive_all (has_name : bool) (s : sb) (m : nat) (l : list T) : sb * list (res unit) :=
  match l with
  | [] => (s, [])
  | t :: r => let '(s1, x) := receive_any has_name s m t in
              let '(s2, xs) := receive_all has_name s1 m r in (s2, x :: xs)
  end.

(** Scoreboard(dut, reorder_depth=.., fail_immediately=..) (39-46): reorder_depth is
    not used *)
Definition sb_construct (reorder_depth : Z) (fail_immediately : bool) : sb := sb_init fail_immediately.
End Scoreboard.

Arguments heap {T} s.
Arguments fcalls {T} s.
Arguments errors {T} s.
Arguments expected {T} s.
Arguments imm {T} s.
Arguments cbs {T} s.
Arguments dead {T} s.
Arguments SExpect {T} l t.
Arguments SRecv {T} m t.
Arguments SAdd {T} m is_monitor e cf depth strict.
