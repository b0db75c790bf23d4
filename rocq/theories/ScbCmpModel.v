(** ScbCmpModel.v -- a Scoreboard whose compare (scoreboard.py:86-160) is re-implemented by a
    sub-class, as its docstring allows: one interface with a list and a reorder depth
    (add_interface, 162-245), on a monitor with a name.
    Simplified: the sub-class's compare may count errors and raise, and may depend on the calls
    made before; it leaves the expected list alone. *)
From Verif Require Export ScoreboardModel.
Local Open Scope list_scope.

Section Custom.
Variable T : Type.
Variable eqb : T -> T -> bool.
(** compare(got, exp, log, strict_type): how many errors it counts and what it raises, given
    the calls before *)
Variable cmp : list (T * T) -> T -> T -> nat * option exn.

(** the expected list, self.errors, the calls of compare, and the exception that ended the
    monitor *)
(* scoreboard.py:194, 203-206: an interface with a compare_fn *)
Record custom : Type := Custom {
  c_out : list T; c_errors : nat; c_calls : list (T * T); c_dead : option exn }.
(* scoreboard.py:194, 203-206 *)
Definition custom_init : custom := Custom [] 0 [] None.

(** the test appends to the list *)
(* scoreboard.py:194: the test appends to the list it passed *)
Definition custom_expect (s : custom) (t : T) : custom :=
  Custom (c_out s ++ [t]) (c_errors s) (c_calls s) (c_dead s).
(** the monitor receives: check_received_transaction (214-243) *)
Definition custom_receive (imm : bool) (depth : Z) (s : custom) (t : T) : custom :=
  match c_dead s with
  | Some _ => s
  | None =>
      match pop T (c_out s) (pick T eqb depth (c_out s) t) with                  (* 228-234 *)
      | Some (e, rest) =>
          let '(n, x) := cmp (c_calls s) t e in                                  (* 243 *)
          Custom rest (c_errors s + n) (c_calls s ++ [(t, e)]) x
      | None => Custom (c_out s) (S (c_errors s)) (c_calls s)
                       (if imm then Some EAssertion else None)                   (* 235-241 *)
      end
  end.
(** result (48-84) *)
Definition custom_result (s : custom) : res unit :=
  if negb (Nat.eqb (length (c_out s)) 0) then Err EAssertion
  else if negb (Nat.eqb (c_errors s) 0) then Err EAssertion
  else Ok tt.
End Custom.
Arguments Custom {T} c_out c_errors c_calls c_dead.
Arguments c_out {T} c. Arguments c_errors {T} c. Arguments c_calls {T} c. Arguments c_dead {T} c.
