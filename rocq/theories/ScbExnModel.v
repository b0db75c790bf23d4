(** ScbExnModel.v -- the Scoreboard (scoreboard.py) when comparing, converting or printing
    transactions can raise: one interface with a list or a callable, on a monitor with a name. *)
From Verif Require Export ScoreboardModel.
Local Open Scope list_scope.

Section Raising.
(** Python's type(), ==, != (with the conversion to bool) and str() on the transactions *)
Variable T : Type.
Variable ty : T -> nat.
Variable py_eq py_ne : T -> T -> res bool.
Variable str : T -> res string.
(** the messages about a difference (125-150) and about an unexpected transaction (237-238):
    repr, hexdump and hexdiff of user objects may raise *)
Variable report : T -> T -> res unit.
Variable report_unexpected : T -> res unit.

(** compare (86-160): the error count and what it raises.  Exceptions of the messages about an
    expected transaction (156-160) are swallowed by the code. *)
Definition x_compare (imm strict : bool) (errs : nat) (got exp : T) : nat * res unit :=
  if strict && negb (Nat.eqb (ty got) (ty exp)) then
    (S errs, if imm then Err EAssertion else Ok tt)                               (* 106-115 *)
  else
    match (if strict then py_ne got exp                                              (* 121 *)
           else rbind (str got) (fun a => rbind (str exp) (fun b => Ok (negb (String.eqb a b))))) with (* 117-121 *)
    | Err e => (errs, Err e)
    | Ok true => (S errs, rbind (report got exp) (fun _ => if imm then Err EAssertion else Ok tt))   (* 122-152 *)
    | Ok false => (errs, Ok tt)                                                   (* 153-160 *)
    end.

(** the search of the window (229-233) *)
Fixpoint x_find (n : nat) (l : list T) (t : T) : res (option nat) :=
  match n, l with
  | S n', e :: r => rbind (py_eq e t) (fun b => if b then Ok (Some 0)
                                             else rbind (x_find n' r t) (fun o => Ok (option_map S o)))
  | _, _ => Ok None
  end.

(** expected_output: a list, or a callable that sees what it was called with before and may raise *)
(* scoreboard.py:225-234: a list, or a function that may raise *)
Inductive x_source : Type := XList | XFun (f : list T -> T -> res T).

(* scoreboard.py:44-45, 225-243: one interface of the scoreboard *)
Record xsb : Type := Xsb { x_out : list T; x_errors : nat; x_seen : list T; x_dead : option exn }.
(* scoreboard.py:44-45 *)
Definition xsb_init : xsb := Xsb [] 0 [] None.

(* monitors/__init__.py:138-139: an exception of a callback ends the monitor's task *)
Definition died (r : res unit) : option exn := match r with Ok _ => None | Err e => Some e end.

(* scoreboard.py:194: the test appends to the list it passed *)
Definition x_expect (s : xsb) (t : T) : xsb := Xsb (x_out s ++ [t]) (x_errors s) (x_seen s) (x_dead s).

(** check_received_transaction (214-243); an exception ends the monitor *)
Definition x_receive (src : x_source) (imm strict : bool) (depth : Z) (s : xsb) (t : T) : xsb :=
  match x_dead s with
  | Some _ => s
  | None =>
      match src with
      | XFun f =>                                                                 (* 225-226 *)
          match f (x_seen s) t with
          | Err e => Xsb (x_out s) (x_errors s) (x_seen s ++ [t]) (Some e)
          | Ok exp => let '(n, r) := x_compare imm strict (x_errors s) t exp in
                      Xsb (x_out s) n (x_seen s ++ [t]) (died r)
          end
      | XList =>
          match x_out s with
          | [] => Xsb [] (S (x_errors s)) (x_seen s)                              (* 235-241 *)
                      (died (rbind (report_unexpected t) (fun _ => if imm then Err EAssertion else Ok tt)))
          | out =>
              match x_find (Z.to_nat (depth + 1)) out t with                      (* 229-233 *)
              | Err e => Xsb out (x_errors s) (x_seen s) (Some e)
              | Ok o =>
                  match pop T out (match o with Some i => i | None => 0 end) with (* 234 *)
                  | Some (exp, rest) =>
                      let '(n, r) := x_compare imm strict (x_errors s) t exp in   (* 243 *)
                      Xsb rest n (x_seen s) (died r)
                  | None => s                                                     (* never: i < len *)
                  end
              end
          end
      end
  end.

(** result (48-84) *)
Definition x_result (src : x_source) (s : xsb) : res unit :=
  if match src with XFun _ => false | XList => negb (Nat.eqb (length (x_out s)) 0) end then Err EAssertion
  else if negb (Nat.eqb (x_errors s) 0) then Err EAssertion
  else Ok tt.
End Raising.
Arguments Xsb {T}. Arguments x_out {T}. Arguments x_errors {T}. Arguments x_seen {T}. Arguments x_dead {T}.
Arguments XList {T}. Arguments XFun {T}.
