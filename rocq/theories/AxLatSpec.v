(** AxLatSpec.v -- the write data channel with data_latency: which words a slave takes. *)
From Verif Require Import Base HandshakeSpec.
Local Open Scope list_scope.

Section Spec.
Context {TI TO : Type} (accepts : TI -> bool).

(** the cycles after the first one in which the slave accepts *)
Fixpoint after_accept (l : list TI) : option (list TI) :=
  match l with [] => None | i :: r => if accepts i then Some r else after_accept r end.
(** The words taken, the first one being offered from the first cycle on: every word but the
    last goes on being offered for [d] cycles after it has been taken, and is taken again in
    every cycle of these in which the slave is ready. *)
Fixpoint taken (d : nat) (words : list TO) (l : list TI) : list TO :=
  match words with
  | [] => []
  | w :: ws =>
      match after_accept l with
      | None => []
      | Some r => w :: match ws with
                       | [] => []
                       | _ => repeat w (ready_cycles accepts (firstn d r)) ++ taken d ws (skipn d r)
                       end
      end
  end.
(** a slave that is not ready in the [d] cycles after it has been *)
Definition pauses (d : nat) (l : list TI) : Prop :=
  forall pre i mid post, l = pre ++ i :: mid ++ post -> accepts i = true -> length mid <= d ->
    Forall (fun j => accepts j = false) mid.
End Spec.
(** every word but the last [n] times, the last once *)
Fixpoint all_but_last {A} (n : nat) (words : list A) : list A :=
  match words with [] => [] | [w] => [w] | w :: ws => repeat w n ++ all_but_last n ws end.
