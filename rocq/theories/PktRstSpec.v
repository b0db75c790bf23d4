(** PktRstSpec.v -- C152: a reset between two stretches of packet traffic. *)
From Verif Require Export PktJoinSpec.
Local Open Scope list_scope.

(** the traffic [a], then a reset (the cycles [r]), then new traffic [b], which starts with
    the start of a packet: a packet that [a] ends inside of is cut off by the reset *)
Record reset_between (c : pcfg) (a r b : list psample) : Prop := ResetBetween {
  rb_before : good_traffic c a;
  rb_reset : r <> [] /\ Forall (fun s => in_reset_cycle s = true) r;
  rb_after : good_traffic c b
}.
