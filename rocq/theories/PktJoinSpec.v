(** PktJoinSpec.v -- C151: traffic on a packet bus that gives no reason for an exception. *)
From Verif Require Export Base PktModel PktSpec.
Local Open Scope list_scope.

(** the cycles [l] from a state between two packets on: the reset is known in each, the
    packets start with a startofpacket and only there, all words that matter have values
    and keep to the channel, and no packet is held up too long *)
Record good_traffic (c : pcfg) (l : list psample) : Prop := GoodTraffic {
  gt_wide : wide_words c l;
  gt_reset : Forall (fun s => in_reset_cycle s = true \/ running_cycle s = true) l;
  gt_words : forall a w b, seen c l = a ++ w :: b -> ~ misplaced a w /\ readable c w /\ ~ bad_channel c a w;
  gt_moves : ~ stalled c l
}.

(** a monitor created after the cycles [a] of the traffic [a ++ b]: inside a packet, or not *)
Definition inside_packet (c : pcfg) (a : list psample) : Prop := current (seen c a) <> [].
