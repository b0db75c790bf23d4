(** PktRstProp.v -- C152: what a reset does to the packet in progress. *)
From Verif Require Import Base CompatModel MonitorModel PktModel PktSpec PktMonProof PktJoinSpec PktJoinProof PktJoinProp PktRstSpec PktRstProof PktProp.
Local Open Scope list_scope.

(** a reset between two packets: everything before and after it is delivered *)
Theorem C152_between_partial :
  forall c a r b, (0 <= c_timeout c)%Z -> reset_between c a r b -> ~ inside_packet c a ->
    exists m, pm_run c pm_init (a ++ r ++ b)
      = (map (reported c) (completed (seen c a)) ++ map (reported c) (completed (seen c b)), Ok m).
Proof.
  intros c a r b T H N. apply rst_outside; try assumption. unfold inside_packet in N.
  destruct (current (seen c a)) eqn:E; [reflexivity|]. destruct N. discriminate.
Qed.
Print Assumptions C152_between_partial.

(** REFUTED: the monitor does not abandon the packet that a reset cuts off.  It takes the
    next packet for its continuation: it raises, no later than at the first word transferred
    after the reset, and delivers none of the packets that follow *)
Theorem C152_refuted :
  forall c a r b, (0 <= c_timeout c)%Z -> reset_between c a r b -> inside_packet c a -> seen c b <> [] ->
    pm_run c pm_init (a ++ r ++ b) = (map (reported c) (completed (seen c a)), Err EAvalonProtocol)
    /\ exists x y, b = x ++ y /\ length (seen c x) <= 1
       /\ pm_run c pm_init (a ++ r ++ x) = (map (reported c) (completed (seen c a)), Err EAvalonProtocol).
Proof.
  intros c a r b T H I N. destruct (rst_inside c a r b T H I N) as (x & y & -> & L & Q).
  split; [|exists x, y; auto]. rewrite (app_assoc r), (app_assoc a). apply run_app_err, Q.
Qed.
Print Assumptions C152_refuted.

(** a packet, the first word of another, a cycle of reset, a whole packet *)
Definition ex_reset : psample := PSample (Some [L0]) None L1 (pk_init_out ex_cfg).
Definition ex_cut : list psample := [ex_word L1 L1 0 (zbits 32 16909060) 5; ex_word L1 L0 0 (zbits 32 1) 5].
Definition ex_new : list psample := [ex_word L1 L1 0 (zbits 32 2) 5].
Example C152_nonvacuous :
  reset_between ex_cfg ex_cut [ex_reset] ex_new /\ inside_packet ex_cfg ex_cut /\ seen ex_cfg ex_new <> []
  /\ pm_run ex_cfg pm_init (ex_cut ++ [ex_reset] ++ ex_new) = ([RChan [1; 2; 3; 4]%Z (Some 5%Z)], Err EAvalonProtocol)
  /\ reset_between ex_cfg ex_new [ex_reset] ex_new /\ ~ inside_packet ex_cfg ex_new
  /\ fst (pm_run ex_cfg pm_init (ex_new ++ [ex_reset] ++ ex_new))
     = [RChan [0; 0; 0; 2]%Z (Some 5%Z); RChan [0; 0; 0; 2]%Z (Some 5%Z)].
Proof.
  assert (J := proj1 C151_nonvacuous).
  assert (A : good_traffic ex_cfg ex_cut) by exact (good_before ex_cfg ex_cut (skipn 2 ex_join) J).
  assert (B : good_traffic ex_cfg ex_new) by (apply (good_after ex_cfg (firstn 3 ex_join) ex_new J); reflexivity).
  assert (Z : Forall (fun s => in_reset_cycle s = true) [ex_reset]) by (repeat constructor).
  split; [constructor; [assumption|split; [discriminate|assumption]|assumption]|].
  split; [unfold inside_packet; vm_compute; discriminate|]. split; [vm_compute; discriminate|].
  split; [reflexivity|]. split; [constructor; [assumption|split; [discriminate|assumption]|assumption]|].
  split; [|reflexivity]. intro X. apply X. reflexivity.
Qed.
