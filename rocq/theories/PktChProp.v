(** PktChProp.v -- C153: the channel attribute of a packet monitor. *)
From Verif Require Import Base CompatModel MonitorModel PktModel PktSpec PktMonProof PktChModel PktChSpec PktChProof PktProp.
Local Open Scope list_scope.

(** the packets are those of the monitor model of C36, exceptions included *)
Theorem C153_same :
  forall c l, let '(ds, _, f) := chan_monitor c l in pm_run c pm_init l = (map fst ds, f).
Proof. intros c l. exact (chan_same c None l pm_init). Qed.
Print Assumptions C153_same.

(** each callback finds the channel of the packet it is called for, with or without
    report_channel; at every time without exception the attribute is that of the last
    packet delivered, and it does not exist before the first *)
Theorem C153_last :
  forall c l ds a m, wide_words c l -> chan_monitor c l = (ds, a, Ok m) ->
    ds = map (delivery c) (completed (seen c l)) /\ a = last_channel c (seen c l).
Proof.
  intros c l ds a m W H. pose proof (chan_same c None l pm_init) as S. unfold chan_monitor in H. rewrite H in S.
  pose proof (chan_last c l _ m W S) as L. unfold chan_monitor in L. rewrite H in L. injection L as -> ->. auto.
Qed.
Print Assumptions C153_last.

(** when the monitor has raised at the cycle [s], the attribute still is that of the last
    packet delivered before *)
Theorem C153_raised :
  forall c l ds a e, wide_words c l -> chan_monitor c l = (ds, a, Err e) ->
    exists l1 s l2, l = l1 ++ s :: l2
      /\ ds = map (delivery c) (completed (seen c l1)) /\ a = last_channel c (seen c l1)
      /\ snd (chan_monitor c (l1 ++ [s])) = Err e.
Proof. exact chan_raised. Qed.
Print Assumptions C153_raised.

(** packets on channels 5 and 3, then the first word of another on 9: callbacks find 5 and 3, and
    the attribute stays 3, though the monitor does not report channels *)
Definition ex_quiet : pcfg := PCfg 32 8 true None true (Some 2) (Some 4) true 0 false.
Example C153_nonvacuous :
  let l := [ex_word L1 L1 0 (zbits 32 1) 5; ex_word L1 L1 0 (zbits 32 2) 3; ex_word L1 L0 0 (zbits 32 3) 9] in
  wide_words ex_quiet l
  /\ fst (chan_monitor ex_quiet l) = ([(RData [0; 0; 0; 1]%Z, Some (Some 5%Z)); (RData [0; 0; 0; 2]%Z, Some (Some 3%Z))], Some (Some 3%Z))
  /\ fst (chan_monitor ex_quiet []) = ([], None).
Proof. split; [vm_compute; repeat constructor|split; reflexivity]. Qed.
