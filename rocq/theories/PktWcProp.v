(** PktWcProp.v -- C155: reporting packet monitors and others. *)
From Verif Require Import Base CompatModel MonitorModel PktModel PktSpec PktMonProof PktChModel PktChProof PktWcModel PktWcSpec PktWcProof PktProp.
Local Open Scope list_scope.

(** on the same traffic, monitors with and without report_channel deliver the same bytes in
    the same order and raise the same exceptions in the same cycle *)
Theorem C155_same_packets :
  forall c b1 b2 l,
    map data_of (fst (pm_run (with_report b1 c) pm_init l)) = map data_of (fst (pm_run (with_report b2 c) pm_init l))
    /\ snd (pm_run (with_report b1 c) pm_init l) = snd (pm_run (with_report b2 c) pm_init l).
Proof.
  intros c b1 b2 l. destruct (forms c l pm_init) as [F S]. cbn zeta in F, S.
  destruct b1, b2; rewrite ?F, ?S, ?map_map; cbn [data_of]; split; reflexivity.
Qed.
Print Assumptions C155_same_packets.

(** the channel that a reporting monitor delivers with a packet is the one that the
    callback of the other finds in its attribute, for every packet *)
Theorem C155_same_channels :
  forall c l,
    map (fun '(r, x) => (data_of r, x)) (fst (fst (chan_monitor (with_report false c) l)))
    = map (fun r => match r with RChan d ch => (d, Some ch) | RData d => (d, None) end)
          (fst (pm_run (with_report true c) pm_init l)).
Proof. intros c l. exact (attributes c l None pm_init). Qed.
Print Assumptions C155_same_channels.

(** AvalonSTPktsWithChannel can be constructed exactly when the bus has a channel and
    AvalonSTPkts can be constructed on it, and is then AvalonSTPkts with report_channel *)
Theorem C155_old_name :
  forall c, (exists c', wc_init c None = Ok c')
    <-> c_cw c <> None /\ exists c', pkts_init c None = Ok c'.
Proof.
  intro c. unfold wc_init, pkts_init, pm_check, pk_check. cbn [c_cw c_report with_report].
  change (use_empty (with_report true c)) with (use_empty c). change (use_empty (with_report false c)) with (use_empty c).
  change (c_ew (with_report true c)) with (c_ew c). change (c_ew (with_report false c)) with (c_ew c).
  change (max_channel (with_report true c)) with (max_channel c). change (max_channel (with_report false c)) with (max_channel c).
  destruct (c_cw c) as [n|]; [|split; [intros [c' H]; discriminate|intros [H _]; congruence]].
  destruct (use_empty c && _); cbn [rbind]; [split; [intros [? ?]; discriminate|intros (_ & ? & ?); discriminate]|].
  destruct (128 <? n); cbn [rbind]; [split; [intros [? ?]; discriminate|intros (_ & ? & ?); discriminate]|].
  destruct (2 ^ Z.of_nat n - 1 <? max_channel c)%Z; cbn [rbind];
    [split; [intros [? ?]; discriminate|intros (_ & ? & ?); discriminate]|].
  split; [intros _; split; [discriminate|eauto]|intros _; eauto].
Qed.
Print Assumptions C155_old_name.

Theorem C155_old_name_runs :
  forall c c' l, wc_init c None = Ok c' ->
    pkts_init c (Some true) = Ok c'
    /\ Forall (fun r => exists d ch, r = RChan d (Some ch)) (fst (pm_run c' pm_init l)).
Proof. exact old_runs. Qed.
Print Assumptions C155_old_name_runs.

(** report_channel cannot be given to the old name, whatever its value *)
Theorem C155_old_name_argument : forall c b, wc_init c (Some b) = Err EType.
Proof. reflexivity. Qed.
Print Assumptions C155_old_name_argument.

(** a constructed monitor has the bus and the options it was given *)
Theorem C155_options :
  forall c c' b, pkts_init c (Some b) = Ok c' -> c_report c' = b /\ (c_report c = b -> c' = c).
Proof.
  intros c c' b. unfold pkts_init. destruct (pm_check _); [|discriminate]. cbn [rbind]. intro H. injection H as <-.
  split; [reflexivity|]. intros <-. destruct c. reflexivity.
Qed.
Print Assumptions C155_options.

Example C155_nonvacuous :
  let l := [ex_word L1 L1 0 (zbits 32 1) 5; ex_word L1 L1 0 (zbits 32 2) 3; ex_word L0 L0 0 (zbits 32 3) 9] in
  (exists c', wc_init ex_cfg None = Ok c')
  /\ pm_run (with_report true ex_cfg) pm_init l
     = ([RChan [0; 0; 0; 1]%Z (Some 5%Z); RChan [0; 0; 0; 2]%Z (Some 3%Z)], Err EAvalonProtocol)
  /\ pm_run (with_report false ex_cfg) pm_init l = ([RData [0; 0; 0; 1]%Z; RData [0; 0; 0; 2]%Z], Err EAvalonProtocol).
Proof. split; [eexists; reflexivity|split; reflexivity]. Qed.
