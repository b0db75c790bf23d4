(** PktKillProp.v -- C102 for the packetized Avalon-ST driver. *)
From Verif Require Import Base Async HandshakeSpec DriverModel DriverSpec AvalonSTModel PktModel PktSpec E2EModel E2ESpec
  PktKillSpec PktKillProof.
Local Open Scope list_scope.

(** The claim: after the kill the monitor sees nothing, no packet and no protocol error. *)
Definition C102_packet_claim : Prop :=
  forall c k beh acts1 acts2 gps s fuel l J,
    byte_bus c k -> c_timeout c = 0%Z -> queue_only acts1 -> queue_only acts2 ->
    let d := run ptx beh acts1 drv_init in
    let d' := run ptx beh (acts1 ++ AKill :: acts2) drv_init in
    Forall (fun i => sendable c (i_tx i)) (appended (log d)) -> map snd gps = thread_calls (log d') ->
    Forall (fun p => length l + length (p_data p) < fuel) (map snd gps) ->
    let '(r, w) := pk_send_gaps c fuel gps (World s PActive (pk_init_out c) [] l) in
    pk_after_kill c w J = pk_after_kill c w [].

Definition pkk_cfg : pcfg := PCfg 32 8 true None true (Some 2) (Some 4) true 0 true.
Definition pkk_it (b : bytes) : item ptx := Item (b, Some 3%Z) None None false.
Lemma pkk_bus : byte_bus pkk_cfg 4.
Proof. constructor; [reflexivity|lia|reflexivity|intros _; exists 2; split; [reflexivity|discriminate]|reflexivity]. Qed.

(** It does not hold: killed while a packet of one word waits for ready, the driver leaves
    valid asserted, and the packet is delivered in every later ready cycle. *)
Theorem C102_killed_packet_repeats_refuted : ~ C102_packet_claim.
Proof.
  intro H.
  specialize (H pkk_cfg 4 (fun _ _ => ([], None)) [AAppend (pkk_it [5]%Z); ARun] []
    [(0, Packet [5]%Z true (Some 3%Z))] (set_valid_generator None) 9 [L0; L0; L0] [L1; L1]).
  specialize (H pkk_bus eq_refl ltac:(repeat constructor) ltac:(repeat constructor)). cbn zeta in H.
  specialize (H ltac:(repeat constructor; cbn; try discriminate; lia) eq_refl ltac:(repeat constructor)).
  vm_compute in H. discriminate.
Qed.
Print Assumptions C102_killed_packet_repeats_refuted.

(** What happens exactly, for every moment of the kill and all cycles [J] after it: with
    [reps] the packets the thread had taken from the queue, the first [n] of them are
    reported, once each.  If no word was offered at the kill, that is all.  Otherwise the
    offered word comes once more in every ready cycle (PktKillSpec.repeated_word): a packet
    of one word is delivered again and again, the first or the last word of a longer packet
    makes the monitor raise AvalonProtocolError when it comes the second time, a word in the
    middle lengthens a packet that never ends.  Missing from the full claim: the case of a
    word offered at the kill, in which the code violates it. *)
Theorem C102_packets_partial :
  forall c k beh acts1 acts2 gps s p o fuel l,
    byte_bus c k -> c_timeout c = 0%Z -> queue_only acts1 -> queue_only acts2 ->
    let d := run ptx beh acts1 drv_init in
    let d' := run ptx beh (acts1 ++ AKill :: acts2) drv_init in
    Forall (fun i => sendable c (i_tx i)) (appended (log d)) -> map snd gps = thread_calls (log d') ->
    Forall (fun p => length l + length (p_data p) < fuel) (map snd gps) -> p <> PReadOnly -> k_offered o = false ->
    let reps := reports_of c (started (log d)) in
    let '(r, w) := pk_send_gaps c fuel gps (World s p o [] l) in
    exists n, n <= length reps /\ forall J,
      let '(rs, err) := if k_offered (out w)
                        then repeated_word (out w) reps n (ready_cycles (k_accepts (c_ready c)) J)
                        else (firstn n reps, false) in
      fst (pk_after_kill c w J) = rs
      /\ match snd (pk_after_kill c w J) with
         | Ok _ => err = false
         | Err e => err = true /\ e = EAvalonProtocol
         end.
Proof.
  intros c k beh acts1 acts2 gps s p o fuel l BB TO _ _.
  exact (pk_killed_top c k beh acts1 acts2 gps s p o fuel l BB TO).
Qed.
Print Assumptions C102_packets_partial.

(** A packet of one word and one of three, killed at each of the words. *)
Definition pkk_acts : list (action ptx) :=
  [AAppend (pkk_it [9]%Z); AAppend (pkk_it [1; 2; 3; 4; 5; 6; 7; 8; 10]%Z); ARun; AFinish None].
Example C102_nonvacuous_packets :
  let d' := run ptx (fun _ _ => ([], None)) (pkk_acts ++ [AKill]) drv_init in
  let gps := combine [0; 2] (thread_calls (log d')) in
  let go l := snd (pk_send_gaps pkk_cfg 60 gps (World (set_valid_generator None) PActive (pk_init_out pkk_cfg) [] l)) in
  let a := RChan [9]%Z (Some 3%Z) in let b := RChan [1; 2; 3; 4; 5; 6; 7; 8; 10]%Z (Some 3%Z) in
  byte_bus pkk_cfg 4 /\ queue_only pkk_acts /\ map snd gps = thread_calls (log d') /\ length gps = 2
  /\ Forall (fun i => sendable pkk_cfg (i_tx i)) (appended (log (run ptx (fun _ _ => ([], None)) pkk_acts drv_init)))
  (* the single word *)
  /\ fst (pk_after_kill pkk_cfg (go [L1; L0]) [L1; L0; L1; L1]) = [a; a; a]
  (* between the packets *)
  /\ (fst (pk_after_kill pkk_cfg (go [L1; L1; L1]) [L1; L0; L1; L1]) = [a]
      /\ k_offered (out (go [L1; L1; L1])) = false)
  (* the first, the second and the third word *)
  /\ pk_after_kill pkk_cfg (go [L1; L1; L0; L0]) [L1; L0; L1; L1] = ([a], Err EAvalonProtocol)
  /\ (fst (pk_after_kill pkk_cfg (go [L1; L1; L0; L0; L1]) [L1; L0; L1; L1]) = [a]
      /\ exists m, snd (pk_after_kill pkk_cfg (go [L1; L1; L0; L0; L1]) [L1; L0; L1; L1]) = Ok m /\ length (m_pkt m) = 16)
  /\ pk_after_kill pkk_cfg (go [L1; L1; L0; L0; L1; L1; L0]) [L1; L0; L1; L1] = ([a; b], Err EAvalonProtocol).
Proof.
  cbn zeta. split; [exact pkk_bus|]. split; [repeat constructor|]. split; [reflexivity|]. split; [reflexivity|].
  split; [repeat constructor; cbn; try discriminate; lia|].
  vm_compute. repeat split. eexists. split; reflexivity.
Qed.
