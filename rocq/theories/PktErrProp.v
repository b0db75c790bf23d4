(** PktErrProp.v -- C154: the error signal of packetized Avalon-ST. *)
From Verif Require Import Base Async CompatModel DrvUtilModel MonitorModel HandshakeSpec PktModel PktSpec PktMonProof PktErrSpec PktErrProof PktProp.
Local Open Scope list_scope.

(** the driver's half is true: on a bus with an error signal it is 0 with every word
    transferred, whatever it was before *)
Theorem C154_driver_partial :
  forall c k pkt sync ch s p o fuel l,
    word_bus c k -> c_error c = true -> channel_ok c ch -> pkt <> [] -> length l + length pkt < fuel -> p <> PReadOnly ->
    let '(r, w) := pk_send c fuel pkt sync ch (World s p o [] l) in
    (r = Done tt \/ r = Susp)
    /\ Forall (fun x => k_error x = L0) (transfers k_offered (k_accepts (c_ready c)) (trace w)).
Proof. exact pk_error. Qed.
Print Assumptions C154_driver_partial.

(** REFUTED for the monitor: what it delivers and raises does not depend on the error signal,
    ... *)
Theorem C154_ignored_refuted :
  forall c l l', Forall2 but_error l l' -> pm_run c pm_init l = pm_run c pm_init l'.
Proof. intros c l l' E. exact (run_error c l l' E pm_init). Qed.
Print Assumptions C154_ignored_refuted.

(** ... so every packet that the source flags is delivered like any other *)
Theorem C154_delivered_refuted :
  forall c l reps m p, wide_words c l -> pm_run c pm_init l = (reps, Ok m) ->
    In p (completed (seen c l)) -> flagged p -> In (reported c p) reps.
Proof. intros c l reps m p W H P _. destruct (run_ok c l reps m W H) as [_ ->]. apply in_map, P. Qed.
Print Assumptions C154_delivered_refuted.

(** a packet with error in its second word, delivered; a send that starts with error undefined *)
Definition flag (s : psample) : psample :=
  PSample (s_rstn s) (s_rst s) (s_ready s) (k_set_error L1 (s_bus s)).
Example C154_nonvacuous :
  let l := [ex_word L1 L0 0 (zbits 32 1) 5; flag (ex_word L0 L1 2 (zbits 32 65536) 5)] in
  let l' := [ex_word L1 L0 0 (zbits 32 1) 5; ex_word L0 L1 2 (zbits 32 65536) 5] in
  wide_words ex_cfg l /\ Forall2 but_error l l'
  /\ flagged (map s_bus l) /\ completed (seen ex_cfg l) = [map s_bus l]
  /\ fst (pm_run ex_cfg pm_init l) = [RChan [0; 0; 0; 1; 0; 1]%Z (Some 5%Z)]
  /\ c_error ex_cfg = true
  /\ let '(r, w) := pk_send ex_cfg 40 [1; 2; 3; 4; 5; 6]%Z true (Some 3%Z)
                   (World (set_valid_generator None) PActive (k_set_error LX (pk_init_out ex_cfg)) [] [L1; L1; L1; L1]) in
     r = Done tt /\ map k_error (transfers k_offered (k_accepts true) (trace w)) = [L0; L0].
Proof.
  split; [vm_compute; repeat constructor|].
  split; [constructor; [|constructor; [|constructor]]; unfold but_error; repeat split|].
  split; [eexists; split; [right; left; reflexivity|reflexivity]|].
  split; [vm_compute; reflexivity|]. split; [vm_compute; reflexivity|]. split; [reflexivity|].
  vm_compute. split; reflexivity.
Qed.
