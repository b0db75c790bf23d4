(** AxLvProp.v -- C140: an AXI4 write ends whatever the order in which the slave serves its channels. *)
From Verif Require Import Base Async BitsLemmas CompatModel PktModel HandshakeSpec AxiModel AxiSpec AxiTopProof TmSpec AxTmProof AxiProp AxTmProp AxLvSpec AxLvProof.
Local Open Scope list_scope.

(** C140.  The slave may give AWREADY only when it has all data, or WREADY only when it has the
    address, or mix the two, and its signals may depend on everything it has seen ([l] is any list
    of cycles).  If it does something at least once in any [D] cycles ([serves_within]), a write of
    [n] values with any latencies ends within [bound] cycles: it cannot be blocked by one channel
    waiting for another. *)
Theorem C140_no_deadlock : forall c fuel a p oa ow l D, write_any c fuel a p oa ow l ->
  let r := axi_write c fuel a p oa ow l in
  let n := length (wa_value a) in
  let bound := (if wa_sync a then 1 else 0) + Nat.max (wa_alat a) (wa_dlat a) + 1 + (n + 2) * (wa_dlat a + D) in
  serves_within D (bus_of (wr_aw r) (wr_w r)) ->
  length (wr_aw r) <= bound /\ (bound < length l -> wr_result r <> Susp).
Proof. exact write_live. Qed.
Print Assumptions C140_no_deadlock.

(** the cycles of the two channels are the same cycles, those that the slave gave *)
Theorem C140_cycles : forall c fuel a p oa ow l, write_any c fuel a p oa ow l ->
  let r := axi_write c fuel a p oa ow l in
  map fst (bus_of (wr_aw r) (wr_w r)) ++ wr_rest r = l /\
  map (fun y => fst (snd y)) (bus_of (wr_aw r) (wr_w r)) = map snd (wr_aw r) /\
  map (fun y => snd (snd y)) (bus_of (wr_aw r) (wr_w r)) = map snd (wr_w r).
Proof. exact write_cycles. Qed.
Print Assumptions C140_cycles.

(** ** cases *)
Definition exv_check (D : nat) (tr : list bus_cycle) : bool :=
  forallb (fun k => negb (existsb awvalid (firstn k tr) && existsb wvalid (firstn k tr)) || existsb serves (firstn D (skipn k tr))) (seq 0 (S (length tr - D))).
Lemma exv_ok D tr : exv_check D tr = true -> serves_within D tr.
Proof.
  intros H b w f -> L Ha Hw. unfold exv_check in H. rewrite forallb_forall in H. specialize (H (length b)).
  rewrite firstn_app, firstn_all, Nat.sub_diag, firstn_O, app_nil_r, Ha, Hw in H. cbn [andb negb orb] in H.
  rewrite skipn_app, skipn_all, Nat.sub_diag in H. cbn [skipn app] in H. rewrite firstn_app, <- L, firstn_all, Nat.sub_diag, firstn_O, app_nil_r in H.
  apply H. apply in_seq. rewrite !app_length. lia.
Qed.
(** three values, address_latency 2, data_latency 1; a slave that takes the address only after the
    data, and one that takes the data only after the address *)
Definition exv_data_first : list axi_in :=
  [ext_i L0 L0 L0; ext_i L0 L0 L0; ext_i L0 L0 L0; ext_i L0 L1 L0; ext_i L0 L0 L0; ext_i L0 L1 L0; ext_i L0 L0 L0; ext_i L0 L1 L0; ext_i L0 L0 L0; ext_i L1 L0 L0; ext_i L0 L0 L0; ext_i L0 L0 L1] ++ repeat (ext_i L0 L0 L0) 15.
Definition exv_address_first : list axi_in :=
  [ext_i L0 L0 L0; ext_i L0 L0 L0; ext_i L0 L0 L0; ext_i L0 L0 L0; ext_i L1 L0 L0; ext_i L0 L0 L0; ext_i L0 L1 L0; ext_i L0 L0 L0; ext_i L0 L1 L0; ext_i L0 L0 L0; ext_i L0 L1 L0; ext_i L0 L0 L0; ext_i L0 L0 L1] ++ repeat (ext_i L0 L0 L0) 15.
Example exv_run l : l = exv_data_first \/ l = exv_address_first ->
  write_any ex_c 40 (ext_a 1) PActive ex_oa ex_ow l /\ let r := axi_write ex_c 40 (ext_a 1) PActive ex_oa ex_ow l in
  serves_within 2 (bus_of (wr_aw r) (wr_w r)) /\ wr_result r = Done tt /\ 12 <= length (wr_aw r) <= 13 /\ 1 + 2 + 1 + 5 * 3 < length l.
Proof.
  intros [-> | ->].
  all: split; [constructor; [exact ex_axi_bus|exact ext_legal|split; vm_compute; congruence|discriminate|discriminate|reflexivity|reflexivity|cbn; lia]|].
  all: cbv zeta; split; [apply exv_ok; vm_compute; reflexivity|]; split; [vm_compute; reflexivity|].
  all: vm_compute; repeat split; repeat constructor.
Qed.
(** a slave that waits for both does not serve, and the write waits *)
Example exv_stuck : let l := repeat (ext_i L0 L0 L1) 30 in
  let r := axi_write ex_c 40 (ext_a 1) PActive ex_oa ex_ow l in
  wr_result r = Susp /\ exv_check 2 (bus_of (wr_aw r) (wr_w r)) = false.
Proof. vm_compute. split; reflexivity. Qed.
