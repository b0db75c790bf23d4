(** AxfProp.v -- C90, C91: AXI accesses that fail, and their effect on the others. *)
From Verif Require Import Base Async BitsLemmas HandshakeSpec AxiModel AxiSpec AxiRunProof AxiProp AxcModel AxcSpec AxcProp AxfSpec AxfProof AxlProof.
Local Open Scope list_scope.

(** ** C90: a write that fails has no effect on the other writes *)
(** This is so for the writes that are rejected because of their parameters (and for those
    whose response is an error: C86_results). *)
Theorem C90_illegal_partial : forall c calls calls', axi_bus c -> without_illegal c calls calls' ->
  forall fuel p oa ow l, concurrent_writes c fuel calls p oa ow l = concurrent_writes c fuel calls' p oa ow l.
Proof. exact without_illegal_same. Qed.
Print Assumptions C90_illegal_partial.

(** What the slave sees if the address of some writes does not fit AWADDR (ValueError) and
    some writes have an empty list of byte enables (IndexError): the first are missing
    among the addresses, the second among the data, so that addresses and data no longer
    belong together. *)
Theorem C90_channels_refuted : forall c fuel calls p oa ow l,
  axi_bus c -> Forall (fun x => write_call_any c (snd x)) calls ->
  p <> PReadOnly -> aw_offered oa = false -> w_offered ow = false -> length l < fuel ->
  let r := concurrent_writes c fuel calls p oa ow l in
  let addressed := filter (fun a => address_fits c (wa_address a)) (map snd calls) in
  let sent := filter has_enable (map snd calls) in
  map fst (ws_aw r) = l /\ map fst (ws_w r) = l /\
  stable aw_offered aw_accepts (ws_aw r) /\ stable w_offered w_accepts (ws_w r) /\
  (exists k, map (decode c) (transfers aw_offered aw_accepts (ws_aw r)) = firstn k (map (write_request c) addressed)) /\
  (exists bs k, Forall2 (beats_of_write c) sent bs /\ map beat_of (transfers w_offered w_accepts (ws_w r)) = firstn k (concat bs) /\
     (x_wlast c = true -> map x_last (transfers w_offered w_accepts (ws_w r)) =
        firstn k (flat_map (fun a => lasts (length (wa_value a))) sent))).
Proof. exact writes_any. Qed.
Print Assumptions C90_channels_refuted.

(** The results, which the failing writes do not disturb: each belongs to a call, no call
    has two; a failing write gets ValueError or IndexError, the others a response of the
    slave (unless a BRESP cannot be resolved). *)
Theorem C90_results_partial : forall c fuel calls p oa ow l,
  axi_bus c -> Forall (fun x => write_call_any c (snd x)) calls ->
  p <> PReadOnly -> aw_offered oa = false -> w_offered ow = false -> length l < fuel ->
  Forall (fun i => b_valid i = true -> bval (g_bresp i) <> None) l ->
  let r := concurrent_writes c fuel calls p oa ow l in
  NoDup (map fst (ws_results r)) /\
  forall k x, In (k, x) (ws_results r) -> exists a, nth_error (map snd calls) k = Some a /\
    (x = Exn EValue /\ address_fits c (wa_address a) = false \/ x = Exn EIndex /\ has_enable a = false \/
     ~ fails c a /\ exists b, In b (b_responses l) /\ x = response_outcome b).
Proof. exact writes_any_results. Qed.
Print Assumptions C90_results_partial.

(** With enough ready cycles all that is not missing is seen, and every failing write has
    raised. *)
Theorem C90_progress_partial : forall c fuel calls p oa ow l,
  axi_bus c -> Forall (fun x => write_call_any c (snd x)) calls ->
  p <> PReadOnly -> aw_offered oa = false -> w_offered ow = false -> length l < fuel ->
  let accesses := map snd calls in
  let r := concurrent_writes c fuel calls p oa ow l in
  (list_max (map fst calls) + list_sum (map (fun a => 2 + wa_alat a) accesses) <= ready_cycles aw_accepts l ->
     map (decode c) (transfers aw_offered aw_accepts (ws_aw r)) =
       map (write_request c) (filter (fun a => address_fits c (wa_address a)) accesses) /\
     forall k a, nth_error accesses k = Some a -> address_fits c (wa_address a) = false -> In k (map fst (ws_results r))) /\
  (list_max (map fst calls) + list_sum (map (fun a => 1 + wa_dlat a + length (wa_value a)) accesses) <= ready_cycles w_accepts l ->
     (exists bs, Forall2 (beats_of_write c) (filter has_enable accesses) bs /\
                 map beat_of (transfers w_offered w_accepts (ws_w r)) = concat bs) /\
     forall k a, nth_error accesses k = Some a -> has_enable a = false -> In k (map fst (ws_results r))).
Proof. exact writes_progress. Qed.
Print Assumptions C90_progress_partial.

(** A write with an address that does not fit, followed by a good write of the same size:
    the slave stores the data of the failed write at the address of the good one. *)
Theorem C90_wide_address_refuted : forall c fuel t1 bad t2 good p oa ow l m,
  axi_bus c -> p <> PReadOnly -> aw_offered oa = false -> w_offered ow = false -> length l < fuel ->
  write_call_any c bad -> address_fits c (wa_address bad) = false -> wa_be bad <> [] -> write_call_ok c good ->
  wa_size bad = wa_size good -> wa_burst bad = wa_burst good -> wa_burst good <> WRAP ->
  length (wa_value bad) = length (wa_value good) ->
  (wa_address bad mod x_bytes c = wa_address good mod x_bytes c)%Z ->
  let r := concurrent_writes c fuel [(t1, bad); (t2, good)] p oa ow l in
  let addresses := map (decode c) (transfers aw_offered aw_accepts (ws_aw r)) in
  let beats := map beat_of (transfers w_offered w_accepts (ws_w r)) in
  addresses <> [] -> length (wa_value good) <= length beats ->
  addresses = [write_request c good] /\
  forall x, slave_stores c addresses beats m x =
            written (wa_burst good) (wa_address good) (size_or (x_bytes c) (wa_size good)) (wa_value bad) (wa_be bad) m x.
Proof. exact wide_address_wrong. Qed.
Print Assumptions C90_wide_address_refuted.

(** A write without byte enables, followed by a good write of the same size: the slave
    stores the data of the good write at the address of the failed one. *)
Theorem C90_no_enable_refuted : forall c fuel t1 bad t2 good p oa ow l m,
  axi_bus c -> p <> PReadOnly -> aw_offered oa = false -> w_offered ow = false -> length l < fuel ->
  write_call_any c bad -> address_fits c (wa_address bad) = true -> wa_be bad = [] -> write_call_ok c good ->
  wa_size bad = wa_size good -> wa_burst bad = wa_burst good -> wa_burst good <> WRAP ->
  length (wa_value bad) = length (wa_value good) ->
  (wa_address bad mod x_bytes c = wa_address good mod x_bytes c)%Z ->
  let r := concurrent_writes c fuel [(t1, bad); (t2, good)] p oa ow l in
  let addresses := map (decode c) (transfers aw_offered aw_accepts (ws_aw r)) in
  let beats := map beat_of (transfers w_offered w_accepts (ws_w r)) in
  addresses <> [] -> length (wa_value good) <= length beats ->
  length beats = length (wa_value good) /\
  forall x, slave_stores c addresses beats m x =
            written (wa_burst good) (wa_address bad) (size_or (x_bytes c) (wa_size good)) (wa_value good) (wa_be good) m x.
Proof. exact no_enable_wrong. Qed.
Print Assumptions C90_no_enable_refuted.

(** ** C91: a read that fails has no effect on the other reads but a delay *)
(** All that can be seen is as if the reads with an address that does not fit ARADDR had
    not been called and some of the others had been called later. *)
Theorem C91_only_delay : forall c fuel calls p o l,
  axi_bus c -> Forall (fun x => read_call_any c (snd x)) calls ->
  p <> PReadOnly -> aw_offered o = false -> length l < fuel ->
  exists calls', later (filter (fun x => address_fits c (ra_address (snd x))) calls) calls' /\
    reads_ok c fuel calls' p o l /\
    concurrent_reads c fuel calls p o l = concurrent_reads c fuel calls' p o l.
Proof. exact reads_good. Qed.
Print Assumptions C91_only_delay.

(** The slave sees the requests of the others, in the order of the calls, and the k-th of
    the others gets the k-th burst. *)
Theorem C91_others : forall c fuel calls p o l,
  axi_bus c -> Forall (fun x => read_call_any c (snd x)) calls ->
  p <> PReadOnly -> aw_offered o = false -> length l < fuel ->
  let r := concurrent_reads c fuel calls p o l in
  let others := filter (fun a => address_fits c (ra_address a)) (map snd calls) in
  stable aw_offered ar_accepts (rs_ar r) /\
  (exists k, map (decode c) (transfers aw_offered ar_accepts (rs_ar r)) = firstn k (map (read_request c) others)) /\
  forall h, ar_accepts h = true -> answers_reads c r l -> Forall (fun i => r_beat i = true -> r_beat_ok c i) l ->
    rs_results r = map (fun x => (fst x, alone c (fst x) h (snd x))) (combine others (r_bursts c [] l)) /\
    length (r_bursts c [] l) <= length others.
Proof.
  intros c fuel calls p o l Hb F Hp Ho Hl r others.
  destruct (C91_only_delay c fuel calls p o l Hb F Hp Ho Hl) as (calls' & L & Ok & E). fold r in E. rewrite E. clear E.
  assert (Eo : map snd calls' = others).
  { rewrite <- (later_in _ _ L). subst others. clear. induction calls as [|x cs IH]; [reflexivity|]. cbn [filter map].
    destruct (address_fits c (ra_address (snd x))); cbn [map]; rewrite IH; reflexivity. }
  destruct (C87_requests c fuel calls' p o l Ok) as (_ & S & K & _). rewrite Eo in K. split; [exact S|]. split; [exact K|].
  intros h Hh HA HB. destruct (C87_results c fuel calls' p o l Ok h Hh HA HB) as [R1 R2]. rewrite Eo in R1. split; [exact R1|].
  rewrite <- Eo, map_length. exact R2.
Qed.
Print Assumptions C91_others.

(** The delay is bounded: with two cycles with ARREADY for each call, from the last call
    on, all the others' requests are seen, as in C87_requests. *)
Theorem C91_progress : forall c fuel calls p o l,
  axi_bus c -> Forall (fun x => read_call_any c (snd x)) calls ->
  p <> PReadOnly -> aw_offered o = false -> length l < fuel ->
  list_max (map fst calls) + 2 * length calls <= ready_cycles ar_accepts l ->
  let r := concurrent_reads c fuel calls p o l in
  let others := filter (fun a => address_fits c (ra_address a)) (map snd calls) in
  map (decode c) (transfers aw_offered ar_accepts (rs_ar r)) = map (read_request c) others.
Proof. intros c fuel calls p o l Hb F Hp Ho Hl R. exact (reads_progress c fuel calls p o l Hb F Hp Ho Hl R). Qed.
Print Assumptions C91_progress.

(** ** Examples *)
(** the first write has an address of 33 bits; its value 7 ends up at 4096, where the
    second writes 9 and gets the response OKAY *)
Definition exf_calls : list (nat * waccess) := [(0, exc_a 4294971392 [7]%Z); (0, exc_a 4096 [9]%Z)].
Definition exf_l : list axi_in := [exc_in L1 L1 L0 0; exc_in L1 L1 L0 0; exc_in L1 L1 L0 0; exc_in L1 L1 L0 0; exc_in L1 L1 L1 0; exc_in L1 L1 L0 0].
Example exf_run : let r := concurrent_writes ex_c 20 exf_calls PActive ex_oa ex_ow exf_l in
  let addresses := map (decode ex_c) (transfers aw_offered aw_accepts (ws_aw r)) in
  let beats := map beat_of (transfers w_offered w_accepts (ws_w r)) in
  map q_address addresses = [4096]%Z /\ beats = [(7, 15); (9, 15)]%Z /\
  slave_stores ex_c addresses beats (fun _ => 0%Z) 4096%Z = 7%Z /\
  ws_results r = [(0, Exn EValue); (1, Done tt)].
Proof. vm_compute. repeat split. Qed.
Lemma exf_any adr v be : (0 <= adr)%Z -> (adr mod 4096 <= 4080)%Z -> write_call_any ex_c (WAccess adr [v] (Some 4%Z) INCR be 0 0 true).
Proof.
  intros H0 H1. split; [|split; [exact H0|split; left; reflexivity]].
  split; [intros s [= <-]; split; [exists 2%Z; split; [lia|reflexivity]|vm_compute; discriminate]|].
  cbn [wa_burst wa_value wa_size wa_address]. split; [cbn; lia|]. intros _ x [H3 H4]. unfold same_page. cbn [size_or length] in *. unfold aligned in *.
  pose proof (Z.div_mod adr 4096). pose proof (Z.mod_pos_bound adr 4). pose proof (Z.div_mod adr 4). pose proof (Z.mod_pos_bound adr 4096).
  apply (Z.div_unique_pos _ _ _ (x - 4096 * (adr / 4096))); lia.
Qed.
(** it meets the hypotheses of C90_wide_address_refuted *)
Example exf_hypotheses :
  let r := concurrent_writes ex_c 20 exf_calls PActive ex_oa ex_ow exf_l in
  Forall (fun x => write_call_any ex_c (snd x)) exf_calls /\
  map (fun x => address_fits ex_c (wa_address (snd x))) exf_calls = [false; true] /\
  write_call_ok ex_c (exc_a 4096 [9]%Z) /\
  map (decode ex_c) (transfers aw_offered aw_accepts (ws_aw r)) <> [] /\ 1 <= length (map beat_of (transfers w_offered w_accepts (ws_w r))).
Proof.
  split; [|split; [reflexivity|split; [|split; [vm_compute; discriminate|vm_compute; lia]]]].
  - apply Forall_cons; [|apply Forall_cons; [|apply Forall_nil]]; apply exf_any; vm_compute; discriminate.
  - destruct (exf_any 4096 9 [None]) as (H1 & H2 & H3); [lia|vm_compute; discriminate|].
    split; [exact H1|]. split; [split; [exact H2|vm_compute; reflexivity]|]. split; [discriminate|exact H3].
Qed.
(** the first write has no byte enable; the value 9 ends up at its address *)
Example exf_no_enable :
  let r := concurrent_writes ex_c 20 [(0, WAccess 8192 [7]%Z (Some 4%Z) INCR [] 0 0 true); (0, exc_a 4096 [9]%Z)] PActive ex_oa ex_ow exf_l in
  let addresses := map (decode ex_c) (transfers aw_offered aw_accepts (ws_aw r)) in
  let beats := map beat_of (transfers w_offered w_accepts (ws_w r)) in
  map q_address addresses = [8192; 4096]%Z /\ beats = [(9, 15)]%Z /\
  slave_stores ex_c addresses beats (fun _ => 0%Z) 8192%Z = 9%Z /\ slave_stores ex_c addresses beats (fun _ => 0%Z) 4096%Z = 0%Z /\
  ws_results r = [(0, Exn EIndex); (1, Done tt)].
Proof. vm_compute. repeat split. Qed.
(** the same slave and reads as in exr_run, after a read of an address of 33 bits *)
Example exf_reads : let r := concurrent_reads ex_c 20 ((0, RAccess 4294971392 1 None INCR true) :: exr_calls) PActive ex_oa (ex_r L1 L0 0 L0 :: exr_l) in
  map q_address (map (decode ex_c) (transfers aw_offered ar_accepts (rs_ar r))) = [4096; 4104]%Z /\
  map snd (rs_results r) = [Done ([zbits 32 287454020; zbits 32 7], [0; 0]%Z); Done ([zbits 64 9], [0]%Z)].
Proof. vm_compute. repeat split. Qed.
(** enough ready cycles for C90_progress_partial and C91_progress *)
Example exf_enough :
  list_max (map fst exf_calls) + list_sum (map (fun a => 2 + wa_alat a) (map snd exf_calls)) <= ready_cycles aw_accepts exf_l /\
  list_max (map fst exf_calls) + list_sum (map (fun a => 1 + wa_dlat a + length (wa_value a)) (map snd exf_calls)) <= ready_cycles w_accepts exf_l /\
  (let calls := (0, RAccess 4294971392 1 None INCR true) :: exr_calls in
   list_max (map fst calls) + 2 * length calls <= ready_cycles ar_accepts (repeat (ex_r L1 L0 0 L0) 8)).
Proof. vm_compute. repeat split; lia. Qed.
