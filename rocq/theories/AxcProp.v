(** AxcProp.v -- C86, C87: AXI accesses made by several tasks at the same time. *)
From Verif Require Import Base Async BitsLemmas HandshakeSpec AxiModel AxiSpec AxiRunProof AxiProp AxcModel AxcSpec AxcWriteProof AxcReadProof AxaProof.
Local Open Scope list_scope.

(** ** C86: concurrent writes *)
(** On both channels nothing offered is withdrawn or changed before it is accepted.  The
    slave sees the requests in the order of the calls, each once, and the beats of each
    write together, in that order, with WLAST on the last beat of each.  If the slave is
    ready often enough, it sees all of them. *)
Theorem C86_channels : forall c fuel calls p oa ow l, writes_ok c fuel calls p oa ow l ->
  let accesses := map snd calls in
  let r := concurrent_writes c fuel calls p oa ow l in
  map fst (ws_aw r) = l /\ map fst (ws_w r) = l /\
  stable aw_offered aw_accepts (ws_aw r) /\ stable w_offered w_accepts (ws_w r) /\
  (exists k, map (decode c) (transfers aw_offered aw_accepts (ws_aw r)) = firstn k (map (write_request c) accesses)) /\
  (exists bs, Forall2 (beats_of_write c) accesses bs /\
    (exists k, map beat_of (transfers w_offered w_accepts (ws_w r)) = firstn k (concat bs) /\
       (x_wlast c = true -> map x_last (transfers w_offered w_accepts (ws_w r)) =
          firstn k (flat_map (fun a => lasts (length (wa_value a))) accesses))) /\
    (list_max (map fst calls) + list_sum (map (fun a => 1 + wa_dlat a + length (wa_value a)) accesses) <= ready_cycles w_accepts l ->
       map beat_of (transfers w_offered w_accepts (ws_w r)) = concat bs)) /\
  (list_max (map fst calls) + list_sum (map (fun a => 2 + wa_alat a) accesses) <= ready_cycles aw_accepts l ->
     map (decode c) (transfers aw_offered aw_accepts (ws_aw r)) = map (write_request c) accesses).
Proof. exact writes_channels. Qed.
Print Assumptions C86_channels.

(** With a slave that answers a write after its address and its last beat, the k-th call
    gets the k-th response: it returns or raises as that response says, and the calls
    whose response has not come have not returned. *)
Theorem C86_results : forall c fuel calls p oa ow l, writes_ok c fuel calls p oa ow l ->
  let r := concurrent_writes c fuel calls p oa ow l in
  answers_writes (map snd calls) r l ->
  Forall (fun i => b_valid i = true -> bval (g_bresp i) <> None) l ->
  ws_results r = combine (seq 0 (length calls)) (map response_outcome (b_responses l)) /\
  length (b_responses l) <= length calls.
Proof. exact writes_results. Qed.
Print Assumptions C86_results.

(** A slave that stores the bursts it has seen then holds what the calls, one after the
    other, write (WRAP bursts: those C52_partial is about). *)
Theorem C86_stored : forall c fuel calls p oa ow l m, writes_ok c fuel calls p oa ow l ->
  Forall (fun x => let a := snd x in (wa_burst a = WRAP ->
            wrap_smooth (x_bytes c) (wa_address a) (size_or (x_bytes c) (wa_size a)) (Z.of_nat (length (wa_value a))))) calls ->
  let r := concurrent_writes c fuel calls p oa ow l in
  answers_writes (map snd calls) r l -> length (b_responses l) = length calls ->
  forall x, slave_stores c (map (decode c) (transfers aw_offered aw_accepts (ws_aw r)))
                         (map beat_of (transfers w_offered w_accepts (ws_w r))) m x
            = all_written c (map snd calls) m x.
Proof. exact writes_stored. Qed.
Print Assumptions C86_stored.

(** A call with illegal parameters has no effect on the others. *)
Theorem C86_rejected : forall c fuel calls1 t a calls2 p oa ow l, axi_bus c ->
  ~ legal_access (x_bytes c) (wa_address a) (Z.of_nat (length (wa_value a))) (wa_size a) (wa_burst a) ->
  concurrent_writes c fuel (calls1 ++ (t, a) :: calls2) p oa ow l = concurrent_writes c fuel (calls1 ++ calls2) p oa ow l.
Proof. exact writes_rejected. Qed.
Print Assumptions C86_rejected.

(** One write alone is the write of C50 to C57, whatever its parameters and however it ends:
    the same result, and the same signals, which then stay as they are. *)
Theorem C86_alone : forall c fuel a p oa ow l, length l < fuel ->
  let one := axi_write c fuel a p oa ow l in
  let all := concurrent_writes c fuel [(0, a)] p oa ow l in
  ws_results all = match write_check c a with
                   | Err _ => []
                   | Ok _ => match wr_result one with Susp | Fuel => [] | x => [(0, x)] end
                   end /\
  (exists later, ws_aw all = wr_aw one ++ held (wr_aw_out one) later) /\
  (exists later, ws_w all = wr_w one ++ held (wr_w_out one) later).
Proof. exact write_alone. Qed.
Print Assumptions C86_alone.

(** ** C87: concurrent reads *)
Theorem C87_requests : forall c fuel calls p o l, reads_ok c fuel calls p o l ->
  let accesses := map snd calls in
  let r := concurrent_reads c fuel calls p o l in
  map fst (rs_ar r) = l /\ stable aw_offered ar_accepts (rs_ar r) /\
  (exists k, map (decode c) (transfers aw_offered ar_accepts (rs_ar r)) = firstn k (map (read_request c) accesses)) /\
  (list_max (map fst calls) + 2 * length calls <= ready_cycles ar_accepts l ->
     map (decode c) (transfers aw_offered ar_accepts (rs_ar r)) = map (read_request c) accesses).
Proof. exact reads_channel. Qed.
Print Assumptions C87_requests.

(** With a slave that sends the beats of a burst after its address, the k-th call gets the
    k-th burst: its result is what it would be alone on the bus with these beats. *)
Theorem C87_results : forall c fuel calls p o l, reads_ok c fuel calls p o l ->
  forall h, ar_accepts h = true ->
  let r := concurrent_reads c fuel calls p o l in
  answers_reads c r l -> Forall (fun i => r_beat i = true -> r_beat_ok c i) l ->
  rs_results r = map (fun x => (fst x, alone c (fst x) h (snd x))) (combine (map snd calls) (r_bursts c [] l)) /\
  length (r_bursts c [] l) <= length calls.
Proof. exact reads_results. Qed.
Print Assumptions C87_results.

(** If the k-th burst carries the memory at the addresses of the k-th request, the k-th
    call returns the words at its own addresses. *)
Theorem C87_memory : forall c fuel calls p o l, reads_ok c fuel calls p o l ->
  let r := concurrent_reads c fuel calls p o l in
  answers_reads c r l -> Forall (fun i => r_beat i = true -> r_beat_ok c i) l ->
  forall k t a req bs mems,
    nth_error calls k = Some (t, a) ->
    nth_error (transfers aw_offered ar_accepts (rs_ar r)) k = Some req -> nth_error (r_bursts c [] l) k = Some bs ->
    slave_reads c req mems bs ->
    (ra_burst a = WRAP -> wrap_smooth (x_bytes c) (ra_address a) (size_or (x_bytes c) (ra_size a)) (ra_length a)) ->
    (ra_burst a <> FIXED -> forall i, mems i = mems 0) ->
    nth_error (rs_results r) k =
      Some (a, Done (read_words (ra_burst a) mems (ra_address a) (size_or (x_bytes c) (ra_size a)) (Z.to_nat (ra_length a)),
                     map rresp_of bs)).
Proof. exact reads_memory. Qed.
Print Assumptions C87_memory.

(** The address and data parts of the reads above are those of the read of AxiModel.v. *)
Theorem C87_parts : forall c fuel a w, axi_read_raw c fuel a w =
  match read_check c a with
  | Ok size => (ar_job c fuel (a, size) ;; r_job c fuel (a, size)) w
  | Err e => (Exn e, w)
  end.
Proof. exact read_parts. Qed.
Print Assumptions C87_parts.

(** One read alone is the read of C53 and C58. *)
Theorem C87_alone : forall c fuel a p o l, reads_ok c fuel [(0, a)] p o l ->
  let '(x, w) := axi_read_raw c fuel a (World tt p o [] l) in
  let all := concurrent_reads c fuel [(0, a)] p o l in
  rs_results all = match x with Susp => [] | _ => [(a, x)] end /\
  rs_ar all = trace w ++ held (out w) (ins w).
Proof. exact read_alone. Qed.
Print Assumptions C87_alone.

(** ** Examples *)
(** two writes called in the same cycle and a third one cycle later; the slave takes all
    beats of the first two before it takes any address but the first *)
Definition exc_in (awr wr bv : logic) (resp : Z) : axi_in := AxiIn awr wr bv (zbits 2 resp) L0 L0 (zbits 2 0) (zbits 64 0) L0.
Definition exc_a (adr : Z) (v : list Z) : waccess := WAccess adr v (Some 4%Z) INCR [None] 0 0 true.
Definition exc_calls : list (nat * waccess) :=
  [(0, exc_a 4098 [287454020; 1432778632]%Z); (0, exc_a 4096 [7]%Z); (1, exc_a 8192 [5; 6]%Z)].
Definition exc_l : list axi_in :=
  [exc_in L1 L1 L0 0; exc_in L1 L1 L0 0; exc_in L0 L1 L0 0; exc_in L0 L0 L1 0; exc_in L0 L1 L0 0; exc_in L0 L0 L0 0;
   exc_in L1 L0 L0 0; exc_in L1 L1 L0 0; exc_in L1 L1 L1 2; exc_in L1 L1 L0 0; exc_in L1 L1 L0 0; exc_in L0 L0 L1 0; exc_in L0 L0 L0 0].
Example exc_ok : writes_ok ex_c 20 exc_calls PActive ex_oa ex_ow exc_l.
Proof.
  split; [exact ex_axi_bus|]. split; [|split; [discriminate|split; [reflexivity|split; [reflexivity|cbn; lia]]]].
  assert (G : forall adr v, (length v = 1 \/ length v = 2) -> (0 <= adr)%Z -> (adr mod 4096 <= 4080)%Z -> fits_bits 32 adr -> write_call_ok ex_c (exc_a adr v)).
  { intros adr v Hv H0 H1 H2. split; [|split; [exact H2|split; [discriminate|split; left; reflexivity]]].
    split; [intros s [= <-]; split; [exists 2%Z; split; [lia|reflexivity]|vm_compute; discriminate]|].
    cbn [exc_a wa_burst wa_value wa_size wa_address]. split; [destruct Hv as [E|E]; rewrite E; cbn; lia|]. intros _ x [H3 H4]. unfold same_page. cbn [size_or] in *. unfold aligned in *.
    pose proof (Z.div_mod adr 4096). pose proof (Z.mod_pos_bound adr 4). pose proof (Z.div_mod adr 4). pose proof (Z.mod_pos_bound adr 4096).
    destruct Hv as [E|E]; rewrite E in *; apply (Z.div_unique_pos _ _ _ (x - 4096 * (adr / 4096))); lia. }
  repeat (apply Forall_cons; [|]); try apply Forall_nil; apply G; cbn; try lia; try (vm_compute; discriminate); unfold fits_bits; cbn; lia.
Qed.
Example exc_run : let r := concurrent_writes ex_c 20 exc_calls PActive ex_oa ex_ow exc_l in
  map q_address (map (decode ex_c) (transfers aw_offered aw_accepts (ws_aw r))) = [4098; 4096; 8192]%Z /\
  map x_last (transfers w_offered w_accepts (ws_w r)) = [L0; L1; L1; L0; L1] /\
  ws_results r = [(0, Done tt); (1, Exn (EAXIProtocol 2)); (2, Done tt)].
Proof. vm_compute. repeat split. Qed.
Example exc_answers : answers_writes (map snd exc_calls) (concurrent_writes ex_c 20 exc_calls PActive ex_oa ex_ow exc_l) exc_l.
Proof.
  intros m i H B. do 13 (destruct m as [|m]; [cbn in H; inversion H; subst; try discriminate; vm_compute; lia|]).
  cbn in H. destruct m; discriminate.
Qed.
(** two overlapping reads; the second request is taken before the first burst is complete *)
Definition exr_calls : list (nat * raccess) := [(0, RAccess 4096 2 (Some 4%Z) INCR true); (1, RAccess 4104 1 None FIXED true)].
Definition exr_l : list axi_in :=
  [ex_r L1 L0 0 L0; ex_r L1 L0 0 L0; ex_r L1 L1 287454020 L0; ex_r L1 L0 0 L0; ex_r L1 L1 (2 ^ 32 * 7) L1; ex_r L0 L1 9 L1; ex_r L0 L0 0 L0]%Z.
Example exr_run : let r := concurrent_reads ex_c 20 exr_calls PActive ex_oa exr_l in
  map q_address (map (decode ex_c) (transfers aw_offered ar_accepts (rs_ar r))) = [4096; 4104]%Z /\
  map snd (rs_results r) = [Done ([zbits 32 287454020; zbits 32 7], [0; 0]%Z); Done ([zbits 64 9], [0]%Z)].
Proof. vm_compute. repeat split. Qed.
Example exr_answers : answers_reads ex_c (concurrent_reads ex_c 20 exr_calls PActive ex_oa exr_l) exr_l.
Proof.
  intros m i H B. do 7 (destruct m as [|m]; [cbn in H; inversion H; subst; try discriminate; vm_compute; lia|]).
  cbn in H. destruct m; discriminate.
Qed.
(** the same on AXI4-Lite: two writes and two reads of two tasks *)
Definition exl_c : axi_cfg := AxiCfg 64 32 false false.
Lemma exl_legal adr : (adr mod 8 = 0)%Z -> legal_access (x_bytes exl_c) adr 1 None INCR.
Proof.
  intro H. split; [discriminate|]. split; [cbn; lia|]. intros _ x [H3 H4]. unfold same_page. cbn [size_or] in *. change (x_bytes exl_c) with 8%Z in *. unfold aligned in *.
  assert (E : (adr mod 4096 mod 8 = 0)%Z) by (rewrite <- Znumtheory.Zmod_div_mod; [exact H|lia|lia|exists 512%Z; reflexivity]).
  pose proof (Z.div_mod adr 4096). pose proof (Z.div_mod (adr mod 4096) 8). pose proof (Z.div_mod adr 8). pose proof (Z.mod_pos_bound adr 4096).
  apply (Z.div_unique_pos _ _ _ (x - 4096 * (adr / 4096))); lia.
Qed.
Definition exl_calls : list (nat * waccess) :=
  [(0, WAccess 4096 [7]%Z None INCR [None] 0 0 true); (0, WAccess 8184 [5]%Z None INCR [None] 1 0 true)].
Definition exl_l : list axi_in := repeat (exc_in L1 L1 L0 0) 6 ++ repeat (exc_in L1 L1 L1 0) 2.
Example exl_ok : writes_ok exl_c 20 exl_calls PActive ex_oa ex_ow exl_l.
Proof.
  split; [exact ex_axi_bus|]. split; [|split; [discriminate|split; [reflexivity|split; [reflexivity|cbn; lia]]]].
  repeat (apply Forall_cons; [|]); try apply Forall_nil;
    (split; [apply exl_legal; reflexivity|split; [unfold fits_bits; cbn; lia|split; [discriminate|split; [left; reflexivity|right; repeat split]]]]).
Qed.
Example exl_run : let r := concurrent_writes exl_c 20 exl_calls PActive ex_oa ex_ow exl_l in
  map (decode exl_c) (transfers aw_offered aw_accepts (ws_aw r)) = [Request 4096 1 8 INCR; Request 8184 1 8 INCR]%Z /\
  map beat_of (transfers w_offered w_accepts (ws_w r)) = [(7, 255); (5, 255)]%Z /\
  ws_results r = [(0, Done tt); (1, Done tt)].
Proof. vm_compute. repeat split. Qed.
Definition exlr_calls : list (nat * raccess) := [(0, RAccess 4096 1 None INCR true); (1, RAccess 8184 1 None INCR true)].
Example exlr_ok : reads_ok exl_c 20 exlr_calls PActive ex_oa exr_l.
Proof.
  split; [exact ex_axi_bus|]. split; [|split; [discriminate|split; [reflexivity|cbn; lia]]].
  repeat (apply Forall_cons; [|]); try apply Forall_nil;
    (split; [apply exl_legal; reflexivity|split; [unfold fits_bits; cbn; lia|right; repeat split]]).
Qed.
Example exlr_run : let r := concurrent_reads exl_c 20 exlr_calls PActive ex_oa exr_l in
  map q_address (map (decode exl_c) (transfers aw_offered ar_accepts (rs_ar r))) = [4096; 8184]%Z /\
  map snd (rs_results r) = [Done ([zbits 64 287454020], [0]%Z); Done ([zbits 64 (2 ^ 32 * 7)], [0]%Z)].
Proof. vm_compute. repeat split. Qed.
(** one write alone: with a cycle of latency before its address (the response is SLVERR); with an address that does
    not fit and no byte enables, of which the second is noticed first; and one read *)
Example exc_alone : let a := WAccess 4098 [287454020; 1432778632]%Z (Some 4%Z) INCR [None] 1 0 true in
  let bad := WAccess (2 ^ 32) [7]%Z (Some 4%Z) INCR [] 0 0 true in
  let run x := ws_results (concurrent_writes ex_c 20 [(0, x)] PActive ex_oa ex_ow exc_l) in
  run a = [(0, Exn (EAXIProtocol 2))] /\ wr_result (axi_write ex_c 20 a PActive ex_oa ex_ow exc_l) = Exn (EAXIProtocol 2) /\
  run bad = [(0, Exn EIndex)] /\ wr_result (axi_write ex_c 20 bad PActive ex_oa ex_ow exc_l) = Exn EIndex /\
  rs_results (concurrent_reads ex_c 20 [(0, RAccess 4096 2 (Some 4%Z) INCR true)] PActive ex_oa exr_l) =
    [(RAccess 4096 2 (Some 4%Z) INCR true, Done ([zbits 32 287454020; zbits 32 7], [0; 0]%Z))].
Proof. vm_compute. repeat split. Qed.
