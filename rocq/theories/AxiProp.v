(** AxiProp.v -- AXI4Master and AXI4LiteMaster. *)
From Verif Require Import Base Async CompatModel HandshakeSpec AxiModel AxiSpec AxiDataProof AxiReadProof AxiChanProof AxiRunProof AxiTopProof.
Local Open Scope list_scope.
Notation AW := (World (TS := unit) (TI := axi_in) (TO := ax_out)).

(** C49: an illegal access raises ValueError without touching the bus *)
Theorem C49_rejected c fuel a ar p oa ow l w : axi_bus c ->
  (~ legal_access (x_bytes c) (wa_address a) (Z.of_nat (length (wa_value a))) (wa_size a) (wa_burst a) ->
     axi_write c fuel a p oa ow l = WriteRun (Exn EValue) [] [] oa ow l) /\
  (~ legal_access (x_bytes c) (ra_address ar) (ra_length ar) (ra_size ar) (ra_burst ar) ->
     axi_read c fuel ar w = (Exn EValue, w) /\ axi_read_rresp c fuel ar w = (Exn EValue, w)).
Proof. exact (fun H => conj (rejected_write c fuel a p oa ow l H) (rejected_read c fuel ar w H)). Qed.
Print Assumptions C49_rejected.

(** C49: a legal access is accepted: it begins and waits for the bus *)
Theorem C49_accepted c fuel a ar p oa ow s o tr : axi_bus c -> 0 < fuel ->
  (legal_access (x_bytes c) (wa_address a) (Z.of_nat (length (wa_value a))) (wa_size a) (wa_burst a) ->
   fits_bits (x_awidth c) (wa_address a) -> wa_be a <> [] -> may_start (wa_sync a) p -> aw_offered oa = false -> w_offered ow = false ->
     wr_result (axi_write c fuel a p oa ow []) = Susp) /\
  (legal_access (x_bytes c) (ra_address ar) (ra_length ar) (ra_size ar) (ra_burst ar) ->
   fits_bits (x_awidth c) (ra_address ar) -> may_start (ra_sync ar) p ->
     fst (axi_read c fuel ar (AW s p o tr [])) = Susp /\ fst (axi_read_rresp c fuel ar (AW s p o tr [])) = Susp).
Proof.
  exact (fun Hb Hf => conj
    (fun H1 H2 H3 H4 H5 H6 => accepted_write c fuel a p oa ow Hb H1 H2 H3 H4 H5 H6 Hf)
    (fun H1 H2 H3 => accepted_read c fuel ar s p o tr Hb H1 H2 H3 Hf)).
Qed.
Print Assumptions C49_accepted.

(** C50: for every address, length and power-of-two size up to 4096, the check
    accepts an INCR burst if and only if all its bytes are in one 4 KiB page *)
Theorem C50_page a size n : (0 < n)%Z -> power_of_two size -> (size <= 4096)%Z ->
  check_4kB a INCR size n = Ok tt <-> (forall x, incr_bytes a size n x -> same_page a x).
Proof. exact (page_thm a size n). Qed.
Print Assumptions C50_page.

(** C50 at the interface: an INCR access of legal length and size begins (and waits for the
    bus) if all its bytes are in one page, and otherwise is refused with ValueError *)
Theorem C50_access c fuel a ar p oa ow s o tr : axi_bus c -> 0 < fuel ->
  (wa_burst a = INCR -> 1 <= length (wa_value a) <= 256 ->
   (forall s, wa_size a = Some s -> legal_size (x_bytes c) s) -> fits_bits (x_awidth c) (wa_address a) ->
   wa_be a <> [] -> may_start (wa_sync a) p -> aw_offered oa = false -> w_offered ow = false ->
   let in_page := forall x, incr_bytes (wa_address a) (size_or (x_bytes c) (wa_size a)) (Z.of_nat (length (wa_value a))) x ->
                            same_page (wa_address a) x in
   let r := wr_result (axi_write c fuel a p oa ow []) in
   (in_page -> r = Susp) /\ (~ in_page -> r = Exn EValue)) /\
  (ra_burst ar = INCR -> (1 <= ra_length ar <= 256)%Z ->
   (forall s, ra_size ar = Some s -> legal_size (x_bytes c) s) -> fits_bits (x_awidth c) (ra_address ar) ->
   may_start (ra_sync ar) p ->
   let in_page := forall x, incr_bytes (ra_address ar) (size_or (x_bytes c) (ra_size ar)) (ra_length ar) x ->
                            same_page (ra_address ar) x in
   let r := fst (axi_read c fuel ar (AW s p o tr [])) in
   (in_page -> r = Susp) /\ (~ in_page -> r = Exn EValue)).
Proof.
  intros Hb Hf. destruct (C49_accepted c fuel a ar p oa ow s o tr Hb Hf) as [A1 A2].
  destruct (C49_rejected c fuel a ar p oa ow [] (AW s p o tr []) Hb) as [R1 R2]. split.
  - intros Eb Hl Hs Ha He Hp O1 O2 in_page r. split; intro H.
    + apply A1; try assumption. split; [exact Hs|]. split; [rewrite Eb; cbn; lia|intros _; exact H].
    + unfold r. rewrite R1; [reflexivity|]. intros [_ [_ C]]. exact (H (C Eb)).
  - intros Eb Hl Hs Ha Hp in_page r. split; intro H.
    + apply A2; try assumption. split; [exact Hs|]. split; [rewrite Eb; exact Hl|intros _; exact H].
    + unfold r. destruct R2 as [-> _]; [|reflexivity]. intros [_ [_ C]]. exact (H (C Eb)).
Qed.
Print Assumptions C50_access.

(** C51: whatever the ready pattern, when a write has returned or raised, the slave
    was sent exactly one request, which says the address, length, size and burst
    type of the access, and data beats with strobes only on the lanes of their
    beat; a conforming memory has then stored exactly the enabled bytes of the
    values at their addresses. *)
Theorem C51_stored c fuel a p oa ow l m : write_ok c fuel a p oa ow l -> x_full c = true -> wa_burst a <> WRAP ->
  let r := axi_write c fuel a p oa ow l in wr_result r <> Susp ->
  exists req, transfers aw_offered aw_accepts (wr_aw r) = [req] /\
    decode c req = Request (wa_address a) (Z.of_nat (length (wa_value a))) (size_or (x_bytes c) (wa_size a)) (wa_burst a) /\
    conforming_write c req (transfers w_offered w_accepts (wr_w r)) /\
    forall x, slave_store c req (transfers w_offered w_accepts (wr_w r)) m x =
              written (wa_burst a) (wa_address a) (size_or (x_bytes c) (wa_size a)) (wa_value a) (wa_be a) m x.
Proof. exact (fun H1 H2 H3 => write_stored c fuel a p oa ow l m H1 (or_introl H2) (fun H => False_ind _ (H3 H))). Qed.
Print Assumptions C51_stored.

(** C51: and for every data_latency the beats to be sent are these *)
Theorem C51_beats c a size data b be : axi_bus c -> legal_access (x_bytes c) a (Z.of_nat (length data)) size b -> be <> [] -> b <> WRAP ->
  let s := size_or (x_bytes c) size in
  exists beats, write_beats (x_bytes c) a b s data be = Ok beats /\ length beats = length data /\
   (forall i w st k, nth_error beats i = Some (w, st) -> (0 <= k)%Z -> Z.testbit st k = true ->
      lanes (x_bytes c) s (beat_address b s (Z.of_nat (length data)) a (Z.of_nat i)) k) /\
   forall m x, store_burst (x_bytes c) b s (Z.of_nat (length data)) a m 0 beats x = written b a s data be m x.
Proof. exact (beats_any c a size data b be). Qed.
Print Assumptions C51_beats.

(** C52, what holds: WRAP writes and reads are right if the container is a multiple
    of the bus width or the burst starts at the container's first address *)
Theorem C52_partial c fuel a p oa ow l m : write_ok c fuel a p oa ow l -> x_full c = true -> wa_burst a = WRAP ->
  wrap_smooth (x_bytes c) (wa_address a) (size_or (x_bytes c) (wa_size a)) (Z.of_nat (length (wa_value a))) ->
  let r := axi_write c fuel a p oa ow l in wr_result r <> Susp ->
  exists req, transfers aw_offered aw_accepts (wr_aw r) = [req] /\
    decode c req = Request (wa_address a) (Z.of_nat (length (wa_value a))) (size_or (x_bytes c) (wa_size a)) WRAP /\
    conforming_write c req (transfers w_offered w_accepts (wr_w r)) /\
    forall x, slave_store c req (transfers w_offered w_accepts (wr_w r)) m x =
              wrap_written (wa_address a) (size_or (x_bytes c) (wa_size a)) (wa_value a) (wa_be a) m x.
Proof. exact (wrap_stored c fuel a p oa ow l m). Qed.
Print Assumptions C52_partial.

(** C52, refuted exactly in the other cases: every completed aligned WRAP write
    outside that condition has a strobe on a lane that is not of its beat *)
Theorem C52_refuted c fuel a p oa ow l : write_ok c fuel a p oa ow l -> x_full c = true -> wa_burst a = WRAP -> wa_be a = [None] ->
  (wa_address a mod size_or (x_bytes c) (wa_size a) = 0)%Z ->
  ~ wrap_smooth (x_bytes c) (wa_address a) (size_or (x_bytes c) (wa_size a)) (Z.of_nat (length (wa_value a))) ->
  let r := axi_write c fuel a p oa ow l in wr_result r <> Susp ->
  exists req, transfers aw_offered aw_accepts (wr_aw r) = [req] /\ ~ conforming_write c req (transfers w_offered w_accepts (wr_w r)).
Proof. exact (wrap_wrong_write c fuel a p oa ow l). Qed.
Print Assumptions C52_refuted.

(** C53: a read from a slave that sends what its memory holds (on the lanes of each
    beat) returns the memory; with return_rresp, together with the responses *)
Theorem C53_read c fuel a s p o tr l pre w h seg f tl mems : read_ok c fuel a p l -> read_cycles c (ra_sync a) l pre w h seg f tl ->
  x_full c = true ->
  (ra_burst a = WRAP -> wrap_smooth (x_bytes c) (ra_address a) (size_or (x_bytes c) (ra_size a)) (ra_length a)) ->
  (ra_burst a <> FIXED -> forall i, mems i = mems 0) ->
  let size := size_or (x_bytes c) (ra_size a) in
  let req := ax_request c o (ra_address a) (ra_length a) (ra_burst a) size in
  let bs := filter r_beat (seg ++ [f]) in
  slave_reads c req mems bs ->
  let words := read_words (ra_burst a) mems (ra_address a) size (Z.to_nat (ra_length a)) in
  fst (axi_read_rresp c fuel a (AW s p o tr l)) = Done (combine words (map rresp_of bs)) /\
  (first_bad (map rresp_of bs) = None -> fst (axi_read c fuel a (AW s p o tr l)) = Done words).
Proof. exact (read_mem_thm c fuel a s p o tr l pre w h seg f tl mems). Qed.
Print Assumptions C53_read.

(** C54: write, then read back from the memory the write has produced *)
Theorem C54_written_back c fuel1 aw p1 oa ow l1 fuel2 s p2 o tr l2 pre w h seg f tl sync m :
  write_ok c fuel1 aw p1 oa ow l1 -> x_full c = true -> wa_burst aw = INCR -> wa_be aw = [None] ->
  let r := axi_write c fuel1 aw p1 oa ow l1 in wr_result r <> Susp ->
  let ar := RAccess (wa_address aw) (Z.of_nat (length (wa_value aw))) (wa_size aw) INCR sync in
  may_start sync p2 -> length l2 < fuel2 -> read_cycles c sync l2 pre w h seg f tl ->
  let size := size_or (x_bytes c) (wa_size aw) in
  let bs := filter r_beat (seg ++ [f]) in
  let n := length (wa_value aw) in
  (exists reqw reqr,
     transfers aw_offered aw_accepts (wr_aw r) = [reqw] /\
     reqr = ax_request c o (wa_address aw) (Z.of_nat n) INCR size /\
     slave_reads c reqr (fun _ x => zbits 8 (slave_store c reqw (transfers w_offered w_accepts (wr_w r)) m x)) bs) ->
  first_bad (map rresp_of bs) = None ->
  fst (axi_read c fuel2 ar (AW s p2 o tr l2)) =
  Done (map (fun j => zbits (8 * Z.to_nat (if Nat.eqb (S j) n then size - wa_address aw mod size else size)) (nth j (wa_value aw) 0%Z)) (seq 0 n)).
Proof. exact (written_back c fuel1 aw p1 oa ow l1 fuel2 s p2 o tr l2 pre w h seg f tl sync m). Qed.
Print Assumptions C54_written_back.

(** C55: the whole write is the same with the list extended by its last element or
    cut to the number of values, and with None replaced by all ones; the empty list
    raises IndexError *)
Theorem C55_byte_enables c fuel a be p oa ow l :
  (be <> [] -> axi_write c fuel (with_be a be) p oa ow l = axi_write c fuel (with_be a (extended (length (wa_value a)) be)) p oa ow l) /\
  (axi_bus c -> legal_access (x_bytes c) (wa_address a) (Z.of_nat (length (wa_value a))) (wa_size a) (wa_burst a) ->
   axi_write c fuel (with_be a be) p oa ow l =
   axi_write c fuel (with_be a (map (fun x => match x with None => Some (2 ^ size_or (x_bytes c) (wa_size a) - 1)%Z | v => v end) be)) p oa ow l) /\
  (axi_bus c -> legal_access (x_bytes c) (wa_address a) (Z.of_nat (length (wa_value a))) (wa_size a) (wa_burst a) ->
   fits_bits (x_awidth c) (wa_address a) -> may_start (wa_sync a) p -> aw_offered oa = false -> length l < fuel ->
   wr_result (axi_write c fuel (with_be a []) p oa ow l) = Exn EIndex).
Proof.
  exact (conj (be_extended c fuel a be p oa ow l) (conj (be_none c fuel a p oa ow l be) (be_empty c fuel a p oa ow l))).
Qed.
Print Assumptions C55_byte_enables.

(** C56, what holds (data_latency 0, or one value): both channels keep their signals
    while valid waits for ready; the request is transferred exactly once, the beats
    once each in order with WLAST on the last (a part of them while waiting); with
    enough ready cycles nothing is left waiting. *)
Theorem C56_partial c fuel a p oa ow l : write_ok c fuel a p oa ow l ->
  exists beats, write_beats (x_bytes c) (wa_address a) (wa_burst a) (size_or (x_bytes c) (wa_size a)) (wa_value a) (wa_be a) = Ok beats /\
  length beats = length (wa_value a) /\
  let r := axi_write c fuel a p oa ow l in
  let req := ax_request c oa (wa_address a) (Z.of_nat (length (wa_value a))) (wa_burst a) (size_or (x_bytes c) (wa_size a)) in
  map fst (wr_aw r) = map fst (wr_w r) /\ map fst (wr_aw r) ++ wr_rest r = l /\
  stable aw_offered aw_accepts (wr_aw r) /\ stable w_offered w_accepts (wr_w r) /\
  (wr_result r <> Susp ->
     transfers aw_offered aw_accepts (wr_aw r) = [req] /\ transfers w_offered w_accepts (wr_w r) = w_words c ow beats /\
     aw_offered (wr_aw_out r) = false /\ w_offered (wr_w_out r) = false) /\
  (wr_result r = Susp ->
     wr_rest r = [] /\
     (exists k, transfers aw_offered aw_accepts (wr_aw r) = firstn k [req]) /\
     (exists k, transfers w_offered w_accepts (wr_w r) = firstn k (w_words c ow beats)) /\
     (ready_cycles aw_accepts l < 2 + wa_alat a \/ ready_cycles w_accepts l < 1 + (wa_dlat a + length beats) \/
      exists n, n <= length l /\ transfers aw_offered aw_accepts (firstn n (wr_aw r)) = [req] /\
        transfers w_offered w_accepts (firstn n (wr_w r)) = w_words c ow beats /\ Forall (fun i => b_valid i = false) (skipn n l))).
Proof. exact (channels_thm c fuel a p oa ow l). Qed.
Print Assumptions C56_partial.

(** C56: the address channel, for every latency and every write *)
Theorem C56_address_partial c fuel address n b size delay sync p o l :
  fits_bits (x_awidth c) address -> (1 <= n <= 256)%Z -> power_of_two size -> (size <= 128)%Z ->
  may_start sync p -> aw_offered o = false -> length l < fuel ->
  let '(r, w) := send_write_address c fuel address n b size delay sync (AW tt p o [] l) in
  map fst (trace w) ++ ins w = l /\ (forall i, stable aw_offered aw_accepts (trace w ++ [(i, out w)])) /\
  match r with
  | Done _ => transfers aw_offered aw_accepts (trace w) = [ax_request c o address n b size] /\ aw_offered (out w) = false
  | Susp => ins w = [] /\ ready_cycles aw_accepts l < 2 + delay /\
            exists k, transfers aw_offered aw_accepts (trace w) = firstn k [ax_request c o address n b size]
  | _ => False
  end.
Proof. exact (address_thm c fuel address n b size delay sync p o l). Qed.
Print Assumptions C56_address_partial.

(** C56, refuted for data_latency > 0 with several values: WVALID stays up with the
    old beat during the delay, so that beats are transferred twice *)
Theorem C56_refuted : exists c fuel a p oa ow l beats,
  axi_bus c /\ legal_access (x_bytes c) (wa_address a) (Z.of_nat (length (wa_value a))) (wa_size a) (wa_burst a) /\
  fits_bits (x_awidth c) (wa_address a) /\ wa_be a <> [] /\ may_start (wa_sync a) p /\ aw_offered oa = false /\ w_offered ow = false /\ length l < fuel /\
  write_beats (x_bytes c) (wa_address a) (wa_burst a) (size_or (x_bytes c) (wa_size a)) (wa_value a) (wa_be a) = Ok beats /\
  let r := axi_write c fuel a p oa ow l in
  wr_result r = Done tt /\ length (transfers w_offered w_accepts (wr_w r)) > length beats.
Proof. exact latency_repeats. Qed.
Print Assumptions C56_refuted.

(** C57, write: it ends with the first B response after both channels have been
    transferred (and not before), and the outcome is what the response says; it returns
    after the cycle of the response, unless it raises ValueError in that cycle because the
    response is undefined *)
Theorem C57_write_response c fuel a p oa ow l : write_ok c fuel a p oa ow l ->
  let r := axi_write c fuel a p oa ow l in wr_result r <> Susp ->
  exists done nr i rest, l = done ++ nr ++ i :: rest /\
    (let complete k := transfers aw_offered aw_accepts (firstn k (wr_aw r)) = transfers aw_offered aw_accepts (wr_aw r) /\
                       transfers w_offered w_accepts (firstn k (wr_w r)) = transfers w_offered w_accepts (wr_w r) in
     complete (length done) /\ forall k, k < length done -> ~ complete k) /\
    Forall (fun i => b_valid i = false) nr /\ b_valid i = true /\ wr_result r = response_outcome (g_bresp i) /\
    wr_rest r = match bval (g_bresp i) with Some _ => rest | None => i :: rest end.
Proof. exact (response_thm c fuel a p oa ow l). Qed.
Print Assumptions C57_write_response.

(** C57 and C58, read: the beats are the R transfers from the address handshake to
    the first with RLAST; their number is checked, then the responses *)
Theorem C58_read_beats c fuel a s p o tr l pre w h seg f tl : read_ok c fuel a p l -> read_cycles c (ra_sync a) l pre w h seg f tl ->
  let req := ax_request c o (ra_address a) (ra_length a) (ra_burst a) (size_or (x_bytes c) (ra_size a)) in
  let o' := ax_set_valid L0 req in
  let bs := filter r_beat (seg ++ [f]) in
  let after := AW s PActive o' (tr ++ held o pre ++ held req (w ++ [h]) ++ held o' (seg ++ [f])) tl in
  exists words, length words = length bs /\
  (Z.of_nat (length bs) <> ra_length a ->
     axi_read_rresp c fuel a (AW s p o tr l) = (Exn EAXILength, after) /\
     axi_read c fuel a (AW s p o tr l) = (Exn EAXILength, after)) /\
  (Z.of_nat (length bs) = ra_length a ->
     axi_read_rresp c fuel a (AW s p o tr l) = (Done (combine words (map rresp_of bs)), after) /\
     axi_read c fuel a (AW s p o tr l) =
       (match first_bad (map rresp_of bs) with Some r => Exn (EAXIProtocol r) | None => Done words end, after)).
Proof. exact (read_thm c fuel a s p o tr l pre w h seg f tl). Qed.
Print Assumptions C58_read_beats.

(** C57, read: the response raised is that of the first beat that is not OKAY *)
Theorem C57_first_bad rs r : first_bad rs = Some r <-> exists pre post, rs = pre ++ r :: post /\ r <> 0%Z /\ Forall (fun x => x = 0%Z) pre.
Proof. exact (first_bad_spec rs r). Qed.
Print Assumptions C57_first_bad.

(** C58: until then it waits *)
Theorem C58_waits c fuel a s p o tr l pre : read_ok c fuel a p l -> length pre = min (length l) (if ra_sync a then 1 else 0) ->
  (exists w, l = pre ++ w /\ Forall (fun i => ar_accepts i = false) w) \/
  (exists w h seg, l = pre ++ w ++ h :: seg /\ Forall (fun i => ar_accepts i = false) w /\ ar_accepts h = true /\
     Forall (fun i => r_final c i = false) seg /\ Forall (fun i => r_beat i = true -> r_beat_ok c i) seg) ->
  fst (axi_read c fuel a (AW s p o tr l)) = Susp /\ fst (axi_read_rresp c fuel a (AW s p o tr l)) = Susp.
Proof. exact (read_waits c fuel a s p o tr l pre). Qed.
Print Assumptions C58_waits.

(** C59: AXI4-Lite refuses sequences before touching the bus *)
Theorem C59_no_sequences c fuel address vs be alat dlat sync p oa ow l :
  lite_write c fuel address (LiteSeq vs) be alat dlat sync p oa ow l = WriteRun (Exn EValue) [] [] oa ow l.
Proof. exact (lite_write_seq c fuel address vs be alat dlat sync p oa ow l). Qed.
Print Assumptions C59_no_sequences.

(** C59: a Lite write transfers one address and one full-width word, whatever the
    latencies; it stores the enabled bytes; the outcome is that of the response *)
Theorem C59_write c fuel address z be alat dlat sync p oa ow l m : axi_bus c -> fits_bits (x_awidth c) address ->
  may_start sync p -> aw_offered oa = false -> w_offered ow = false -> length l < fuel ->
  let r := lite_write c fuel address (LiteInt z) be alat dlat sync p oa ow l in
  wr_result r <> Susp ->
  exists req word, transfers aw_offered aw_accepts (wr_aw r) = [req] /\ value (x_addr req) = address /\
    transfers w_offered w_accepts (wr_w r) = [word] /\ conforming_write (lite_cfg c) req [word] /\
    (forall x, slave_store (lite_cfg c) req [word] m x = incr_written address (x_bytes c) [z] [be] m x) /\
    exists done nr i r', l = done ++ nr ++ i :: r' /\
      transfers aw_offered aw_accepts (firstn (length done) (wr_aw r)) = [req] /\ transfers w_offered w_accepts (firstn (length done) (wr_w r)) = [word] /\
      Forall (fun i => b_valid i = false) nr /\ b_valid i = true /\ wr_result r = response_outcome (g_bresp i).
Proof. exact (lite_write_thm c fuel address z be alat dlat sync p oa ow l m). Qed.
Print Assumptions C59_write.

Theorem C59_read c fuel address sync s p o tr l pre w h seg f tl mem : axi_bus c -> fits_bits (x_awidth c) address ->
  may_start sync p -> length l < fuel -> read_cycles (lite_cfg c) sync l pre w h seg f tl ->
  (forall x, length (mem x) = 8) -> read_beat_ok (x_bytes c) INCR (x_bytes c) 1 address mem 0 (g_rdata f) ->
  let r := lite_read c fuel address sync (AW s p o tr l) in
  fst r = (if (rresp_of f =? 0)%Z then Done (cells mem address (Z.to_nat (x_bytes c - address mod x_bytes c))) else Exn (EAXIProtocol (rresp_of f))) /\
  ins (snd r) = tl.
Proof. exact (lite_read_thm c fuel address sync s p o tr l pre w h seg f tl mem). Qed.
Print Assumptions C59_read.

(** C59: the signals that AXI4-Lite does not have (AxBURST, AxLEN, AxSIZE, WLAST) are never
    driven, whatever the arguments and the outcome *)
Theorem C59_no_burst_signals c fuel address v be alat dlat sync p oa ow l s o :
  let same (o o' : ax_out) := x_burst o' = x_burst o /\ x_len o' = x_len o /\ x_size o' = x_size o in
  let r := lite_write c fuel address v be alat dlat sync p oa ow l in
  let w := snd (lite_read c fuel address sync (AW s p o [] l)) in
  (Forall (fun x => same oa (snd x)) (wr_aw r) /\ same oa (wr_aw_out r) /\
   Forall (fun x => x_last (snd x) = x_last ow) (wr_w r) /\ x_last (wr_w_out r) = x_last ow) /\
  (Forall (fun x => same o (snd x)) (trace w) /\ same o (out w)).
Proof.
  cbn zeta. split; [exact (lite_signals c fuel address v be alat dlat sync p oa ow l)|exact (lite_read_signals c fuel address sync s p o l)].
Qed.
Print Assumptions C59_no_burst_signals.

(** ** Examples *)
(** a bus of 8 bytes: an unaligned INCR write of three 4-byte values at 0x1002, with ready
    pauses on both channels *)
Definition ex_c : axi_cfg := AxiCfg 64 32 true true.
Definition ex_in (awr wr bv : logic) : axi_in := AxiIn awr wr bv (zbits 2 0) L0 L0 (zbits 2 0) (zbits 64 0) L0.
Definition ex_cycles : list axi_in :=
  [ex_in L0 L0 L0; ex_in L0 L1 L0; ex_in L1 L0 L0; ex_in L0 L1 L0; ex_in L0 L1 L1; ex_in L0 L0 L0; ex_in L0 L0 L1; ex_in L0 L0 L0].
Definition ex_oa := AxOut L0 [] [] [] [].
Definition ex_ow := WOut L0 [] [] L0.
Definition ex_a : waccess := WAccess 4098 [287454020; 1432778632; 2576980377]%Z (Some 4%Z) INCR [None] 0 0 true.
Example ex_axi_bus : axi_bus ex_c.
Proof. split; [exists 3%Z; split; [lia|reflexivity]|]. split; [vm_compute; discriminate|reflexivity]. Qed.
Example ex_legal : legal_access (x_bytes ex_c) 4098 3 (Some 4%Z) INCR.
Proof.
  split; [intros s [= <-]; split; [exists 2%Z; split; [lia|reflexivity]|vm_compute; discriminate]|]. split; [cbn; lia|]. intros _ x [H1 H2]. unfold same_page.
  cbn [size_or] in *. change (aligned 4098 4 + 3 * 4)%Z with 4108%Z in H2. change (4098 / 4096)%Z with 1%Z. apply (Z.div_unique_pos _ _ _ (x - 4096)); lia.
Qed.
Example ex_write_ok : write_ok ex_c 20 ex_a PActive ex_oa ex_ow ex_cycles.
Proof. constructor; try reflexivity; try exact ex_axi_bus; try exact ex_legal; try discriminate; try (left; reflexivity); cbn; try lia. unfold fits_bits. cbn. lia. Qed.
Example ex_write_run : let r := axi_write ex_c 20 ex_a PActive ex_oa ex_ow ex_cycles in
  wr_result r = Done tt /\ length (wr_rest r) = 1 /\
  map (fun w => (value (x_wdata w), value (x_wstrb w), x_last w)) (transfers w_offered w_accepts (wr_w r)) =
  [(860094464, 12, L0); (8613153125072633856, 240, L0); (2576962918, 15, L1)]%Z.
Proof. vm_compute. repeat split. Qed.
(** a WRAP write whose lanes jump: bus 8 bytes, 2 beats of 2 bytes at 2 *)
Example ex_wrap : ~ wrap_smooth 8 2 2 2 /\ (2 mod 2 = 0)%Z.
Proof. split; [|reflexivity]. intros [_ [[k H]|[k H]]]; lia. Qed.
(** a read of two 4-byte words with pauses *)
Definition ex_r (ar rv : logic) (d : Z) (la : logic) : axi_in := AxiIn L0 L0 L0 (zbits 2 0) ar rv (zbits 2 0) (zbits 64 d) la.
Definition ex_rl : list axi_in :=
  [ex_r L0 L0 0 L0; ex_r L0 L0 0 L0; ex_r L1 L0 0 L0; ex_r L0 L0 0 L0; ex_r L0 L1 287454020 L0; ex_r L0 L0 0 L1; ex_r L0 L1 (2 ^ 32 * 7) L1; ex_r L0 L0 0 L0]%Z.
Example ex_read_cycles : read_cycles ex_c true ex_rl (firstn 1 ex_rl) (firstn 1 (skipn 1 ex_rl)) (ex_r L1 L0 0 L0) (firstn 3 (skipn 3 ex_rl)) (ex_r L0 L1 (2 ^ 32 * 7) L1) (skipn 7 ex_rl).
Proof. constructor; try reflexivity; repeat constructor; try discriminate. Qed.
Example ex_read_run : fst (axi_read ex_c 20 (RAccess 4096 2 (Some 4%Z) INCR true) (AW tt PActive ex_oa [] ex_rl)) = Done [zbits 32 287454020; zbits 32 7].
Proof. vm_compute. reflexivity. Qed.
