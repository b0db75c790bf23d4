(** PktProp.v -- C34-C40, C72-C74: packets on Avalon-ST. *)
From Verif Require Import Base Async CompatModel DrvUtilModel MonitorModel HandshakeSpec AvalonSTModel
  PktModel PktSpec PktProof PktMonProof PktIterProof.
Local Open Scope list_scope.

(** C34.  For every non-empty packet, valid generator state [s], sync flag and
    ready sequence [l], on a bus of [k] whole bytes and perhaps some further lines, with
    symbols of any size: there are words [ws] carrying
    the packet ([framed]), on the packet's channel, such that the words
    transferred are exactly [ws] when the send returns (at the edge of the last
    transfer, leaving valid low), and a prefix of them as long as it waits for the sink.  A word
    offered and not accepted is repeated unchanged. *)
Theorem C34_framing :
  forall c k pkt sync ch s p o fuel l,
    word_bus c k -> channel_ok c ch -> pkt <> [] -> length l + length pkt < fuel -> p <> PReadOnly ->
    exists ws, framed (c_high c) (use_empty c) k (c_width c - 8 * k) pkt ws
    /\ (forall n, c_cw c = Some n ->
          Forall (fun w => bval (k_channel w) = Some (match ch with Some z => z | None => 0%Z end)) ws)
    /\ let '(r, w) := pk_send c fuel pkt sync ch (World s p o [] l) in
       map fst (trace w) ++ ins w = l
       /\ (forall i, stable k_offered (k_accepts (c_ready c)) (trace w ++ [(i, out w)]))
       /\ match r with
          | Done _ => transfers k_offered (k_accepts (c_ready c)) (trace w) = ws /\ k_valid (out w) = L0
                      /\ exists before c0, trace w = before ++ [c0]
                         /\ transferred k_offered (k_accepts (c_ready c)) c0 = true
          | Susp => ins w = [] /\ exists n, transfers k_offered (k_accepts (c_ready c)) (trace w) = firstn n ws
          | _ => False
          end.
Proof. exact pk_packet. Qed.
Print Assumptions C34_framing.

(** Whatever the configuration, the data and the state of the bus before: when send has
    returned, valid is low and startofpacket, endofpacket, data, empty and channel are X. *)
Theorem C34_idle : forall c fuel pkt sync ch w w',
  pk_send c fuel pkt sync ch w = (Done tt, w') -> idle_bus c (out w').
Proof. exact pk_send_idle. Qed.
Print Assumptions C34_idle.

(** From the construction of the driver on: nothing is offered in the [n] cycles before the
    first send, and the words transferred are exactly those of the packet. *)
Theorem C34_from_construction : forall c k pkt sync ch s n fuel l,
  word_bus c k -> channel_ok c ch -> pkt <> [] -> length l + length pkt < fuel ->
  exists ws, framed (c_high c) (use_empty c) k (c_width c - 8 * k) pkt ws
  /\ let '(r, w) := (edges n ;; pk_send c fuel pkt sync ch) (World s PActive (pk_init_out c) [] l) in
     match r with
     | Done _ => transfers k_offered (k_accepts (c_ready c)) (trace w) = ws
     | Susp => ins w = [] /\ (length l < n -> transfers k_offered (k_accepts (c_ready c)) (trace w) = [])
     | _ => False
     end.
Proof. exact pk_constructed. Qed.
Print Assumptions C34_from_construction.

Definition ex_cfg : pcfg := PCfg 32 8 true None true (Some 2) (Some 4) true 0 true.
Example C34_nonvacuous :
  word_bus ex_cfg 4 /\ channel_ok ex_cfg (Some 3%Z) /\
  let '(r, w) := pk_send ex_cfg 40 [1; 2; 3; 4; 5; 6]%Z true (Some 3%Z)
                   (World (set_valid_generator (Some [(1, 1); (1, 2)]%Z)) PActive (pk_init_out ex_cfg) []
                          [L0; L0; L1; L1; L0; L0; L1; L1; L1; L1]) in
  r = Done tt
  /\ map (fun x => (k_sop x, k_eop x, bval (k_empty x), bval (k_data x)))
       (transfers k_offered (k_accepts true) (trace w))
     = [(L1, L0, Some 0, Some 16909060); (L0, L1, Some 2, Some 84279296)]%Z.
Proof.
  split; [constructor|split].
  - cbn. lia.
  - lia.
  - intros _. exists 2. split; [reflexivity|]. discriminate.
  - reflexivity.
  - vm_compute. split; discriminate.
  - vm_compute. split; reflexivity.
Qed.

(** C35.  A monitor with the same configuration receives the packets sent, in
    order, each once: all of them when the sends have returned, otherwise the
    first [n].  With an invalidTimeout this is as long as no packet is held up for
    that many cycles; if one is, the monitor raises after the first [n]. *)
Theorem C35_end_to_end :
  forall c k ps s p o fuel l,
    byte_bus c k -> (0 <= c_timeout c)%Z ->
    Forall (fun p => p_data p <> [] /\ all_bytes (p_data p) /\ channel_ok c (p_channel p)) ps ->
    Forall (fun p => length l + length (p_data p) < fuel) ps -> p <> PReadOnly ->
    let want := map (fun p => as_reported (c_report c) (match c_cw c with Some _ => true | None => false end)
                                          (p_data p) (p_channel p)) ps in
    let '(r, w) := pk_send_all c fuel ps (World s p o [] l) in
    exists (n : nat) (f : res pmstate), pm_run c pm_init (sampled (trace w)) = (firstn n want, f)
      /\ match r with
         | Done _ => ps <> [] -> k_valid (out w) = L0
         | Susp => ins w = []
         | _ => False
         end
      /\ (~ stalled c (sampled (trace w)) -> (exists m, f = Ok m) /\ (r = Done tt -> n = length ps))
      /\ (stalled c (sampled (trace w)) -> f = Err EAvalonProtocol).
Proof. exact pk_end_to_end. Qed.
Print Assumptions C35_end_to_end.

Example C35_nonvacuous :
  let ps := [Packet [1; 2; 3; 4; 5; 6]%Z true (Some 3%Z); Packet [9]%Z false None; Packet [7; 7; 7; 7]%Z true (Some 15%Z)] in
  let '(r, w) := pk_send_all ex_cfg 40 ps
                   (World (set_valid_generator (Some [(1, 1); (1, 2)]%Z)) PActive (pk_init_out ex_cfg) []
                          (concat (repeat [L0; LX; L1; L1] 6))) in
  r = Done tt
  /\ fst (pm_run ex_cfg pm_init (sampled (trace w)))
     = [RChan [1; 2; 3; 4; 5; 6] (Some 3); RChan [9] (Some 0); RChan [7; 7; 7; 7] (Some 15)]%Z.
Proof. vm_compute. split; reflexivity. Qed.

(** a packet held up for three cycles, and a monitor that puts up with two, or three *)
Example C35_nonvacuous_timeout :
  let cfg n := PCfg 32 8 true None true (Some 2) (Some 4) true n true in
  let ps := [Packet [9]%Z false None; Packet [1; 2; 3; 4; 5; 6]%Z true (Some 3%Z)] in
  let '(r, w) := pk_send_all (cfg 3%Z) 40 ps
                   (World (set_valid_generator None) PActive (pk_init_out (cfg 3%Z)) []
                          [L0; L1; L0; L0; L1; L0; LX; L0; L1; L1; L1]) in
  r = Done tt
  /\ pm_run (cfg 3%Z) pm_init (sampled (trace w)) = ([RChan [9] (Some 0)]%Z, Err EAvalonProtocol)
  /\ (exists m, pm_run (cfg 4%Z) pm_init (sampled (trace w)) = ([RChan [9] (Some 0); RChan [1; 2; 3; 4; 5; 6] (Some 3)]%Z, Ok m))
  /\ stalled (cfg 3%Z) (sampled (trace w)) /\ ~ stalled (cfg 4%Z) (sampled (trace w)).
Proof.
  cbn zeta. destruct (pk_send_all _ _ _ _) as [r w] eqn:E. vm_compute in E. injection E as <- <-. cbn [trace].
  match goal with |- context [sampled ?t] => set (tr := t) end.
  assert (M : exists m, pm_run (PCfg 32 8 true None true (Some 2) (Some 4) true 4 true) pm_init (sampled tr)
                        = ([RChan [9] (Some 0); RChan [1; 2; 3; 4; 5; 6] (Some 3)]%Z, Ok m)) by (vm_compute; eexists; reflexivity).
  split; [reflexivity|]. split; [vm_compute; reflexivity|]. split; [exact M|]. split.
  - split; [reflexivity|]. exists (firstn 5 (sampled tr)), (firstn 3 (skipn 5 (sampled tr))), (skipn 8 (sampled tr)).
    vm_compute. split; [reflexivity|]. split; [reflexivity|]. split; [repeat constructor|discriminate].
  - destruct M as [m M]. refine (ok_not_stalled _ _ _ _ _ _ M); [cbn [c_timeout]; lia|]. vm_compute. repeat constructor.
Qed.

(** C36.  Whatever happened before ([l], with any words, idle cycles and resets,
    handled without an exception), the next transferred word [w] raises
    AvalonProtocolError if it is misplaced, has a bad channel, or its masked last
    data is bad; and otherwise, if it is readable, it is accepted and a packet is
    reported exactly if it is an endofpacket word: the bytes since startofpacket.
    Not included: unresolvable bits in a last word without masking, see below. *)
Theorem C36_protocol_partial :
  forall c l reps m s,
    wide_words c l -> pm_run c pm_init l = (reps, Ok m) -> running_cycle s = true -> transfer c s = true ->
    let w := s_bus s in let ws := seen c l in let next := pm_run c pm_init (l ++ [s]) in
    (misplaced ws w -> next = (reps, Err EAvalonProtocol))
    /\ (~ misplaced ws w -> readable c w -> bad_channel c ws w -> next = (reps, Err EAvalonProtocol))
    /\ (~ misplaced ws w -> readable c w -> ~ bad_channel c ws w ->
        exists m', next = (reps ++ (if is_eop w then [reported c (current ws ++ [w])] else []), Ok m'))
    /\ (~ misplaced ws w -> masks c w -> resolvable (used c w) = false -> next = (reps, Err EAvalonProtocol)).
Proof. exact run_next. Qed.
Print Assumptions C36_protocol_partial.

(** all reports of a run without exception are the packets completed in it *)
Theorem C36_reports_partial :
  forall c l reps m, wide_words c l -> pm_run c pm_init l = (reps, Ok m) ->
    reps = map (reported c) (completed (seen c l)).
Proof. intros c l reps m W H. exact (proj2 (run_ok c l reps m W H)). Qed.
Print Assumptions C36_reports_partial.

(** a stream in which every word is in its place, readable and on a good channel
    raises nothing, unless a packet is held up for invalidTimeout cycles: then everything
    up to the first such point is reported and the monitor raises there *)
Theorem C36_wellformed_partial :
  forall c l, (0 <= c_timeout c)%Z -> wide_words c l ->
    Forall (fun s => in_reset_cycle s = true \/ running_cycle s = true) l ->
    (forall a w b, seen c l = a ++ w :: b -> ~ misplaced a w /\ readable c w /\ ~ bad_channel c a w) ->
    (~ stalled c l -> exists m, pm_run c pm_init l = (map (reported c) (completed (seen c l)), Ok m))
    /\ (stalled c l -> exists a s b, l = a ++ s :: b /\ ~ stalled c a /\ stalled c (a ++ [s])
         /\ pm_run c pm_init l = (map (reported c) (completed (seen c a)), Err EAvalonProtocol)).
Proof. exact run_good. Qed.
Print Assumptions C36_wellformed_partial.

Definition ex_word (sop eop : logic) (e : Z) (d : bits) (ch : Z) : psample :=
  PSample None None L1 (PkOut L1 sop eop (zbits 2 e) d (zbits 4 ch) L0).
Example C36_nonvacuous :
  let w0 := ex_word L1 L0 0 (zbits 32 16909060) 5 in
  let run l := pm_run ex_cfg pm_init l in
  wide_words ex_cfg [w0] /\
  snd (run [w0; ex_word L1 L0 0 (zbits 32 0) 5]) = Err EAvalonProtocol
  /\ snd (run [w0; ex_word L0 L0 0 (zbits 32 0) 6]) = Err EAvalonProtocol
  /\ snd (run [w0; ex_word L0 L1 1 (xs 16 ++ zeros 16) 5]) = Err EAvalonProtocol
  /\ snd (run [ex_word L0 L0 0 (zbits 32 0) 5]) = Err EAvalonProtocol
  /\ fst (run [w0; ex_word L0 L1 1 (zeros 24 ++ xs 8) 5]) = [RChan [1; 2; 3; 4; 0; 0; 0]%Z (Some 5%Z)].
Proof. split; [repeat constructor; vm_compute; lia|]. vm_compute. repeat split. Qed.

(** If the last word masks nothing and no earlier word did, unresolvable data
    gives UnboundLocalError instead. *)
Theorem C36_unmasked_x_refuted :
  forall c l reps m s,
    wide_words c l -> pm_run c pm_init l = (reps, Ok m) -> m_empty m = None ->
    running_cycle s = true -> transfer c s = true ->
    let w := s_bus s in
    ~ misplaced (seen c l) w -> is_eop w = true -> (use_empty c = true -> bval (k_empty w) = Some 0%Z) ->
    resolvable (k_data w) = false ->
    pm_run c pm_init (l ++ [s]) = (reps, Err EUnboundLocal).
Proof. exact run_unmasked. Qed.
Print Assumptions C36_unmasked_x_refuted.

Example C36_refuted_nonvacuous :
  pm_run ex_cfg pm_init [ex_word L1 L0 0 (zbits 32 1) 5; ex_word L0 L1 0 (xs 8 ++ zeros 24) 5] = ([], Err EUnboundLocal).
Proof. reflexivity. Qed.

(** C37.  On a bus without channel, a channel is rejected with AssertionError
    before any cycle passes, with valid low. *)
Theorem C37_no_channel_partial :
  forall c fuel str sync z s p o l, c_cw c = None -> p <> PReadOnly ->
    exists o', k_valid o' = L0
      /\ pk_send c fuel str sync (Some z) (World s p o [] l) = (Exn EAssertion, World s p o' [] l).
Proof. exact reject_no_channel. Qed.
Print Assumptions C37_no_channel_partial.

(** The channel reported is that of the first word, which all words share. *)
Theorem C37_reported_partial :
  forall c l reps m, wide_words c l -> pm_run c pm_init l = (reps, Ok m) ->
    c_report c = true -> c_cw c <> None ->
    Forall2 (fun r ws => exists data v, r = RChan data (Some v)
               /\ Forall (fun w => bval (k_channel w) = Some v) ws)
            reps (completed (seen c l)).
Proof. exact run_channels. Qed.
Print Assumptions C37_reported_partial.

(** But a channel out of range raises only after valid has been asserted: the
    rejected packet leaves an offered word on the bus. *)
Theorem C37_out_of_range_refuted :
  forall c n fuel (str : bytes) (sync : bool) z s p o l,
    c_cw c = Some n -> (z < 0 \/ max_channel c < z)%Z ->
    str <> [] -> 0 < fuel -> p <> PReadOnly -> (if sync then 1 else 0) + fst (throttle s) <= length l ->
    exists w, pk_send c fuel str sync (Some z) (World s p o [] l) = (Exn EAssertion, w)
      /\ k_valid (out w) = L1 /\ ins w = skipn ((if sync then 1 else 0) + fst (throttle s)) l.
Proof. exact reject_range. Qed.
Print Assumptions C37_out_of_range_refuted.

Example C37_nonvacuous :
  let '(r, w) := pk_send ex_cfg 9 [1; 2]%Z true (Some 16%Z)
                   (World (set_valid_generator None) PActive (pk_init_out ex_cfg) [] [L1; L1]) in
  r = Exn EAssertion
  /\ length (transfers k_offered (k_accepts true) (trace (snd (edge w)))) = 1.
Proof. vm_compute. repeat split. Qed.

(** C38.  After any run [l] without exception, a cycle outside reset that
    transfers nothing raises AvalonProtocolError exactly if a timeout is set, the
    monitor is inside a packet, and this cycle makes the run of such cycles as
    long as the timeout; otherwise nothing is raised or reported.  (A cycle that
    transfers a word does not time out: C36.) *)
Theorem C38_timeout :
  forall c l reps m s,
    wide_words c l -> pm_run c pm_init l = (reps, Ok m) -> running_cycle s = true -> transfer c s = false ->
    (0 <= c_timeout c)%Z ->
    let next := pm_run c pm_init (l ++ [s]) in
    if negb (c_timeout c =? 0)%Z && (match current (seen c l) with [] => false | _ => true end)
       && (c_timeout c <=? Z.of_nat (S (idle_run c l)))%Z
    then next = (reps, Err EAvalonProtocol)
    else exists m', next = (reps, Ok m').
Proof. exact run_idle. Qed.
Print Assumptions C38_timeout.

(** The same in terms of the whole run: such a cycle raises exactly if it completes a row
    of invalidTimeout cycles without a transfer inside a packet. *)
Theorem C38_stalled :
  forall c l reps m s,
    (0 <= c_timeout c)%Z -> wide_words c l -> pm_run c pm_init l = (reps, Ok m) ->
    running_cycle s = true -> transfer c s = false ->
    let next := pm_run c pm_init (l ++ [s]) in
    (stalled c (l ++ [s]) -> next = (reps, Err EAvalonProtocol))
    /\ (~ stalled c (l ++ [s]) -> exists m', next = (reps, Ok m')).
Proof. exact run_idle_stalled. Qed.
Print Assumptions C38_stalled.

Example C38_nonvacuous :
  let c := PCfg 32 8 true None true (Some 2) (Some 4) true 2 true in
  let w0 := ex_word L1 L0 0 (zbits 32 16909060) 5 in
  let w1 := ex_word L0 L1 0 (zbits 32 16909060) 5 in
  let i := PSample None None L0 (s_bus w0) in
  let r := PSample (Some [L0]) None L0 (s_bus w0) in
  snd (pm_run c pm_init [i; i; i; w0; i; r; i]) = Err EAvalonProtocol
  /\ (exists m, snd (pm_run c pm_init [i; i; i; w0; i; r; r; w1; i; i; i]) = Ok m)
  /\ (exists m, snd (pm_run ex_cfg pm_init [i; i; i; w0; i; r; i; i; i]) = Ok m).
Proof. vm_compute. split; [reflexivity|]. split; eexists; reflexivity. Qed.

(** 16-bit symbols on a bus of 36 lines, last symbol in the high-order bits *)
Example C34_nonvacuous_wide :
  let c := PCfg 36 16 false None true (Some 2) None true 0 false in
  word_bus c 4 /\ channel_ok c None /\
  let '(r, w) := pk_send c 40 [1; 2; 3; 4; 5; 6]%Z true None
                   (World (set_valid_generator None) PActive (pk_init_out c) [] [L0; L0; L1; L1; L0; L0; L1; L1; L1; L1]) in
  r = Done tt
  /\ map (fun x => (k_sop x, k_eop x, bval (k_empty x), bval (k_data x)))
       (transfers k_offered (k_accepts true) (trace w))
     = [(L1, L0, Some 0, Some 67305985); (L0, L1, Some 2, Some 1541)]%Z.
Proof.
  cbn zeta. split; [constructor|split].
  - cbn. lia.
  - lia.
  - intros _. exists 2. split; [reflexivity|]. discriminate.
  - reflexivity.
  - exact I.
  - vm_compute. split; reflexivity.
Qed.

(** C39.  On a bus of at least a byte, with symbols of any size, the send returns once the sink has been ready
    often enough ... *)
Theorem C39_terminates_partial :
  forall c k pkt sync ch s, word_bus c k -> channel_ok c ch ->
    exists N, forall p o fuel l,
      length l + length pkt < fuel -> p <> PReadOnly -> N <= ready_cycles (k_accepts (c_ready c)) l ->
      exists w, pk_send c fuel pkt sync ch (World s p o [] l) = (Done tt, w).
Proof. exact pk_terminates. Qed.
Print Assumptions C39_terminates_partial.

(** ... but on a bus of less than eight bits it never does, whatever the sink. *)
Theorem C39_narrow_refuted :
  forall c fuel sync ch (str : bytes) w w',
    c_width c < 8 -> str <> [] -> pk_send c fuel str sync ch w <> (Done tt, w').
Proof. exact pk_never. Qed.
Print Assumptions C39_narrow_refuted.

Example C39_nonvacuous :
  let c := PCfg 4 8 true None true None None false 0 false in
  pk_check c = Ok tt /\
  let '(r, w) := pk_send c 50 [1]%Z true None
                   (World (set_valid_generator None) PActive (pk_init_out c) [] (repeat L1 20)) in
  r = Susp /\ length (trace w) = 20.
Proof. vm_compute. repeat split. Qed.

(** C40.  The cycles in which the reset is active make no difference. *)
Theorem C40_reset_masks :
  forall c l m, pm_run c m l = pm_run c m (filter (fun s => negb (in_reset_cycle s)) l).
Proof. exact run_reset. Qed.
Print Assumptions C40_reset_masks.

Example C40_nonvacuous :
  let w0 := ex_word L1 L0 0 (zbits 32 16909060) 5 in
  let w1 := ex_word L0 L1 0 (zbits 32 16909060) 5 in
  let r := PSample None (Some [L1]) L1 (s_bus w0) in
  in_reset_cycle r = true
  /\ fst (pm_run ex_cfg pm_init [r; w0; r; r; w1; r]) = [RChan [1; 2; 3; 4; 1; 2; 3; 4]%Z (Some 5%Z)].
Proof. vm_compute. repeat split. Qed.

(** C72.  Configurations both constructors check.  Up to 128 channel bits: *)
Theorem C72_checks_partial :
  forall c, (forall n, c_cw c = Some n -> n <= 128) ->
    pk_check c = if (c_dbs c <? c_width c) && (match c_ew c with None => true | _ => false end) then Err EAttribute
                 else match c_cw c, c_maxch c with
                      | Some n, Some m => if (2 ^ Z.of_nat n <=? m)%Z then Err EAttribute else Ok tt
                      | _, _ => Ok tt
                      end.
Proof. exact check_narrow. Qed.
Print Assumptions C72_checks_partial.

(** the documented AttributeError for a wider channel is a TypeError instead *)
Theorem C72_wide_channel_refuted :
  forall c n, c_cw c = Some n -> 128 < n -> (c_dbs c < c_width c -> c_ew c <> None) -> pk_check c = Err EType.
Proof. exact check_wide. Qed.
Print Assumptions C72_wide_channel_refuted.

Example C72_nonvacuous :
  pk_check ex_cfg = Ok tt
  /\ pk_check (PCfg 32 8 true (Some 16%Z) true (Some 2) (Some 4) true 0 true) = Err EAttribute
  /\ pk_check (PCfg 32 8 true None true None (Some 4) true 0 true) = Err EAttribute
  /\ pk_check (PCfg 8 8 true None true None (Some 129) true 0 true) = Err EType.
Proof. vm_compute. repeat split. Qed.

(** C73 is false: with 4-bit symbols on a 16-bit bus the driver's empty counts
    bytes and the monitor drops symbols: a packet of one byte arrives as two. *)
Theorem C73_symbol_size_refuted :
  exists c pkt l, pk_check c = Ok tt /\ c_dbs c = 4 /\ all_bytes pkt /\
    let '(r, w) := pk_send c 30 pkt true None (World (set_valid_generator None) PActive (pk_init_out c) [] l) in
    r = Done tt /\ exists got m, pm_run c pm_init (sampled (trace w)) = ([RData got], Ok m) /\ got <> pkt.
Proof.
  exists (PCfg 16 4 true None true (Some 2) None false 0 false), [18]%Z, [L1; L1; L1].
  split; [reflexivity|]. split; [reflexivity|]. split; [repeat constructor; discriminate|].
  vm_compute. split; [reflexivity|]. eexists. eexists. split; [reflexivity|discriminate].
Qed.
Print Assumptions C73_symbol_size_refuted.

(** Nor do buses with a broken number of bytes work: on twelve lines one byte arrives as two. *)
Theorem C73_broken_byte_refuted :
  exists c pkt l, pk_check c = Ok tt /\ c_dbs c = 8 /\ c_width c = 12 /\ all_bytes pkt /\
    let '(r, w) := pk_send c 30 pkt true None (World (set_valid_generator None) PActive (pk_init_out c) [] l) in
    r = Done tt /\ exists got m, pm_run c pm_init (sampled (trace w)) = ([RData got], Ok m) /\ got <> pkt.
Proof.
  exists (PCfg 12 8 true None true (Some 2) None false 0 false), [18]%Z, [L1; L1; L1].
  split; [reflexivity|]. split; [reflexivity|]. split; [reflexivity|]. split; [repeat constructor; discriminate|].
  vm_compute. split; [reflexivity|]. eexists. eexists. split; [reflexivity|discriminate].
Qed.
Print Assumptions C73_broken_byte_refuted.

(** What holds, for symbols of any size on a bus of whole bytes: packets that fill their
    words ([fills]; with 8-bit symbols all packets) are received as sent, as in C35. *)
Theorem C73_whole_words_partial :
  forall c k ps s p o fuel l,
    word_bus c k -> c_width c = 8 * k -> (0 <= c_timeout c)%Z ->
    Forall (fun p => p_data p <> [] /\ all_bytes (p_data p) /\ channel_ok c (p_channel p) /\ fills c k (p_data p)) ps ->
    Forall (fun p => length l + length (p_data p) < fuel) ps -> p <> PReadOnly ->
    let want := map (fun p => as_reported (c_report c) (match c_cw c with Some _ => true | None => false end)
                                          (p_data p) (p_channel p)) ps in
    let '(r, w) := pk_send_all c fuel ps (World s p o [] l) in
    exists (n : nat) (f : res pmstate), pm_run c pm_init (sampled (trace w)) = (firstn n want, f)
      /\ match r with
         | Done _ => ps <> [] -> k_valid (out w) = L0
         | Susp => ins w = []
         | _ => False
         end
      /\ (~ stalled c (sampled (trace w)) -> (exists m, f = Ok m) /\ (r = Done tt -> n = length ps))
      /\ (stalled c (sampled (trace w)) -> f = Err EAvalonProtocol).
Proof. exact pk_end_to_end_any. Qed.
Print Assumptions C73_whole_words_partial.

Example C73_nonvacuous :
  let c := PCfg 32 16 false None true (Some 2) None true 0 false in
  let ps := [Packet [1; 2; 3; 4; 5; 6; 7; 8]%Z true None; Packet [7; 7; 7; 9]%Z true None] in
  word_bus c 4 /\ Forall (fun p => fills c 4 (p_data p)) ps /\
  let '(r, w) := pk_send_all c 40 ps
                   (World (set_valid_generator (Some [(1, 1); (1, 2)]%Z)) PActive (pk_init_out c) []
                          (concat (repeat [L0; LX; L1; L1] 6))) in
  r = Done tt /\ fst (pm_run c pm_init (sampled (trace w))) = [RData [1; 2; 3; 4; 5; 6; 7; 8]; RData [7; 7; 7; 9]]%Z.
Proof.
  cbn zeta. split; [constructor|split].
  - cbn. lia.
  - lia.
  - intros _. exists 2. split; [reflexivity|]. discriminate.
  - reflexivity.
  - repeat constructor; right; reflexivity.
  - vm_compute. split; reflexivity.
Qed.

(** C74 is false: whatever the words of an iterable, no signal but valid is ever
    driven. *)
Theorem C74_iterable_refuted :
  forall c fuel ws sync s p o l,
    Forall (fun x => exists v, snd x = k_set_valid v o)
      (trace (snd (pk_send_iterable c fuel ws sync (World s p o [] l)))).
Proof. exact iterable_keeps. Qed.
Print Assumptions C74_iterable_refuted.

(** C74, what holds: words without a valid attribute are transferred exactly once each, as far
    as their number goes, for every ready pattern and valid generator: what is transferred is
    each time what was on the other signals before. *)
Theorem C74_count_partial :
  forall c fuel n (sync : bool) s p o l,
    p <> PReadOnly -> k_offered o = false -> length l < fuel -> n < fuel ->
    let '(r, w) := pk_send_iterable c fuel (repeat None n) sync (World s p o [] l) in
    (forall i, stable k_offered (k_accepts (c_ready c)) (trace w ++ [(i, out w)])) /\
    match r with
    | Done _ => transfers k_offered (k_accepts (c_ready c)) (trace w) = repeat (k_set_valid L1 o) n /\ k_valid (out w) = L0
    | Susp => ready_cycles (k_accepts (c_ready c)) l < 2 + n + list_sum (gaps n s)
              /\ length (transfers k_offered (k_accepts (c_ready c)) (trace w)) <= n
    | _ => False
    end.
Proof. exact iter_count_thm. Qed.
Print Assumptions C74_count_partial.

(** ... and words whose valid attribute is 0, sent while valid is low, are idle cycles: one cycle
    each, and the gaps of the valid generator, whatever ready does, with nothing offered *)
Theorem C74_idle_partial :
  forall c fuel n (sync : bool) s p o l,
    p <> PReadOnly -> k_offered o = false -> n < fuel ->
    let cycles := 1 + (if sync then n else n - 1) + list_sum (gaps n s) in
    let '(r, w) := pk_send_iterable c fuel (repeat (Some false) n) sync (World s p o [] l) in
    r = (if cycles <=? length l then Done tt else Susp) /\ length (trace w) = Nat.min cycles (length l) /\
    Forall (fun x => k_offered (snd x) = false) (trace w).
Proof. exact iter_idle_thm. Qed.
Print Assumptions C74_idle_partial.
Example C74_idle_nonvacuous :
  let '(r, w) := pk_send_iterable ex_cfg 9 [Some false; Some false] true
                   (World (set_valid_generator None) PActive (pk_init_out ex_cfg) [] [L0; L0; L0]) in
  r = Done tt /\ length (trace w) = 3.
Proof. vm_compute. repeat split. Qed.

Example C74_nonvacuous :
  let '(r, w) := pk_send_iterable ex_cfg 9 [None; None] true
                   (World (set_valid_generator None) PActive (pk_init_out ex_cfg) [] [L1; L1; L1]) in
  r = Done tt /\ map (fun x => k_data x) (transfers k_offered (k_accepts true) (trace w)) = [xs 32; xs 32].
Proof. vm_compute. repeat split. Qed.
