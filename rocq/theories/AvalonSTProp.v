(** AvalonSTProp.v -- C32, C33, C71 (and C30 as seen on the bus). *)
From Verif Require Import Base Async CompatModel DrvUtilModel AvalonSTModel AvalonSTSpec AvalonSTProof.
Local Open Scope list_scope.

(** C32.  A list of words (value, sync flag) encodable on the bus is sent, for
    every state [s] of the valid generator and every ready sequence [l].  The bus
    trace accounts for every cycle of [l]; every word offered and not accepted is
    repeated unchanged (also into the current cycle); the transferred words are
    the sent ones, each once and in order: all of them when the sends have
    returned (which they do at the edge that transfers the last word, leaving
    valid deasserted), and
    otherwise a proper prefix, all input being used up. *)
Theorem C32_transfers :
  forall width has_ready ws ds s p o fuel l,
    Forall2 (fun w d => create_binary (fst w) width false = Ok d) ws ds ->
    length l < fuel -> p <> PReadOnly -> o_valid o <> L1 ->
    let '(r, w) := st_send_all width has_ready fuel ws (World s p o [] l) in
    map fst (trace w) ++ ins w = l
    /\ (forall i, stable has_ready (trace w ++ [(i, out w)]))
    /\ match r with
       | Done _ => transfers has_ready (trace w) = ds /\ o_valid (out w) <> L1
                   /\ (ds <> [] -> exists before c, trace w = before ++ [c] /\ transferred has_ready c = true)
       | Susp => ins w = [] /\ exists k, k < length ds /\ transfers has_ready (trace w) = firstn k ds
       | _ => False
       end.
Proof. exact st_all. Qed.
Print Assumptions C32_transfers.

(** ... and the sends do return, once the sink has been ready often enough. *)
Theorem C32_progress :
  forall width has_ready ws s, exists N, forall ds p o fuel l,
    Forall2 (fun w d => create_binary (fst w) width false = Ok d) ws ds ->
    length l < fuel -> p <> PReadOnly -> o_valid o <> L1 ->
    N <= ready_cycles has_ready l ->
    exists w, st_send_all width has_ready fuel ws (World s p o [] l) = (Done tt, w).
Proof. exact st_progress. Qed.
Print Assumptions C32_progress.

(** One send: first the idle cycles (one to synchronise if asked, then the gap of
    the valid generator), then the word until it is accepted. *)
Theorem C30_gap_on_bus :
  forall width has_ready fuel value d sync s p o l,
    create_binary value width false = Ok d -> length l < fuel -> p <> PReadOnly ->
    let '(r, w) := st_send width has_ready fuel value sync (World s p o [] l) in
    exists gap wait,
      trace w = gap ++ wait
      /\ Forall idle gap
      /\ Forall (fun c => snd c = StOut L1 d) wait
      /\ (forall i, r = Done i ->
           length gap = (if sync then 1 else 0) + fst (throttle s)
           /\ st w = snd (throttle s)
           /\ exists before c, wait = before ++ [c] /\ transferred has_ready c = true
                /\ Forall (fun c => transferred has_ready c = false) before).
Proof. exact st_shape. Qed.
Print Assumptions C30_gap_on_bus.

Example C32_nonvacuous :
  let ws := [(BInt 5, true); (BInt 9, false); (BInt 1, false)] in
  let s := set_valid_generator (Some [(1, 2); (3, 1)]%Z) in
  let '(r, w) := st_send_all 8 true 20 ws (World s PActive (st_init_out 8) [] [L1; LX; L0; L1; L1; L0; L1; L0; L1; L1; L1]) in
  r = Done tt /\ length (trace w) = 9
  /\ map (fun c => o_valid (snd c)) (trace w) = [L0; L1; L1; L1; L0; L0; L1; L1; L1]
  /\ transfers true (trace w) = map (zbits 8) [5; 9; 1]%Z.
Proof. vm_compute. repeat split. Qed.

(** C33.  The driver always puts the first byte in the low-order bits.  The
    monitor configured with firstSymbolInHighOrderBits = [be] reports each word
    as sent if [be] is false and reversed if [be] is true. *)
Theorem C33_round_trip_partial :
  forall k has_ready be ws s p o fuel l,
    Forall (fun w => all_bytes (fst w) /\ length (fst w) = k) ws ->
    length l < fuel -> p <> PReadOnly -> o_valid o <> L1 ->
    let words := map fst ws in
    let '(r, w) := st_send_all (8 * k) has_ready fuel (map (fun x => (BBytes (fst x), snd x)) ws)
                               (World s p o [] l) in
    exists n, st_monitor has_ready be (trace w)
              = (firstn n (map (fun b => if be then rev b else b) words), None)
      /\ match r with Done _ => n = length ws | Susp => ins w = [] /\ n < length ws | _ => False end.
Proof. exact st_round_trip. Qed.
Print Assumptions C33_round_trip_partial.

(** With the default configuration on both sides (firstSymbolInHighOrderBits) the
    word comes back changed. *)
Theorem C33_default_config_refuted :
  exists b l, length b = 2 /\ all_bytes b /\
    let '(r, w) := st_send_all 16 true 5 [(BBytes b, true)]
                     (World (set_valid_generator None) PActive (st_init_out 16) [] l) in
    r = Done tt /\ exists b', st_monitor true true (trace w) = ([b'], None) /\ b' <> b.
Proof.
  exists [1; 2]%Z, [L1; L1]. split; [reflexivity|]. split; [repeat constructor; discriminate|].
  vm_compute. split; [reflexivity|]. exists [2; 1]%Z. split; [reflexivity|discriminate].
Qed.
Print Assumptions C33_default_config_refuted.

Example C33_nonvacuous :
  let ws := [([1; 2]%Z, true); ([3; 4]%Z, false); ([5; 6]%Z, true)] in
  let l := [L1; LX; L0; L1; L1; L0; L1; L0; L1; L1; L1] in
  let '(r, w) := st_send_all 16 true 20 (map (fun x => (BBytes (fst x), snd x)) ws)
                   (World (set_valid_generator (Some [(1, 2); (3, 1)]%Z)) PActive (st_init_out 16) [] l) in
  Forall (fun w => all_bytes (fst w) /\ length (fst w) = 2) ws /\ r = Done tt
  /\ st_monitor true false (trace w) = ([[1; 2]; [3; 4]; [5; 6]]%Z, None)
  /\ st_monitor true true (trace w) = ([[2; 1]; [4; 3]; [6; 5]]%Z, None).
Proof. vm_compute. repeat split; repeat constructor; discriminate. Qed.

(** C71 is false: whenever the value cannot be encoded, send raises with valid
    already asserted; the data then on the bus is offered, and transferred at the
    next edge at which the sink is ready, and that word was never sent. *)
Theorem C71_rejected_word_offered_refuted :
  forall width has_ready fuel value e (sync : bool) s p o l,
    create_binary value width false = Err e -> length l < fuel -> p <> PReadOnly ->
    (if sync then 1 else 0) + fst (throttle s) <= length l ->
    exists w, st_send width has_ready fuel value sync (World s p o [] l) = (Exn e, w)
      /\ out w = StOut L1 (o_data o) /\ ph w <> PReadOnly
      /\ ins w = skipn ((if sync then 1 else 0) + fst (throttle s)) l.
Proof. exact st_reject. Qed.
Print Assumptions C71_rejected_word_offered_refuted.

(** C71, what holds: up to the moment the send raises no word has been transferred, and it
    raises only if the value cannot be encoded. *)
Theorem C71_partial :
  forall width has_ready fuel value (sync : bool) s p o l e w,
    length l < fuel -> p <> PReadOnly ->
    st_send width has_ready fuel value sync (World s p o [] l) = (Exn e, w) ->
    create_binary value width false = Err e /\ transfers has_ready (trace w) = [].
Proof. exact st_raises. Qed.
Print Assumptions C71_partial.

Example C71_nonvacuous :
  let '(r, w) := st_send 8 true 9 (BInt 256) true
                   (World (set_valid_generator None) PActive (st_init_out 8) [] [L1; L1]) in
  r = Exn EValue
  /\ transfers true (trace (snd (edge w))) = [xs 8].
Proof. vm_compute. repeat split. Qed.
