(** DrvUtilProp.v -- C28 .. C31. *)
From Verif Require Import BusModel DrvUtilModel DrvUtilSpec DrvUtilProof DriverSpec BusSpec.
Local Open Scope list_scope.
Local Open Scope Z_scope.

(** C28 is false: whatever the bus and the transaction, the default send assigns
    to no signal at all (it creates an attribute "value" on the Bus object). *)
Theorem C28_send_drives_refuted :
  forall (V : Type) (b : bus) (tx : object V) sync,
    exists b', busdriver_send (bus_object b) tx sync = ((if sync then 1 else 0)%nat, Ok ([], b'))
      /\ b_signals b' = b.
Proof. intros V b tx sync. exact (busdriver_send_writes (bus_object b) tx sync). Qed.
Print Assumptions C28_send_drives_refuted.

(** What remains: send comes back, after an edge if it synchronises; it does what it should
    exactly if there is nothing to drive; and the bus object stays usable, as all its
    attributes but "value" are what they were. *)
Theorem C28_send_returns_partial :
  forall (V : Type) (b : bus) (tx : object V) sync,
    exists ws b', busdriver_send (bus_object b) tx sync = ((if sync then 1 else 0)%nat, Ok (ws, b'))
      /\ (ws = expected_writes b tx <-> expected_writes b tx = [])
      /\ b_signals b' = b
      /\ dict_get (b_attrs b') "value" = Some (PObj tx)
      /\ forall name, name <> "value"%string -> dict_get (b_attrs b') name = dict_get (b_attrs (bus_object b)) name.
Proof. exact busdriver_send_returns. Qed.
Print Assumptions C28_send_returns_partial.

(** ... although there is something to drive. *)
Example C28_nonvacuous :
  expected_writes [("data"%string, Some (HSig 1))] [("data"%string, 5)] = [(HSig 1, 5)].
Proof. reflexivity. Qed.

(** C29.  The signal's value in the first n cycles, for every list of pairs, and
    the exact moment at which the driver ends (with RuntimeError). *)
Theorem C29_waveform :
  forall gen stored v0 n,
    let s := bd_start (Some gen) stored v0 in
    gen <> [] ->
    bd_wave n s = firstn n (waveform gen ++ repeat L0 n)
    /\ (fst (bd_after n s) = BEnd ERuntime <-> (length (waveform gen) <= n)%nat).
Proof. exact bitdriver_waveform. Qed.
Print Assumptions C29_waveform.

Theorem C29_empty_generator :
  forall stored v0 n,
    bd_wave n (bd_start (Some []) stored v0) = repeat v0 n
    /\ fst (bd_start (Some []) stored v0) = BEnd ERuntime.
Proof. exact bitdriver_empty. Qed.
Print Assumptions C29_empty_generator.

Example C29_nonvacuous :
  waveform [(2, 1); (0, 2); (1, 0); (1, 1)] = [L1; L1; L0; L0; L0; L1; L1; L0]
  /\ bd_wave 9 (bd_start (Some [(2, 1); (0, 2); (1, 0); (1, 1)]) None LX)
     = [L1; L1; L0; L0; L0; L1; L1; L0; L0]
  /\ fst (bd_after 8 (bd_start (Some [(2, 1); (0, 2); (1, 0); (1, 1)]) None LX)) = BEnd ERuntime.
Proof. vm_compute. repeat split. Qed.

(** C30.  The idle cycles inserted before each of the first n words, for every
    generator (given by the pairs it yields) with non-negative on counts. *)
Theorem C30_gaps :
  forall n gen, (forall p, In p gen -> 0 <= fst p) ->
    gaps n (set_valid_generator (Some gen)) = firstn n (grouped O (real_groups gen) n).
Proof. exact gaps_spec. Qed.
Print Assumptions C30_gaps.

Theorem C30_no_generator :
  forall n, gaps n (set_valid_generator None) = repeat O n.
Proof. exact gaps_none. Qed.
Print Assumptions C30_no_generator.

(** A negative on count means valid for ever (the generator is not consulted again). *)
Theorem C30_negative_on :
  forall n on off g, on < 0 -> gaps n (Valid (OnInt on) off g) = repeat O n.
Proof. exact gaps_negative. Qed.
Print Assumptions C30_negative_on.

Example C30_nonvacuous :
  gaps 7 (set_valid_generator (Some [(0, 5); (2, 3); (0, 4); (1, 2); (1, 6)]))
  = [0; 0; 3; 2; 6; 0; 0]%nat.
Proof. vm_compute. reflexivity. Qed.

(** C31.  Would-block results are skipped; the chunks before the end of stream
    or the first other error are appended, in order, once each, and nothing after. *)
Theorem C31_socket :
  forall EAGAIN EWOULDBLOCK rs,
    Forall (fun r => chunk r \/ would_block EAGAIN EWOULDBLOCK r) rs ->
    sock_poll EAGAIN EWOULDBLOCK rs = (chunks rs, SRunning)
    /\ (forall later, sock_poll EAGAIN EWOULDBLOCK (rs ++ SData [] :: later) = (chunks rs, SClosed))
    /\ (forall e later, ~ would_block EAGAIN EWOULDBLOCK (SError e) ->
          sock_poll EAGAIN EWOULDBLOCK (rs ++ SError e :: later) = (chunks rs, SRaised e)).
Proof. exact sock_poll_data. Qed.
Print Assumptions C31_socket.

(** Whatever the interleaving with the send thread, the chunks are sent in
    order: already started ones followed by the queued ones. *)
Theorem C31_chunks_are_sent :
  forall beh (acts : list (action bytes)) cs,
    passive beh -> appends_of acts = map chunk_item cs ->
    never_cleared (log (run bytes beh acts drv_init)) ->
    let d := run bytes beh acts drv_init in
    started (log d) ++ sendq d = map chunk_item cs.
Proof. exact socket_to_driver. Qed.
Print Assumptions C31_chunks_are_sent.

Example C31_nonvacuous :
  sock_poll 11 11 [SError 11; SData [1; 2]; SError 11; SData [3]; SData []; SData [4]]
  = ([[1; 2]; [3]], SClosed)
  /\ sock_poll 11 11 [SData [1]; SError 104; SData [2]] = ([[1]], SRaised 104).
Proof. vm_compute. split; reflexivity. Qed.

Example C31_sent_nonvacuous :
  let beh := fun (_ : nat) (_ : bytes) => ([] : list (cbop bytes), None : option exn) in
  let acts := [ARun; AAppend (chunk_item [1; 2]); ARun; AAppend (chunk_item [3])] in
  passive beh /\ appends_of acts = map chunk_item [[1; 2]; [3]]
  /\ started (log (run bytes beh acts drv_init)) = [chunk_item [1; 2]].
Proof. vm_compute. repeat split. Qed.
