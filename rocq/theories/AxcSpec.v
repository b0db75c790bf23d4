(** AxcSpec.v -- what a user of AXI4Master expects of accesses made by several tasks. *)
From Verif Require Import Base Async HandshakeSpec AxiModel AxiSpec AxcModel.
Local Open Scope list_scope.

(** A call the interface has the signals for: on AXI4-Lite, which has no AxLEN, AxSIZE and
    AxBURST, a single beat of the full width. *)
Definition on_bus (c : axi_cfg) (n : Z) (b : burst) (size : option Z) : Prop :=
  x_full c = true \/ (n = 1%Z /\ b = INCR /\ size = None).

(** ** Writes *)
(** a write the parameter checks accept, with data_latency 0 unless it is a single value *)
Definition write_call_ok (c : axi_cfg) (a : waccess) : Prop :=
  legal_access (x_bytes c) (wa_address a) (Z.of_nat (length (wa_value a))) (wa_size a) (wa_burst a) /\
  fits_bits (x_awidth c) (wa_address a) /\ wa_be a <> [] /\
  (wa_dlat a = 0 \/ length (wa_value a) <= 1) /\ on_bus c (Z.of_nat (length (wa_value a))) (wa_burst a) (wa_size a).
(** the request of a write, and its beats *)
Definition write_request (c : axi_cfg) (a : waccess) : request :=
  Request (wa_address a) (Z.of_nat (length (wa_value a))) (size_or (x_bytes c) (wa_size a)) (wa_burst a).
Definition beats_of_write (c : axi_cfg) (a : waccess) (bs : list (Z * Z)) : Prop :=
  write_beats (x_bytes c) (wa_address a) (wa_burst a) (size_or (x_bytes c) (wa_size a)) (wa_value a) (wa_be a) = Ok bs.
(** WLAST on the last beat of each burst *)
Definition lasts (n : nat) : list logic := repeat L0 (n - 1) ++ [L1].

(** several writes: the cycle in which each is called (not in the ReadOnly phase) and its
    parameters; no request and no data are offered yet *)
Definition writes_ok (c : axi_cfg) (fuel : nat) (calls : list (nat * waccess)) (p : phase) (oa : ax_out) (ow : w_out)
           (l : list axi_in) : Prop :=
  axi_bus c /\ Forall (fun x => write_call_ok c (snd x)) calls /\ p <> PReadOnly /\
  aw_offered oa = false /\ w_offered ow = false /\ length l < fuel.

(** the write responses (BREADY is always 1) *)
Definition b_responses (l : list axi_in) : list bits := map g_bresp (filter b_valid l).
(** number of beats of the first k writes *)
Definition beats_before (calls : list waccess) (k : nat) : nat := length (flat_map wa_value (firstn k calls)).
(** The slave answers a write only after its address and its last beat: response k (from
    0), in cycle m, comes after k+1 addresses and after all beats of the first k+1 writes. *)
Definition answers_writes (calls : list waccess) (r : writes_run) (l : list axi_in) : Prop :=
  forall m i, nth_error l m = Some i -> b_valid i = true ->
    let k := length (filter b_valid (firstn m l)) in
    k < length (transfers aw_offered aw_accepts (firstn m (ws_aw r))) /\
    beats_before calls (S k) <= length (transfers w_offered w_accepts (firstn m (ws_w r))).

(** a slave that takes the bursts in the order of the addresses *)
Fixpoint slave_stores (c : axi_cfg) (reqs : list request) (beats : list (Z * Z)) (m : Z -> Z) : Z -> Z :=
  match reqs with
  | [] => m
  | q :: r =>
      let n := Z.to_nat (q_beats q) in
      slave_stores c r (skipn n beats)
        (store_burst (x_bytes c) (q_burst q) (q_size q) (q_beats q) (q_address q) m 0 (firstn n beats))
  end.
(** what the writes store, one after the other *)
Definition all_written (c : axi_cfg) (calls : list waccess) (m : Z -> Z) : Z -> Z :=
  fold_left (fun m a => written (wa_burst a) (wa_address a) (size_or (x_bytes c) (wa_size a)) (wa_value a) (wa_be a) m)
            calls m.

(** ** Reads *)
Definition read_call_ok (c : axi_cfg) (a : raccess) : Prop :=
  legal_access (x_bytes c) (ra_address a) (ra_length a) (ra_size a) (ra_burst a) /\ fits_bits (x_awidth c) (ra_address a) /\
  on_bus c (ra_length a) (ra_burst a) (ra_size a).
Definition read_request (c : axi_cfg) (a : raccess) : request :=
  Request (ra_address a) (ra_length a) (size_or (x_bytes c) (ra_size a)) (ra_burst a).
Definition reads_ok (c : axi_cfg) (fuel : nat) (calls : list (nat * raccess)) (p : phase) (o : ax_out) (l : list axi_in) : Prop :=
  axi_bus c /\ Forall (fun x => read_call_ok c (snd x)) calls /\ p <> PReadOnly /\
  aw_offered o = false /\ length l < fuel.
(** the complete bursts on the R channel: the cycles with a beat, cut after each final one *)
Fixpoint r_bursts (c : axi_cfg) (acc : list axi_in) (l : list axi_in) : list (list axi_in) :=
  match l with
  | [] => []
  | i :: r =>
      if r_final c i then (acc ++ [i]) :: r_bursts c [] r
      else r_bursts c (if r_beat i then acc ++ [i] else acc) r
  end.
(** the slave sends the beats of a burst only after its address: a beat in cycle m comes
    after more addresses than bursts have been completed *)
Definition answers_reads (c : axi_cfg) (r : reads_run) (l : list axi_in) : Prop :=
  forall m i, nth_error l m = Some i -> r_beat i = true ->
    length (filter (r_final c) (firstn m l)) < length (transfers aw_offered ar_accepts (firstn m (rs_ar r))).
(** The result of a read that is alone on the bus and gets these beats: its request is
    accepted in the cycle [h], the beats follow. *)
Definition alone (c : axi_cfg) (a : raccess) (h : axi_in) (bs : list axi_in) : outcome (list bits * list Z) :=
  fst (axi_read_raw c (2 + length bs)
         (RAccess (ra_address a) (ra_length a) (ra_size a) (ra_burst a) false)
         (World tt PActive (AxOut L0 [] [] [] []) [] (h :: bs))).
