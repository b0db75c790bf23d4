(** AxuRefProp.v -- C131, refuted for every burst and for all tasks that wait: AxuProp.v has a
    case of each. *)
From Verif Require Import Base Async BitsLemmas CompatModel HandshakeSpec AxiModel AxiSpec AxiTopProof AxiProp AxcModel AxuSpec AxuProof AxuProp AxuRefProof AxuWaitProof.
Local Open Scope list_scope.

(** C131, bursts: a read [a1] fails because of the undefined response of its beat [f] (in the
    cycle f, after the cycles seg), and another read [a2] of whole words is made then; the slave
    goes on with the first burst [b1] up to its end, the cycle f2, and accepts the address of the
    second read in the cycle h2 before that.  If as many beats of the first burst come after h2
    as the second read has, then the second read returns, without an error, the words of the
    *first* burst: those at the last addresses of the first read. *)
Theorem C131_every_burst_refuted c fuel a1 s p o tr l pre w h seg f tl a2 w2 h2 seg2 f2 tl2 mem :
  x_full c = true -> ra_burst a1 = INCR -> ra_size a1 = None -> ra_burst a2 = INCR -> ra_size a2 = None ->
  (ra_address a2 mod x_bytes c = 0)%Z ->
  read_ok c fuel a1 p l -> undefined_cycles c (ra_sync a1) l pre w h seg f tl ->
  read_ok c fuel a2 PReadOnly (f :: tl) -> read_cycles c true (f :: tl) [f] w2 h2 seg2 f2 tl2 ->
  let b1 := filter r_beat (seg ++ f :: w2 ++ h2 :: seg2 ++ [f2]) in
  let taken := filter r_beat (seg2 ++ [f2]) in
  slave_reads c (ax_request c o (ra_address a1) (ra_length a1) INCR (x_bytes c)) (fun _ => mem) b1 ->
  Z.of_nat (length taken) = ra_length a2 -> first_bad (map rresp_of taken) = None ->
  let r1 := axi_read c fuel a1 (AW s p o tr l) in
  fst r1 = Exn EValue /\
  fst (axi_read c fuel a2 (snd r1)) =
    Done (read_words INCR (fun _ => mem)
            (aligned (ra_address a1) (x_bytes c) + (ra_length a1 - ra_length a2) * x_bytes c)%Z
            (x_bytes c) (Z.to_nat (ra_length a2))).
Proof. exact (leftover_thm c fuel a1 s p o tr l pre w h seg f tl a2 w2 h2 seg2 f2 tl2 mem). Qed.
Print Assumptions C131_every_burst_refuted.

(** C131, reads of several tasks: [a] is the first whose address is accepted (after the cycles
    skip), and a beat of its burst, in the cycle f, has an undefined response.  Every other read
    whose address has been accepted by then raises RuntimeError, whatever the slave answers. *)
Theorem C131_all_waiting_reads_refuted c fuel calls p o l t a rest skip seg f tl :
  axi_bus c -> legal_access (x_bytes c) (ra_address a) (ra_length a) (ra_size a) (ra_burst a) ->
  p <> PReadOnly -> length l < fuel ->
  addressed (fst (serve (ar_job c fuel) (admitted (read_check c) calls) (AW tt p o [] l)))
    = (t, (a, size_or (x_bytes c) (ra_size a))) :: rest ->
  l = skip ++ seg ++ f :: tl -> length skip = t ->
  Forall (fun i => r_final c i = false) seg -> Forall (fun i => r_beat i = true -> r_beat_ok c i) seg ->
  r_beat f = true -> length (g_rdata f) = x_width c -> bval (g_rresp f) = None ->
  Forall (fun j => fst j <= length (skip ++ seg)) rest ->
  rs_results (concurrent_reads c fuel calls p o l) =
    (a, Exn EValue) :: map (fun j => (fst (snd j), Exn ERuntime)) rest.
Proof. exact (waiting_reads c fuel calls p o l t a rest skip seg f tl). Qed.
Print Assumptions C131_all_waiting_reads_refuted.

(** C131, writes of several tasks: the call number [k] is the first whose address and data are
    accepted (after the cycles skip), and the first response after that is undefined.  Every other
    write whose address and data have been accepted by then raises RuntimeError. *)
Theorem C131_all_waiting_writes_refuted c fuel calls p oa ow l t k rest skip seg f tl :
  p <> PReadOnly -> length l < fuel ->
  let jobs := admitted (write_check c) calls in
  let ra := fst (serve (aw_job c fuel) jobs (World tt p oa [] l)) in
  let rw := fst (serve (w_job c fuel) jobs (World tt p ow [] l)) in
  by_time (joined 0 ra rw) = (t, k) :: rest -> raised ra rw = [] ->
  l = skip ++ seg ++ f :: tl -> length skip = t ->
  Forall (fun i => b_valid i = false) seg -> b_valid f = true -> bval (g_bresp f) = None ->
  Forall (fun j => fst j <= length (skip ++ seg)) rest ->
  ws_results (concurrent_writes c fuel calls p oa ow l) =
    (k, Exn EValue) :: map (fun j => (snd j, Exn ERuntime)) rest.
Proof. exact (waiting_writes c fuel calls p oa ow l t k rest skip seg f tl). Qed.
Print Assumptions C131_all_waiting_writes_refuted.

(** Examples: two beats from 16 on, the first undefined, then a read of one beat at 32. *)
Definition exv_f := u_in L0 (Some (16%Z, undef2, L0)).
Definition exv_tl := [u_in L1 None; u_in L0 None; u_in L0 (Some (17%Z, zbits 2 0, L1)); u_in L0 (Some (32%Z, zbits 2 0, L1))].
Definition exv_l := [u_in L0 None; u_in L1 None] ++ exv_f :: exv_tl.
Example exv_burst : let a1 := RAccess 16 2 None INCR true in let a2 := RAccess 32 1 None INCR true in
  let f2 := u_in L0 (Some (17%Z, zbits 2 0, L1)) in
  read_ok u_cfg 20 a1 PActive exv_l /\
  undefined_cycles u_cfg true exv_l [u_in L0 None] [] (u_in L1 None) [] exv_f exv_tl /\
  read_ok u_cfg 20 a2 PReadOnly (exv_f :: exv_tl) /\
  read_cycles u_cfg true (exv_f :: exv_tl) [exv_f] [] (u_in L1 None) [u_in L0 None] f2 [u_in L0 (Some (32%Z, zbits 2 0, L1))] /\
  slave_reads u_cfg (ax_request u_cfg u_out 16 2 INCR (x_bytes u_cfg)) (fun _ => u_mem)
    (filter r_beat ([] ++ exv_f :: [] ++ u_in L1 None :: [u_in L0 None] ++ [f2])) /\
  fst (axi_read u_cfg 20 a2 (snd (axi_read u_cfg 20 a1 (AW tt PActive u_out [] exv_l)))) = Done [u_mem 17].
Proof.
  cbn zeta. split; [apply u_ok; cbn; lia|]. split; [u_cycles|]. split; [apply u_ok; cbn; lia|]. split; [u_cycles|].
  split; [|vm_compute; reflexivity].
  apply u_slave; try lia; [reflexivity|]. intros [|[|[|i]]] b H; cbn in H; inversion H; reflexivity.
Qed.
(** three reads of one beat *)
Definition exv_reads := [(0, RAccess 16 1 None INCR true); (0, RAccess 32 1 None INCR true); (0, RAccess 48 1 None INCR true)].
Definition exv_cl := [u_in L0 None; u_in L1 None; u_in L1 None; u_in L1 None; u_in L1 None; u_in L1 None; u_in L0 None]
  ++ u_in L0 (Some (16%Z, undef2, L1)) :: [u_in L0 (Some (32%Z, zbits 2 0, L1)); u_in L0 (Some (48%Z, zbits 2 0, L1))].
Example exv_addressed :
  addressed (fst (serve (ar_job u_cfg 20) (admitted (read_check u_cfg) exv_reads) (AW tt PActive u_out [] exv_cl)))
    = [(2, (RAccess 16 1 None INCR true, 1%Z)); (4, (RAccess 32 1 None INCR true, 1%Z)); (6, (RAccess 48 1 None INCR true, 1%Z))]
  /\ rs_results (concurrent_reads u_cfg 20 exv_reads PActive u_out exv_cl)
    = [(RAccess 16 1 None INCR true, Exn EValue); (RAccess 32 1 None INCR true, Exn ERuntime); (RAccess 48 1 None INCR true, Exn ERuntime)].
Proof. split; vm_compute; reflexivity. Qed.
(** three writes *)
Definition exv_writes := [(0, u_write 16 7); (0, u_write 32 9); (0, u_write 48 11)].
Definition exv_wl := repeat (u_b None) 7 ++ u_b (Some undef2) :: [u_b (Some (zbits 2 0)); u_b (Some (zbits 2 0))].
Example exv_joined :
  let jobs := admitted (write_check u_cfg) exv_writes in
  let ra := fst (serve (aw_job u_cfg 20) jobs (World tt PActive u_out [] exv_wl)) in
  let rw := fst (serve (w_job u_cfg 20) jobs (World tt PActive u_wout [] exv_wl)) in
  by_time (joined 0 ra rw) = [(2, 0); (4, 1); (6, 2)] /\ raised ra rw = []
  /\ ws_results (concurrent_writes u_cfg 20 exv_writes PActive u_out u_wout exv_wl) = [(0, Exn EValue); (1, Exn ERuntime); (2, Exn ERuntime)].
Proof. cbn zeta. split; [vm_compute; reflexivity|]. split; vm_compute; reflexivity. Qed.
