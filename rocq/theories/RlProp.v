(** RlProp.v -- C134: the option readyLatency of the packetized Avalon-ST driver and monitor. *)
From Verif Require Import Base Async CompatModel DrvUtilModel HandshakeSpec PktModel PktSpec PktProof RlModel RlSpec RlProof PktProp.
Local Open Scope list_scope.

(** C134, the driver, what holds.  [pre] are the cycles before the send, [later] those after it,
    in which the bus is not used.  With readyLatency 0, or with any readyLatency and a sink that
    has been ready for that many cycles and remains so until the send returns, a sink with this
    ready latency takes exactly the words of the packet. *)
Theorem C134_driver_partial : forall c k pkt sync ch s p o fuel l pre later,
  word_bus (rl_other c) k -> c_ready (rl_other c) = true -> channel_ok (rl_other c) ch -> pkt <> [] ->
  length l + length pkt < fuel -> p <> PReadOnly ->
  Forall idle_cycle pre -> Forall idle_cycle later ->
  exists ws, framed (c_high (rl_other c)) (use_empty (rl_other c)) k (c_width (rl_other c) - 8 * k) pkt ws
  /\ let '(r, w) := rl_send c fuel pkt sync ch (World s p o [] l) in
     r = Done tt ->
     rl_latency c = 0 \/ (rl_latency c <= length pre /\ Forall ready_high (pre ++ trace w)) ->
     takes (rl_latency c) (pre ++ trace w ++ later) = ws.
Proof.
  intros c k pkt sync ch s p o fuel l pre later B C H N L P I J.
  destruct (C34_framing (rl_other c) k pkt sync ch s p o fuel l B H N L P) as (ws & F & _ & T).
  exists ws. split; [exact F|]. unfold rl_send.
  destruct (pk_send (rl_other c) fuel pkt sync ch (World s p o [] l)) as [r w].
  intros -> D. destruct T as (_ & _ & T & _ & _). rewrite C in T.
  rewrite app_assoc, takes_later by exact J. destruct D as [D|[D R]].
  - rewrite D, takes_zero. unfold transfers. rewrite filter_app, map_app.
    change (transfers k_offered (k_accepts true) pre ++ transfers k_offered (k_accepts true) (trace w) = ws).
    rewrite (transfers_idle pre I). exact T.
  - rewrite takes_ready by assumption. exact T.
Qed.
Print Assumptions C134_driver_partial.

(** C134 is false of the driver: for every readyLatency but 0, every packet and every schedule in
    which the send returns, if the sink was ready for as many cycles as there are words (or
    fewer, counting those before the send), a sink with this ready latency has not taken all of
    the packet, and takes no more of it while the bus is not used again. *)
Theorem C134_driver_refuted : forall c k pkt sync ch s p o fuel l pre later,
  1 <= rl_latency c ->
  word_bus (rl_other c) k -> c_ready (rl_other c) = true -> channel_ok (rl_other c) ch -> pkt <> [] ->
  length l + length pkt < fuel -> p <> PReadOnly ->
  Forall idle_cycle later ->
  exists ws, framed (c_high (rl_other c)) (use_empty (rl_other c)) k (c_width (rl_other c) - 8 * k) pkt ws
  /\ let '(r, w) := rl_send c fuel pkt sync ch (World s p o [] l) in
     r = Done tt ->
     granted (pre ++ trace w) <= length ws ->
     k_valid (out w) = L0
     /\ length (takes (rl_latency c) (pre ++ trace w ++ later)) < length ws.
Proof.
  intros c k pkt sync ch s p o fuel l pre later R B C H N L P J.
  destruct (C34_framing (rl_other c) k pkt sync ch s p o fuel l B H N L P) as (ws & F & _ & T).
  exists ws. split; [exact F|]. unfold rl_send.
  destruct (pk_send (rl_other c) fuel pkt sync ch (World s p o [] l)) as [r w].
  intros -> D. destruct T as (_ & _ & _ & V & before & c0 & E & G). split; [exact V|].
  rewrite C in G. unfold transferred in G. apply andb_prop in G. destruct G as [_ G].
  assert (X : fst c0 = L1) by (unfold k_accepts in G; destruct (fst c0); first [reflexivity|discriminate G]).
  rewrite app_assoc, takes_later by exact J. rewrite E, app_assoc in *.
  pose proof (takes_fewer (rl_latency c) (pre ++ before) c0 R X). lia.
Qed.
Print Assumptions C134_driver_refuted.

(** C134, the monitor, what holds: with ready high in all cycles, from [rl_latency] cycles before
    the first word on, the words the monitor goes by are those that are taken. *)
Theorem C134_monitor_partial : forall c l pre,
  c_ready (rl_other c) = true -> rl_latency c <= length pre -> Forall idle_cycle pre -> Forall ready_high (pre ++ l) ->
  takes (rl_latency c) (pre ++ l) = seen (rl_other c) (map sample_of l)
  /\ forall reps m, wide_words (rl_other c) (map sample_of l) -> rl_monitor c (map sample_of l) = (reps, Ok m) ->
     reps = map (reported (rl_other c)) (completed (takes (rl_latency c) (pre ++ l))).
Proof.
  intros c l pre C R I F.
  assert (E : takes (rl_latency c) (pre ++ l) = seen (rl_other c) (map sample_of l)).
  { rewrite takes_ready by assumption. unfold transfers, seen. clear F I R. induction l as [|x l IH]; [reflexivity|].
    cbn [map filter]. unfold transferred at 1.
    assert (X : running_cycle (sample_of x) && transfer (rl_other c) (sample_of x) = k_offered (snd x) && k_accepts true (fst x))
      by (unfold transfer; rewrite C; reflexivity).
    rewrite X. destruct (k_offered (snd x) && k_accepts true (fst x)); cbn [map]; rewrite IH; reflexivity. }
  split; [exact E|]. intros reps m W M. rewrite E. exact (C36_reports_partial _ _ _ _ W M).
Qed.
Print Assumptions C134_monitor_partial.

(** C134 is false of the monitor: for every readyLatency but 0 and every packet there is a
    stream in which a sink with this ready latency takes the words of the packet, and the
    monitor reports nothing. *)
Theorem C134_monitor_refuted : forall c k pkt o ws,
  1 <= rl_latency c -> c_ready (rl_other c) = true ->
  framed (c_high (rl_other c)) (use_empty (rl_other c)) k (c_width (rl_other c) - 8 * k) pkt ws ->
  Forall (fun w => k_valid w = L1) ws -> k_valid o = L0 ->
  takes (rl_latency c) (leisurely (rl_latency c) o ws) = ws
  /\ rl_monitor c (map sample_of (leisurely (rl_latency c) o ws)) = ([], Ok pm_init).
Proof.
  intros c k pkt o ws R C _ F O.
  assert (O' : k_offered o = false) by (unfold k_offered; rewrite O; reflexivity).
  split.
  - apply leisurely_takes; [exact R|exact O'|]. eapply Forall_impl; [|exact F]. intros w W. unfold k_offered. rewrite W. reflexivity.
  - apply monitor_quiet; [exact C|]. apply leisurely_quiet. exact O'.
Qed.
Print Assumptions C134_monitor_refuted.

(** Examples: a packet of two words and readyLatency 2.  The sink raises ready twice: it takes
    only the last word ...; with ready high all the time it takes both. *)
Definition exl_cfg : rl_config := RlConfig 2 ex_cfg.
Definition exl_idle (i : logic) : logic * pk_out := (i, pk_init_out ex_cfg).
Definition exl_run l := rl_send exl_cfg 40 [1; 2; 3; 4; 5; 6]%Z true (Some 3%Z)
                   (World (set_valid_generator None) PActive (pk_init_out ex_cfg) [] l).
Example exl_lost :
  let '(r, w) := exl_run [L0; L1; L0; L0; L1; L0; L0] in
  r = Done tt /\ granted (repeat (exl_idle L0) 3 ++ trace w) = 2
  /\ map (fun x => (k_sop x, k_eop x, bval (k_data x))) (takes 2 (repeat (exl_idle L0) 3 ++ trace w ++ repeat (exl_idle L0) 5))
     = [(L0, L1, Some 84279296)]%Z.
Proof. vm_compute. repeat split. Qed.
Example exl_ready :
  let '(r, w) := exl_run (repeat L1 6) in
  r = Done tt
  /\ map (fun x => (k_sop x, k_eop x, bval (k_data x))) (takes 2 (repeat (exl_idle L1) 2 ++ trace w ++ repeat (exl_idle L1) 5))
     = [(L1, L0, Some 16909060); (L0, L1, Some 84279296)]%Z.
Proof. vm_compute. repeat split. Qed.
(** and the monitor, on the words of that packet sent properly *)
Example exl_monitor :
  let '(_, w) := exl_run (repeat L1 6) in
  let ws := transfers k_offered (k_accepts true) (trace w) in
  length (leisurely 2 (pk_init_out ex_cfg) ws) = 6
  /\ map k_eop (takes 2 (leisurely 2 (pk_init_out ex_cfg) ws)) = [L0; L1]
  /\ rl_monitor exl_cfg (map sample_of (leisurely 2 (pk_init_out ex_cfg) ws)) = ([], Ok pm_init)
  /\ rl_monitor exl_cfg (map sample_of (trace w)) = ([RChan [1; 2; 3; 4; 5; 6] (Some 3)]%Z, Ok (PM [] false 0 None (Some 16%Z))).
Proof. vm_compute. repeat split. Qed.
