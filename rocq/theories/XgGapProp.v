(** XgGapProp.v -- C147: the gap between packets on an XGMII bus. *)
From Verif Require Import Base CompatModel BitsLemmas Async XgModel XgSpec XgProof XgDrvProof XgTopProof XgGapSpec XgGapProof XgProp.
Local Open Scope list_scope.

(** With the name bound (C62): from an idle bus, the words on the bus are those of [lss], whose
    lanes are the packets with [spacing] characters between them; all of it takes exactly
    [cycles].  With fewer clock cycles the driver has driven as many words and waits. *)
Theorem C147_spacing_partial (n : nat) (interleaved : bool) (crc32 : bytes -> Z) (sends : list (nat * bool * bytes)) o p l :
  1 <= n -> p <> PReadOnly -> carries interleaved o (repeat IDLE' n) ->
  Forall (fun s => fills_word n (snd s) /\ all_bytes (snd s)) sends ->
  exists lss, packet_gaps (concat lss) = spacing n sends /\ Forall (fun w => length w = n) lss /\ length lss = cycles n sends /\
    let '(r, w) := send_all (9 * n) interleaved true crc32 sends (World 0%Z p o [] l) in
    Forall2 (carries interleaved) (map snd (trace w)) (firstn (length l) lss) /\
    (cycles n sends <= length l -> r = Done tt /\ length (trace w) = cycles n sends) /\ (length l < cycles n sends -> r = Susp).
Proof.
  intros Hn Hp C B. destruct (sends_lanes n interleaved crc32 Hn sends o p l Hp C B) as (lss & E & F & L & H).
  exists lss. rewrite E, gaps_stream. auto.
Qed.
Print Assumptions C147_spacing_partial.

(** the lanes that the bus carries during the sends *)
Definition bus_lanes (n : nat) (interleaved : bool) (tr : list (unit * bits)) (ls : list lane) : Prop :=
  exists lss, Forall2 (carries interleaved) (map snd tr) lss /\ Forall (fun w => length w = n) lss /\ ls = concat lss.

Lemma all_lanes n interleaved crc32 sends o p l : 1 <= n -> p <> PReadOnly -> carries interleaved o (repeat IDLE' n) ->
  Forall (fun s => fills_word n (snd s) /\ all_bytes (snd s)) sends -> cycles n sends <= length l ->
  exists w ls, send_all (9 * n) interleaved true crc32 sends (World 0%Z p o [] l) = (Done tt, w) /\ bus_lanes n interleaved (trace w) ls /\
    packet_gaps ls = spacing n sends.
Proof.
  intros Hn Hp C B G. destruct (C147_spacing_partial n interleaved crc32 sends o p l Hn Hp C B) as (lss & E & F & L & H).
  destruct (send_all (9 * n) interleaved true crc32 sends (World 0%Z p o [] l)) as [r w]. destruct H as (H1 & H2 & _). destruct (H2 G) as [-> _].
  exists w, (concat lss). split; [reflexivity|]. split; [|exact E]. exists lss. rewrite firstn_all2 in H1 by lia. auto.
Qed.

Lemma idles_bounds n pkt : 1 <= n -> n <= idles_after n pkt < 2 * n.
Proof. intro Hn. unfold idles_after. pose proof (Nat.mod_upper_bound (n - chars pkt mod n) n). lia. Qed.

(** C147 is false on a bus of up to five lanes (XGMII has four): whenever a packet is in the queue
    when the one before ends, the gap between them is too small. *)
Theorem C147_few_lanes_refuted (n : nat) (interleaved : bool) (crc32 : bytes -> Z) sends o p l :
  1 <= n <= 5 -> p <> PReadOnly -> carries interleaved o (repeat IDLE' n) ->
  Forall (fun s => fills_word n (snd s) /\ all_bytes (snd s)) sends -> cycles n sends <= length l ->
  2 <= length sends -> queued sends ->
  exists w ls, send_all (9 * n) interleaved true crc32 sends (World 0%Z p o [] l) = (Done tt, w) /\ bus_lanes n interleaved (trace w) ls /\
    length (packet_gaps ls) = length sends - 1 /\ Forall (fun g => g < IPG) (packet_gaps ls) /\ ~ well_spaced ls.
Proof.
  intros Hn Hp C B G L Q. destruct (all_lanes n interleaved crc32 sends o p l) as (w & ls & R & BL & E); auto; [lia|].
  assert (S : forall s1 r, Forall (fun s => lead s = 0) r -> length (spacing n (s1 :: r)) = length r /\ Forall (fun g => g < IPG) (spacing n (s1 :: r))).
  { intros s1 r. revert s1. induction r as [|s2 r IH]; intros s1 F; [split; constructor|]. pose proof (Forall_inv F) as F1. apply Forall_inv_tail in F.
    destruct (IH s2 F) as [I1 I2]. cbn [spacing length]. split; [f_equal; exact I1|]. constructor; [|exact I2].
    rewrite F1. pose proof (idles_bounds n (snd s1)). unfold IPG. lia. }
  destruct sends as [|s1 r]; [cbn in L; lia|]. destruct (S s1 r Q) as [S1 S2]. cbn [length] in *.
  exists w, ls. split; [exact R|]. split; [exact BL|]. rewrite E. split; [rewrite S1; lia|]. split; [exact S2|].
  unfold well_spaced. rewrite E. intro W. destruct (spacing n (s1 :: r)) as [|g gs]; [cbn in S1; lia|].
  pose proof (Forall_inv W) as W1. pose proof (Forall_inv S2) as W2. cbv beta in W1, W2. lia.
Qed.
Print Assumptions C147_few_lanes_refuted.

(** On eight lanes it is false exactly for queued packets after one whose length (at least 60)
    is 1, 2 or 3 more than a multiple of eight. *)
Theorem C147_eight_lanes_refuted (interleaved : bool) (crc32 : bytes -> Z) sends o p l :
  p <> PReadOnly -> carries interleaved o (repeat IDLE' 8) ->
  Forall (fun s => all_bytes (snd s)) sends -> cycles 8 sends <= length l ->
  exists w ls, send_all 72 interleaved true crc32 sends (World 0%Z p o [] l) = (Done tt, w) /\ bus_lanes 8 interleaved (trace w) ls /\
    (well_spaced ls <-> forall a s1 s2 b, sends = a ++ s1 :: s2 :: b -> lead s2 = 0 -> let m := length (padded (snd s1)) mod 8 in m = 0 \/ 3 < m).
Proof.
  intros Hp C B G. assert (B' : Forall (fun s => fills_word 8 (snd s) /\ all_bytes (snd s)) sends).
  { eapply Forall_impl; [|exact B]. intros s H. split; [|exact H]. apply C63_72_lanes_partial. lia. }
  destruct (all_lanes 8 interleaved crc32 sends o p l) as (w & ls & R & BL & E); auto; [lia|].
  exists w, ls. split; [exact R|]. split; [exact BL|]. unfold well_spaced. rewrite E. clear - E.
  assert (K : forall s1 s2 : nat * bool * bytes, IPG <= 1 + idles_after 8 (snd s1) + 8 * lead s2 <-> (lead s2 = 0 -> let m := length (padded (snd s1)) mod 8 in m = 0 \/ 3 < m)).
  { intros s1 s2. cbv zeta. unfold IPG, idles_after, chars. generalize (length (padded (snd s1))). intro k.
    pose proof (Nat.div_mod k 8 ltac:(lia)) as D. pose proof (Nat.mod_upper_bound k 8 ltac:(lia)) as U. set (m := k mod 8) in *. set (q := k / 8) in *. rewrite D.
    replace ((1 + 7 + (8 * q + m) + 4 + 1) mod 8) with ((5 + m) mod 8) by (replace (1 + 7 + (8 * q + m) + 4 + 1) with (5 + m + (q + 1) * 8) by lia; symmetry; apply Nat.mod_add; lia).
    clearbody m q. destruct m as [|[|[|[|[|[|[|[|m]]]]]]]]; [..|lia]; vm_compute (_ mod 8); vm_compute (_ - _); vm_compute (_ mod 8); lia. }
  clear E. induction sends as [|s1 r IH].
  - split; [|constructor]. intros _ [|x a] s1 s2 b X; discriminate.
  - destruct r as [|s2 r].
    + split; [|constructor]. intros _ [|x [|y a]] s1' s2' b X; discriminate.
    + cbn [spacing]. rewrite Forall_cons_iff, K, IH. split.
      * intros [H1 H2] [|x a] t1 t2 b X; [injection X as <- <- <-; exact H1|]. injection X as <- X. exact (H2 _ _ _ _ X).
      * intro H. split; [exact (H [] s1 s2 r eq_refl)|]. intros a t1 t2 b X. apply (H (s1 :: a) t1 t2 b). rewrite X. reflexivity.
Qed.
Print Assumptions C147_eight_lanes_refuted.

(** What holds: on eleven lanes or more the gap is always large enough; on a bus of fewer lanes it
    is if the driver waits before each packet: two words on four or more lanes, one on six or more. *)
Theorem C147_spaced_partial (n : nat) (interleaved : bool) (crc32 : bytes -> Z) sends o p l :
  1 <= n -> p <> PReadOnly -> carries interleaved o (repeat IDLE' n) ->
  Forall (fun s => fills_word n (snd s) /\ all_bytes (snd s)) sends -> cycles n sends <= length l ->
  11 <= n \/ Forall (fun s => 11 <= n * (1 + lead s)) (tl sends) ->
  exists w ls, send_all (9 * n) interleaved true crc32 sends (World 0%Z p o [] l) = (Done tt, w) /\ bus_lanes n interleaved (trace w) ls /\ well_spaced ls.
Proof.
  intros Hn Hp C B G Q. destruct (all_lanes n interleaved crc32 sends o p l) as (w & ls & R & BL & E); auto.
  exists w, ls. split; [exact R|]. split; [exact BL|]. unfold well_spaced. rewrite E.
  assert (Q' : Forall (fun s => 11 <= n * (1 + lead s)) (tl sends)) by (destruct Q as [Q|Q]; [apply Forall_forall; intros; nia|exact Q]).
  clear - Q' Hn. destruct sends as [|s1 r]; [constructor|]. cbn [tl] in Q'. revert s1. induction r as [|s2 r IH]; intro s1; [constructor|].
  cbn [spacing]. constructor; [|apply IH; exact (Forall_inv_tail Q')]. pose proof (Forall_inv Q') as X. cbv beta in X. pose proof (idles_bounds n (snd s1) Hn). unfold IPG. lia.
Qed.
Print Assumptions C147_spaced_partial.

(** ** cases: three packets of 60, 61 and 64 bytes, all in the queue *)
Definition exgap_sends : list (nat * bool * bytes) := [(0, true, repeat 1%Z 4); (0, false, repeat 2%Z 61); (0, false, repeat 3%Z 64)].
Example exgap_8 : spacing 8 exgap_sends = [16; 15] /\ cycles 8 exgap_sends = 34 /\ queued exgap_sends.
Proof. repeat split; vm_compute; repeat constructor. Qed.
Example exgap_4 : spacing 4 exgap_sends = [8; 7] /\ cycles 4 exgap_sends = 62.
Proof. split; vm_compute; reflexivity. Qed.
(** a packet of 66 bytes and a queued one on eight lanes: ten characters *)
Example exgap_66 : spacing 8 [(0, true, repeat 1%Z 66); (0, false, repeat 2%Z 60)] = [10] /\ length (padded (repeat 1%Z 66)) mod 8 = 2.
Proof. split; vm_compute; reflexivity. Qed.
(** the scanner on a small stream *)
Example exgap_scan : packet_gaps [START; data 251; TERMINATE; IDLE'; IDLE'; START; data 253; TERMINATE; START] = [3; 1].
Proof. reflexivity. Qed.
