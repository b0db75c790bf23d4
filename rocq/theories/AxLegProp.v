(** AxLegProp.v -- C128: the bursts AXI4Master requests are bursts AXI4 allows. *)
From Verif Require Import Base Async BitsLemmas HandshakeSpec AxiModel AxiSpec AxiRunProof AxiProp AxcModel AxcSpec AxcProp AxLegSpec AxLegProof ArgSpec AxNegProof.
Local Open Scope list_scope.

(** C128, what holds: whatever calls any number of tasks make, with whatever parameters and
    latencies (some refused, some failing, and on a bus with at least 12 address bits also with
    negative addresses, see C129), and however the slave takes the requests: a request
    on the address channel of writes has a beat size AXI4 allows and stays in its 4 KiB page;
    if it is no wrapping burst it is allowed; a wrapping burst is allowed exactly if it has
    more than one beat and its address is a multiple of the beat size. *)
Theorem C128_writes_partial : forall c fuel calls p oa ow l, axi_bus c ->
  Forall (fun x => ((0 <= wa_address (snd x))%Z \/ 12 <= x_awidth c) /\ on_bus c (Z.of_nat (length (wa_value (snd x)))) (wa_burst (snd x)) (wa_size (snd x))) calls ->
  p <> PReadOnly -> aw_offered oa = false -> w_offered ow = false -> length l < fuel ->
  forall o, In o (transfers aw_offered aw_accepts (ws_aw (concurrent_writes c fuel calls p oa ow l))) ->
  let q := decode c o in
  sized_ok (x_bytes c) q /\ paged_ok q /\
  (q_burst q <> WRAP -> allowed (x_bytes c) q) /\
  (q_burst q = WRAP -> In (q_beats q) [1; 2; 4; 8; 16]%Z /\ (allowed (x_bytes c) q <-> q_beats q <> 1%Z /\ (q_size q | q_address q)%Z)).
Proof.
  intros c fuel calls p oa ow l Hb F Hp O1 O2 Hl o Ho. destruct (Nat.le_gt_cases 12 (x_awidth c)) as [Hn|Hn].
  - rewrite <- (writes_norm c Hb Hn) in Ho. revert o Ho. apply writes_thm; try assumption. apply Forall_map. revert F. apply Forall_impl.
    intros [t a] [_ F]. split; [apply norm_nonneg|exact F].
  - apply (writes_thm c fuel calls p oa ow l); try assumption. revert F. apply Forall_impl. intros [t a] [F1 F2]. split; [lia|exact F2].
Qed.
Print Assumptions C128_writes_partial.

(** the same for reads *)
Theorem C128_reads_partial : forall c fuel calls p o l, axi_bus c ->
  Forall (fun x => ((0 <= ra_address (snd x))%Z \/ 12 <= x_awidth c) /\ on_bus c (ra_length (snd x)) (ra_burst (snd x)) (ra_size (snd x))) calls ->
  p <> PReadOnly -> aw_offered o = false -> length l < fuel ->
  forall r, In r (transfers aw_offered ar_accepts (rs_ar (concurrent_reads c fuel calls p o l))) ->
  let q := decode c r in
  sized_ok (x_bytes c) q /\ paged_ok q /\
  (q_burst q <> WRAP -> allowed (x_bytes c) q) /\
  (q_burst q = WRAP -> In (q_beats q) [1; 2; 4; 8; 16]%Z /\ (allowed (x_bytes c) q <-> q_beats q <> 1%Z /\ (q_size q | q_address q)%Z)).
Proof.
  intros c fuel calls p o l Hb F Hp O1 Hl r Hr. destruct (Nat.le_gt_cases 12 (x_awidth c)) as [Hn|Hn].
  - assert (E : rs_ar (concurrent_reads c fuel calls p o l) = rs_ar (concurrent_reads c fuel (map (fun x => (fst x, normr (x_awidth c) (snd x))) calls) p o l))
      by (rewrite (reads_norm c Hb Hn); reflexivity).
    rewrite E in Hr. revert r Hr. apply reads_thm; try assumption. apply Forall_map. revert F. apply Forall_impl.
    intros [t a] [_ F]. split; [apply norm_nonneg|exact F].
  - apply (reads_thm c fuel calls p o l); try assumption. revert F. apply Forall_impl. intros [t a] [F1 F2]. split; [lia|exact F2].
Qed.
Print Assumptions C128_reads_partial.

(** C128 is false: every wrapping burst of one beat, and every wrapping burst whose address is
    not a multiple of the beat size, that the checks accept is requested (with enough ready
    cycles), although AXI4 allows neither. *)
Theorem C128_refuted : forall c fuel p l, axi_bus c -> p <> PReadOnly -> length l < fuel ->
  (forall calls oa ow t a, writes_ok c fuel calls p oa ow l -> In (t, a) calls -> wa_burst a = WRAP ->
     (length (wa_value a) = 1 \/ ~ (size_or (x_bytes c) (wa_size a) | wa_address a)%Z) ->
     list_max (map fst calls) + list_sum (map (fun x => 2 + wa_alat (snd x)) calls) <= ready_cycles aw_accepts l ->
     exists o, In o (transfers aw_offered aw_accepts (ws_aw (concurrent_writes c fuel calls p oa ow l))) /\
       decode c o = Request (wa_address a) (Z.of_nat (length (wa_value a))) (size_or (x_bytes c) (wa_size a)) WRAP /\
       ~ allowed (x_bytes c) (decode c o)) /\
  (forall calls o t a, reads_ok c fuel calls p o l -> In (t, a) calls -> ra_burst a = WRAP ->
     (ra_length a = 1%Z \/ ~ (size_or (x_bytes c) (ra_size a) | ra_address a)%Z) ->
     list_max (map fst calls) + 2 * length calls <= ready_cycles ar_accepts l ->
     exists r, In r (transfers aw_offered ar_accepts (rs_ar (concurrent_reads c fuel calls p o l))) /\
       decode c r = Request (ra_address a) (ra_length a) (size_or (x_bytes c) (ra_size a)) WRAP /\
       ~ allowed (x_bytes c) (decode c r)).
Proof.
  intros c fuel p l Hb Hp Hl. split.
  - intros calls oa ow t a Ok Hin Hw Hbad Hr.
    destruct (C86_channels c fuel calls p oa ow l Ok) as (_ & _ & _ & _ & _ & _ & E). rewrite map_map in E. specialize (E Hr).
    assert (X : In (write_request c a) (map (write_request c) (map snd calls))) by (apply in_map, (in_map snd _ _ Hin)).
    rewrite <- E in X. apply in_map_iff in X. destruct X as (o & Eo & Ho). exists o. split; [exact Ho|]. rewrite Eo. unfold write_request. rewrite Hw.
    split; [reflexivity|]. intros (_ & (B & D) & _). cbn [q_beats q_size q_address] in B, D. destruct Hbad as [H|H]; [rewrite H in B; cbn in B; lia|exact (H D)].
  - intros calls o t a Ok Hin Hw Hbad Hr.
    destruct (C87_requests c fuel calls p o l Ok) as (_ & _ & _ & E). specialize (E Hr).
    assert (X : In (read_request c a) (map (read_request c) (map snd calls))) by (apply in_map, (in_map snd _ _ Hin)).
    rewrite <- E in X. apply in_map_iff in X. destruct X as (q & Eq & Hq). exists q. split; [exact Hq|]. rewrite Eq. unfold read_request. rewrite Hw.
    split; [reflexivity|]. intros (_ & (B & D) & _). cbn [q_beats q_size q_address] in B, D. destruct Hbad as [H|H]; [rewrite H in B; cbn in B; lia|exact (H D)].
Qed.
Print Assumptions C128_refuted.

(** Examples: on a bus of 64 bits a wrapping write of two 4-byte beats at 4098, one of a single
    beat, and an incrementing one: all three are requested, only the last is allowed. *)
Definition lg_calls : list (nat * waccess) :=
  [(0, WAccess 4098 [1; 2]%Z (Some 4%Z) WRAP [None] 0 0 true); (0, WAccess 4096 [3]%Z (Some 4%Z) WRAP [None] 0 0 true);
   (0, WAccess 4098 [4; 5; 6]%Z (Some 4%Z) INCR [None] 0 0 true)].
Definition lg_l : list axi_in := repeat (exc_in L1 L1 L0 0) 12.
Example lg_ok : writes_ok ex_c 20 lg_calls PActive ex_oa ex_ow lg_l.
Proof.
  split; [exact ex_axi_bus|]. split; [|split; [discriminate|split; [reflexivity|split; [reflexivity|cbn; lia]]]].
  assert (Hs : forall s : Z, Some 4%Z = Some s -> legal_size (x_bytes ex_c) s).
  { intros s [= <-]. split; [exists 2%Z; split; [lia|reflexivity]|vm_compute; discriminate]. }
  repeat (apply Forall_cons; [|]); try apply Forall_nil; cbn [snd];
    (split; [|split; [unfold fits_bits; cbn; lia|split; [discriminate|split; left; reflexivity]]]); (split; [exact Hs|]); cbn [wa_burst wa_value wa_address wa_size length].
  - split; [cbn; auto|discriminate].
  - split; [cbn; auto|discriminate].
  - split; [cbn; lia|]. intros _ x [H3 H4]. cbn [size_or] in *. change (aligned 4098 4) with 4096%Z in H4. unfold same_page.
    change (4098 / 4096)%Z with 1%Z. apply (Z.div_unique_pos _ _ _ (x - 4096)); lia.
Qed.
Example lg_enough : list_max (map fst lg_calls) + list_sum (map (fun x => 2 + wa_alat (snd x)) lg_calls) <= ready_cycles aw_accepts lg_l.
Proof. vm_compute. lia. Qed.
Example lg_run : map (decode ex_c) (transfers aw_offered aw_accepts (ws_aw (concurrent_writes ex_c 20 lg_calls PActive ex_oa ex_ow lg_l)))
  = [Request 4098 2 4 WRAP; Request 4096 1 4 WRAP; Request 4098 3 4 INCR]%Z.
Proof. vm_compute. reflexivity. Qed.
Example lg_allowed : allowed 8 (Request 4098 3 4 INCR).
Proof.
  assert (H : In (Request 4098 3 4 INCR) (map (decode ex_c) (transfers aw_offered aw_accepts (ws_aw (concurrent_writes ex_c 20 lg_calls PActive ex_oa ex_ow lg_l)))))
    by (rewrite lg_run; cbn [In]; auto).
  set (ts := transfers _ _ _) in H. pose proof (proj1 (in_map_iff (decode ex_c) ts (Request 4098 3 4 INCR)) H) as (o & E & Ho). clear H.
  assert (F : Forall (fun x => ((0 <= wa_address (snd x))%Z \/ 12 <= x_awidth ex_c) /\ on_bus ex_c (Z.of_nat (length (wa_value (snd x)))) (wa_burst (snd x)) (wa_size (snd x))) lg_calls).
  { repeat (apply Forall_cons; [split; [left; cbn; lia|left; reflexivity]|]); apply Forall_nil. }
  assert (L : length lg_l < 20) by (cbn; lia). assert (P : PActive <> PReadOnly) by discriminate.
  destruct (C128_writes_partial ex_c 20 lg_calls PActive ex_oa ex_ow lg_l ex_axi_bus F P eq_refl eq_refl L o Ho) as (_ & _ & H & _).
  rewrite E in H. change (x_bytes ex_c) with 8%Z in H. apply H. discriminate.
Qed.
