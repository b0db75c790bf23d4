(** AxuProp.v -- C131: an undefined response fails only the access it answers. *)
From Verif Require Import Base Async BitsLemmas CompatModel HandshakeSpec AxiModel AxiSpec AxiTopProof AxiProp AxcModel AxuSpec AxuProof.
Local Open Scope list_scope.

(** C131, read, what holds: a read one of whose beats has an undefined RRESP raises ValueError
    in the cycle of the first such beat (it is not taken as OKAY), with ARVALID low; a read made
    then returns the data of the memory, if the beats after its address handshake are those of
    its own burst (that is, if no beat of the failed burst comes later than that). *)
Theorem C131_read_partial c fuel a1 s p o tr l pre w h seg f tl a2 w2 h2 seg2 f2 tl2 mems :
  read_ok c fuel a1 p l -> undefined_cycles c (ra_sync a1) l pre w h seg f tl ->
  let r1 := axi_read c fuel a1 (AW s p o tr l) in
  fst r1 = Exn EValue /\ fst (axi_read_rresp c fuel a1 (AW s p o tr l)) = Exn EValue /\
  ins (snd r1) = f :: tl /\ aw_offered (out (snd r1)) = false /\
  (read_ok c fuel a2 PReadOnly (f :: tl) -> read_cycles c true (f :: tl) [f] w2 h2 seg2 f2 tl2 -> x_full c = true ->
   (ra_burst a2 = WRAP -> wrap_smooth (x_bytes c) (ra_address a2) (size_or (x_bytes c) (ra_size a2)) (ra_length a2)) ->
   (ra_burst a2 <> FIXED -> forall i, mems i = mems 0) ->
   let size := size_or (x_bytes c) (ra_size a2) in
   let bs := filter r_beat (seg2 ++ [f2]) in
   slave_reads c (ax_request c (out (snd r1)) (ra_address a2) (ra_length a2) (ra_burst a2) size) mems bs ->
   first_bad (map rresp_of bs) = None ->
   fst (axi_read c fuel a2 (snd r1)) = Done (read_words (ra_burst a2) mems (ra_address a2) size (Z.to_nat (ra_length a2)))).
Proof.
  intros H1 U r1. destruct (undefined_read c fuel a1 s p o tr l pre w h seg f tl H1 U) as [E1 E2]. cbn zeta in E1, E2.
  unfold r1. rewrite E1, E2. cbn [fst snd ins out]. do 4 (split; [reflexivity|]).
  intros H2 C2 Hx Hw Hm S B.
  assert (Sy : ra_sync a2 = true) by (destruct (ra_sync a2) eqn:E; [reflexivity|]; exfalso; apply (ro_start _ _ _ _ _ H2 E); reflexivity).
  rewrite <- Sy in C2.
  exact (proj2 (C53_read c fuel a2 _ PReadOnly _ _ (f :: tl) [f] w2 h2 seg2 f2 tl2 mems H2 C2 Hx Hw Hm S) B).
Qed.
Print Assumptions C131_read_partial.

(** C131, AXI4-Lite: a burst has one beat, so that nothing of the failed read can be left; a
    read made then gives what the beat after its own address handshake says. *)
Theorem C131_lite_read c fuel ad1 sync1 s p o tr l pre w h seg f tl ad2 w2 h2 seg2 f2 tl2 mem :
  axi_bus c -> fits_bits (x_awidth c) ad1 -> fits_bits (x_awidth c) ad2 -> may_start sync1 p -> length l < fuel ->
  undefined_cycles (lite_cfg c) sync1 l pre w h seg f tl ->
  let r1 := lite_read c fuel ad1 sync1 (AW s p o tr l) in
  fst r1 = Exn EValue /\ ins (snd r1) = f :: tl /\ aw_offered (out (snd r1)) = false /\
  (read_cycles (lite_cfg c) true (f :: tl) [f] w2 h2 seg2 f2 tl2 ->
   (forall x, length (mem x) = 8) -> read_beat_ok (x_bytes c) INCR (x_bytes c) 1 ad2 mem 0 (g_rdata f2) ->
   fst (lite_read c fuel ad2 true (snd r1)) =
     (if (rresp_of f2 =? 0)%Z then Done (cells mem ad2 (Z.to_nat (x_bytes c - ad2 mod x_bytes c))) else Exn (EAXIProtocol (rresp_of f2)))).
Proof.
  intros Hb Ha1 Ha2 Hp Hf U r1.
  assert (L : forall a, legal_access (x_bytes (lite_cfg c)) a 1 None INCR).
  { intro a. exact (lite_legal c a Hb). }
  destruct (undefined_read (lite_cfg c) fuel (RAccess ad1 1 None INCR sync1) s p o tr l pre w h seg f tl) as [_ E].
  { constructor; cbn [ra_address ra_length ra_size ra_burst ra_sync]; try assumption. apply L. }
  { exact U. }
  unfold r1. match type of E with _ = (_, ?v) => assert (E' : lite_read c fuel ad1 sync1 (AW s p o tr l) = (Exn EValue, v)) end.
  { unfold lite_read, bind. rewrite E. reflexivity. }
  rewrite E'. cbn [fst snd ins out]. do 3 (split; [reflexivity|]).
  intros C2 Hm Hr. refine (proj1 (C59_read c fuel ad2 true _ PReadOnly _ _ (f :: tl) [f] w2 h2 seg2 f2 tl2 mem Hb Ha2 _ _ C2 Hm Hr)).
  - discriminate.
  - destruct U as [El _ _ _ _ _ _ _ _]. subst l. rewrite !app_length in Hf. cbn [length] in *. rewrite app_length in Hf. cbn [length] in Hf. lia.
Qed.
Print Assumptions C131_lite_read.

(** C131, write, what holds: a write whose response is undefined raises ValueError, and nothing
    of it is left on the bus; the outcome of a write made then is that of the first response
    after its own handshakes, in a later cycle than the undefined one. *)
Theorem C131_write_partial c fuel a1 p oa ow l a2 :
  write_ok c fuel a1 p oa ow l ->
  let r1 := axi_write c fuel a1 p oa ow l in wr_result r1 = Exn EValue ->
  aw_offered (wr_aw_out r1) = false /\ w_offered (wr_w_out r1) = false /\
  exists i1 later, wr_rest r1 = i1 :: later /\ b_valid i1 = true /\ bval (g_bresp i1) = None /\
  (let r2 := axi_write c fuel a2 PReadOnly (wr_aw_out r1) (wr_w_out r1) (wr_rest r1) in
   write_ok c fuel a2 PReadOnly (wr_aw_out r1) (wr_w_out r1) (wr_rest r1) -> wr_result r2 <> Susp ->
   exists done nr i rest, later = done ++ nr ++ i :: rest /\
  transfers aw_offered aw_accepts (firstn (1 + length done) (wr_aw r2)) = transfers aw_offered aw_accepts (wr_aw r2) /\
  transfers w_offered w_accepts (firstn (1 + length done) (wr_w r2)) = transfers w_offered w_accepts (wr_w r2) /\
  Forall (fun i => b_valid i = false) nr /\ b_valid i = true /\ wr_result r2 = response_outcome (g_bresp i)).
Proof.
  intros H1 r1 E1.
  destruct (C56_partial c fuel a1 p oa ow l H1) as (beats & _ & _ & _ & _ & _ & _ & O1 & _). cbn zeta in O1. fold r1 in O1.
  destruct (O1 ltac:(rewrite E1; discriminate)) as (_ & _ & Oa & Ow). split; [exact Oa|]. split; [exact Ow|].
  destruct (C57_write_response c fuel a1 p oa ow l H1 ltac:(fold r1; rewrite E1; discriminate)) as (done & nr & i & rest & El & _ & _ & B & R & Re).
  fold r1 in R, Re. rewrite E1 in R. unfold response_outcome in R.
  destruct (bval (g_bresp i)) as [v|] eqn:V; [destruct (v =? 0)%Z; discriminate|].
  exists i, rest. split; [exact Re|]. split; [exact B|]. split; [exact V|]. intros r2 H2 N2.
  destruct (C57_write_response c fuel a2 _ _ _ _ H2 N2) as (done2 & nr2 & i2 & rest2 & El2 & [K1 K2] & F2 & B2 & R2 & _). fold r2 in K1, K2, R2.
  destruct (C56_partial c fuel a2 _ _ _ _ H2) as (beats2 & _ & _ & _ & _ & _ & _ & O2 & _). cbn zeta in O2. fold r2 in O2.
  destruct (O2 N2) as (T2 & _).
  destruct done2 as [|x done2].
  { exfalso. destruct K1 as [K1 _]. cbn [length firstn] in K1. rewrite T2 in K1. discriminate. }
  rewrite Re in El2. cbn [app] in El2. exists done2, nr2, i2, rest2. split; [congruence|]. cbn [length] in K1. cbn [plus]. tauto.
Qed.
Print Assumptions C131_write_partial.

(** ** The full claim is false *)
Definition u_out := AxOut L0 (zbits 8 0) (zbits 2 0) (zbits 8 0) (zbits 3 0).
Definition u_cfg := AxiCfg 8 8 true true.
Definition u_mem (x : Z) : bits := zbits 8 x.
(** what the slave drives: ARREADY, and a beat *)
Definition u_in (ready : logic) (b : option (Z * bits * logic)) : axi_in :=
  match b with
  | None => AxiIn L1 L1 L0 (zbits 2 0) ready L0 (zbits 2 0) (zbits 8 0) L0
  | Some (d, resp, last) => AxiIn L1 L1 L0 (zbits 2 0) ready L1 resp (zbits 8 d) last
  end.
Definition undef2 : bits := [LX; LX].
Lemma u_ok address n p l : (1 <= n <= 2)%Z -> (0 <= address < 64)%Z -> length l < 20 ->
  read_ok u_cfg 20 (RAccess address n None INCR true) p l.
Proof.
  intros Hn Ha Hl. constructor; cbn [ra_address ra_length ra_size ra_burst ra_sync].
  - split; [exists 0%Z; split; [lia|reflexivity]|]. split; [vm_compute; discriminate|reflexivity].
  - split; [discriminate|]. split; [cbn; lia|]. intros _ x Hx. change (size_or (x_bytes u_cfg) None) with 1%Z in Hx.
    unfold incr_bytes, aligned in Hx. unfold same_page. rewrite Z.div_1_r in Hx. rewrite (Z.div_small address), (Z.div_small x) by lia. reflexivity.
  - cbn [x_awidth u_cfg]. unfold fits_bits. change (2 ^ Z.of_nat 8)%Z with 256%Z. lia.
  - discriminate.
  - exact Hl.
Qed.
(** on a bus of one byte a slave sends the bytes in order *)
Lemma u_slave address n o bs : (1 <= n <= 2)%Z -> (0 <= address < 64)%Z -> Z.of_nat (length bs) = n ->
  (forall i b, nth_error bs i = Some b -> g_rdata b = u_mem (address + Z.of_nat i)) ->
  slave_reads u_cfg (ax_request u_cfg o address n INCR (x_bytes u_cfg)) (fun _ => u_mem) bs.
Proof.
  intros Hn Ha Hl H. unfold slave_reads. change (x_bytes u_cfg) with 1%Z. rewrite decode_request.
  - cbn [q_beats q_size q_burst q_address]. split; [exact Hl|]. split; [intros; apply zbits_length|].
    intros i b Hi. specialize (H i b Hi). unfold read_beat_ok. rewrite H. unfold u_mem.
    assert (E : beat_address INCR 1 n address (Z.of_nat i) = (address + Z.of_nat i)%Z).
    { unfold beat_address, aligned. rewrite Z.div_1_r. destruct (Z.eqb_spec (Z.of_nat i) 0); lia. }
    cbn zeta. rewrite E. split; [rewrite zbits_length; reflexivity|]. intros k Hk. unfold lanes, aligned in Hk. rewrite !Z.mod_1_r in Hk.
    replace k with 0%Z by lia. rewrite Z.div_1_r. replace ((address + Z.of_nat i) * 1 + 0)%Z with (address + Z.of_nat i)%Z by lia.
    unfold lane_bits. change (Z.to_nat (8 * 0)) with 0. cbn [skipn]. rewrite firstn_all2 by (rewrite rev_length, zbits_length; lia). apply rev_involutive.
  - cbn [x_awidth u_cfg]. unfold fits_bits. change (2 ^ Z.of_nat 8)%Z with 256%Z. lia.
  - lia.
  - exists 0%Z. split; [lia|reflexivity].
  - lia.
  - left. reflexivity.
Qed.

(** C131, refuted for bursts: two reads one after the other from a conforming slave: the first
    (addresses 16 and 17) fails because the response of its first beat is undefined; the second
    (address 32) returns the byte of address 17, without an error. *)
Theorem C131_burst_refuted : exists c fuel a1 a2 o l b1 b2,
  read_ok c fuel a1 PActive l /\
  let '(r1, v) := axi_read c fuel a1 (AW tt PActive o [] l) in
  r1 = Exn EValue /\ read_ok c fuel a2 (ph v) (ins v) /\
  filter r_beat l = b1 ++ b2 /\ filter r_beat (tl (ins v)) = tl b1 ++ b2 /\
  slave_reads c (ax_request c o (ra_address a1) (ra_length a1) (ra_burst a1) (x_bytes c)) (fun _ => u_mem) b1 /\
  slave_reads c (ax_request c (out v) (ra_address a2) (ra_length a2) (ra_burst a2) (x_bytes c)) (fun _ => u_mem) b2 /\
  map g_rlast b1 = [L0; L1] /\ map g_rlast b2 = [L1] /\ map rresp_of b2 = [0%Z] /\
  fst (axi_read c fuel a2 v) = Done [u_mem 17] /\
  [u_mem 17] <> read_words (ra_burst a2) (fun _ => u_mem) (ra_address a2) (x_bytes c) (Z.to_nat (ra_length a2)).
Proof.
  set (b0 := u_in L0 (Some (16%Z, undef2, L0))). set (b1 := u_in L0 (Some (17%Z, zbits 2 0, L1))). set (b2 := u_in L0 (Some (32%Z, zbits 2 0, L1))).
  set (l := [u_in L0 None; u_in L1 None; b0; u_in L1 None; b1; b2; u_in L0 None]).
  exists u_cfg, 20, (RAccess 16 2 None INCR true), (RAccess 32 1 None INCR true), u_out, l, [b0; b1], [b2].
  split; [apply u_ok; cbn [length l]; lia|].
  destruct (axi_read u_cfg 20 (RAccess 16 2 None INCR true) (AW tt PActive u_out [] l)) as [r1 v] eqn:E.
  vm_compute in E. injection E as <- <-. cbn [ph ins out ra_address ra_length ra_burst].
  split; [reflexivity|]. split; [apply u_ok; cbn [length]; lia|]. split; [reflexivity|]. split; [reflexivity|].
  split. { apply u_slave; try lia; [reflexivity|]. intros [|[|[|i]]] b H; cbn in H; inversion H; reflexivity. }
  split. { apply u_slave; try lia; [reflexivity|]. intros [|[|i]] b H; cbn in H; inversion H; reflexivity. }
  do 3 (split; [reflexivity|]). split; [vm_compute; reflexivity|]. vm_compute. discriminate.
Qed.
Print Assumptions C131_burst_refuted.

(** C131, refuted for reads of several tasks, also of single beats: the task that waits for the
    data channel when the first read raises continues in the ReadOnly phase and fails with
    RuntimeError, although the beat of its own read is right. *)
Theorem C131_concurrent_refuted : exists c fuel a1 a2 o l b1 b2,
  read_ok c fuel a1 PActive l /\ read_ok c fuel a2 PActive l /\
  filter r_beat l = [b1; b2] /\ bval (g_rresp b1) = None /\
  slave_reads c (ax_request c o (ra_address a1) (ra_length a1) (ra_burst a1) (x_bytes c)) (fun _ => u_mem) [b1] /\
  slave_reads c (ax_request c o (ra_address a2) (ra_length a2) (ra_burst a2) (x_bytes c)) (fun _ => u_mem) [b2] /\
  g_rlast b1 = L1 /\ g_rlast b2 = L1 /\ rresp_of b2 = 0%Z /\
  rs_results (concurrent_reads c fuel [(0, a1); (0, a2)] PActive o l) = [(a1, Exn EValue); (a2, Exn ERuntime)].
Proof.
  set (b1 := u_in L0 (Some (16%Z, undef2, L1))). set (b2 := u_in L0 (Some (32%Z, zbits 2 0, L1))).
  set (l := [u_in L0 None; u_in L1 None; u_in L1 None; u_in L1 None; b1; b2; u_in L0 None]).
  exists u_cfg, 20, (RAccess 16 1 None INCR true), (RAccess 32 1 None INCR true), u_out, l, b1, b2.
  split; [apply u_ok; cbn [length l]; lia|]. split; [apply u_ok; cbn [length l]; lia|].
  do 2 (split; [reflexivity|]). cbn [ra_address ra_length ra_burst].
  split. { apply u_slave; try lia; [reflexivity|]. intros [|[|i]] b H; cbn in H; inversion H; reflexivity. }
  split. { apply u_slave; try lia; [reflexivity|]. intros [|[|i]] b H; cbn in H; inversion H; reflexivity. }
  do 3 (split; [reflexivity|]). vm_compute. reflexivity.
Qed.
Print Assumptions C131_concurrent_refuted.

(** C131, refuted for writes of several tasks in the same way: the responses on the bus are an
    undefined one and then OKAY. *)
Definition u_wout := WOut L0 (zbits 8 0) (zbits 1 0) L0.
Definition u_b (resp : option bits) : axi_in :=
  AxiIn L1 L1 (match resp with Some _ => L1 | None => L0 end) (match resp with Some r => r | None => zbits 2 0 end) L0 L0 (zbits 2 0) (zbits 8 0) L0.
Definition u_write address v := WAccess address [v] None INCR [None] 0 0 true.
Lemma u_wok address v p oa ow l : (0 <= address < 64)%Z -> aw_offered oa = false -> w_offered ow = false -> length l < 20 ->
  write_ok u_cfg 20 (u_write address v) p oa ow l.
Proof.
  intros Ha Oa Ow Hl. pose proof (u_ok address 1 p l ltac:(lia) Ha Hl) as [H1 H2 H3 H4 H5].
  constructor; cbn [wa_address wa_value wa_size wa_burst wa_be wa_alat wa_dlat wa_sync u_write]; try assumption; try discriminate. left; reflexivity.
Qed.
Theorem C131_concurrent_writes_refuted : exists c fuel a1 a2 oa ow l,
  write_ok c fuel a1 PActive oa ow l /\ write_ok c fuel a2 PActive oa ow l /\
  (exists b1 b2, filter b_valid l = [b1; b2] /\ bval (g_bresp b1) = None /\ response_outcome (g_bresp b2) = Done tt) /\
  let r := concurrent_writes c fuel [(0, a1); (0, a2)] PActive oa ow l in
  length (transfers aw_offered aw_accepts (ws_aw r)) = 2 /\ length (transfers w_offered w_accepts (ws_w r)) = 2 /\
  ws_results r = [(0, Exn EValue); (1, Exn ERuntime)].
Proof.
  set (l := [u_b None; u_b None; u_b None; u_b None; u_b None; u_b (Some undef2); u_b (Some (zbits 2 0)); u_b None]).
  exists u_cfg, 20, (u_write 16 7), (u_write 32 9), u_out, u_wout, l.
  split; [apply u_wok; try reflexivity; cbn [length l]; lia|]. split; [apply u_wok; try reflexivity; cbn [length l]; lia|].
  split. { eexists _, _. split; [reflexivity|]. split; reflexivity. }
  cbn zeta. split; [vm_compute; reflexivity|]. split; vm_compute; reflexivity.
Qed.
Print Assumptions C131_concurrent_writes_refuted.

Ltac u_cycles := constructor; try reflexivity; cbn [app]; repeat (apply Forall_cons || apply Forall_nil);
  try reflexivity; let H := fresh in intro H; try discriminate H; (split; [reflexivity|discriminate]).
(** Examples: the hypotheses of the theorems above.  Reads of two beats at 16, the second
    undefined, then of two beats at 32; and writes. *)
Definition exu_f := u_in L0 (Some (17%Z, undef2, L1)).
Definition exu_tl := [u_in L1 None; u_in L0 (Some (32%Z, zbits 2 0, L0)); u_in L0 None; u_in L0 (Some (33%Z, zbits 2 0, L1))].
Definition exu_l := [u_in L0 None; u_in L0 None; u_in L1 None; u_in L0 (Some (16%Z, zbits 2 0, L0))] ++ exu_f :: exu_tl.
Example exu_first : read_ok u_cfg 20 (RAccess 16 2 None INCR true) PActive exu_l /\
  undefined_cycles u_cfg true exu_l [u_in L0 None] [u_in L0 None] (u_in L1 None) [u_in L0 (Some (16%Z, zbits 2 0, L0))] exu_f exu_tl.
Proof.
  split; [apply u_ok; cbn; lia|]. u_cycles.
Qed.
Example exu_second : let r1 := axi_read u_cfg 20 (RAccess 16 2 None INCR true) (AW tt PActive u_out [] exu_l) in
  read_ok u_cfg 20 (RAccess 32 2 None INCR true) PReadOnly (exu_f :: exu_tl) /\
  read_cycles u_cfg true (exu_f :: exu_tl) [exu_f] [] (u_in L1 None)
    [u_in L0 (Some (32%Z, zbits 2 0, L0)); u_in L0 None] (u_in L0 (Some (33%Z, zbits 2 0, L1))) [] /\
  slave_reads u_cfg (ax_request u_cfg (out (snd r1)) 32 2 INCR 1) (fun _ => u_mem) [u_in L0 (Some (32%Z, zbits 2 0, L0)); u_in L0 (Some (33%Z, zbits 2 0, L1))] /\
  fst (axi_read u_cfg 20 (RAccess 32 2 None INCR true) (snd r1)) = Done [u_mem 32; u_mem 33].
Proof.
  cbn zeta. split; [apply u_ok; cbn; lia|]. split.
  - u_cycles.
  - split; [|vm_compute; reflexivity]. apply u_slave; try lia; [reflexivity|]. intros [|[|[|i]]] b H; cbn in H; inversion H; reflexivity.
Qed.
Definition exu_wl := [u_b None; u_b None; u_b None; u_b (Some undef2); u_b None; u_b None; u_b None; u_b (Some (zbits 2 2))].
Example exu_writes : let r1 := axi_write u_cfg 20 (u_write 16 7) PActive u_out u_wout exu_wl in
  let r2 := axi_write u_cfg 20 (u_write 32 9) PReadOnly (wr_aw_out r1) (wr_w_out r1) (wr_rest r1) in
  write_ok u_cfg 20 (u_write 16 7) PActive u_out u_wout exu_wl /\ wr_result r1 = Exn EValue /\
  write_ok u_cfg 20 (u_write 32 9) PReadOnly (wr_aw_out r1) (wr_w_out r1) (wr_rest r1) /\ wr_result r2 = Exn (EAXIProtocol 2).
Proof.
  cbn zeta. split; [apply u_wok; try reflexivity; cbn; lia|]. split; [vm_compute; reflexivity|].
  split; [apply u_wok; try (vm_compute; reflexivity); [lia|vm_compute; lia]|vm_compute; reflexivity].
Qed.
Definition exu_ll := [u_in L0 None; u_in L1 None; u_in L0 (Some (16%Z, undef2, L0)); u_in L1 None; u_in L0 (Some (32%Z, zbits 2 0, L0))].
Example exu_lite : let r1 := lite_read u_cfg 20 16 true (AW tt PActive u_out [] exu_ll) in
  undefined_cycles (lite_cfg u_cfg) true exu_ll [u_in L0 None] [] (u_in L1 None) [] (u_in L0 (Some (16%Z, undef2, L0))) (skipn 3 exu_ll) /\
  read_cycles (lite_cfg u_cfg) true (skipn 2 exu_ll) [u_in L0 (Some (16%Z, undef2, L0))] [] (u_in L1 None) [] (u_in L0 (Some (32%Z, zbits 2 0, L0))) [] /\
  fst (lite_read u_cfg 20 32 true (snd r1)) = Done (u_mem 32).
Proof.
  cbn zeta. split; [|split; [|vm_compute; reflexivity]]; u_cycles.
Qed.
