(** ArgProp.v -- C129: operands that do not fit the signals. *)
From Verif Require Import Base Async BitsLemmas CompatModel PktModel MMModel OpbModel AxiModel AxiSpec AxiProp AxcModel HandshakeSpec ArgSpec ArgProof AxNegProof.
Local Open Scope Z_scope.
Local Open Scope list_scope.

(** C129 is false of the code.  AvalonMaster: a negative address or value is accepted, and the
    access is, cycle by cycle, the one for the address or value plus 2^width. *)
Theorem C129_avalon_refuted :
  forall c fuel address value sync w,
    (negative (a_width c) address ->
       mm_write c fuel address value w = mm_write c fuel (wrapped (a_width c) address) value w /\
       mm_read c fuel address sync w = mm_read c fuel (wrapped (a_width c) address) sync w) /\
    (negative (d_width c) value ->
       mm_write c fuel address value w = mm_write c fuel address (wrapped (d_width c) value) w).
Proof. exact mm_negative. Qed.
Print Assumptions C129_avalon_refuted.

(** OPBMaster: likewise. *)
Theorem C129_opb_refuted :
  forall c before fuel address value sync w,
    (negative (p_aw c) address ->
       opb_write c before fuel address value sync w = opb_write c before fuel (wrapped (p_aw c) address) value sync w /\
       opb_read c before fuel address sync w = opb_read c before fuel (wrapped (p_aw c) address) sync w) /\
    (negative (p_dw c) value ->
       opb_write c before fuel address value sync w = opb_write c before fuel address (wrapped (p_dw c) value) sync w).
Proof. exact opb_negative. Qed.
Print Assumptions C129_opb_refuted.

(** OPBMaster.write of a value that is too big raises ValueError, but the write has been put on the
    bus before: select is asserted with RNW low and the address, and stays so, and DBus_out holds
    what it held before.  The slave sees a write of the old data. *)
Theorem C129_opb_write_refuted :
  forall c before fuel address value p o tr i0 l,
    0 <= address < 2 ^ Z.of_nat (p_aw c) -> (4 <= p_bew c)%nat -> too_big (p_dw c) value ->
    exists w, opb_write c before fuel address value true (World false p o tr (i0 :: l)) = (Exn EValue, w) /\
      trace w = tr ++ [(i0, o)] /\ ins w = l /\
      p_select (out w) = L1 /\ p_rnw (out w) = L0 /\ bval (p_abus (out w)) = Some address /\ p_dout_w (out w) = p_dout_w o.
Proof.
  intros c before fuel address value p o tr i0 l Ha Hb Hv.
  assert (A : assign_int (p_aw c) address = Ok (zbits (p_aw c) address)).
  { apply assign_in. assert (0 < 2 ^ (Z.of_nat (p_aw c) - 1) \/ 2 ^ (Z.of_nat (p_aw c) - 1) = 0) by (pose proof (Z.pow_nonneg 2 (Z.of_nat (p_aw c) - 1) ltac:(lia)); lia). lia. }
  assert (B : exists be, assign_int (p_bew c) 15 = Ok be).
  { eexists. apply assign_in. assert (2 ^ 4 <= 2 ^ Z.of_nat (p_bew c)) by (apply Z.pow_le_mono_r; lia).
    pose proof (Z.pow_nonneg 2 (Z.of_nat (p_bew c) - 1) ltac:(lia)). change (2 ^ 4) with 16 in *. lia. }
  destruct B as [be B]. pose proof (assign_out _ _ Hv) as C.
  eexists. split.
  - unfold opb_write. rewrite A, B, C. unfold bind, acquire_lock. cbn. reflexivity.
  - cbn. repeat split. rewrite bval_zbits, Z.mod_small by exact Ha. reflexivity.
Qed.
Print Assumptions C129_opb_write_refuted.

(** AXI4Master.write: values are cut to the beat size and byte enables to one bit per byte, whatever
    they are; the write is that of the cut operands in every cycle of both channels. *)
Theorem C129_axi_values_refuted :
  forall c fuel a p oa ow l, axi_bus c ->
    let s := size_or (x_bytes c) (wa_size a) in
    axi_write c fuel a p oa ow l =
    axi_write c fuel (WAccess (wa_address a) (map (fun v => v mod 2 ^ (8 * s)) (wa_value a)) (wa_size a) (wa_burst a)
                              (map (option_map (fun e => e mod 2 ^ s)) (wa_be a)) (wa_alat a) (wa_dlat a) (wa_sync a)) p oa ow l.
Proof. intros c fuel a p oa ow l Hb s. symmetry. apply (axi_values c fuel a p oa ow l Hb). Qed.
Print Assumptions C129_axi_values_refuted.

(** AXI4Master: negative addresses wrap as well, also in the check for 4 KiB pages, in the lanes of
    the data and in the realignment. *)
Theorem C129_axi_addresses_refuted :
  forall c, axi_bus c -> (12 <= x_awidth c)%nat ->
    (forall fuel a p oa ow l, negative (x_awidth c) (wa_address a) ->
       axi_write c fuel a p oa ow l =
       axi_write c fuel (WAccess (wrapped (x_awidth c) (wa_address a)) (wa_value a) (wa_size a) (wa_burst a)
                                 (wa_be a) (wa_alat a) (wa_dlat a) (wa_sync a)) p oa ow l) /\
    (forall fuel a w, negative (x_awidth c) (ra_address a) ->
       let a' := RAccess (wrapped (x_awidth c) (ra_address a)) (ra_length a) (ra_size a) (ra_burst a) (ra_sync a) in
       axi_read c fuel a w = axi_read c fuel a' w /\ axi_read_rresp c fuel a w = axi_read_rresp c fuel a' w).
Proof.
  intros c Hb Hn. split.
  - intros fuel a p oa ow l Ha. symmetry. apply (write_negative c fuel a p oa ow l Hb Hn Ha).
  - intros fuel a w Ha a'. destruct (read_negative c fuel a w Hb Hn Ha) as [A B]. split; symmetry; assumption.
Qed.
Print Assumptions C129_axi_addresses_refuted.

(** The same for any number of tasks: the cycles and the results are those of the calls with the
    addresses as shown (which are not negative; C86, C87, C90, C91 and C128 are about these). *)
Theorem C129_axi_concurrent_refuted :
  forall c, axi_bus c -> (12 <= x_awidth c)%nat ->
    let w' a := WAccess (shown (x_awidth c) (wa_address a)) (wa_value a) (wa_size a) (wa_burst a) (wa_be a) (wa_alat a) (wa_dlat a) (wa_sync a) in
    let r' a := RAccess (shown (x_awidth c) (ra_address a)) (ra_length a) (ra_size a) (ra_burst a) (ra_sync a) in
    (forall fuel calls p oa ow l,
       concurrent_writes c fuel (map (fun x => (fst x, w' (snd x))) calls) p oa ow l = concurrent_writes c fuel calls p oa ow l) /\
    (forall fuel calls p o l,
       let r := concurrent_reads c fuel calls p o l in
       concurrent_reads c fuel (map (fun x => (fst x, r' (snd x))) calls) p o l =
       ReadsRun (rs_ar r) (map (fun x => (r' (fst x), snd x)) (rs_results r))) /\
    forall a, 0 <= shown (x_awidth c) a.
Proof.
  intros c Hb Hn w' r'. split; [|split].
  - apply (writes_norm c Hb Hn).
  - apply (reads_norm c Hb Hn).
  - apply norm_nonneg.
Qed.
Print Assumptions C129_axi_concurrent_refuted.

(** What holds: an operand with no representation raises ValueError, and (with the exception above)
    nothing has been requested on the bus by then: read, write and select are as they were. *)
Theorem C129_avalon_partial :
  forall c fuel address value p o tr i0 l,
    let w0 := World false p o tr (i0 :: l) in
    let rejected (A : Type) (r : outcome A * world bool mm_in mm_out) :=
      fst r = Exn EValue /\ trace (snd r) = tr ++ [(i0, o)] /\ ins (snd r) = l /\
      q_read (out (snd r)) = q_read o /\ q_write (out (snd r)) = q_write o /\ q_cs (out (snd r)) = q_cs o in
    (a_write c = true -> too_big (a_width c) address \/ too_big (d_width c) value ->
       rejected unit (mm_write c fuel address value w0)) /\
    (a_read c = true -> too_big (a_width c) address -> rejected bits (mm_read c fuel address true w0)).
Proof.
  intros c fuel address value p o tr i0 l w0 rejected. split.
  - intros W H. unfold rejected, mm_write. rewrite W. unfold bind, acquire_lock, w0. cbn.
    destruct (assign_int (a_width c) address) as [a|e] eqn:A.
    + destruct H as [H|H]; [rewrite (assign_out _ _ H) in A; discriminate|]. rewrite (assign_out _ _ H). cbn. repeat split.
    + assert (e = EValue) as -> by (unfold assign_int in A; destruct (_ && _); congruence). cbn. repeat split.
  - intros W H. unfold rejected, mm_read. rewrite W, (assign_out _ _ H). unfold bind, acquire_lock, w0. cbn. repeat split.
Qed.
Print Assumptions C129_avalon_partial.

Theorem C129_opb_partial :
  forall c before fuel address value p o tr i0 l, too_big (p_aw c) address ->
    let w0 := World false p o tr (i0 :: l) in
    let w1 := World true PActive o (tr ++ [(i0, o)]) l in
    opb_write c before fuel address value true w0 = (Exn EValue, w1) /\
    opb_read c before fuel address true w0 = (Exn EValue, w1).
Proof.
  intros c before fuel address value p o tr i0 l H w0 w1. unfold opb_write, opb_read. rewrite (assign_out _ _ H).
  unfold bind, acquire_lock, w0. cbn. split; reflexivity.
Qed.
Print Assumptions C129_opb_partial.

(** Operands that fit are shown as they are: C41, C42 and C76; AXI addresses that are too big, C90. *)

(** Examples: a write of -1 to address -4 of an 8-bit Avalon bus ends without an exception, having
    written 255 to 252; a value of 300 written to OPB. *)
Definition ar_c := MMCfg 8 8 None false false false true true.
Definition ar_o := MMOut [] L0 L0 [] [] L0.
Definition ar_i := MMIn L0 L0 [].
Example ar_negative : negative 8 (-4) /\ negative 8 (-1) /\ too_big 8 300 /\ too_big 8 (-129) /\ ~ too_big 8 (-128).
Proof. repeat split; try (apply Z.leb_le; reflexivity); [left|right|intros [H|H]]; vm_compute in *; congruence. Qed.
Example ar_run :
  let r := mm_write ar_c 10 (-4) (-1) (World false PActive ar_o [] (repeat ar_i 4)) in
  fst r = Done tt /\
  map (fun x => (q_write (snd x), bval (q_addr (snd x)), bval (q_wdata (snd x)))) (trace (snd r))
    = [(L0, Some 0, Some 0); (L1, Some 252, Some 255)].
Proof. vm_compute. split; reflexivity. Qed.
Definition ar_p := OpbCfg 8 4 8.
Definition ar_op := OpbOut [] L0 L0 [] (zbits 8 7) [].
Example ar_opb :
  let r := opb_write ar_p (OpbIn L0 L0 []) 10 16 300 true (World false PActive ar_op [] (repeat (OpbIn L0 L0 []) 4)) in
  fst r = Exn EValue /\ p_select (out (snd r)) = L1 /\ bval (p_dout_w (out (snd r))) = Some 7.
Proof. vm_compute. auto. Qed.
(** AXI: three 4-byte values, none of which fits, at -8190 with 32-bit addresses. *)
Definition ar_a : waccess := WAccess (-8190) [-1; 2 ^ 32 + 5; 2 ^ 40] (Some 4) INCR [None; Some 1000] 0 0 true.
Example ar_axi :
  let r := axi_write ex_c 20 ar_a PActive ex_oa ex_ow ex_cycles in
  negative (x_awidth ex_c) (wa_address ar_a) /\ wr_result r = Done tt /\
  map (fun o => value (x_addr o)) (transfers aw_offered aw_accepts (wr_aw r)) = [2 ^ 32 - 8190].
Proof. split; [split; [apply Z.leb_le|apply Z.ltb_lt]; reflexivity|]. vm_compute. split; reflexivity. Qed.
