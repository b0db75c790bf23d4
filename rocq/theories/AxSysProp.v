(** AxSysProp.v -- C111: an AXI4Master on an AXI4Slave. *)
From Verif Require Import Base Async CompatModel HandshakeSpec AxiModel AxiSpec AxiTopProof AxsModel AvSysSpec AxSysSpec AxSysProof.
Local Open Scope list_scope.

(** C111 in full would be: a write through an AXI4Master connected to an AXI4Slave returns and
    its values are in the slave's memory; a read returns the bytes of the memory.

    It is false for every access: a legal write never returns, no word is transferred, and the
    memory stays as it is -- however long the simulation, whatever the slave sees ([lm]) and
    whatever is on BVALID, BRESP and RRESP. *)
Theorem C111_write_refuted c fuel a p oa ow l big width before sfuel memory p' y lm :
  length lm < sfuel -> p' <> PReadOnly ->
  Forall2 from_slave l (slave_drives big width before sfuel memory p' y lm) ->
  write_any c fuel a p oa ow l ->
  wr_result (axi_write c fuel a p oa ow l) = Susp /\
  transfers w_offered w_accepts (wr_w (axi_write c fuel a p oa ow l)) = [] /\
  slave_memory big width before sfuel memory p' y lm = (memory, memory).
Proof.
  intros Hf Hp H OK. pose proof (master_sees _ _ _ _ _ _ _ _ _ Hf Hp H) as N.
  destruct (drives_const big width before sfuel memory p' y lm Hf Hp) as (_ & M).
  destruct (write_stuck c fuel a p oa ow l OK) as (S & T); [|auto].
  eapply Forall_impl; [|exact N]. intros i (A & B & _). auto.
Qed.
Print Assumptions C111_write_refuted.

(** ... and a legal read never returns. *)
Theorem C111_read_refuted c fuel a s p o tr l big width before sfuel memory p' y lm :
  length lm < sfuel -> p' <> PReadOnly ->
  Forall2 from_slave l (slave_drives big width before sfuel memory p' y lm) ->
  read_ok c fuel a p l ->
  fst (axi_read c fuel a (World s p o tr l)) = Susp /\ fst (axi_read_rresp c fuel a (World s p o tr l)) = Susp.
Proof.
  intros Hf Hp H OK. pose proof (master_sees _ _ _ _ _ _ _ _ _ Hf Hp H) as N.
  apply read_stuck; [exact OK|]. eapply Forall_impl; [|exact N]. intros i (_ & _ & A & B). auto.
Qed.
Print Assumptions C111_read_refuted.

(** C111, what holds: the address of a write is transferred, once, with what was asked for. *)
Theorem C111_address_partial c fuel a p oa ow l big width before sfuel memory p' y lm :
  length lm < sfuel -> p' <> PReadOnly ->
  Forall2 from_slave l (slave_drives big width before sfuel memory p' y lm) ->
  write_any c fuel a p oa ow l -> 2 + wa_alat a <= length l ->
  transfers aw_offered aw_accepts (wr_aw (axi_write c fuel a p oa ow l))
  = [ax_request c oa (wa_address a) (Z.of_nat (length (wa_value a))) (wa_burst a) (size_or (x_bytes c) (wa_size a))].
Proof.
  intros Hf Hp H OK Hl. pose proof (master_sees _ _ _ _ _ _ _ _ _ Hf Hp H) as N.
  apply write_address_taken; [exact OK| |exact Hl]. eapply Forall_impl; [|exact N]. intros i (A & B & _). auto.
Qed.
Print Assumptions C111_address_partial.

(** The two connected in both directions: a write of two bytes at address 2, and a read, on a
    bus of eight bits; seven cycles. *)
Definition exy_cfg := AxiCfg 8 8 true true.
Definition exy_w := WAccess 2 [17; 18]%Z None INCR [None] 0 0 true.
Definition exy_r := RAccess 2 2 None INCR true.
Definition exy_idle := AxOut L0 (zbits 8 0) (zbits 2 0) (zbits 8 0) (zbits 3 0).
Definition exy_ow := WOut L0 (zbits 8 0) (zbits 1 0) L0.
Definition exy_y := AxsOut LX LX LX (zbits 8 0) LX LX.
Definition exy_mem := [1; 2; 3; 4; 5; 6; 7; 8]%Z.
Definition exy_before := to_slave exy_idle exy_ow exy_idle.
Definition exy_slave := slave_drives false 8 exy_before 20 exy_mem PMid exy_y.
Definition exy_seen (y : axs_out * axs_out) : axi_in :=
  AxiIn (s_awready (fst y)) (s_wready (fst y)) L0 (zbits 2 0) (s_arready (snd y)) (s_rvalid (snd y)) (zbits 2 0)
        (s_rdata (snd y)) (s_rlast (snd y)).
Definition exy_cycles := repeat (AxiIn L1 L0 L0 (zbits 2 0) L1 L0 (zbits 2 0) (zbits 8 0) L0) 7.
(** what the master drives in these cycles *)
Definition exy_driven : list axs_in :=
  let r := axi_write exy_cfg 20 exy_w PMid exy_idle exy_ow exy_cycles in
  let ar := history (snd (axi_read exy_cfg 20 exy_r (World tt PMid exy_idle [] exy_cycles))) in
  map (fun x => to_slave (fst (fst x)) (snd (fst x)) (snd x))
      (combine (combine (map snd (wr_aw r)) (map snd (wr_w r))) (map snd ar)).
Example C111_nonvacuous :
  write_any exy_cfg 20 exy_w PMid exy_idle exy_ow exy_cycles /\ read_ok exy_cfg 20 exy_r PMid exy_cycles /\
  length exy_driven = 7 /\ map exy_seen (exy_slave exy_driven) = exy_cycles /\
  Forall2 from_slave exy_cycles (exy_slave exy_driven) /\
  wr_result (axi_write exy_cfg 20 exy_w PMid exy_idle exy_ow exy_cycles) = Susp.
Proof.
  assert (L : legal_access 1 2 2 None INCR).
  { split; [discriminate|]. split; [cbn; lia|]. intros _ x (H1 & H2). unfold aligned, same_page in *. cbn in H1, H2.
    rewrite Z.div_1_r in H2. rewrite !Z.div_small by lia. reflexivity. }
  assert (B : axi_bus exy_cfg). { split; [exists 0%Z; split; [lia|reflexivity]|]. split; [apply Z.leb_le; reflexivity|reflexivity]. }
  assert (F : fits_bits 8 2) by (split; [lia|reflexivity]).
  split; [constructor; try assumption; try reflexivity; try discriminate; cbn; try lia|].
  split; [constructor; try assumption; try discriminate; cbn; lia|].
  split; [vm_compute; reflexivity|]. split; [vm_compute; reflexivity|]. split; [|vm_compute; reflexivity].
  assert (E : exy_slave exy_driven = repeat (AxsOut L1 L0 L0 (zbits 8 0) L1 L0, AxsOut L1 L0 L0 (zbits 8 0) L1 LX) 7) by (vm_compute; reflexivity).
  rewrite E. unfold exy_cycles. cbn [repeat]. repeat (constructor; [constructor; reflexivity|]). constructor.
Qed.
