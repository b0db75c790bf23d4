(** AvSigProp.v -- C114, C115: Avalon-MM buses that lack optional signals. *)
From Verif Require Import Base Async CompatModel AvSigModel AvSigSpec AvSigProof.
Local Open Scope list_scope.

(** C114.  A memory that has neither readdata nor writedata is rejected, and nothing is
    started. *)
Theorem C114_useless b :
  m_readable (b_cfg b) = false -> m_writeable (b_cfg b) = false -> mem_construct b = (Err EAssertion, false).
Proof. intros R W. unfold mem_construct. now rewrite R, W. Qed.
Print Assumptions C114_useless.

(** False: a memory on a bus with burstcount and without waitrequest is rejected
    (AttributeError), but its process has been started and serves reads: the data is on the
    bus two cycles after the request. *)
Theorem C114_rejected_refuted b fuel s p o i0 i1 i2 a v :
  m_bc (b_cfg b) = true -> m_wait (b_cfg b) = false ->
  m_readable (b_cfg b) = true -> b_read b = true -> m_writeable (b_cfg b) = false -> m_rdv (b_cfg b) = false ->
  m_latmin (b_cfg b) = 1 -> m_latmax (b_cfg b) = 1 -> 2 <= m_width (b_cfg b) ->
  a_resp s = [] -> v_read i1 = L1 -> bval (v_addr i1) = Some a -> v_read i2 <> L1 ->
  a_mem s a = Some v -> (0 <= v < 2 ^ Z.of_nat (m_width (b_cfg b)))%Z ->
  mem_construct b = (Err EAttribute, true)
  /\ let '(r, w) := mem_respond b (4 + fuel) (World s p o [] [i0; i1; i2]) in
     r = Susp /\ w_data (out w) = zbits (m_width (b_cfg b)) v.
Proof.
  intros B W R Rd Wr V L1 L2 Wd Q N A N2 Mv Fit. split.
  - unfold mem_construct. now rewrite R, B, W.
  - now apply (ghost b fuel s p o i0 i1 i2 a v).
Qed.
Print Assumptions C114_rejected_refuted.

(** False: a memory on a bus with readdata and without read is constructed, and its process
    ends with AttributeError in the first cycle, whatever the bus does. *)
Theorem C114_no_read_refuted b fuel s p o i0 i l :
  m_readable (b_cfg b) = true -> b_read b = false -> m_bc (b_cfg b) = false -> a_resp s = [] ->
  mem_construct b = (Ok tt, true)
  /\ exists w, mem_respond b (S fuel) (World s p o [] (i0 :: i :: l)) = (Exn EAttribute, w) /\ ins w = i :: l.
Proof.
  intros R Rd B Q. split; [unfold mem_construct; now rewrite R, B|]. now apply dead_read.
Qed.
Print Assumptions C114_no_read_refuted.

(** ... and the same with writedata and without write, in the first cycle without a read. *)
Theorem C114_no_write_refuted b fuel s p o i0 i l :
  m_writeable (b_cfg b) = true -> b_write b = false -> m_bc (b_cfg b) = false -> a_resp s = [] ->
  (m_readable (b_cfg b) = true -> b_read b = true /\ v_read i <> L1) ->
  mem_construct b = (Ok tt, true)
  /\ exists w, mem_respond b (S fuel) (World s p o [] (i0 :: i :: l)) = (Exn EAttribute, w) /\ ins w = i :: l.
Proof.
  intros R Wr B Q N. split; [unfold mem_construct; rewrite R, B; now destruct (m_readable (b_cfg b))|]. now apply dead_write.
Qed.
Print Assumptions C114_no_write_refuted.

(** What holds: on a bus with the signals that belong together the memory is constructed and
    never ends because of a missing signal, whatever happens on the bus and whatever the
    random numbers are; it does what AvMemModel.v says. *)
Theorem C114_complete_partial b fuel w : complete_mem b ->
  mem_construct b = (Ok tt, true)
  /\ fst (mem_respond b fuel w) <> Exn EAttribute
  /\ mem_respond b fuel w = respond (b_cfg b) fuel w.
Proof.
  intro C. split; [|split; [now apply complete_never|]].
  - destruct C as (U & _ & _ & B). unfold mem_construct.
    destruct (m_readable (b_cfg b)), (m_writeable (b_cfg b)); cbn; try (destruct U; discriminate);
      (destruct (m_bc (b_cfg b)); [destruct (B eq_refl) as [-> _]|]); reflexivity.
  - destruct C as (_ & R & W & _). now apply respond_eq.
Qed.
Print Assumptions C114_complete_partial.

(** C115.  False: a master on a bus with read and without readdata is constructed.  A read
    that would return performs its transfer, raises AttributeError, and leaves the master
    locked: no access ever starts again. *)
Theorem C115_no_readdata_refuted b fuel address sync w d w' :
  e_rdata b = false -> (a_write (e_cfg b) = true -> e_wdata b = true) ->
  mm_read (e_cfg b) fuel address sync w = (Done d, w') ->
  master_construct b = Ok tt
  /\ exists w1, master_read b fuel address sync w = (Exn EAttribute, w1) /\ trace w1 = trace w' /\ out w1 = out w' /\ ins w1 = ins w'
     /\ forall fuel' address' value' sync',
        (a_read (e_cfg b) = true -> master_read b fuel' address' sync' w1 = (Susp, w1))
        /\ (a_write (e_cfg b) = true -> mm_write (e_cfg b) fuel' address' value' w1 = (Susp, w1)).
Proof.
  intros E W H. split.
  - unfold master_construct. destruct (a_write (e_cfg b)); [rewrite (W eq_refl)|]; reflexivity.
  - destruct (master_broken b fuel address sync w d w' E H) as (w1 & A1 & A2 & A3 & A4 & A5).
    exists w1. repeat (split; [assumption|]). intros. now apply master_locked.
Qed.
Print Assumptions C115_no_readdata_refuted.

(** What holds: with the signals that belong together the master is constructed and no access
    ends because of a missing signal; it does what MMModel.v says. *)
Theorem C115_complete_partial b : complete_master b ->
  master_construct b = Ok tt
  /\ forall fuel address value sync w,
     fst (master_read b fuel address sync w) <> Exn EAttribute
     /\ fst (mm_write (e_cfg b) fuel address value w) <> Exn EAttribute
     /\ (a_read (e_cfg b) = true -> master_read b fuel address sync w = mm_read (e_cfg b) fuel address sync w).
Proof.
  intros [R W]. split.
  - unfold master_construct. destruct (a_write (e_cfg b)); [rewrite (W eq_refl)|]; reflexivity.
  - intros. split; [now apply nev_read|]. split; [apply nev_write|]. intro E. apply master_read_eq. auto.
Qed.
Print Assumptions C115_complete_partial.
(** ... and write without writedata is rejected at construction. *)
Theorem C115_no_writedata b :
  a_write (e_cfg b) = true -> e_wdata b = false -> master_construct b = Err EAttribute.
Proof. intros W E. unfold master_construct. now rewrite W, E. Qed.
Print Assumptions C115_no_writedata.

(** Examples *)
Definition sig_cfg (bc wait : bool) := AmCfg 8 true false false wait bc true 1 1 default_props.
Definition sig_state := AmState (fun a => if (a =? 3)%Z then Some 77%Z else None) [] (fun _ => 5) 0.
Definition sig_in (rd : logic) := AmIn rd L0 (zbits 4 3) (zeros 8) [] [].
Example C114_nonvacuous :
  complete_mem (MemBus (sig_cfg false true) true false)
  /\ (let '(r, w) := mem_respond (MemBus (sig_cfg true false) true false) 5
         (World sig_state PActive (AmOut L0 (xs 8) L0) [] [sig_in L0; sig_in L1; sig_in L0]) in
      r = Susp /\ w_data (out w) = zbits 8 77)
  /\ fst (mem_respond (MemBus (sig_cfg false true) true false) 5
         (World sig_state PActive (AmOut L0 (xs 8) L0) [] [sig_in L0; sig_in L1; sig_in L0])) = Susp
  /\ fst (mem_respond (MemBus (sig_cfg false true) false false) 5
         (World sig_state PActive (AmOut L0 (xs 8) L0) [] [sig_in L0; sig_in L1; sig_in L0])) = Exn EAttribute.
Proof.
  split; [|split; [|split]; vm_compute; auto].
  split; [left; reflexivity|]. split; [reflexivity|]. split; [discriminate|]. discriminate.
Qed.
Definition sig_master (rdata : bool) := MasterBus (MMCfg 4 8 None false false false true true) rdata true.
Example C115_nonvacuous :
  complete_master (sig_master true)
  /\ fst (mm_read (e_cfg (sig_master false)) 5 3 true
       (World false PActive (MMOut [] L0 L0 [] [] LX) [] [MMIn L0 L0 (zeros 8); MMIn L0 L0 (zeros 8); MMIn L0 L0 (zbits 8 9)])) = Done (zbits 8 9)
  /\ fst (master_read (sig_master false) 5 3 true
       (World false PActive (MMOut [] L0 L0 [] [] LX) [] [MMIn L0 L0 (zeros 8); MMIn L0 L0 (zeros 8); MMIn L0 L0 (zbits 8 9)])) = Exn EAttribute.
Proof. split; [split; intros; reflexivity|]. split; vm_compute; reflexivity. Qed.
