(** AvSigModel.v -- Avalon-MM buses that lack some of the optional signals: the constructors
    of AvalonMemory and AvalonMM (drivers/avalon.py:222-294, 52-74) and what the started
    process or a read does without a signal it uses.  (AvMemModel.v and MMModel.v have the
    code for buses with read, write, readdata and writedata as needed.)
    Simplified: readdata and writedata have the same width. *)
From Verif Require Export AvMemModel MMModel.
From Verif Require PktModel.
Local Open Scope list_scope.

(** ** AvalonMemory *)
(** the signals of AvMemModel.v, and whether read and write are there *)
(* drivers/avalon.py:203-213: which signals the bus has *)
Record mem_bus := MemBus { b_cfg : am_cfg; b_read : bool; b_write : bool }.

(** __init__ (222-294): how it ends, and whether the process has been started (276) *)
Definition mem_construct (b : mem_bus) : res unit * bool :=
  let c := b_cfg b in
  if negb (m_readable c) && negb (m_writeable c) then (Err EAssertion, false)   (* 264-265 *)
  else if m_bc c && negb (m_wait c) then (Err EAttribute, true)                 (* 284-291 *)
  else (Ok tt, true).

(** _respond (371-509) with the signals of the bus: self.bus.read (380) and self.bus.write
    (457) raise AttributeError if the bus does not have them *)
Definition mem_respond_body (b : mem_bus) : M am_state am_in am_out unit :=
  let c := b_cfg b in
  edge ;;                                                                 (* 375 *)
  do_response c ;;                                                        (* 376 *)
  readonly ;;                                                             (* 378 *)
  i <- sample ;;
  (if m_readable c
   then need (b_read b) (if is_one (v_read i) then (if burstread c then burst_read c else simple_read c) else ret tt)
   else ret tt) ;;                                                        (* 380-455 *)
  i <- sample ;;
  (if m_writeable c
   then need (b_write b) (if is_one (v_write i) then (if burstwrite c then burst_write c else simple_write c) else ret tt)
   else ret tt).                                                          (* 457-509 *)
Definition mem_respond (b : mem_bus) (fuel : nat) : M am_state am_in am_out unit :=
  loop fuel (fun _ => mem_respond_body b ;; ret (inl tt)) tt.

(** ** AvalonMaster *)
(** the signals of MMModel.v, and whether readdata and writedata are there *)
(* drivers/avalon.py:40-50: which signals the bus has *)
Record master_bus := MasterBus { e_cfg : mm_cfg; e_rdata : bool; e_wdata : bool }.

(** __init__ (52-74): writedata is assigned if write is there (63-65) *)
Definition master_construct (b : master_bus) : res unit :=
  if a_write (e_cfg b) && negb (e_wdata b) then Err EAttribute else Ok tt.

(** read (93-155): self.bus.readdata (152) raises AttributeError if the bus does not have it *)
Definition master_read (b : master_bus) (fuel : nat) (address : Z) (sync : bool) : M bool mm_in mm_out bits :=
  let c := e_cfg b in
  (if a_read c then ret tt else raise EAssertion) ;;                    (* 110-112 *)
  acquire_lock ;;                                                       (* 114 *)
  mm_when sync edge ;;                                                  (* 117-118 *)
  a <- of_res (PktModel.assign_int (a_width c) address) ;;
  drive (q_set_addr a) ;;                                               (* 119 *)
  drive (q_set_read L1) ;;                                              (* 120 *)
  set_be_all c ;;                                                       (* 121-122 *)
  mm_when (a_cs c) (drive (q_set_cs L1)) ;;                             (* 123-124 *)
  mm_when (a_wait c) (wait_for_nsignal i_wait fuel) ;;                  (* 127-128 *)
  edge ;;                                                               (* 129 *)
  drive (q_set_read L0) ;;                                              (* 132 *)
  set_be_none c ;;                                                      (* 133-134 *)
  mm_when (a_cs c) (drive (q_set_cs L0)) ;;                             (* 135-136 *)
  drive (q_set_addr (xs (a_width c))) ;;                                (* 137 *)
  (if a_rdv c then loop fuel rdv_body tt else readonly) ;;              (* 139-149 *)
  (if e_rdata b then ret tt else raise EAttribute) ;;                   (* 152 *)
  i <- input ;;
  release_lock ;;                                                       (* 154 *)
  ret (i_rdata i).
