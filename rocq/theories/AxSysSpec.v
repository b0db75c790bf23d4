(** AxSysSpec.v -- an AXI4Master and an AXI4Slave on the same bus: the coroutines of AxiModel
    and AxsModel, connected by wires. *)
From Verif Require Import Base Async CompatModel AxiModel AxsModel AvSysSpec.
Local Open Scope list_scope.

(** what an AXI4Slave drives, cycle by cycle, from its constructor on, when it sees [lm]: the
    outputs of its write process and of its read process *)
Definition slave_drives (big : bool) (width : nat) (before : axs_in) (fuel : nat) (memory : bytes) (p : phase)
    (y : axs_out) (lm : list axs_in) : list (axs_out * axs_out) :=
  let w0 := snd (axs_init (World memory p y [] lm)) in
  combine (map snd (history (snd (write_data big before fuel w0))))
          (map snd (history (snd (read_data big width fuel w0)))).
(** its memory in the end, as its write process and its read process have left it *)
Definition slave_memory (big : bool) (width : nat) (before : axs_in) (fuel : nat) (memory : bytes) (p : phase)
    (y : axs_out) (lm : list axs_in) : bytes * bytes :=
  let w0 := snd (axs_init (World memory p y [] lm)) in
  (st (snd (write_data big before fuel w0)), st (snd (read_data big width fuel w0))).

(** the wires from the slave to the master in one cycle: AWREADY and WREADY are driven by the
    write process, ARREADY and the R signals by the read process.  BVALID, BRESP and RRESP are
    driven by nobody and can be anything. *)
Record from_slave (i : axi_in) (y : axs_out * axs_out) : Prop := FromSlave {
  fs_awready : g_awready i = s_awready (fst y);
  fs_wready : g_wready i = s_wready (fst y);
  fs_arready : g_arready i = s_arready (snd y);
  fs_rvalid : g_rvalid i = s_rvalid (snd y);
  fs_rlast : g_rlast i = s_rlast (snd y);
  fs_rdata : g_rdata i = s_rdata (snd y) }.
(** the wires from the master to the slave in one cycle (for the example: the theorems hold
    whatever the slave sees) *)
Definition to_slave (aw : ax_out) (w : w_out) (ar : ax_out) : axs_in :=
  AxsIn (x_valid aw) (x_addr aw) (x_len aw) (x_size aw) (x_burst aw) [L0; L0; L0] (x_wvalid w) (x_wdata w)
        (x_valid ar) (x_addr ar) (x_len ar) (x_size ar) (x_burst ar) [L0; L0; L0] L1.
