(** AxuSpec.v -- a slave that answers a read with an undefined response. *)
From Verif Require Import Base Async AxiModel AxiSpec.
Local Open Scope list_scope.

(** The cycles of a read up to a beat [f] with an undefined RRESP: as [read_cycles] of
    AxiSpec.v, the cycles before the request, those waiting for ARREADY, the address handshake,
    the R cycles with defined beats, none of them the last of the burst, then [f]. *)
Record undefined_cycles (c : axi_cfg) (sync : bool) (l pre w : list axi_in) (h : axi_in) (seg : list axi_in) (f : axi_in) (tl : list axi_in) : Prop := {
  uc_all : l = pre ++ w ++ h :: seg ++ f :: tl;
  uc_pre : length pre = (if sync then 1 else 0)%nat;
  uc_wait : Forall (fun i => ar_accepts i = false) w;
  uc_ack : ar_accepts h = true;
  uc_seg : Forall (fun i => r_final c i = false) seg;
  uc_ok : Forall (fun i => r_beat i = true -> r_beat_ok c i) seg;
  uc_beat : r_beat f = true;
  uc_width : length (g_rdata f) = x_width c;
  uc_undefined : bval (g_rresp f) = None }.
