(** PktErrSpec.v -- C154: the error signal of packetized Avalon-ST. *)
From Verif Require Export Base PktModel PktSpec HandshakeSpec.
Local Open Scope list_scope.

(** two cycles in which everything but the error signal is the same *)
Definition but_error (s s' : psample) : Prop :=
  s_rstn s = s_rstn s' /\ s_rst s = s_rst s' /\ s_ready s = s_ready s'
  /\ let o := s_bus s in let o' := s_bus s' in
     k_valid o = k_valid o' /\ k_sop o = k_sop o' /\ k_eop o = k_eop o' /\ k_empty o = k_empty o'
     /\ k_data o = k_data o' /\ k_channel o = k_channel o'.

(** the source flags an error with some word of the packet *)
Definition flagged (p : list pk_out) : Prop := exists w, In w p /\ k_error w = L1.
