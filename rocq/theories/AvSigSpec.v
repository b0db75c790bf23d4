(** AvSigSpec.v -- buses with the signals they need. *)
From Verif Require Import Base Async AvSigModel.
Local Open Scope list_scope.

(** A bus on which a memory can work: it can be read or written; read comes with readdata,
    write with writedata, waitrequest and byteenable with burstcount. *)
Definition complete_mem (b : mem_bus) : Prop :=
  (m_readable (b_cfg b) = true \/ m_writeable (b_cfg b) = true)
  /\ (m_readable (b_cfg b) = true -> b_read b = true)
  /\ (m_writeable (b_cfg b) = true -> b_write b = true)
  /\ (m_bc (b_cfg b) = true -> m_wait (b_cfg b) = true /\ m_be (b_cfg b) = true).
(** A bus on which a master can work: readdata comes with read, writedata with write. *)
Definition complete_master (b : master_bus) : Prop :=
  (a_read (e_cfg b) = true -> e_rdata b = true) /\ (a_write (e_cfg b) = true -> e_wdata b = true).
