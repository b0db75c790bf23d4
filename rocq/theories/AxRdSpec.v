(** AxRdSpec.v -- slaves that answer AXI4 reads within D cycles (C143). *)
From Verif Require Import Base AxiModel AxiSpec.
Local Open Scope list_scope.

(** A cycle of the bus: the slave's signals and the master's read address channel. *)
Definition arvalid (y : axi_in * ax_out) : bool := aw_offered (snd y).
Definition ar_taken (y : axi_in * ax_out) : bool := ar_accepts (fst y).
Definition r_given (y : axi_in * ax_out) : bool := r_beat (fst y).

(** In any [D] consecutive cycles with ARVALID the slave takes the address, and in any [D]
    consecutive cycles after the address (when ARVALID is gone) it gives a beat. *)
Definition reads_within (D : nat) (tr : list (axi_in * ax_out)) : Prop :=
  forall before window after, tr = before ++ window ++ after -> length window = D ->
    (forallb arvalid window = true -> existsb ar_taken window = true) /\
    (existsb arvalid before = true -> existsb arvalid window = false -> existsb r_given window = true).

(** After the address, one of any [n] beats is the last of the burst (RLAST; on AXI4-Lite every
    beat is). *)
Definition ends_burst (c : axi_cfg) (n : nat) (tr : list (axi_in * ax_out)) : Prop :=
  forall before beats after, tr = before ++ beats ++ after ->
    existsb arvalid before = true -> existsb arvalid beats = false ->
    n <= length (filter r_given beats) -> existsb (fun y => r_final c (fst y)) beats = true.
