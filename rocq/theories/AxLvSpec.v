(** AxLvSpec.v -- slaves that serve the channels of an AXI4 write in any order (C140). *)
From Verif Require Import Base AxiModel AxiSpec.
Local Open Scope list_scope.

(** A cycle of the bus: the slave's signals, then the master's address and data channels. *)
Notation bus_cycle := (axi_in * (ax_out * w_out))%type.
Definition bus_of (aw : list (axi_in * ax_out)) (w : list (axi_in * w_out)) : list bus_cycle :=
  map (fun y => (fst (fst y), (snd (fst y), snd (snd y)))) (combine aw w).
Definition awvalid (y : bus_cycle) : bool := aw_offered (fst (snd y)).
Definition wvalid (y : bus_cycle) : bool := w_offered (snd (snd y)).

(** The slave does something in this cycle: it takes an address or a value that is on offer, or it
    gives the response when neither is on offer any more. *)
Definition serves (y : bus_cycle) : bool :=
  (awvalid y && aw_accepts (fst y)) || (wvalid y && w_accepts (fst y)) ||
  (negb (awvalid y) && negb (wvalid y) && b_valid (fst y)).

(** Once both AWVALID and WVALID have been seen, the slave does something at least once in any [D]
    consecutive cycles.  What it serves first is its own choice: it may wait with the address until
    it has all data, or with the data until it has the address. *)
Definition serves_within (D : nat) (tr : list bus_cycle) : Prop :=
  forall before window after, tr = before ++ window ++ after -> length window = D ->
    existsb awvalid before = true -> existsb wvalid before = true -> existsb serves window = true.
