(** AxLegSpec.v -- which bursts the AXI4 specification allows (AMBA AXI, A3.4.1). *)
From Verif Require Import Base AxiModel AxiSpec.
Local Open Scope Z_scope.

(** the beat size is a power of two, at most the width of the bus *)
Definition sized_ok (bus : Z) (q : request) : Prop := legal_size bus (q_size q).
(** the number of beats of the burst type; a wrapping burst starts at a multiple of its beat size *)
Definition counted_ok (q : request) : Prop :=
  match q_burst q with
  | INCR => 1 <= q_beats q <= 256
  | FIXED => 1 <= q_beats q <= 16
  | WRAP => In (q_beats q) [2; 4; 8; 16] /\ (q_size q | q_address q)
  end.
(** no byte of any beat lies in another 4 KiB page than the address *)
Definition paged_ok (q : request) : Prop := forall i x, 0 <= i < q_beats q ->
  let b := beat_address (q_burst q) (q_size q) (q_beats q) (q_address q) i in
  b <= x < aligned b (q_size q) + q_size q -> same_page (q_address q) x.
Definition allowed (bus : Z) (q : request) : Prop := sized_ok bus q /\ counted_ok q /\ paged_ok q.
