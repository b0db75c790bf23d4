(** AvUndefSpec.v -- requests to the Avalon memory with undefined operands. *)
From Verif Require Import Base Async CompatSpec AvMemModel AvMemSpec.
Local Open Scope list_scope.

(** a read or write request in a cycle in which an operand it needs is undefined (X or Z) *)
Definition undefined_operand (c : am_cfg) (i : am_in) : Prop :=
  ((reads c i = true \/ writes c i = true) /\ resolvable (v_addr i) = false) \/
  (writes c i = true /\ (resolvable (v_wdata i) = false \/ m_be c = true /\ resolvable (v_be i) = false)).

(** ** burst memories *)
(** a cycle in which the operands of bursts are defined, with an aligned address *)
Definition defined_aligned (c : am_cfg) (i : am_in) : Prop :=
  resolvable (v_addr i) = true /\ (num (v_addr i) mod Z.of_nat (dsize c) = 0)%Z /\
  resolvable (v_wdata i) = true /\ resolvable (v_bcount i) = true.
(** memory contents: bytes, and of each word all bytes or none *)
Definition whole_words (c : am_cfg) (m : memory) : Prop :=
  (forall x v, m x = Some v -> is_byte v) /\
  (forall x y, (x / Z.of_nat (dsize c) = y / Z.of_nat (dsize c))%Z -> m x = None -> m y = None).
