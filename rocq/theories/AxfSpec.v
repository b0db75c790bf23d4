(** AxfSpec.v -- AXI accesses of several tasks, some of which raise before they have used
    their channels. *)
From Verif Require Import Base Async HandshakeSpec AxiModel AxiSpec AxcModel AxcSpec.
Local Open Scope list_scope.

(** a write that passes the checks of the parameters, but whose address need not fit
    AWADDR and whose list of byte enables may be empty *)
Definition write_call_any (c : axi_cfg) (a : waccess) : Prop :=
  legal_access (x_bytes c) (wa_address a) (Z.of_nat (length (wa_value a))) (wa_size a) (wa_burst a) /\
  (0 <= wa_address a)%Z /\ (wa_dlat a = 0 \/ length (wa_value a) <= 1) /\
  on_bus c (Z.of_nat (length (wa_value a))) (wa_burst a) (wa_size a).
Definition read_call_any (c : axi_cfg) (a : raccess) : Prop :=
  legal_access (x_bytes c) (ra_address a) (ra_length a) (ra_size a) (ra_burst a) /\ (0 <= ra_address a)%Z /\
  on_bus c (ra_length a) (ra_burst a) (ra_size a).
(** the address fits the address signal *)
Definition address_fits (c : axi_cfg) (z : Z) : bool := (z <? 2 ^ Z.of_nat (x_awidth c))%Z.
(** there is a byte enable *)
Definition has_enable (a : waccess) : bool := match wa_be a with [] => false | _ :: _ => true end.
(** a write that fails: with ValueError, or with IndexError *)
Definition fails (c : axi_cfg) (a : waccess) : Prop := address_fits c (wa_address a) = false \/ has_enable a = false.

(** Removing the calls with illegal parameters. *)
Inductive without_illegal (c : axi_cfg) : list (nat * waccess) -> list (nat * waccess) -> Prop :=
| wi_nil : without_illegal c [] []
| wi_skip t a calls calls' :
    ~ legal_access (x_bytes c) (wa_address a) (Z.of_nat (length (wa_value a))) (wa_size a) (wa_burst a) ->
    without_illegal c calls calls' -> without_illegal c ((t, a) :: calls) calls'
| wi_keep x calls calls' : without_illegal c calls calls' -> without_illegal c (x :: calls) (x :: calls').

(** the same accesses, each called at the same time or later *)
Definition later {A} (calls calls' : list (nat * A)) : Prop :=
  Forall2 (fun x y => snd x = snd y /\ fst x <= fst y) calls calls'.
