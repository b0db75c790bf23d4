(** OpbSpec.v -- an OPB access as the slave sees it. *)
From Verif Require Import Base Async MMSpec OpbModel.
Local Open Scope list_scope.

(** no transfer acknowledge in these cycles *)
Definition unacked (l : list opb_in) : Prop := Forall (fun i => p_ack i = L0) l.
(** the last sixteen cycles passed without timeout suppression *)
Definition expired (l : list opb_in) : Prop :=
  exists a b, l = a ++ b /\ length b = 16 /\ Forall (fun i => p_sup i = L0) b.
(** no acknowledge and no timeout so far (toutSup is 0 or 1) *)
Record waiting (l : list opb_in) : Prop := Waiting {
  wt_ack : unacked l;
  wt_sup : Forall (fun i => p_sup i = L0 \/ p_sup i = L1) l;
  wt_time : forall a b, l = a ++ b -> ~ expired a }.

Section Spec.
Context (c : opb_cfg).
(** what is on the bus while an access is requested *)
Definition opb_read_request (o : opb_out) (address : Z) : opb_out :=
  OpbOut (zbits (p_aw c) address) L1 L1 (zbits (p_bew c) 15) (p_dout_w o) (p_din o).
Definition opb_write_request (o : opb_out) (address value : Z) : opb_out :=
  OpbOut (zbits (p_aw c) address) L1 L0 (zbits (p_bew c) 15) (zbits (p_dw c) value) (p_din o).
(** a legal access: BE has at least four bits, the operands fit *)
Definition opb_ok (address value : Z) : Prop :=
  4 <= p_bew c /\ fits (p_aw c) address /\ fits (p_dw c) value.
End Spec.

(** the cycles in which the slave is selected *)
Definition selected (tr : list (opb_in * opb_out)) : list (opb_in * opb_out) :=
  filter (fun x => match p_select (snd x) with L1 => true | _ => false end) tr.
