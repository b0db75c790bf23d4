(** MMSpec.v -- an Avalon-MM access as the slave sees it. *)
From Verif Require Import Base Async MMModel.
Local Open Scope list_scope.

Section Spec.
Context (c : mm_cfg).

(** the slave makes the master wait in this cycle / lets it go *)
Definition stalls (i : mm_in) : Prop := a_wait c = true /\ i_wait i = L1.
Definition grants (i : mm_in) : Prop := a_wait c = true -> i_wait i = L0.

(** what is on the bus while a write / a read is requested: [o] tells the signals
    the bus does not have and, for a read, the write signals *)
Definition write_request (o : mm_out) (address value : Z) : mm_out :=
  MMOut (zbits (a_width c) address) (q_read o) L1 (zbits (d_width c) value)
        (match a_be c with Some n => repeat L1 n | None => q_be o end)
        (if a_cs c then L1 else q_cs o).
Definition read_request (o : mm_out) (address : Z) : mm_out :=
  MMOut (zbits (a_width c) address) L1 (q_write o) (q_wdata o)
        (match a_be c with Some n => repeat L1 n | None => q_be o end)
        (if a_cs c then L1 else q_cs o).

(** no access requested (all a slave looks at is inactive) *)
Record quiet (o : mm_out) : Prop := Quiet {
  qt_read : q_read o = L0; qt_write : q_write o = L0;
  qt_be : forall n, a_be c = Some n -> q_be o = zeros n;
  qt_cs : a_cs c = true -> q_cs o = L0 }.

(** the address is one the address bus can carry *)
Definition fits (n : nat) (z : Z) : Prop := (0 <= z < 2 ^ Z.of_nat n)%Z.

(** A cycle in which the slave accepts something: the operation and its operands. *)
Inductive accepted := AcRead (address : option Z) | AcWrite (address value : option Z).
Definition accepts_now (x : mm_in * mm_out) : list accepted :=
  let '(i, o) := x in
  if (if a_wait c then match i_wait i with L0 => true | _ => false end else true)
  then (match q_read o with L1 => [AcRead (bval (q_addr o))] | _ => [] end)
       ++ (match q_write o with L1 => [AcWrite (bval (q_addr o)) (bval (q_wdata o))] | _ => [] end)
  else [].
Definition accepted_in (tr : list (mm_in * mm_out)) : list accepted := flat_map accepts_now tr.
Definition op_accepted (x : mm_op) : accepted :=
  match x with MMRead a => AcRead (Some a) | MMWrite a v => AcWrite (Some a) (Some v) end.
Definition op_fits (x : mm_op) : Prop :=
  match x with
  | MMRead a => a_read c = true /\ fits (a_width c) a
  | MMWrite a v => a_write c = true /\ fits (a_width c) a /\ fits (d_width c) v
  end.

(** A slave timing for a list of accesses: the input cycles, the data returned,
    and the inputs left over.  Write: a synchronising cycle, waits, a grant.
    Read: the same, then cycles without readdatavalid, then the data cycle; the
    next access synchronises on the edge ending that cycle. *)
Inductive timing : list mm_op -> list mm_in -> list bits -> list mm_in -> Prop :=
| tm_nil l : timing [] l [] l
| tm_write a v r i0 waits ia l ds l' :
    Forall stalls waits -> grants ia -> timing r l ds l' ->
    timing (MMWrite a v :: r) (i0 :: waits ++ ia :: l) ds l'
| tm_read a r i0 waits ia lat iv l ds l' :
    Forall stalls waits -> grants ia ->
    (a_rdv c = true -> Forall (fun i => i_rdv i = L0) lat /\ i_rdv iv = L1) ->
    (a_rdv c = false -> lat = []) ->
    timing r (iv :: l) ds l' ->
    timing (MMRead a :: r) (i0 :: waits ++ ia :: lat ++ iv :: l) (i_rdata iv :: ds) l'.
End Spec.
