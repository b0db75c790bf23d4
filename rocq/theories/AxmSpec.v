(** AxmSpec.v -- slaves that serve the AXI4 accesses of several tasks within bounded time (C146). *)
From Verif Require Import Base Async HandshakeSpec AxiModel AxiSpec AxcModel AxcSpec.
Local Open Scope list_scope.

(** A call that has returned or raised. *)
Definition ended {A} (x : outcome A) : Prop := match x with Done _ | Exn _ => True | _ => False end.

(** A channel: in any [D] consecutive cycles in which the master offers something, the slave
    accepts in one. *)
Definition accepts_within {TI TO} (off : TO -> bool) (acc : TI -> bool) (D : nat) (tr : list (TI * TO)) : Prop :=
  forall before window after, tr = before ++ window ++ after -> length window = D ->
    forallb (fun y => off (snd y)) window = true -> existsb (fun y => acc (fst y)) window = true.

(** Reads: while the slave has taken more addresses than it has completed bursts, it completes
    one more burst within [E] cycles. *)
Definition completes_within (c : axi_cfg) (E : nat) (ar : list (axi_in * ax_out)) (l : list axi_in) : Prop :=
  forall m, m + E <= length l ->
    length (filter (r_final c) (firstn m l)) < length (transfers aw_offered ar_accepts (firstn m ar)) ->
    length (filter (r_final c) (firstn m l)) < length (filter (r_final c) (firstn (m + E) l)).

(** Writes: while the slave has taken the address and all beats of a write it has not answered,
    it answers one more write within [E] cycles. *)
Definition responds_within (calls : list waccess) (E : nat) (r : writes_run) (l : list axi_in) : Prop :=
  forall m, m + E <= length l ->
    let k := length (filter b_valid (firstn m l)) in
    k < length (transfers aw_offered aw_accepts (firstn m (ws_aw r))) ->
    beats_before calls (S k) <= length (transfers w_offered w_accepts (firstn m (ws_w r))) ->
    k < length (filter b_valid (firstn (m + E) l)).
