(** OpbEndProp.v -- C144: an OPB access ends once the slave stops suppressing the timeout. *)
From Verif Require Import Base Async CompatModel PktModel MMModel MMSpec OpbModel OpbSpec OpbEndProof.
Local Open Scope list_scope.

(** C144.  [lead]: the synchronising cycle (with sync) and the first cycle with the request; [a]: any
    further cycles; [b]: cycles without timeout suppression, sixteen or more.  The access is over,
    returned or raised, after the cycles of [lead] and [a] and at most fifteen of [b], whatever else
    the slave does (xferAck and toutSup may be X), for any operands and at any time of the call. *)
Theorem C144_read_ends : forall c before fuel address (sync : bool) p o tr lead a b,
  length lead = (if sync then 2 else 1) ->
  Forall (fun i => p_sup i <> L1) b -> 16 <= length b -> S (length (a ++ b)) < fuel ->
  let '(r, w) := opb_read c before fuel address sync (World false p o tr (lead ++ a ++ b)) in
  r <> Susp /\ r <> Fuel /\ length (trace w) <= length tr + length lead + length a + 15.
Proof.
  intros c before fuel address sync p o tr lead a b L F Hb Hf.
  destruct (read_ends c before fuel address sync p o tr lead a b L F Hb Hf) as (A & B & C).
  destruct (opb_read c before fuel address sync (World false p o tr (lead ++ a ++ b))) as [r w].
  cbn [fst snd trace] in *. split; [exact A|split; [exact B|lia]].
Qed.
Print Assumptions C144_read_ends.
Theorem C144_write_ends : forall c before fuel address value (sync : bool) p o tr lead a b,
  length lead = (if sync then 2 else 1) ->
  Forall (fun i => p_sup i <> L1) b -> 16 <= length b -> S (length (a ++ b)) < fuel ->
  let '(r, w) := opb_write c before fuel address value sync (World false p o tr (lead ++ a ++ b)) in
  r <> Susp /\ r <> Fuel /\ length (trace w) <= length tr + length lead + length a + 15.
Proof.
  intros c before fuel address value sync p o tr lead a b L F Hb Hf.
  destruct (write_ends c before fuel address value sync p o tr lead a b L F Hb Hf) as (A & B & C).
  destruct (opb_write c before fuel address value sync (World false p o tr (lead ++ a ++ b))) as [r w].
  cbn [fst snd trace] in *. split; [exact A|split; [exact B|lia]].
Qed.
Print Assumptions C144_write_ends.

(** ** cases: three suppressed cycles and then none; the bound is reached *)
Definition exo_cfg := OpbCfg 8 4 8.
Definition exo_in (sup : logic) := OpbIn L0 sup (zbits 8 0).
Definition exo_out := OpbOut (zbits 8 0) L0 L0 (zbits 4 0) (zbits 8 0) (zbits 8 0).
Example exo_bound :
  let l := repeat (exo_in L0) 2 ++ repeat (exo_in L1) 3 ++ repeat (exo_in L0) 16 in
  let '(r, w) := opb_read exo_cfg (exo_in L0) 60 200 true (World false PActive exo_out [] l) in
  r = Exn EOPB /\ length (trace w) = 2 + 3 + 15.
Proof. vm_compute. split; reflexivity. Qed.
(** fifteen cycles are not enough *)
Example exo_short :
  let l := repeat (exo_in L0) 2 ++ repeat (exo_in L1) 3 ++ repeat (exo_in L0) 15 in
  fst (opb_read exo_cfg (exo_in L0) 60 200 true (World false PActive exo_out [] l)) = Susp.
Proof. vm_compute. reflexivity. Qed.
