(** OpbProp.v -- the OPB master (C66, C67, C78, C79).

    Cycles of an access made with the default sync=True: [i0] is the cycle ended by the
    synchronising edge, [i1] the first cycle with the request on the bus, [w] the cycles
    after it.  [before] is the state of the inputs before the first clock edge and
    matters only without sync. *)
From Verif Require Import Base Async CompatModel PktModel MMModel MMSpec OpbModel OpbSpec OpbProof OpbTopProof.
Local Open Scope list_scope.

(** C66, what holds: if xferAck is already high in the cycle before the request, the
    access returns (a read with the data of that cycle), deselects and unlocks. *)
Theorem C66_partial c before fuel address value o p tr i0 l :
  0 < fuel -> opb_ok c address value -> p_ack i0 = L1 ->
  (forall d, bval (p_dout i0) = Some d -> exists o', p_select o' = L0 /\
     opb_read c before fuel address true (World false p o tr (i0 :: l))
     = (Done d, World false PActive o' (tr ++ held o [i0]) l)) /\
  (exists o', p_select o' = L0 /\
     opb_write c before fuel address value true (World false p o tr (i0 :: l))
     = (Done tt, World false PActive o' (tr ++ held o [i0]) l)).
Proof.
  intros Hf H A. split.
  - intros d D. eexists. split; [|apply (read_now c before fuel address p o tr i0 l d Hf); try assumption; apply H]. reflexivity.
  - eexists. split; [|apply (write_now c before fuel address value p o tr i0 l Hf H A)]. reflexivity.
Qed.
Print Assumptions C66_partial.

(** C66 fails: an access that returns was never on the bus.  Whatever the inputs, the
    time and the operands: if it returns, the slave was not selected in any cycle. *)
Theorem C66_refuted c before fuel address value sync w :
  p_select (out w) <> L1 ->
  (forall d w', opb_read c before fuel address sync w = (Done d, w') -> selected (trace w') = selected (trace w)) /\
  (forall w', opb_write c before fuel address value sync w = (Done tt, w') -> selected (trace w') = selected (trace w)).
Proof.
  intro P. split.
  - intros d w' E. apply (read_unseen c before fuel address sync w d w' P E).
  - intros w' E. apply (write_unseen c before fuel address value sync w tt w' P E).
Qed.
Print Assumptions C66_refuted.

(** ... and from construction on: the slave is not selected before the first access ([l]: any
    cycles without one), nor during one that returns. *)
Theorem C66_constructed_refuted c before fuel address value sync p o l ins :
  p <> PReadOnly ->
  let w := snd (opb_init (World false p o [] [])) in
  let later := World (st w) PActive (out w) (held (out w) l) ins in
  selected (trace later) = [] /\
  (forall d w', opb_read c before fuel address sync later = (Done d, w') -> selected (trace w') = []) /\
  (forall w', opb_write c before fuel address value sync later = (Done tt, w') -> selected (trace w') = []).
Proof.
  intros Hp w later.
  assert (N : p_select (out later) <> L1) by (unfold later, w, opb_init; cbn; destruct p; cbn; congruence).
  assert (S : selected (trace later) = []).
  { cbn [trace later]. change (out w) with (out later). revert N. generalize (out later). intros x N. induction l as [|i r IH]; [reflexivity|].
    cbn. destruct (p_select x); try exact IH. now elim N. }
  split; [exact S|]. destruct (C66_refuted c before fuel address value sync later N) as (A & B). split.
  - intros d w' E. rewrite (A d w' E). exact S.
  - intros w' E. rewrite (B w' E). exact S.
Qed.
Print Assumptions C66_constructed_refuted.

(** C66 fails: an access acknowledged by the slave it selected, before the timeout,
    raises RuntimeError, with the slave still selected and the lock held. *)
Theorem C66_ack_refuted c before fuel address value o p tr i0 i1 w j r :
  opb_ok c address value -> S (length (w ++ j :: r)) < fuel ->
  p_ack i0 = L0 -> waiting w -> p_sup j = L0 \/ p_sup j = L1 -> ~ expired (w ++ [j]) -> p_ack j = L1 ->
  bval (p_dout j) <> None ->
  let ins := i0 :: i1 :: w ++ j :: r in
  let after req := World true PReadOnly req (tr ++ held o [i0] ++ held req (i1 :: w)) (j :: r) in
  opb_read c before fuel address true (World false p o tr ins)
    = (Exn ERuntime, after (opb_read_request c o address)) /\
  opb_write c before fuel address value true (World false p o tr ins)
    = (Exn ERuntime, after (opb_write_request c o address value)).
Proof.
  intros H Hf A W S X K D. assert (E : ends w j EdAck) by (split; [exact W|repeat split; assumption]). split.
  - destruct (read_later c before fuel address p o tr i0 i1 (w ++ j :: r) Hf (proj1 H) (proj1 (proj2 H)) A) as [R _].
    rewrite (R _ _ _ _ eq_refl E). cbn [read_exn]. destruct (bval (p_dout j)); [reflexivity|contradiction].
  - destruct (write_later c before fuel address value p o tr i0 i1 (w ++ j :: r) Hf H A) as [R _].
    exact (R _ _ _ _ eq_refl E).
Qed.
Print Assumptions C66_ack_refuted.

(** C67: OPBException is raised exactly when, with the request on the bus and no
    acknowledge in the cycles before, sixteen cycles in a row have no timeout
    suppression -- whether or not the last of them is acknowledged (see the refutation). *)
Theorem C67_partial c before fuel address value o p tr i0 l :
  length l < fuel -> opb_ok c address value ->
  let timed_out := p_ack i0 = L0 /\ exists i1 w j r, l = i1 :: w ++ j :: r /\ waiting w /\ expired (w ++ [j]) in
  (fst (opb_read c before fuel address true (World false p o tr (i0 :: l))) = Exn EOPB <-> timed_out) /\
  (fst (opb_write c before fuel address value true (World false p o tr (i0 :: l))) = Exn EOPB <-> timed_out).
Proof.
  intros Hf H. split.
  - exact (read_timeout c before fuel address p o tr i0 l Hf (proj1 H) (proj1 (proj2 H))).
  - exact (write_timeout c before fuel address value p o tr i0 l Hf H).
Qed.
Print Assumptions C67_partial.

(** C67: while no acknowledge comes and the timeout is suppressed often enough, the
    access waits, however long *)
Theorem C67_waits_partial c before fuel address value o p tr i0 i1 w :
  S (length w) < fuel -> opb_ok c address value -> p_ack i0 = L0 -> waiting w ->
  fst (opb_read c before fuel address true (World false p o tr (i0 :: i1 :: w))) = Susp /\
  fst (opb_write c before fuel address value true (World false p o tr (i0 :: i1 :: w))) = Susp.
Proof.
  intros Hf H A W. split.
  - destruct (read_later c before fuel address p o tr i0 i1 w Hf (proj1 H) (proj1 (proj2 H)) A) as [_ R]. rewrite (R W). reflexivity.
  - destruct (write_later c before fuel address value p o tr i0 i1 w Hf H A) as [_ R]. rewrite (R W). reflexivity.
Qed.
Print Assumptions C67_waits_partial.

(** C67 fails: an acknowledge in the sixteenth cycle raises OPBException all the same *)
Theorem C67_refuted c before fuel address value o p tr i0 i1 w j r :
  opb_ok c address value -> S (length (w ++ j :: r)) < fuel -> p_ack i0 = L0 ->
  length w = 15 -> unacked w -> Forall (fun i => p_sup i = L0) w -> p_sup j = L0 -> p_ack j = L1 ->
  fst (opb_read c before fuel address true (World false p o tr (i0 :: i1 :: w ++ j :: r))) = Exn EOPB /\
  fst (opb_write c before fuel address value true (World false p o tr (i0 :: i1 :: w ++ j :: r))) = Exn EOPB.
Proof.
  intros H Hf A L U S J K. destruct (fifteen w j L U S J) as [W X].
  destruct (C67_partial c before fuel address value o p tr i0 (i1 :: w ++ j :: r) Hf H) as [R1 R2].
  split; [apply R1|apply R2]; (split; [exact A|]); exists i1, w, j, r; auto.
Qed.
Print Assumptions C67_refuted.

(** C78 fails: every access that raises leaves the master locked; no later access ever
    starts, whatever happens on the bus. *)
Theorem C78_refuted c before fuel address value sync w :
  (forall e w', opb_read c before fuel address sync w = (Exn e, w') \/
                opb_write c before fuel address value sync w = (Exn e, w') ->
     forall fuel' address' value' sync' phase inputs,
     let later := World (st w') phase (out w') (trace w') inputs in
     opb_read c before fuel' address' sync' later = (Susp, later) /\
     opb_write c before fuel' address' value' sync' later = (Susp, later)).
Proof.
  intros e w' H fuel' address' value' sync' phase inputs later.
  assert (S : st later = true).
  { destruct H as [H|H]; [exact (read_raise c before fuel address sync w e w' H)|exact (write_raise c before fuel address value sync w e w' H)]. }
  destruct (locked_stuck c before later S) as [A B]. split; [apply A|apply B].
Qed.
Print Assumptions C78_refuted.

(** C78 fails: after a timeout the slave stays selected with the request *)
Theorem C78_select_refuted c before fuel address value o p tr i0 i1 w j r :
  opb_ok c address value -> S (length (w ++ j :: r)) < fuel ->
  p_ack i0 = L0 -> waiting w -> expired (w ++ [j]) ->
  out (snd (opb_read c before fuel address true (World false p o tr (i0 :: i1 :: w ++ j :: r)))) = opb_read_request c o address /\
  out (snd (opb_write c before fuel address value true (World false p o tr (i0 :: i1 :: w ++ j :: r)))) = opb_write_request c o address value.
Proof.
  intros H Hf A W X. pose proof (ends_timeout w j W X) as E. split.
  - destruct (read_later c before fuel address p o tr i0 i1 (w ++ j :: r) Hf (proj1 H) (proj1 (proj2 H)) A) as [R _].
    rewrite (R _ _ _ _ eq_refl E). reflexivity.
  - destruct (write_later c before fuel address value p o tr i0 i1 (w ++ j :: r) Hf H A) as [R _].
    rewrite (R _ _ _ _ eq_refl E). reflexivity.
Qed.
Print Assumptions C78_select_refuted.

(** C78, what holds: an access that returns has deselected the slave and is unlocked *)
Theorem C78_partial c before fuel address value sync w :
  p_select (out w) <> L1 ->
  (forall d w', opb_read c before fuel address sync w = (Done d, w') -> st w' = false /\ p_select (out w') = L0) /\
  (forall w', opb_write c before fuel address value sync w = (Done tt, w') -> st w' = false /\ p_select (out w') = L0).
Proof.
  intro P. split.
  - intros d w' E. apply (read_unseen c before fuel address sync w d w' P E).
  - intros w' E. apply (write_unseen c before fuel address value sync w tt w' P E).
Qed.
Print Assumptions C78_partial.

(** C79 fails: a write never changes the slave's data input DBus_in *)
Theorem C79_refuted c before fuel address value sync w d :
  p_din (out w) = d -> Forall (fun x => p_din (snd x) = d) (trace w) ->
  let w' := snd (opb_write c before fuel address value sync w) in
  p_din (out w') = d /\ Forall (fun x => p_din (snd x) = d) (trace w').
Proof. exact (write_din c before fuel address value sync w d). Qed.
Print Assumptions C79_refuted.

(** C79, what holds: from the cycle after the synchronising one and as long as the
    write waits, address, RNW=0 and BE=15 are on the bus (and the value on DBus_out) *)
Theorem C79_partial c before fuel address value o p tr i0 i1 l :
  S (length l) < fuel -> opb_ok c address value -> p_ack i0 = L0 ->
  exists w rest r p', l = w ++ rest /\ waiting w /\
    opb_write c before fuel address value true (World false p o tr (i0 :: i1 :: l))
    = (r, World true p' (opb_write_request c o address value)
            (tr ++ held o [i0] ++ held (opb_write_request c o address value) (i1 :: w)) rest).
Proof. intros Hf H A. exact (write_shape c before fuel address value p o tr i0 i1 l Hf H A). Qed.
Print Assumptions C79_partial.

(** ** Non-vacuity *)
Definition ex_cfg := OpbCfg 8 4 8.
Definition ex_in (ack sup : logic) (d : Z) := OpbIn ack sup (zbits 8 d).
Definition ex_out := OpbOut (zbits 8 0) L0 L0 (zbits 4 0) (zbits 8 0) (zbits 8 0).
Definition idle_in := ex_in L0 L0 0.
Example ex_ok : opb_ok ex_cfg 200 17.
Proof. unfold opb_ok, fits. cbn. lia. Qed.
(** a read acknowledged after two wait states raises; one acknowledged beforehand returns *)
Example ex_ack : fst (opb_read ex_cfg idle_in 50 200 true
    (World false PActive ex_out [] [idle_in; idle_in; idle_in; ex_in L1 L0 99; idle_in])) = Exn ERuntime.
Proof. vm_compute. reflexivity. Qed.
Example ex_pre : fst (opb_read ex_cfg idle_in 50 200 true
    (World false PActive ex_out [] [ex_in L1 L0 99; idle_in])) = Done 99%Z.
Proof. vm_compute. reflexivity. Qed.
(** suppression restarts the timeout *)
Example ex_suppressed : fst (opb_write ex_cfg idle_in 50 200 17 true
    (World false PActive ex_out [] (repeat idle_in 15 ++ ex_in L0 L1 0 :: repeat idle_in 15))) = Susp.
Proof. vm_compute. reflexivity. Qed.
Example ex_timeout : fst (opb_write ex_cfg idle_in 50 200 17 true
    (World false PActive ex_out [] (repeat idle_in 18))) = Exn EOPB.
Proof. vm_compute. reflexivity. Qed.
Example ex_waiting : waiting [idle_in; ex_in L0 L1 5; idle_in].
Proof.
  constructor; [repeat constructor|repeat (constructor; [cbn; auto|]); constructor|].
  - intros a b E (x & y & E' & L & _). subst a. apply (f_equal (@length _)) in E. rewrite !app_length in E. cbn in E. lia.
Qed.
