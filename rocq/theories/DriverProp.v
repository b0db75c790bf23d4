(** DriverProp.v -- C22 .. C25, C69, C70. *)
From Verif Require Import DriverModel DriverSpec DriverProof.
From Coq Require Import Permutation.

(** C22.  For every schedule and every behaviour of the callbacks, the log is a
    run of a FIFO queue: what is handed to the protocol is always the oldest
    entry appended and not cleared, and it leaves the queue. *)
Theorem C22_fifo :
  forall (T : Type) beh (acts : list (action T)),
    let d := run T beh acts drv_init in
    follows fifo [] (log d) (sendq d).
Proof. intros. apply run_fifo. Qed.
Print Assumptions C22_fifo.

(** Nothing is sent that was not appended, in no other order, and no appended
    entry twice: sent entries followed by the still queued ones are a
    subsequence of the appended ones. *)
Theorem C22_at_most_once_in_order :
  forall (T : Type) beh (acts : list (action T)),
    let d := run T beh acts drv_init in
    subseq (started (log d) ++ sendq d) (appended (log d)).
Proof. intros. apply run_subseq. Qed.
Print Assumptions C22_at_most_once_in_order.

(** Without clear() nothing is lost: the appended entries are the taken ones
    followed by the queued ones. *)
Theorem C22_nothing_lost :
  forall (T : Type) beh (acts : list (action T)),
    let d := run T beh acts drv_init in
    never_cleared (log d) ->
    appended (log d) = taken (log d) ++ sendq d.
Proof. intros T beh acts d. apply run_exact. Qed.
Print Assumptions C22_nothing_lost.

(** The appended entries are the ones other coroutines appended (here for
    callbacks that do not append themselves). *)
Theorem C22_appended_by_schedule :
  forall (T : Type) beh (acts : list (action T)),
    passive beh -> appended (log (run T beh acts drv_init)) = appends_of acts.
Proof. intros T beh acts P. apply (run_appended beh acts P). Qed.
Print Assumptions C22_appended_by_schedule.

Definition it (n : nat) : item nat := Item n None None false.
Definition itc (n : nat) : item nat := Item n (Some 0) (Some n) false.
(** a callback that queues a follow-up for transaction 1 and clears after 5 *)
Definition chatty (c t : nat) : list (cbop nat) * option exn :=
  match t with 1 => ([CAppend (it 9)], None) | 5 => ([CClear], None) | 7 => ([], Some (EUser 0)) | _ => ([], None) end.

Example C22_nonvacuous :
  let d := run nat chatty [AAppend (itc 1); ARun; AAppend (it 2); AFinish None; AFinish None;
                           AFinish None; ARun; AAppend (itc 5); AAppend (it 6); ARun; AFinish None; ARun] drv_init in
  map i_tx (appended (log d)) = [1; 2; 9; 5; 6] /\ map i_tx (started (log d)) = [1; 2; 9; 5] /\ sendq d = []
  /\ sleeping d.
Proof. vm_compute. repeat split. Qed.

Example C22_nothing_lost_nonvacuous :
  let d := run nat chatty [AAppend (it 1); AAppend (it 2); ARun] drv_init in
  never_cleared (log d) /\ taken (log d) = [it 1] /\ sendq d = [it 2].
Proof. vm_compute. split; [intros H; intuition discriminate|split; reflexivity]. Qed.

(** C23.  Never asleep with work queued, in every reachable state. *)
Theorem C23_no_lost_wakeup :
  forall (T : Type) beh (acts : list (action T)),
    let d := run T beh acts drv_init in
    sendq d <> [] -> ~ sleeping d.
Proof. intros T beh acts d. apply run_wakeup. Qed.
Print Assumptions C23_no_lost_wakeup.

(** From every reachable state with a live thread, resuming the thread and
    letting transmissions complete sends everything that is queued, in order,
    and then goes to sleep (entries without a sync keyword, callbacks that do
    not append). *)
Theorem C23_everything_sent :
  forall (T : Type) beh, passive beh -> forall (acts : list (action T)) d,
    d = run T beh acts drv_init ->
    Forall (fun i => i_sync_kw i = false) (sendq d) -> alive d ->
    exists acts', Forall (fun a => a = ARun \/ a = AFinish None) acts'
      /\ length acts' <= 1 + S (length (sendq d))
      /\ let d' := run T beh acts' d in
         sleeping d' /\ sendq d' = []
         /\ exists l, log d' = log d ++ l /\ started l = sendq d
              /\ completed l = match thr d with TSending i _ => [i] | _ => [] end ++ sendq d.
Proof. intros T beh P acts d. apply (drain beh P acts d). Qed.
Print Assumptions C23_everything_sent.

Example C23_nonvacuous :
  let d := run nat (fun _ _ => ([], None)) [ARun; AAppend (it 1); AAppend (it 2); ARun; AAppend (it 3)] drv_init in
  passive (fun (_ t : nat) => ([] : list (cbop nat), None : option exn))
  /\ Forall (fun i => i_sync_kw i = false) (sendq d) /\ alive d /\ sendq d = [it 2; it 3]
  /\ thr d = TSending (it 1) true.
Proof. vm_compute. repeat split; repeat constructor. Qed.

(** C24.  A transmission synchronises exactly when it is the first one, or when
    nothing was queued at the moment the previous entry was done. *)
Theorem C24_first_of_batch_syncs :
  forall (T : Type) beh (acts : list (action T)),
    let d := run T beh acts drv_init in
    exists b, follows batch ([], true) (log d) (sendq d, b).
Proof. intros. apply run_batch. Qed.
Print Assumptions C24_first_of_batch_syncs.

Example C24_nonvacuous :
  let d := run nat chatty [AAppend (it 1); AAppend (it 2); ARun; AFinish None; AFinish None; AAppend (it 3); ARun] drv_init in
  flat_map (fun e => match e with VStart i s => [(i_tx i, s)] | _ => [] end) (log d)
  = [(1, true); (2, false); (3, true)].
Proof. vm_compute. reflexivity. Qed.

(** C25.  The life cycle of every entry, for every schedule, every callback
    behaviour and every failing transmission. *)
Theorem C25_lifecycle :
  forall (T : Type) beh (acts : list (action T)),
    let d := run T beh acts drv_init in
    follows lifecycle LIdle (log d) (life_of (thr d)).
Proof. intros. apply run_life. Qed.
Print Assumptions C25_lifecycle.

(** Events and callbacks happen for completed entries only, once each, in order. *)
Theorem C25_notifications_exact :
  forall (T : Type) beh (acts : list (action T)),
    let l := log (run T beh acts drv_init) in
    notifications l = flat_map owed (completed l).
Proof. intros. apply run_notified. Qed.
Print Assumptions C25_notifications_exact.

(** Completed entries are the started ones, but for the one in progress or the
    one in which the thread ended. *)
Theorem C25_completed :
  forall (T : Type) beh (acts : list (action T)),
    let d := run T beh acts drv_init in
    exists rest, started (log d) = completed (log d) ++ rest
      /\ length rest <= 1
      /\ match thr d with TSending i _ => rest = [i] | TDead _ => True | _ => rest = [] end.
Proof. intros. apply run_completed. Qed.
Print Assumptions C25_completed.

(** An exception in a transmission ends the thread with it; after the end,
    whatever is appended and scheduled, nothing is taken, sent or notified. *)
Theorem C25_failure_ends_thread :
  forall (T : Type) beh (acts later : list (action T)) d i s e,
    d = run T beh acts drv_init -> thr d = TSending i s ->
    let d1 := step T beh d (AFinish (Some e)) in
    let d2 := run T beh later d1 in
    thr d1 = TDead (Some e) /\ thr d2 = TDead (Some e)
    /\ exists l, log d2 = log d1 ++ l /\ started l = [] /\ completed l = [] /\ taken l = []
         /\ forall c t, ~ In (VCallback c t) l /\ forall k, ~ In (VEvent k) l.
Proof.
  intros T beh acts later d i s e _ E. cbn zeta. cbn [step]. rewrite E.
  split; [reflexivity|]. apply (run_dead beh later). reflexivity.
Qed.
Print Assumptions C25_failure_ends_thread.

Example C25_nonvacuous :
  let d := run nat chatty [AAppend (itc 1); AAppend (itc 2); ARun; AFinish None; AFinish (Some EValue)] drv_init in
  log d = [VAppend (itc 1); VAppend (itc 2); VStart (itc 1) true; VSent (itc 1); VEvent 1; VCallback 0 1;
           VAppend (it 9); VDone (itc 1); VStart (itc 2) false; VDead (Some EValue)]
  /\ sendq d = [it 9].
Proof. vm_compute. split; reflexivity. Qed.

(** C69.  The queue and a direct send() are not kept apart: both can be inside
    _driver_send at the same time. *)
Theorem C69_send_overlaps_queue_refuted :
  exists (beh : nat -> nat -> list (cbop nat) * option exn) (acts : list (action nat)),
    overlapping (run nat beh acts drv_init).
Proof.
  exists chatty, [AAppend (it 1); ARun; ADirect 2 true].
  vm_compute. split; [discriminate|exact I].
Qed.
Print Assumptions C69_send_overlaps_queue_refuted.

(** What holds: without direct sends there is never more than one transmission
    in progress (the life cycle above). *)
Theorem C69_no_direct_no_overlap_partial :
  forall (T : Type) beh (acts : list (action T)),
    (forall t s, ~ In (ADirect t s) acts) -> ~ overlapping (run T beh acts drv_init).
Proof. intros T beh acts. apply run_no_direct. Qed.
Print Assumptions C69_no_direct_no_overlap_partial.

(** Direct sends never disturb the queue: what the send thread does, and when, is what it
    does without them. *)
Theorem C69_queue_undisturbed_partial :
  forall (T : Type) beh (acts : list (action T)),
    let d := run T beh acts drv_init in
    let d' := run T beh (filter (fun a => negb (is_send a)) acts) drv_init in
    filter (fun e => negb (is_direct e)) (log d) = log d' /\ sendq d = sendq d' /\ thr d = thr d'.
Proof. intros T beh acts. apply queue_undisturbed. Qed.
Print Assumptions C69_queue_undisturbed_partial.

(** Every send() call is in progress or has returned, once, with its own transaction. *)
Theorem C69_sends_return_partial :
  forall (T : Type) beh (acts : list (action T)),
    let d := run T beh acts drv_init in
    Permutation (sends (log d)) (returned (log d) ++ direct d).
Proof. intros T beh acts. apply (sends_perm beh acts drv_init). constructor. Qed.
Print Assumptions C69_sends_return_partial.

Example C69_nonvacuous :
  let d := run nat chatty [AAppend (it 1); ADirect 2 true; ARun; ADirect 3 false; ADirectDone 1; AFinish None; ADirect 4 true; ADirectDone 0] drv_init in
  sends (log d) = [2; 3; 4] /\ returned (log d) = [3; 2] /\ direct d = [4] /\ sleeping d.
Proof. vm_compute. repeat split. Qed.

(** C70.  send accepts sync=..., append accepts the same keyword, but the send
    thread then dies and everything queued is lost. *)
Theorem C70_append_sync_keyword_refuted :
  forall (T : Type) beh (t : T) (later : list (action T)),
    let d := run T beh ([AAppend (Item t None None true); ARun] ++ later) drv_init in
    thr d = TDead (Some EType) /\ started (log d) = [].
Proof. intros T beh t later. apply run_sync_kw. Qed.
Print Assumptions C70_append_sync_keyword_refuted.

(** Without that keyword no entry is ever rejected. *)
Theorem C70_no_reject_partial :
  forall (T : Type) beh (acts : list (action T)),
    let d := run T beh acts drv_init in
    Forall (fun i => i_sync_kw i = false) (appended (log d)) ->
    forall i, ~ In (VReject i) (log d).
Proof. intros T beh acts. apply run_no_reject. Qed.
Print Assumptions C70_no_reject_partial.

Example C70_nonvacuous :
  let d := run nat chatty [AAppend (itc 1); AAppend (it 2); ARun; AFinish None; AFinish None] drv_init in
  Forall (fun i => i_sync_kw i = false) (appended (log d)) /\ map i_tx (started (log d)) = [1; 2; 9].
Proof. vm_compute. split; [repeat constructor|reflexivity]. Qed.
