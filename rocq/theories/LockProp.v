(** LockProp.v -- C26, C27. *)
From Verif Require Import LockModel LockSpec LockProof.

(** C26 is false: three tasks, one release wakes both waiters and both get the
    lock. *)
Theorem C26_exclusive_refuted :
  exists acts, no_failure acts /\ ~ exclusive (lrun acts lock_init).
Proof.
  exists [KAcquire 0; KAcquire 1; KAcquire 2; KRelease 0; KResume 1; KResume 2].
  split; [intros t H; repeat destruct H as [H|H]; try discriminate; exact H|].
  intro X. specialize (X 1 2 eq_refl eq_refl). discriminate X.
Qed.
Print Assumptions C26_exclusive_refuted.

(** Two tasks suffice: the first one releases and starts its next access before
    the scheduler resumes the waiter. *)
Theorem C26_two_tasks_refuted :
  exists acts, no_failure acts
    /\ (forall t, In (KAcquire t) acts -> t < 2)
    /\ ~ exclusive (lrun acts lock_init).
Proof.
  exists [KAcquire 0; KAcquire 1; KRelease 0; KAcquire 0; KResume 1].
  split; [|split].
  - intros t H. repeat destruct H as [H|H]; try discriminate; exact H.
  - intros t H. repeat destruct H as [H|H]; try discriminate; try (inversion H; lia); contradiction H.
  - intro X. specialize (X 0 1 eq_refl eq_refl). discriminate X.
Qed.
Print Assumptions C26_two_tasks_refuted.

(** What holds (missing: arbitrary schedules): if a new access is only started
    when no task is waiting or woken, at most one task holds the lock, for any
    number of tasks and any length. *)
Theorem C26_polite_exclusive_partial :
  forall acts, polite lock_init acts -> exclusive (lrun acts lock_init).
Proof. exact polite_exclusive. Qed.
Print Assumptions C26_polite_exclusive_partial.

Example C26_nonvacuous :
  let acts := [KAcquire 0; KAcquire 1; KRelease 0; KResume 1; KRelease 1; KAcquire 0] in
  polite lock_init acts /\ holds (lrun acts lock_init) 0 /\ holds (lrun (firstn 4 acts) lock_init) 1.
Proof.
  cbn. repeat split; try discriminate; unfold set_stat, wake_all; cbn;
    repeat match goal with |- context [Nat.eqb ?u ?n] => destruct (Nat.eqb u n); cbn end; discriminate.
Qed.

(** C27 is false: an access that ends with an exception leaves the lock taken
    for ever; no later schedule lets any task hold it. *)
Theorem C27_failed_access_blocks_refuted :
  forall acts t later u,
    polite lock_init acts -> holds (lrun acts lock_init) t ->
    ~ holds (lrun later (lstep (lrun acts lock_init) (KFail t))) u.
Proof. exact fail_forever. Qed.
Print Assumptions C27_failed_access_blocks_refuted.

Example C27_nonvacuous :
  polite lock_init [KAcquire 0] /\ holds (lrun [KAcquire 0] lock_init) 0
  /\ stat (lrun [KAcquire 1] (lstep (lrun [KAcquire 0] lock_init) (KFail 0))) 1 = LkWaiting.
Proof. cbn. repeat split; discriminate. Qed.

(** What holds (missing: accesses that raise while holding the lock): without
    such failures, whenever nobody holds the lock it can be taken at once, and
    no task is left waiting. *)
Theorem C27_no_failure_available_partial :
  forall acts t, no_failure acts ->
    let k := lrun acts lock_init in
    (forall u, ~ holds k u) ->
    (stat k t = LkIdle -> holds (lstep k (KAcquire t)) t)
    /\ stat k t <> LkWaiting
    /\ (stat k t = LkWoken -> holds (lstep k (KResume t)) t).
Proof. exact live_acquire. Qed.
Print Assumptions C27_no_failure_available_partial.

Example C27_partial_nonvacuous :
  let acts := [KAcquire 0; KAcquire 1; KAcquire 2; KRelease 0] in
  no_failure acts /\ stat (lrun acts lock_init) 1 = LkWoken /\ stat (lrun acts lock_init) 7 = LkIdle
  /\ forall u, ~ holds (lrun acts lock_init) u.
Proof.
  cbn. repeat split; try (intros t H; repeat destruct H as [H|H]; try discriminate; exact H).
  intro u. unfold holds, wake_all, set_stat; cbn.
  repeat match goal with |- context [Nat.eqb u ?n] => destruct (Nat.eqb u n); cbn end; discriminate.
Qed.
