(** MonKillProp.v -- C95: kill; C96: callables as callbacks; C97: timeouts. *)
From Verif Require Import MonitorModel MonitorSpec MonKillModel MonKillSpec MonKillProof.
Local Open Scope list_scope.

(** C95.  After any history and kill(), whatever happens later: no callback is called, nothing
    is queued, counted or notified; what was received before stays.  A wait_for_recv that
    returns a transaction was called before the kill and returns one received before it. *)
Theorem C95_killed : forall (T : Type) beh fuel cb ev s0 pre s post,
  construct T cb ev = Ok s0 -> whole_run T beh fuel s0 pre = Some s ->
  exists s', whole_run T beh fuel s (WKill :: post) = Some s' /\
    reception_record (mon s') = reception_record (mon s) /\
    forall i t, answer_of s' i = Some (Returned (Some t)) -> i < calls_made s /\ In t (notified (mon s)).
Proof. exact killed_thm. Qed.
Print Assumptions C95_killed.

(** C96, false: a callable without __qualname__ is rejected with AttributeError, by the
    constructor too; the rest goes on as if it had not been registered. *)
Theorem C96_refuted : forall (T : Type) beh fuel c, named c = false ->
  (forall ev, construct T (Some c) ev = Err EAttribute) /\
  forall s ops, whole_step T beh fuel s (WAdd c) = Some (s, Err EAttribute) /\
    whole_run T beh fuel s (WAdd c :: ops) = whole_run T beh fuel s ops.
Proof.
  intros T beh fuel c H. split; [intro ev; unfold construct, add_callable; rewrite H; reflexivity|].
  intros s ops. cbn [whole_run whole_step]. unfold add_callable. rewrite H. split; reflexivity.
Qed.
Print Assumptions C96_refuted.

(** C96, what holds: a callable with a __qualname__ sees every later transaction once, in
    order (callbacks that do not raise or register others; monitor running, not killed). *)
Theorem C96_partial : forall (T : Type) beh fuel c ops s s', quiet beh -> named c = true -> thr s = Running ->
  Forall (fun o => ~ kills o) ops -> length (callbacks (mon s)) + S (length ops) < fuel ->
  whole_run T beh fuel s (WAdd c :: ops) = Some s' ->
  calls_of (length (callbacks (mon s))) (calls (mon s'))
  = calls_of (length (callbacks (mon s))) (calls (mon s)) ++ transactions ops.
Proof. intros T beh fuel c ops s s'. exact (registered_thm T beh fuel c ops s s'). Qed.
Print Assumptions C96_partial.

(** C96, what holds: given to the constructor it sees every transaction from the first on. *)
Theorem C96_constructed_partial : forall (T : Type) beh fuel c ev ops s s', quiet beh -> named c = true ->
  construct T (Some c) ev = Ok s -> Forall (fun o => ~ kills o) ops -> S (length ops) < fuel ->
  whole_run T beh fuel s ops = Some s' ->
  calls_of 0 (calls (mon s')) = transactions ops.
Proof.
  intros T beh fuel c ev ops s s' Q N C F L R.
  assert (C0 : exists s0, construct T None ev = Ok s0) by (eexists; reflexivity). destruct C0 as [s0 C0].
  assert (E : whole_run T beh fuel s0 (WAdd c :: ops) = Some s').
  { unfold construct, add_callable in C, C0. rewrite N in C. inversion C0; subst s0. inversion C; subst s.
    cbn [whole_run whole_step]. unfold add_callable. rewrite N. exact R. }
  inversion C0; subst s0. exact (registered_thm T beh fuel c ops (mkWhole T (mon_init T None ev) (waits_init T) Running) s' Q N eq_refl F L E).
Qed.
Print Assumptions C96_constructed_partial.

(** C97, false: wait_for_recv(timeout=0) waits for ever if nothing is received. *)
Theorem C97_refuted : forall (T : Type) beh fuel s ops, Forall (fun o => ~ receives o) ops ->
  exists s', whole_run T beh fuel s (WWait (Some 0) :: ops) = Some s' /\
    answer_of s' (calls_made s) = Some Pending.
Proof. intros T beh fuel s ops. exact (no_timeout_thm T beh fuel s ops (Some 0) eq_refl). Qed.
Print Assumptions C97_refuted.

(** C97, what holds: with any other timeout, if nothing is received before the time is over,
    it returns None when the task is resumed, whatever is received meanwhile. *)
Theorem C97_partial : forall (T : Type) beh fuel n s a b s', Forall (fun o => ~ receives o) a ->
  Exists (is_resume (calls_made s)) b ->
  whole_run T beh fuel s (WWait (Some (S n)) :: a ++ WTimer (calls_made s) :: b) = Some s' ->
  answer_of s' (calls_made s) = Some (Returned None).
Proof. exact timeout_thm. Qed.
Print Assumptions C97_partial.

(** Examples *)
Definition exk_beh (_ : list (nat * nat)) (_ _ : nat) : list nat * option exn := ([], None).
Definition exk_pre : list (wop nat) := [WRecv 3; WAdd (mkCallable true 7); WAdd (mkCallable false 8); WWait None; WWait (Some 5); WRecv 4; WResume 1].
Example exk_run : exists s0 s s', construct nat None true = Ok s0 /\ whole_run nat exk_beh 9 s0 exk_pre = Some s /\
  reception_record (mon s) = ([(0, 4)], [3], 2, [3; 4], [3; 4]) /\ answer_of s 0 = Some Pending /\ answer_of s 1 = Some (Returned (Some 4)) /\
  whole_run nat exk_beh 9 s [WKill; WRecv 5; WResume 0; WWait (Some 2); WKill; WTimer 2; WRecv 6; WResume 2; WWait None; WResume 3] = Some s' /\
  map (answer_of s') [0; 1; 2; 3] = [Some (Returned (Some 4)); Some (Returned (Some 4)); Some (Returned None); Some Pending] /\ received (mon s') = 2.
Proof. eexists _, _, _. split; [reflexivity|]. split; [vm_compute; reflexivity|]. repeat (split; [vm_compute; reflexivity|]). vm_compute. reflexivity. Qed.
Example exk_hypotheses : quiet exk_beh /\ Forall (fun o => ~ kills o) exk_pre /\ Forall (fun o : wop nat => ~ receives o) [WAdd (mkCallable true 7); WTimer 0; WResume 0; WKill].
Proof. split; [intros l c t; reflexivity|]. split; repeat (apply Forall_cons; [intros []|]); apply Forall_nil. Qed.
