(** MonitorProp.v -- C11 .. C14. *)
From Verif Require Import MonitorModel MonitorSpec MonitorProof.

(** C11.  For callbacks that do not raise and do not register others: every
    history runs to the end, callback number i sees exactly the transactions
    received after its registration, in order, each transaction is offered to
    the callbacks in registration order, transactions received while there was
    no callback are queued. *)
Theorem C11_delivery :
  forall (T : Type) beh, quiet beh ->
  forall fuel (ops : list (mon_op T)) m,
    length (callbacks m) + adds ops < fuel ->
    exists m', mon_run T beh fuel ops m None = Some (m', None)
      /\ (forall i, calls_of i (calls m') = calls_of i (calls m) ++ seen_by i (length (callbacks m)) ops)
      /\ calls m' = calls m ++ flat_map (fun kt => round (fst kt) (snd kt))
                                (combine (registered_before (length (callbacks m)) ops) (receptions ops))
      /\ recvq m' = recvq m ++ unclaimed (length (callbacks m)) ops.
Proof. exact @mon_run_quiet. Qed.
Print Assumptions C11_delivery.

(** For arbitrary callbacks (they may register further callbacks during a
    reception): in every history without exception, transaction number j is
    offered once, in order, to the first k_j callbacks, where k_j counts at
    least all callbacks registered before it; statistics, event and waiters get
    every transaction; a transaction is queued exactly when k_j = 0. *)
Theorem C11_delivery_reentrant :
  forall (T : Type) beh fuel (ops : list (mon_op T)) m m' n,
    n <= length (callbacks m) ->
    mon_run T beh fuel ops m None = Some (m', None) ->
    exists ks, Forall2 le (registered_before n ops) ks
      /\ calls m' = calls m ++ flat_map (fun kt => round (fst kt) (snd kt)) (combine ks (receptions ops))
      /\ Forall (fun k => k <= length (callbacks m')) ks
      /\ length (callbacks m) <= length (callbacks m')
      /\ received m' = received m + length (receptions ops)
      /\ has_event m' = has_event m
      /\ events m' = (if has_event m then events m ++ receptions ops else events m)
      /\ notified m' = notified m ++ receptions ops
      /\ recvq m' = recvq m ++ map snd (filter (fun kt => fst kt =? 0) (combine ks (receptions ops))).
Proof. exact @mon_run_spec. Qed.
Print Assumptions C11_delivery_reentrant.

(** One reception, arbitrary callbacks: everyone registered by the end of the
    reception is called exactly once, in order. *)
Theorem C11_one_reception :
  forall (T : Type) beh fuel m (t : T) m',
    recv T beh fuel m t = Some (m', Ok tt) ->
    (exists added, callbacks m' = callbacks m ++ added)
    /\ calls m' = calls m ++ round (length (callbacks m')) t
    /\ received m' = S (received m)
    /\ recvq m' = (if length (callbacks m') =? 0 then recvq m ++ [t] else recvq m)
    /\ has_event m' = has_event m
    /\ events m' = (if has_event m then events m ++ [t] else events m)
    /\ notified m' = notified m ++ [t].
Proof. exact @recv_ok. Qed.
Print Assumptions C11_one_reception.

(** From construction, with or without a callback: the statistics count the receptions, the
    event gets all of them, and the queue those received while there was no callback. *)
Theorem C11_from_construction :
  forall (T : Type) beh fuel (ops : list (mon_op T)) callback event m',
    mon_run T beh fuel ops (mon_init T callback event) None = Some (m', None) ->
    received m' = length (receptions ops)
    /\ events m' = (if event then receptions ops else [])
    /\ notified m' = receptions ops
    /\ (quiet beh -> let n := match callback with Some _ => 1 | None => 0 end in
         n + adds ops < fuel ->
         recvq m' = unclaimed n ops /\ forall i, calls_of i (calls m') = seen_by i n ops).
Proof.
  intros T beh fuel ops callback event m' R.
  destruct (mon_run_spec beh fuel ops _ m' 0 (Nat.le_0_l _) R) as (ks & _ & _ & _ & _ & A & _ & B & C & _).
  split; [exact A|]. split; [rewrite B; cbn; now destruct event|]. split; [exact C|].
  intros Q n F. destruct (mon_run_quiet beh Q fuel ops (mon_init T callback event)) as (m2 & R2 & D & _ & E).
  { unfold n in F. destruct callback; exact F. }
  rewrite R in R2. injection R2 as <-. rewrite E. unfold n. destruct callback; cbn; split; auto; intro i; rewrite D; reflexivity.
Qed.
Print Assumptions C11_from_construction.

Example C11_nonvacuous :
  quiet (fun (_ : list (nat * nat)) (_ _ : nat) => ([], None))
  /\ exists m', mon_run nat (fun _ _ _ => ([], None)) 5 [ORecv 7; OAdd 1; ORecv 8; OAdd 2; ORecv 9]
                        (mon_init nat None true) None = Some (m', None)
     /\ calls m' = [(0, 8); (0, 9); (1, 9)] /\ recvq m' = [7] /\ received m' = 3 /\ events m' = [7; 8; 9].
Proof. split; [intros log c t; reflexivity|]. eexists. split; [vm_compute; reflexivity|]. vm_compute. auto. Qed.

(** callback 0 registers callback 1 on its first call *)
Example C11_reentrant_nonvacuous :
  exists m', mon_run nat (fun log c _ => (match c, log with 0, [] => [1] | _, _ => [] end, None))
                     9 [OAdd 0; ORecv 8; ORecv 9] (mon_init nat None false) None = Some (m', None)
     /\ calls m' = [(0, 8); (1, 8); (0, 9); (1, 9)].
Proof. eexists. split; [vm_compute; reflexivity|]. reflexivity. Qed.

(** C12.  Whenever a reception raises, the callbacks up to the raising one saw
    the transaction, it is counted, and nothing else happened with it. *)
Theorem C12_raising_callback :
  forall (T : Type) beh fuel m (t : T) m' e,
    recv T beh fuel m t = Some (m', Err e) ->
    (exists added, callbacks m' = callbacks m ++ added)
    /\ (exists k c, nth_error (callbacks m') k = Some c
          /\ calls m' = calls m ++ round (S k) t
          /\ snd (beh (calls m ++ round k t) c t) = Some e)
    /\ received m' = S (received m) /\ recvq m' = recvq m
    /\ has_event m' = has_event m /\ events m' = events m /\ notified m' = notified m.
Proof. exact @recv_err. Qed.
Print Assumptions C12_raising_callback.

(** Conversely, if callback k raises and none before it does, the reception
    raises that exception. *)
Theorem C12_exception_propagates :
  forall (T : Type) beh fuel m (t : T) k c e,
    (forall log c' t', fst (beh log c' t') = []) ->
    nth_error (callbacks m) k = Some c -> k < fuel ->
    (forall j c', j < k -> nth_error (callbacks m) j = Some c' -> forall log, snd (beh log c' t) = None) ->
    (forall log, snd (beh log c t) = Some e) ->
    exists m', recv T beh fuel m t = Some (m', Err e) /\ calls m' = calls m ++ round (S k) t
      /\ received m' = S (received m) /\ recvq m' = recvq m /\ events m' = events m
      /\ notified m' = notified m.
Proof. exact @recv_raise. Qed.
Print Assumptions C12_exception_propagates.

(** After that the monitoring coroutine is dead: nothing is delivered any more. *)
Theorem C12_monitor_dead :
  forall (T : Type) beh fuel (ops : list (mon_op T)) m e,
    exists m', mon_run T beh fuel ops m (Some e) = Some (m', Some e)
      /\ recvq m' = recvq m /\ received m' = received m /\ events m' = events m
      /\ notified m' = notified m /\ calls m' = calls m.
Proof. exact @mon_run_dead. Qed.
Print Assumptions C12_monitor_dead.

Example C12_nonvacuous :
  exists m', mon_run nat (fun _ c _ => ([], if c =? 5 then Some EAssertion else None))
                     9 [OAdd 1; OAdd 5; OAdd 2; ORecv 8; ORecv 9] (mon_init nat None true) None
             = Some (m', Some EAssertion)
     /\ calls m' = [(0, 8); (1, 8)] /\ received m' = 1 /\ events m' = [].
Proof. eexists. split; [vm_compute; reflexivity|]. vm_compute. auto. Qed.

(** C13.  For every schedule: a completed wait_for_recv returned the latest
    transaction received when the task resumed, and that one was received after
    the wait began; or it returned None and had a timeout. *)
Theorem C13_wait_result :
  forall (T : Type) (l : list (wact T)) x r at_,
    In x (tasks (wrun T l)) -> tstatus x = WDone r at_ ->
    (exists t, r = Some t /\ tstart x < at_ <= length (whist (wrun T l))
            /\ nth_error (whist (wrun T l)) (at_ - 1) = Some t)
    \/ (r = None /\ ttimeout x = true).
Proof. exact @wait_result. Qed.
Print Assumptions C13_wait_result.

(** If exactly one transaction was received between the call and the resumption
    it is the one returned. *)
Theorem C13_single_reception :
  forall (T : Type) (l : list (wact T)) x t,
    In x (tasks (wrun T l)) -> tstatus x = WDone (Some t) (S (tstart x)) ->
    nth_error (whist (wrun T l)) (tstart x) = Some t.
Proof.
  intros T l x t Hi Hs. destruct (wait_result l x _ _ Hi Hs) as [(t' & E & _ & H)|(E & _)]; [|discriminate].
  injection E as <-. now rewrite Nat.sub_succ, Nat.sub_0_r in H.
Qed.
Print Assumptions C13_single_reception.

(** A task still blocked has seen no reception since it began: no wake-up is lost. *)
Theorem C13_no_lost_wakeup :
  forall (T : Type) (l : list (wact T)) x,
    In x (tasks (wrun T l)) -> tstatus x = WBlocked -> tstart x = length (whist (wrun T l)).
Proof. exact @wait_blocked. Qed.
Print Assumptions C13_no_lost_wakeup.

(** A reception wakes every blocked task; a woken task completes when resumed. *)
Theorem C13_all_waiters_woken :
  forall (T : Type) (w : waits T) t i x,
    nth_error (tasks w) i = Some x -> tstatus x = WBlocked ->
    let w' := wstep T w (ARecv t) in
    nth_error (tasks (wstep T w' (AResume i))) i
    = Some (mkTask (tstart x) (ttimeout x) (WDone (Some t) (S (length (whist w))))).
Proof.
  intros T w t i x Hi Hs w'.
  assert (E : nth_error (tasks w') i = Some (mkTask (tstart x) (ttimeout x) WWoken)).
  { cbn. rewrite nth_error_map, Hi. cbn. unfold wake. now rewrite Hs. }
  cbn [wstep tasks]. rewrite (nth_error_upd _ _ _ _ E). cbn. rewrite app_length, Nat.add_1_r. reflexivity.
Qed.
Print Assumptions C13_all_waiters_woken.

(** the history in the theorems above is the list of receptions of the schedule *)
Theorem C13_history :
  forall (T : Type) (l : list (wact T)), whist (wrun T l) = recv_acts l.
Proof. exact @whist_acts. Qed.
Print Assumptions C13_history.

Example C13_nonvacuous :
  let w := wrun nat [AWait false; AWait true; ARecv 5; AWait true; ARecv 6; AResume 0; AResume 1;
                     AWait true; ATimer 3; AResume 3] in
  map tstatus (tasks w) = [WDone (Some 6) 2; WDone (Some 6) 2; WWoken; WDone None 2].
Proof. reflexivity. Qed.

(** C14 *)
Theorem C14_in_reset :
  forall reset_n reset,
    in_reset reset_n reset =
    match reset_n, reset with
    | Some v, _ => match bval v with None => Err EValue | Some z => Ok (z =? 0)%Z end
    | None, Some v => match bval v with None => Err EValue | Some z => Ok (negb (z =? 0)%Z) end
    | None, None => Ok false
    end.
Proof. exact in_reset_spec. Qed.
Print Assumptions C14_in_reset.

Example C14_nonvacuous :
  in_reset (Some [L0]) (Some [L1]) = Ok true /\ in_reset (Some [L1]) (Some [L1]) = Ok false
  /\ in_reset None (Some [L1]) = Ok true /\ in_reset None (Some [L0]) = Ok false
  /\ in_reset (Some [LX]) None = Err EValue.
Proof. repeat split. Qed.
