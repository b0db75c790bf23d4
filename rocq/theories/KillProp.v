(** KillProp.v -- C101 and C102: a driver that is killed. *)
From Verif Require Import Base Async BitsLemmas CompatModel CompatSpec DriverModel DriverSpec DrvUtilModel AvalonSTModel AvalonSTSpec
  E2ESpec StE2EModel StE2ESpec StE2EProof KillSpec KillProof.
Local Open Scope list_scope.

(** C101.  Whatever happened before ([acts1]) and whatever the test and the simulator do
    afterwards ([acts2]), from kill() on the send thread starts no transmission, sets no
    event and calls no callback; send() still works; what is appended stays in the queue,
    and clear() empties it. *)
Theorem C101_killed_driver :
  forall (T : Type) (beh : nat -> T -> list (cbop T) * option exn) acts1 acts2,
    let d := run T beh acts1 drv_init in
    let d' := run T beh (acts1 ++ AKill :: acts2) drv_init in
    filter by_thread (log d') = filter by_thread (log d)
    /\ filter by_send (log d') = filter by_send (log d) ++ sends_of acts2
    /\ sendq d' = undrained acts2 (sendq d)
    /\ exists e, thr d' = TDead e.
Proof. intros T beh. exact (killed_thm beh). Qed.
Print Assumptions C101_killed_driver.

(** Killing it again changes nothing. *)
Theorem C101_kill_twice :
  forall (T : Type) (beh : nat -> T -> list (cbop T) * option exn) acts1 acts2 acts3,
    run T beh (acts1 ++ AKill :: acts2 ++ AKill :: acts3) drv_init = run T beh (acts1 ++ AKill :: acts2 ++ acts3) drv_init.
Proof. intros T beh. exact (kill_twice beh). Qed.
Print Assumptions C101_kill_twice.

(** Three entries, the second being sent at the kill; afterwards an append, a send(), a
    clear() and another append. *)
Example C101_nonvacuous :
  let it n := Item n (Some n) None false in
  let acts1 := [AAppend (it 1); AAppend (it 2); AAppend (it 3); ARun; AFinish None] in
  let acts2 := [AFinish None; AAppend (it 4); ARun; ADirect 9 true; ADirectDone 0; AClear; AAppend (it 5); ARun] in
  let d := run nat (fun _ _ => ([], None)) acts1 drv_init in
  let d' := run nat (fun _ _ => ([], None)) (acts1 ++ AKill :: acts2) drv_init in
  started (log d) = [it 1; it 2] /\ DriverSpec.completed (log d') = [it 1] /\ started (log d') = [it 1; it 2]
  /\ sendq d = [it 3] /\ sendq d' = [it 5] /\ sends_of acts2 = [VDirect 9 true]
  (* without the kill *)
  /\ started (log (run nat (fun _ _ => ([], None)) (acts1 ++ acts2) drv_init)) = [it 1; it 2; it 3].
Proof. repeat split; reflexivity. Qed.

(** C102: a killed plain Avalon-ST driver sends nothing more, i.e. the monitor reports
    nothing after the kill.  The driver is killed after the cycles [l]; nobody drives the bus
    in the cycles [J] that follow. *)
Definition C102_claim : Prop :=
  forall width has_ready be beh acts1 acts2 gws s fuel l J,
    width <> 1 -> queue_only acts1 -> queue_only acts2 ->
    let d := run binsrc beh acts1 drv_init in
    let d' := run binsrc beh (acts1 ++ AKill :: acts2) drv_init in
    Forall (fun i => fits width (i_tx i)) (appended (log d)) -> map snd gws = word_calls (log d') ->
    length l < fuel ->
    let '(r, w) := st_send_gaps width has_ready fuel gws (World s PActive (st_init_out width) [] l) in
    after_kill has_ready be w J = st_monitor has_ready be (trace w).

(** It does not hold: killed while a word waits for ready, the driver leaves valid asserted,
    and the word is transferred in every later cycle in which the sink is ready. *)
Theorem C102_killed_word_repeats_refuted : ~ C102_claim.
Proof.
  intro H.
  specialize (H 8 true true (fun _ _ => ([], None)) [AAppend (Item (BInt 5) None None false); ARun] []
    [(0, (BInt 5, true))] (set_valid_generator None) 9 [L0; L0; L0] [L1; L1]).
  specialize (H ltac:(discriminate) ltac:(repeat constructor) ltac:(repeat constructor)). cbn zeta in H.
  specialize (H ltac:(vm_compute; repeat constructor; discriminate) eq_refl ltac:(vm_compute; repeat constructor)).
  vm_compute in H. discriminate.
Qed.
Print Assumptions C102_killed_word_repeats_refuted.

(** What the monitor reports exactly, for every moment of the kill: with [reps] the byte
    strings of the entries the thread had taken from the queue, the first [n] of them, once
    each; then, if valid was asserted at the kill, the next one, once for every cycle in which
    the sink is ready; otherwise nothing more.  Missing from the full claim: the case of valid
    asserted, in which the code violates it. *)
Theorem C102_after_kill_partial :
  forall width has_ready be beh acts1 acts2 gws s p o fuel l,
    width <> 1 -> queue_only acts1 -> queue_only acts2 ->
    let d := run binsrc beh acts1 drv_init in
    let d' := run binsrc beh (acts1 ++ AKill :: acts2) drv_init in
    Forall (fun i => fits width (i_tx i)) (appended (log d)) -> map snd gws = word_calls (log d') ->
    length l < fuel -> p <> PReadOnly -> o_valid o <> L1 ->
    let '(r, w) := st_send_gaps width has_ready fuel gws (World s p o [] l) in
    exists reps n, word_reports be width (started (log d)) reps /\ n <= length reps /\
      match o_valid (out w) with
      | L1 => exists b, nth_error reps n = Some b
                /\ forall J, after_kill has_ready be w J = (firstn n reps ++ repeat b (ready_cycles has_ready J), None)
      | _ => forall J, after_kill has_ready be w J = (firstn n reps, None)
      end.
Proof.
  intros width hr be beh acts1 acts2 gws s p o fuel l W _ _.
  exact (killed_top width hr be beh acts1 acts2 gws s p o fuel l W).
Qed.
Print Assumptions C102_after_kill_partial.

(** ... so the claim fails for every driver killed while valid is asserted: if the sink is ready
    in any cycle afterwards, the monitor reports more than it had at the kill. *)
Theorem C102_every_waiting_word_refuted :
  forall width has_ready be beh acts1 acts2 gws s p o fuel l J,
    width <> 1 -> queue_only acts1 -> queue_only acts2 ->
    let d := run binsrc beh acts1 drv_init in
    let d' := run binsrc beh (acts1 ++ AKill :: acts2) drv_init in
    Forall (fun i => fits width (i_tx i)) (appended (log d)) -> map snd gws = word_calls (log d') ->
    length l < fuel -> p <> PReadOnly -> o_valid o <> L1 -> 0 < ready_cycles has_ready J ->
    let '(r, w) := st_send_gaps width has_ready fuel gws (World s p o [] l) in
    o_valid (out w) = L1 ->
    exists b bs, st_monitor has_ready be (trace w) = (bs, None)
      /\ after_kill has_ready be w J = (bs ++ repeat b (ready_cycles has_ready J), None)
      /\ after_kill has_ready be w J <> st_monitor has_ready be (trace w).
Proof.
  intros width hr be beh acts1 acts2 gws s p o fuel l J W Q1 Q2 d d' F E L P O R.
  pose proof (C102_after_kill_partial width hr be beh acts1 acts2 gws s p o fuel l W Q1 Q2 F E L P O) as H. cbv zeta in H.
  destruct (st_send_gaps width hr fuel gws (World s p o [] l)) as [r w]. intro V. destruct H as (reps & n & _ & _ & H). rewrite V in H.
  destruct H as (b & _ & H). assert (H0 : st_monitor hr be (trace w) = (firstn n reps, None)).
  { pose proof (H []) as X. unfold after_kill in X. cbn [held map] in X. rewrite app_nil_r in X. rewrite X. unfold ready_cycles. cbn. now rewrite app_nil_r. }
  exists b, (firstn n reps). split; [exact H0|]. split; [apply H|]. rewrite H, H0. intro X. injection X as X.
  apply (f_equal (@length _)) in X. rewrite app_length, repeat_length in X. lia.
Qed.
Print Assumptions C102_every_waiting_word_refuted.

(** Two words, the second killed at different moments: while the valid generator holds it
    back (silence), and while it waits for ready (it arrives three times). *)
Definition kill_acts : list (action binsrc) :=
  [AAppend (Item (BInt 5) None None false); AAppend (Item (BInt 6) None None false); ARun; AFinish None].
Example C102_nonvacuous :
  let d' := run binsrc (fun _ _ => ([], None)) (kill_acts ++ [AKill]) drv_init in
  let gws := map (fun c => (0, c)) (word_calls (log d')) in
  let go l := snd (st_send_gaps 8 true 20 gws
     (World (set_valid_generator (Some [(1, 2); (1, 1)]%Z)) PActive (st_init_out 8) [] l)) in
  queue_only kill_acts /\ length gws = 2
  /\ after_kill true true (go [L1; L1; L1]) [L1; L1] = ([[5]]%Z, None)
  /\ after_kill true true (go [L1; L1; L1; L1; L0; L0]) [L1; L0; L1; L1] = ([[5]; [6]; [6]; [6]]%Z, None).
Proof. split; [repeat constructor|]. vm_compute. repeat split; reflexivity. Qed.
