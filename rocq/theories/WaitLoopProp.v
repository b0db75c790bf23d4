(** WaitLoopProp.v -- C122: a task that calls wait_for_recv in a loop. *)
From Verif Require Import Base MonitorModel MonitorSpec WaitLoopSpec WaitLoopProof.
Local Open Scope list_scope.

Lemma loop_check {T} (l : list (wact T)) :
  (forall n b, nth_error l n = Some (AWait b) -> b = false /\ Forall returned (tasks (wrun T (firstn n l)))) -> one_loop l.
Proof.
  intros H l1 b l2 ->. specialize (H (length l1) b).
  rewrite nth_error_app2, Nat.sub_diag in H by apply Nat.le_refl. specialize (H eq_refl).
  rewrite firstn_app, Nat.sub_diag, firstn_O, firstn_all, app_nil_r in H. exact H.
Qed.
Lemma att_check {T} (l : list (wact T)) :
  (forall n t, nth_error l n = Some (ARecv t) -> exists x, In x (tasks (wrun T (firstn n l))) /\ tstatus x = WBlocked) -> attentive l.
Proof.
  intros H l1 t l2 ->. specialize (H (length l1) t).
  rewrite nth_error_app2, Nat.sub_diag in H by apply Nat.le_refl. specialize (H eq_refl).
  rewrite firstn_app, Nat.sub_diag, firstn_O, firstn_all, app_nil_r in H. exact H.
Qed.
Ltac loop_tac := apply loop_check; let n := fresh in let b := fresh in let H := fresh in intros n b H;
  do 9 (destruct n as [|n]; [cbn in H; first [discriminate H | injection H as <-; split;
    [reflexivity|cbn; repeat first [apply Forall_nil | apply Forall_cons; [eexists; eexists; reflexivity|]]]]|]);
  cbn in H; destruct n; discriminate H.

(** C122 in full would be: such a loop gets every transaction received after its first call.
    It is false if handling a transaction takes time: what is received meanwhile is never
    returned, and the next call waits for the one after. *)
Theorem C122_busy_refuted :
  forall (T : Type) (a b c : T),
    let l := [AWait false; ARecv a; AResume 0; ARecv b; AWait false; ARecv c; AResume 1; AWait false] in
    one_loop l /\ receptions l = [a; b; c] /\ got l = [a; c] /\ map tstatus (tasks (wrun T l)) = [WDone (Some a) 1; WDone (Some c) 3; WBlocked].
Proof. intros T a b c l. subst l. split; [loop_tac|]. repeat split. Qed.
Print Assumptions C122_busy_refuted.

(** It is false even if handling takes no time, if a monitor reports two transactions before the
    task runs. *)
Theorem C122_burst_refuted :
  forall (T : Type) (a b : T),
    let l := [AWait false; ARecv a; ARecv b; AResume 0; AWait false] in
    one_loop l /\ receptions l = [a; b] /\ got l = [b] /\ map tstatus (tasks (wrun T l)) = [WDone (Some b) 2; WBlocked].
Proof. intros T a b l. subst l. split; [loop_tac|]. repeat split. Qed.
Print Assumptions C122_burst_refuted.

(** What holds: in every schedule (with receptions, timers and resumptions at any moment) the loop
    gets only what was received, in that order and each at most once; *)
Theorem C122_order_partial :
  forall (T : Type) (l : list (wact T)), one_loop l -> within (got l) (receptions l).
Proof. exact @loop_within. Qed.
Print Assumptions C122_order_partial.

(** and if the loop is waiting, not yet woken, at every reception, it gets all of them; at most the
    last one, which has woken it, is still to come. *)
Theorem C122_attentive_partial :
  forall (T : Type) (l : list (wact T)), one_loop l -> attentive l ->
    (exists t x, receptions l = got l ++ [t] /\ In x (tasks (wrun T l)) /\ tstatus x = WWoken)
    \/ receptions l = got l.
Proof. exact @loop_attentive. Qed.
Print Assumptions C122_attentive_partial.

Example C122_nonvacuous :
  let l := [AWait false; ARecv 5; AResume 0; AWait false; ATimer 1; AResume 0; ARecv 6] in
  one_loop l /\ attentive l /\ receptions l = [5; 6] /\ got l = [5].
Proof.
  cbv zeta. split; [loop_tac|]. split; [|split; reflexivity].
  apply att_check. intros n t H.
  do 8 (destruct n as [|n]; [cbn in H; first [discriminate H | injection H as <-; cbn;
    first [eexists; split; [left; reflexivity|reflexivity] | eexists; split; [right; left; reflexivity|reflexivity]]]|]).
  cbn in H. destruct n; discriminate H.
Qed.
