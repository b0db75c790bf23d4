(** KillProof.v *)
From Verif Require Import Base Async BitsLemmas CompatSpec CompatModel CompatProof DriverModel DriverSpec DriverProof
  DrvUtilModel AvalonSTModel AvalonSTSpec AvalonSTProof E2ESpec E2EProof StE2EModel StE2ESpec StE2EProof KillSpec.
From Coq Require Import Lia.
Local Open Scope list_scope.

Section Thread.
Context {T : Type} (beh : nat -> T -> list (cbop T) * option exn).
Notation run := (run T beh).
Lemma run_app a b d : run (a ++ b) d = run b (run a d).
Proof. apply fold_left_app. Qed.
Lemma killed_thr d : exists e, thr (step T beh d AKill) = TDead e.
Proof. cbn [step]. destruct (thr d) eqn:E; cbn; eauto. Qed.
Lemma kill_log d : sendq (step T beh d AKill) = sendq d /\
  exists t, log (step T beh d AKill) = log d ++ t /\ (t = [] \/ t = [VDead None]) /\ ((exists e, thr d = TDead e) <-> t = []).
Proof.
  cbn [step]. destruct (thr d) eqn:E; (split; [reflexivity|]).
  1-3: exists [VDead None]; split; [reflexivity|]; split; [right; reflexivity|]; split; [intros [? [=]]|discriminate].
  exists []. rewrite app_nil_r. split; [reflexivity|]. split; [left; reflexivity|]. split; [reflexivity|]. intros _. eauto.
Qed.
Lemma dead_step d a e : thr d = TDead e ->
  let d' := step T beh d a in
  thr d' = TDead e /\ sendq d' = undrained [a] (sendq d) /\
  exists t, log d' = log d ++ t /\ filter by_thread t = [] /\ filter by_send t = sends_of [a] /\ filter is_dead t = [].
Proof.
  intros H. destruct a; cbn [step]; rewrite ?H; cbn [append clear thr sendq log]; rewrite ?H.
  6:{ split; [exact H || reflexivity|]. split; [reflexivity|]. eexists. repeat split; reflexivity. }
  6:{ destruct (nth_error (direct d) n); cbn [thr sendq log]; (split; [exact H || reflexivity|]); (split; [reflexivity|]).
      - eexists. repeat split; reflexivity.
      - exists []. rewrite app_nil_r. repeat split; reflexivity. }
  1,2: split; [reflexivity || exact H|]; split; [reflexivity|]; eexists; repeat split; reflexivity.
  all: split; [exact H || reflexivity|]; split; [reflexivity|]; exists []; rewrite app_nil_r; repeat split; reflexivity.
Qed.
Lemma dead_run acts : forall d e, thr d = TDead e ->
  let d' := run acts d in
  thr d' = TDead e /\ sendq d' = undrained acts (sendq d) /\
  exists t, log d' = log d ++ t /\ filter by_thread t = [] /\ filter by_send t = sends_of acts /\ filter is_dead t = [].
Proof.
  induction acts as [|a acts IH]; intros d e H.
  - split; [exact H || reflexivity|]. split; [reflexivity|]. exists []. rewrite app_nil_r. repeat split; reflexivity.
  - destruct (dead_step d a e H) as (H1 & H2 & t & L & A & B & C).
    destruct (IH _ e H1) as (H1' & H2' & t' & L' & A' & B' & C').
    change (run (a :: acts) d) with (run acts (step T beh d a)). cbn zeta.
    split; [exact H1'|]. split; [rewrite H2', H2; reflexivity|].
    exists (t ++ t'). rewrite L', L, !filter_app, A, A', B, B', C, C', <- app_assoc. repeat split; try reflexivity.
    unfold sends_of. cbn [flat_map]. rewrite app_nil_r. reflexivity.
Qed.
Lemma killed_thm acts1 acts2 :
  let d := run acts1 drv_init in
  let d' := run (acts1 ++ AKill :: acts2) drv_init in
  filter by_thread (log d') = filter by_thread (log d)
  /\ filter by_send (log d') = filter by_send (log d) ++ sends_of acts2
  /\ sendq d' = undrained acts2 (sendq d)
  /\ exists e, thr d' = TDead e.
Proof.
  cbn zeta. rewrite run_app. set (d := run acts1 drv_init).
  change (run (AKill :: acts2) d) with (run acts2 (step T beh d AKill)).
  destruct (killed_thr d) as [e He]. destruct (kill_log d) as (Q & t & L & Ht & _).
  destruct (dead_run acts2 _ e He) as (H1 & H2 & t' & L' & A & B & _).
  rewrite L', L, !filter_app, A, B, !app_nil_r, H2, Q.
  destruct Ht as [-> | ->]; cbn [filter by_thread by_send]; rewrite ?app_nil_r; repeat split; eauto.
Qed.
Lemma kill_twice acts1 acts2 acts3 :
  run (acts1 ++ AKill :: acts2 ++ AKill :: acts3) drv_init = run (acts1 ++ AKill :: acts2 ++ acts3) drv_init.
Proof.
  rewrite !run_app. cbn [DriverModel.run fold_left].
  change (fold_left (step T beh) (acts2 ++ ?x) ?d) with (run (acts2 ++ x) d). rewrite !run_app.
  destruct (killed_thr (run acts1 drv_init)) as [e He].
  change (fold_left (step T beh) ?x ?d) with (run x d).
  destruct (dead_run acts2 _ e He) as (H1 & _). cbn zeta in H1.
  set (d2 := run acts2 _) in *. change (run (AKill :: acts3) d2) with (run acts3 (step T beh d2 AKill)).
  cbn [step]. rewrite H1. reflexivity.
Qed.
End Thread.

Section Bus.
Context (width : nat) (hr be : bool).
Lemma transfers_again d J : transfers hr (held (word d) J) = repeat d (ready_cycles hr J).
Proof.
  unfold transfers, ready_cycles. induction J as [|j J IH]; [reflexivity|].
  cbn [held map filter]. unfold transferred at 1. cbn [snd word o_valid fst].
  destruct (accepts hr j); [cbn; f_equal|]; exact IH.
Qed.
Notation conv := (fun d r => convert_binary_to_bytes d be = Ok r).
Lemma monitor_reports tr ds reps : transfers hr tr = ds -> Forall2 conv ds reps -> st_monitor hr be tr = (reps, None).
Proof.
  intros <- F. rewrite st_monitor_transfers. induction F as [|d r ds rs E _ IH]; [reflexivity|]. rewrite E, IH. reflexivity.
Qed.
Lemma conv_firstn k ds reps : Forall2 conv ds reps -> Forall2 conv (firstn k ds) (firstn k reps).
Proof. intro F. revert k. induction F; intros [|k]; constructor; auto. Qed.
Lemma conv_nth k ds reps : Forall2 conv ds reps -> forall d, nth_error ds k = Some d ->
  exists r, nth_error reps k = Some r /\ conv d r.
Proof. intro F. revert k. induction F; intros [|k] d H0; try discriminate; cbn in *; [injection H0 as <-; eauto|eauto]. Qed.

Lemma killed_bus gws (l : list logic) (items : list (item binsrc)) s p o fuel :
  width <> 1 -> Forall (fun i => fits width (i_tx i)) items -> map (fun gw => fst (snd gw)) gws = map i_tx items ->
  length l < fuel -> p <> PReadOnly -> o_valid o <> L1 ->
  let '(r, w) := st_send_gaps width hr fuel gws (World s p o [] l) in
  exists reps n, word_reports be width items reps /\ n <= length reps /\
    match o_valid (out w) with
    | L1 => exists b, nth_error reps n = Some b /\ forall J, after_kill hr be w J = (firstn n reps ++ repeat b (ready_cycles hr J), None)
    | _ => forall J, after_kill hr be w J = (firstn n reps, None)
    end.
Proof.
  intros W F Ei Hf Hp Ho.
  assert (He : exists ds reps, encodes width (map snd gws) ds /\ word_reports be width items reps
     /\ Forall2 conv ds reps).
  { clear -F W Ei. revert gws Ei. induction F as [|i items F1 _ IH]; intros gws Ei.
    - destruct gws; [|discriminate]. exists [], []. repeat split; constructor.
    - destruct gws as [|[g [v sy]] gws]; [discriminate|]. cbn [map fst snd] in Ei. injection Ei as Ev Ei.
      destruct (IH gws Ei) as (ds & reps & A & B & C). rewrite <- Ev in F1.
      destruct (fits_create width v W F1) as (d & Ed & Ld & Vd).
      destruct (word_spelled width v d be Ld Vd) as (b & Cb & Sb). subst v.
      exists (d :: ds), (b :: reps). repeat split; constructor; assumption. }
  destruct He as (ds & reps & He & Hr & Hc).
  destruct (send_gaps_post width hr fuel gws ds He s p o [] l Hf Hp Ho) as [P _].
  destruct (st_send_gaps width hr fuel gws (World s p o [] l)) as [r w].
  destruct P as (new & k & T & _ & X & C). cbn [snd fst app] in *.
  assert (Ll : length ds = length reps) by apply (Forall2_len _ _ _ Hc).
  exists reps, k. split; [exact Hr|]. split; [rewrite <- Ll; destruct r; try contradiction; lia|].
  assert (D : o_valid (out w) <> L1 \/ exists d, nth_error ds k = Some d /\ out w = word d) by (destruct r; try contradiction; tauto).
  assert (Q : o_valid (out w) <> L1 -> forall J, after_kill hr be w J = (firstn k reps, None)).
  { intros Hq J. unfold after_kill. apply monitor_reports with (firstn k ds); [|apply conv_firstn, Hc].
    rewrite transfers_app, T, X, transfers_quiet by exact Hq. apply app_nil_r. }
  destruct D as [D | (d & Hd & Hw)].
  - destruct (o_valid (out w)); try contradiction; apply Q, D.
  - assert (Hv : o_valid (out w) = L1) by (rewrite Hw; reflexivity). rewrite Hv. destruct (conv_nth k ds reps Hc d Hd) as (b & Hb & Cb).
    exists b. split; [exact Hb|]. intro J. unfold after_kill.
    apply monitor_reports with (firstn k ds ++ repeat d (ready_cycles hr J)).
    + rewrite transfers_app, T, X, Hw, transfers_again. reflexivity.
    + apply Forall2_app; [apply conv_firstn, Hc|]. induction (ready_cycles hr J); constructor; assumption.
Qed.
End Bus.

Lemma started_by_thread {T} (l : list (ev T)) : started l = started (filter by_thread l).
Proof. unfold started. induction l as [|e l IH]; [reflexivity|]. destruct e; cbn; rewrite ?IH; reflexivity. Qed.

Lemma killed_top width hr be beh acts1 acts2 gws s p o fuel l :
  width <> 1 ->
  let d := run binsrc beh acts1 drv_init in
  let d' := run binsrc beh (acts1 ++ AKill :: acts2) drv_init in
  Forall (fun i => fits width (i_tx i)) (appended (log d)) -> map snd gws = word_calls (log d') ->
  length l < fuel -> p <> PReadOnly -> o_valid o <> L1 ->
  let '(r, w) := st_send_gaps width hr fuel gws (World s p o [] l) in
  exists reps n, word_reports be width (started (log d)) reps /\ n <= length reps /\
    match o_valid (out w) with
    | L1 => exists b, nth_error reps n = Some b /\ forall J, after_kill hr be w J = (firstn n reps ++ repeat b (ready_cycles hr J), None)
    | _ => forall J, after_kill hr be w J = (firstn n reps, None)
    end.
Proof.
  intros W d d' Hs E Hf Hp Ho.
  destruct (killed_thm beh acts1 acts2) as (K & _). fold d d' in K.
  apply killed_bus; try assumption.
  - apply Forall_forall. intros i Hi. apply started_appended in Hi. rewrite Forall_forall in Hs. apply Hs, Hi.
  - rewrite (started_by_thread (log d)), <- K, <- started_by_thread, <- word_calls_started, <- E, map_map. reflexivity.
Qed.
