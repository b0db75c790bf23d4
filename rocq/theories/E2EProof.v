(** E2EProof.v *)
From Verif Require Import Base Async HandshakeSpec Handshake DriverModel DriverSpec DriverProof
  AvalonSTModel PktModel PktSpec PktProof PktMonProof E2EModel E2ESpec.
From Verif Require ScoreboardModel ScoreboardSpec ScoreboardProof.
Local Open Scope list_scope.

Fixpoint gap_budget c k base (gps : list (nat * packet)) (s : valid) : nat :=
  match gps with
  | [] => 0
  | (g, q) :: r => g + (pk_budget c k base (p_channel q) (p_data q) (p_sync q) s
              + gap_budget c k base r (thr_iter (length (pwords c k base (p_channel q) true (p_data q))) s))
  end.

Lemma tx_send_gaps c k base fuel : word_bus c k -> forall gps s p o tr l,
  Forall (fun p => channel_ok c (p_channel p)) (map snd gps) ->
  Forall (fun p => length l + length (p_data p) < fuel) (map snd gps) -> p <> PReadOnly ->
  free k_offered (k_accepts (c_ready c)) tr -> inv_base c base o -> k_offered o = false ->
  tx k_offered (k_accepts (c_ready c)) (pk_send_gaps c fuel gps) (World s p o tr l)
    (all_words c k base (map snd gps)) (gap_budget c k base gps s)
    (fun _ w => free k_offered (k_accepts (c_ready c)) (trace w) /\ k_offered (out w) = false).
Proof.
  intros BB. induction gps as [|[g q] gps IH]; intros s p o tr l H Hf Hp Hfree Hb Ho.
  - apply tx_ret. cbn. auto.
  - cbn [map snd] in *. inversion H as [|? ? H1 H3]; subst. inversion Hf as [|? ? Hf1 Hf2]; subst.
    unfold pk_send_gaps, all_words. cbn [for_each flat_map gap_budget fst snd].
    assert (B : forall w, bind (bind (edges g) (fun _ => pk_send c fuel (p_data q) (p_sync q) (p_channel q)))
       (fun _ => for_each (fun gp : nat * packet => bind (edges (fst gp))
             (fun _ => pk_send c fuel (p_data (snd gp)) (p_sync (snd gp)) (p_channel (snd gp)))) gps) w
       = bind (edges g) (fun _ => bind (pk_send c fuel (p_data q) (p_sync q) (p_channel q)) (fun _ => pk_send_gaps c fuel gps)) w).
    { intro w. unfold bind. destruct (edges g w) as [[[]|e| |] w1]; reflexivity. }
    unfold tx. rewrite B.
    match goal with |- context [?a ++ flat_map ?f (map snd gps)] => change (a ++ flat_map f (map snd gps)) with ([] ++ (a ++ all_words c k base (map snd gps))) end.
    apply (tx_bind k_offered (k_accepts (c_ready c)) (edges g)
             (fun _ => bind (pk_send c fuel (p_data q) (p_sync q) (p_channel q)) (fun _ => pk_send_gaps c fuel gps))).
    apply tx_edges; [exact Ho|exact Hfree|exact Hp|]. cbn [st out ins].
    intros p1 tr1 l1 Hp1 Hfree1 L1. apply tx_bind. apply tx_send; try assumption; [lia|].
    intros o' o'' p' tr' i l' A1 A2 A3 A4 A5 A6. cbn [ins] in A6.
    apply IH; try assumption.
    + eapply Forall_impl; [|exact Hf2]. cbn. intros. lia.
    + destruct (p_data q) as [|b d].
      * specialize (A3 eq_refl). intro o0. apply settled_snoc. congruence.
      * apply free_accept. apply A1. discriminate.
    + unfold k_offered. rewrite A5. reflexivity.
Qed.

Definition want c (ps : list packet) : list report :=
  map (fun p => as_reported (c_report c) (match c_cw c with Some _ => true | None => false end) (p_data p) (p_channel p)) ps.

Lemma gaps_end_to_end c k gps s p o fuel l :
  byte_bus c k -> (0 <= c_timeout c)%Z ->
  let ps := map snd gps in
  Forall (fun p => p_data p <> [] /\ all_bytes (p_data p) /\ channel_ok c (p_channel p)) ps ->
  Forall (fun p => length l + length (p_data p) < fuel) ps -> p <> PReadOnly -> k_offered o = false ->
  let '(r, w) := pk_send_gaps c fuel gps (World s p o [] l) in
  exists (n : nat) (f : res pmstate), pm_run c pm_init (sampled (trace w)) = (firstn n (want c ps), f)
    /\ match r with Done _ => True | Susp => ins w = [] | _ => False end
    /\ (~ stalled c (sampled (trace w)) -> (exists m, f = Ok m) /\ (r = Done tt -> n = length ps))
    /\ (stalled c (sampled (trace w)) -> f = Err EAvalonProtocol).
Proof.
  intros BB TO ps Hps Hf Hp Ho.
  assert (T := tx_send_gaps c k o fuel (byte_word _ _ BB) gps s p o [] l).
  assert (Hps' : Forall (fun p => p_data p <> [] /\ all_bytes (p_data p) /\ channel_ok c (p_channel p) /\ fills c k (p_data p)) ps).
  { eapply Forall_impl; [|exact Hps]. cbn. intros a (A1 & A2 & A3). repeat split; try assumption. left. apply (bb_symbol _ _ BB). }
  assert (Hch : Forall (fun p => channel_ok c (p_channel p)) ps).
  { eapply Forall_impl; [|exact Hps]. cbn. intros a Ha. apply Ha. }
  assert (Hb : inv_base c o o) by (repeat split; reflexivity).
  specialize (T Hch Hf Hp (free_nil _ _) Hb Ho).
  apply tx_result in T; [|intros a w Hw; apply Hw].
  destruct (pk_send_gaps c fuel gps (World s p o [] l)) as [r w].
  destruct (all_good c k o ps (byte_word _ _ BB) (bb_width _ _ BB) Hps' [] eq_refl) as (G1 & G0 & G2 & G3).
  cbn [app] in G0, G2. change (completed []) with (@nil (list pk_out)) in G2. cbn [app] in G2.
  assert (Wants : map (reported c) (map (fun p => pwords c k o (p_channel p) true (p_data p)) ps) = want c ps).
  { unfold want. rewrite map_map. apply map_ext_in. intros q Hq. rewrite Forall_forall in Hps'.
    destruct (Hps' q Hq) as (H1 & H2 & H3 & H4). apply (pw_reported c k o _ (byte_word _ _ BB) (bb_width _ _ BB)); assumption. }
  destruct T as (_ & _ & T). fold ps in T.
  assert (Pre : exists post, all_words c k o ps = transfers k_offered (k_accepts (c_ready c)) (trace w) ++ post
                  /\ (r = Done tt -> post = [])).
  { destruct r; try contradiction.
    - destruct T as [T _]. rewrite T. exists []. rewrite app_nil_r. split; reflexivity.
    - destruct T as (_ & _ & j & T). rewrite T. exists (skipn j (all_words c k o ps)). rewrite firstn_skipn. split; [reflexivity|discriminate]. }
  destruct Pre as (post & Pre & PD).
  destruct (monitor_prefix c (trace w) _ post TO G1 G3 Pre) as (n & f & H1 & H2 & H3).
  rewrite G2, Wants in H1. exists n, f. split; [exact H1|]. split; [|split; [|exact H3]].
  - destruct r; try contradiction; [exact I|apply T].
  - intro NS. destruct (H2 NS) as [H4 H5]. split; [exact H4|]. intro D. rewrite (H5 (PD D)), G2. apply map_length.
Qed.

(** enough ready cycles finish it *)
Lemma gaps_progress c k gps s o : word_bus c k -> Forall (fun p => channel_ok c (p_channel p)) (map snd gps) ->
  k_offered o = false ->
  exists N, forall p fuel l, p <> PReadOnly ->
  Forall (fun p => length l + length (p_data p) < fuel) (map snd gps) ->
  N <= ready_cycles (k_accepts (c_ready c)) l ->
  exists w, pk_send_gaps c fuel gps (World s p o [] l) = (Done tt, w).
Proof.
  intros BB Hch Ho. exists (gap_budget c k o gps s). intros p fuel l Hp Hf HN.
  assert (T := tx_send_gaps c k o fuel BB gps s p o [] l).
  assert (Hb : inv_base c o o) by (repeat split; reflexivity).
  specialize (T Hch Hf Hp (free_nil _ _) Hb Ho I).
  destruct (pk_send_gaps c fuel gps (World s p o [] l)) as [r w].
  destruct T as (new & _ & _ & _ & C). destruct r as [[]|e| |]; try contradiction; [eexists; reflexivity|].
  cbn [ins] in C. lia.
Qed.

(** ** what the thread sends *)
Lemma calls_started (l : list (ev ptx)) : map (fun p => (p_data p, p_channel p)) (thread_calls l) = map i_tx (started l).
Proof.
  unfold thread_calls, started. induction l as [|e l IH]; [reflexivity|]. cbn [flat_map]. rewrite !map_app, IH. f_equal.
  destruct e; try reflexivity. cbn. rewrite <- surjective_pairing. reflexivity.
Qed.
Lemma want_started c (l : list (ev ptx)) : want c (thread_calls l) = reports_of c (started l).
Proof.
  unfold thread_calls, started. induction l as [|e l IH]; [reflexivity|]. cbn [flat_map].
  unfold want, reports_of in *. rewrite !map_app, IH. destruct e; reflexivity.
Qed.
Lemma calls_len (l : list (ev ptx)) : length (thread_calls l) = length (started l).
Proof. rewrite <- (map_length i_tx (started l)), <- calls_started, map_length. reflexivity. Qed.

Section Thread.
Context {T : Type} (beh : nat -> T -> list (cbop T) * option exn).
Lemma taken_started (l : list (ev T)) : (forall i, ~ In (VReject i) l) -> taken l = started l.
Proof.
  intro H. unfold taken, started. induction l as [|e l IH]; [reflexivity|]. cbn [flat_map]. rewrite IH by (intros i G; apply (H i); right; exact G).
  destruct e; try reflexivity. exfalso. apply (H i). left. reflexivity.
Qed.


Lemma inner_clear b (d : driver T) : ~ In VClear (log d) -> ~ In VClear (log (inner_loop b d)).
Proof.
  intro H. unfold inner_loop. destruct (sendq d) as [|i q]; [exact H|]. destruct (i_sync_kw i); cbn;
    rewrite ?in_app_iff; intuition (cbn in *; intuition discriminate).
Qed.
Lemma run_no_clear acts : passive beh -> no_clear acts -> forall d : driver T,
  ~ In VClear (log d) -> ~ In VClear (log (run T beh acts d)).
Proof.
  intros P. unfold no_clear. induction acts as [|a acts IH]; intros F d H; [exact H|].
  inversion F as [|? ? F1 F2]; subst. cbn. apply IH; [exact F2|]. clear IH.
  assert (K : forall e, e <> VClear -> ~ In VClear (log d ++ [e])).
  { intros e He. rewrite in_app_iff. cbn. intuition congruence. }
  destruct a; cbn [step]; try contradiction; try (apply K; discriminate).
  - destruct (thr d); try exact H; apply K; discriminate.
  - destruct (thr d); try exact H. apply inner_clear, H.
  - destruct (thr d); try exact H. destruct r; [apply K; discriminate|].
    unfold finish. set (d1 := emit [VSent i] d).
    assert (H1 : ~ In VClear (log d1)) by (apply K; discriminate). clearbody d1.
    set (d2 := match i_event i with Some k => emit [VEvent k] d1 | None => d1 end).
    assert (H2 : ~ In VClear (log d2)).
    { unfold d2. destruct (i_event i); [|exact H1]. cbn. rewrite in_app_iff. cbn. intuition discriminate. }
    clearbody d2. destruct (i_callback i) as [cb|].
    + rewrite P. cbn [fold_left]. apply inner_clear. cbn. rewrite !in_app_iff. cbn. intuition discriminate.
    + apply inner_clear. cbn. rewrite in_app_iff. cbn. intuition discriminate.
  - destruct (nth_error (direct d) n); [apply K; discriminate|exact H].
Qed.

Lemma started_appended acts i : In i (started (log (run T beh acts drv_init))) -> In i (appended (log (run T beh acts drv_init))).
Proof.
  intro H. eapply subseq_In; [apply run_subseq|]. apply in_or_app. left. exact H.
Qed.
End Thread.

Section Top.
Context (ty : report -> nat) (eqb : report -> report -> bool) (str : report -> String.string) (fn : nat -> list report -> report -> report).
Context (EQ : forall a b, eqb a b = true <-> a = b).
Definition verdict im m loc hist :=
  ScoreboardModel.result report (fst (ScoreboardModel.sb_run report ty eqb str fn
     (ScoreboardSpec.start report im m loc 0) (ScoreboardSpec.ops_of m loc hist))).

Lemma top_prefix c k beh acts gps s p o fuel l im m loc hist :
  byte_bus c k -> (0 <= c_timeout c)%Z ->
  let d := run ptx beh acts drv_init in
  Forall (fun i => sendable c (i_tx i)) (appended (log d)) -> map snd gps = thread_calls (log d) ->
  Forall (fun p => length l + length (p_data p) < fuel) (map snd gps) -> p <> PReadOnly -> k_offered o = false ->
  let '(r, w) := pk_send_gaps c fuel gps (World s p o [] l) in
  let '(reps, f) := pm_run c pm_init (sampled (trace w)) in
  (~ stalled c (sampled (trace w)) -> exists mst, f = Ok mst)
  /\ (stalled c (sampled (trace w)) -> f = Err EAvalonProtocol)
  /\ (exists n, reps = firstn n (reports_of c (started (log d))))
  /\ match r with
     | Done _ => ~ stalled c (sampled (trace w)) -> reps = reports_of c (started (log d))
     | Susp => ins w = []
     | _ => False
     end
  /\ (receives hist reps ->
      (verdict im m loc hist = Ok tt <-> ScoreboardSpec.exps hist = reps /\ ScoreboardSpec.never_early hist)).
Proof.
  intros BB TO d Hs E Hf Hp Ho.
  assert (Hps : Forall (fun p => p_data p <> [] /\ all_bytes (p_data p) /\ channel_ok c (p_channel p)) (map snd gps)).
  { rewrite E. apply Forall_forall. intros q Hq.
    assert (Hq' : In (p_data q, p_channel q) (map i_tx (started (log d)))).
    { rewrite <- calls_started. apply (in_map (fun p => (p_data p, p_channel p))), Hq. }
    apply in_map_iff in Hq'. destruct Hq' as (i & Ei & Hi). apply started_appended in Hi.
    rewrite Forall_forall in Hs. specialize (Hs i Hi). rewrite Ei in Hs. exact Hs. }
  pose proof (gaps_end_to_end c k gps s p o fuel l BB TO Hps Hf Hp Ho) as G.
  destruct (pk_send_gaps c fuel gps (World s p o [] l)) as [r w]. destruct G as (n & f & G1 & G2 & G3 & G4).
  rewrite G1. rewrite E in *. rewrite want_started in *. split; [intro NS; apply (proj1 (G3 NS))|].
  split; [exact G4|]. split; [eauto|]. split.
  - destruct r; try contradiction; [|exact G2]. intro NS. destruct (G3 NS) as [_ G5]. destruct a. rewrite (G5 eq_refl), calls_len.
    replace (length (started (log d))) with (length (reports_of c (started (log d)))) by apply map_length.
    apply firstn_all.
  - intro H. unfold verdict in *. rewrite (ScoreboardProof.inorder_iff ty eqb str fn EQ).
    unfold receives in H. rewrite <- H. split; intros [A B]; (split; [symmetry; exact A|exact B]).
Qed.

Lemma top_all c k beh acts gps s p o fuel l im m loc hist :
  byte_bus c k -> (0 <= c_timeout c)%Z -> passive beh -> no_clear acts ->
  let d := run ptx beh acts drv_init in
  Forall (fun i => sendable c (i_tx i) /\ i_sync_kw i = false) (appends_of acts) -> sendq d = [] -> map snd gps = thread_calls (log d) ->
  Forall (fun p => length l + length (p_data p) < fuel) (map snd gps) -> p <> PReadOnly -> k_offered o = false ->
  let '(r, w) := pk_send_gaps c fuel gps (World s p o [] l) in
  let '(reps, f) := pm_run c pm_init (sampled (trace w)) in
  r = Done tt -> ~ stalled c (sampled (trace w)) -> receives hist reps ->
      reps = reports_of c (appends_of acts) /\
      (verdict im m loc hist = Ok tt <-> ScoreboardSpec.exps hist = reports_of c (appends_of acts) /\ ScoreboardSpec.never_early hist).
Proof.
  intros BB TO Pa NC d Hs Q E Hf Hp Ho.
  assert (Ea : appended (log d) = appends_of acts) by apply (run_appended beh acts Pa drv_init).
  assert (Et : started (log d) = appends_of acts).
  { rewrite <- Ea. unfold d at 2. rewrite (run_exact beh acts); [|apply run_no_clear; auto]. fold d. rewrite Q, app_nil_r.
    symmetry. apply taken_started. apply run_no_reject. fold d. rewrite Ea.
    eapply Forall_impl; [|exact Hs]. cbn. tauto. }
  pose proof (top_prefix c k beh acts gps s p o fuel l im m loc hist BB TO) as G. cbn zeta in G. fold d in G.
  specialize (G ltac:(rewrite Ea; eapply Forall_impl; [|exact Hs]; cbn; tauto) E Hf Hp Ho).
  destruct (pk_send_gaps c fuel gps (World s p o [] l)) as [r w].
  destruct (pm_run c pm_init (sampled (trace w))) as [reps f].
  destruct G as (_ & _ & _ & G2 & G3). intros -> NS R. specialize (G2 NS). rewrite Et in G2. subst reps. split; [reflexivity|]. apply G3, R.
Qed.
End Top.
