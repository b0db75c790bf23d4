(** PktKillProof.v *)
From Verif Require Import Base Async HandshakeSpec Handshake DriverModel DriverSpec DriverProof
  AvalonSTModel PktModel PktSpec PktProof PktMonProof E2EModel E2ESpec E2EProof KillSpec KillProof PktKillSpec.
Local Open Scope list_scope.

Section Stream.
Context (c : pcfg).
Hypothesis TO : (c_timeout c = 0)%Z.
Notation off := k_offered.
Notation acc := (k_accepts (c_ready c)).
Notation transfers := (HandshakeSpec.transfers off acc).
Notation rc := (HandshakeSpec.ready_cycles acc).
Notation completed := PktSpec.completed.

Lemma transfers_repeat v J : off v = true -> transfers (held v J) = repeat v (rc J).
Proof.
  intro O. unfold HandshakeSpec.transfers, HandshakeSpec.ready_cycles. induction J as [|j J IH]; [reflexivity|].
  cbn [held map filter]. unfold transferred at 1. cbn [fst snd]. rewrite O. cbn [andb].
  destruct (acc j); [cbn [map length repeat snd]; f_equal|]; exact IH.
Qed.
Lemma split_ready J : forall n, n < rc J -> exists J1 j J2, J = J1 ++ j :: J2 /\ rc J1 = n /\ acc j = true.
Proof.
  induction J as [|j J IH]; intros n H; [cbn in H; lia|]. unfold HandshakeSpec.ready_cycles in *. cbn [filter] in H.
  destruct (acc j) eqn:A.
  - destruct n as [|n]; [exists [], j, J; auto|]. cbn [length] in H. destruct (IH n ltac:(lia)) as (J1 & i & J2 & -> & E & Ai).
    exists (j :: J1), i, J2. cbn [filter app]. rewrite A. cbn [length]. auto.
  - destruct (IH n H) as (J1 & i & J2 & -> & E & Ai). exists (j :: J1), i, J2. cbn [filter app]. rewrite A. auto.
Qed.
Lemma not_stalled l : ~ stalled c l.
Proof using TO. intros [H _]. rewrite TO in H. discriminate. Qed.

Lemma stream_ok tr : goodf c [] (transfers tr) -> Forall (fun w => 0 < length (k_data w)) (transfers tr) ->
  exists m, pm_run c pm_init (sampled tr) = (map (reported c) (completed (transfers tr)), Ok m).
Proof using TO.
  intros G W. rewrite <- seen_sampled. destruct (run_good c (sampled tr)) as [H _].
  - rewrite TO. discriminate.
  - unfold wide_words. rewrite seen_sampled. exact W.
  - unfold sampled. apply Forall_map, Forall_forall. intros [i o'] _. right. reflexivity.
  - intros a x b E. rewrite seen_sampled in E. exact (goodf_all c _ [] G a x b E).
  - apply H, not_stalled.
Qed.

(** the next word does not belong there *)
Lemma stream_bad tr j v J : goodf c [] (transfers tr) -> Forall (fun w => 0 < length (k_data w)) (transfers tr) ->
  off v = true -> acc j = true -> misplaced (transfers tr) v ->
  pm_run c pm_init (sampled (tr ++ (j, v) :: held v J)) = (map (reported c) (completed (transfers tr)), Err EAvalonProtocol).
Proof using TO.
  intros G W O A M. destruct (stream_ok tr G W) as [m H].
  assert (E : sampled (tr ++ (j, v) :: held v J) = (sampled tr ++ [PSample None None j v]) ++ sampled (held v J)).
  { unfold sampled. rewrite map_app, <- app_assoc. reflexivity. }
  rewrite E. apply run_app_err.
  assert (Wd : wide_words c (sampled tr)) by (unfold wide_words; rewrite seen_sampled; exact W).
  assert (Tf : transfer c (PSample None None j v) = true) by (unfold transfer; cbn [s_bus s_ready]; rewrite O, A; reflexivity).
  destruct (run_next c (sampled tr) _ m (PSample None None j v) Wd H eq_refl Tf) as [N _].
  cbn [s_bus] in N. rewrite seen_sampled in N. exact (N M).
Qed.

Lemma current_cases ws v : good1 c ws v -> if is_sop v then current ws = [] else current ws <> [].
Proof.
  intros [M _]. unfold misplaced in M. destruct (is_sop v).
  - destruct (current ws); [reflexivity|]. destruct M. right. split; [discriminate|reflexivity].
  - intro E. apply M. left. auto.
Qed.

(** a word in the middle, or a packet of its own, may be repeated *)
Lemma good_again ws v : is_sop v = is_eop v -> good1 c ws v -> good1 c (ws ++ [v]) v.
Proof.
  intros Q G. pose proof (current_cases ws v G) as Cu. destruct G as (M & R & B).
  unfold good1, misplaced, bad_channel in *. rewrite current_snoc. rewrite Q in *. destruct (is_eop v).
  - rewrite Cu in *. split; [|split; [exact R|exact B]]. intros [[_ X]|[X _]]; [discriminate|contradiction].
  - destruct (current ws) as [|f ws'] eqn:E; [contradiction|]. cbn [app]. split; [|split; [exact R|exact B]].
    intros [[X _]|[_ X]]; discriminate.
Qed.
Lemma goodf_repeat n v : is_sop v = is_eop v -> forall ws, good1 c ws v -> goodf c ws (repeat v n).
Proof.
  intro Q. induction n as [|n IH]; intros ws G; cbn [repeat goodf]; [exact I|]. split; [exact G|]. apply IH, good_again; assumption.
Qed.
Lemma goodf_prefix a : forall ws b, goodf c ws (a ++ b) -> goodf c ws a /\ goodf c (ws ++ a) b.
Proof.
  induction a as [|x a IH]; intros ws b H; [rewrite app_nil_r; split; [exact I|exact H]|]. cbn [app goodf] in *. destruct H as [H1 H2].
  destruct (IH _ _ H2) as [H3 H4]. rewrite <- app_assoc in H4. auto.
Qed.

Lemma parse_middle n v ws : is_eop v = false -> completed (ws ++ repeat v n) = completed ws.
Proof.
  intro E. induction n as [|n IH]; [rewrite app_nil_r; reflexivity|].
  replace (repeat v (S n)) with (repeat v n ++ [v]) by (symmetry; apply (repeat_cons n v)).
  rewrite app_assoc, completed_snoc, E. exact IH.
Qed.
Lemma parse_single n v ws : is_eop v = true -> current ws = [] ->
  completed (ws ++ repeat v n) = completed ws ++ repeat [v] n /\ current (ws ++ repeat v n) = [].
Proof.
  intros E Cu. induction n as [|n [IH1 IH2]]; [rewrite !app_nil_r; auto|].
  replace (repeat v (S n)) with (repeat v n ++ [v]) by (symmetry; apply (repeat_cons n v)).
  rewrite app_assoc, completed_snoc, current_snoc, E, IH1, IH2.
  replace (repeat [v] (S n)) with (repeat [v] n ++ [[v]]) by (symmetry; apply (repeat_cons n [v])).
  rewrite app_assoc. auto.
Qed.
Lemma map_repeat {A B} (f : A -> B) x n : map f (repeat x n) = repeat (f x) n.
Proof. induction n; cbn; congruence. Qed.

Lemma killed_stream tr ws v post J reps :
  goodf c [] (ws ++ v :: post) -> Forall (fun w => 0 < length (k_data w)) (ws ++ v :: post) ->
  transfers tr = ws -> off v = true -> reps = map (reported c) (completed (ws ++ v :: post)) ->
  let '(rs, err) := repeated_word v reps (length (completed ws)) (rc J) in
  fst (pm_run c pm_init (sampled (tr ++ held v J))) = rs
  /\ match snd (pm_run c pm_init (sampled (tr ++ held v J))) with
     | Ok _ => err = false
     | Err e => err = true /\ e = EAvalonProtocol
     end.
Proof using TO.
  intros G W T O Hr. set (n := length (completed ws)).
  destruct (goodf_prefix _ _ _ G) as [G1 G2]. cbn [app goodf] in G2. destruct G2 as [Gv G3].
  apply Forall_app in W as [W1 W2]. inversion W2 as [|? ? Wv W3]; subst x l.
  pose proof (current_cases ws v Gv) as Cu.
  assert (TJ : forall J, transfers (tr ++ held v J) = ws ++ repeat v (rc J)).
  { intro J'. rewrite transfers_app, T, (transfers_repeat v J' O). reflexivity. }
  assert (WJ : forall m, Forall (fun w => 0 < length (k_data w)) (ws ++ repeat v m)).
  { intro m. apply Forall_app. split; [exact W1|]. induction m; constructor; assumption. }
  assert (P : exists d, completed (ws ++ v :: post) = completed ws ++ (if is_eop v then [current ws ++ [v]] else []) ++ d).
  { destruct (parse_app_completed post (ws ++ [v])) as [d E]. rewrite <- app_assoc in E. cbn [app] in E. rewrite E, completed_snoc.
    destruct (is_eop v); [exists d; rewrite <- app_assoc; reflexivity|].
    exists d. reflexivity. }
  destruct P as [d P]. rewrite P, !map_app in Hr.
  assert (Fn : firstn n reps = map (reported c) (completed ws)).
  { rewrite Hr. unfold n. rewrite firstn_app, map_length, Nat.sub_diag. cbn [firstn]. rewrite app_nil_r.
    apply firstn_all2. rewrite map_length. lia. }
  assert (Ok_run : forall m, goodf c [] (ws ++ repeat v (rc J)) -> m = rc J ->
     exists f, pm_run c pm_init (sampled (tr ++ held v J)) = (map (reported c) (completed (ws ++ repeat v m)), Ok f)).
  { intros m G' ->. rewrite <- TJ. apply stream_ok; rewrite TJ; auto. }
  assert (One : rc J < 2 -> goodf c [] (ws ++ repeat v (rc J))).
  { intro L. destruct (rc J) as [|[|m]]; [rewrite app_nil_r; exact G1| |lia]. apply goodf_app; [exact G1|]. cbn. auto. }
  assert (Bad : misplaced (ws ++ [v]) v -> 2 <= rc J ->
     pm_run c pm_init (sampled (tr ++ held v J)) = (map (reported c) (completed (ws ++ [v])), Err EAvalonProtocol)).
  { intros M L. destruct (split_ready J 1 L) as (J1 & j & J2 & -> & E1 & A).
    rewrite held_app. cbn [held map]. rewrite app_assoc.
    pose proof (TJ J1) as X. rewrite E1 in X. cbn [repeat] in X. change ((j, v) :: map (fun i => (i, v)) J2) with ((j, v) :: held v J2).
    rewrite <- X. apply stream_bad; rewrite ?X; try assumption.
    - apply goodf_app; [exact G1|]. cbn. auto.
    - apply (WJ 1). }
  unfold repeated_word. fold n. rewrite Fn. destruct (is_sop v) eqn:So, (is_eop v) eqn:Eo.
  - destruct (Ok_run (rc J)) as [f ->]; [|reflexivity|].
    { apply goodf_app; [exact G1|]. apply goodf_repeat; [congruence|exact Gv]. }
    cbn [fst snd]. split; [|reflexivity]. destruct (parse_single (rc J) v ws Eo Cu) as [-> _].
    rewrite map_app, map_repeat. f_equal. f_equal.
    rewrite Hr, Cu. cbn [app]. rewrite app_nth2 by (rewrite map_length; lia). rewrite map_length. fold n. rewrite Nat.sub_diag. reflexivity.
  - destruct (Nat.leb_spec 2 (rc J)) as [L|L].
    + rewrite Bad; [|right; rewrite current_snoc, Eo; split; [destruct (current ws); discriminate|exact So]|exact L].
      cbn [fst snd]. split; [|split; reflexivity]. rewrite completed_snoc, Eo. reflexivity.
    + destruct (Ok_run (rc J) (One L) eq_refl) as [f ->]. cbn [fst snd]. split; [|reflexivity].
      rewrite parse_middle by exact Eo. reflexivity.
  - assert (S1 : completed (ws ++ [v]) = completed ws ++ [current ws ++ [v]]) by (rewrite completed_snoc, Eo; reflexivity).
    assert (Fs : firstn (n + 1) reps = map (reported c) (completed (ws ++ [v]))).
    { rewrite Hr, S1, map_app, app_assoc. rewrite firstn_app, app_length, !map_length. fold n. cbn [map length].
      rewrite Nat.sub_diag. cbn [firstn]. rewrite app_nil_r. apply firstn_all2. rewrite app_length, map_length. fold n. cbn [length]. lia. }
    destruct (Nat.leb_spec 2 (rc J)) as [L|L].
    + rewrite Bad; [|left; rewrite current_snoc, Eo; split; [reflexivity|exact So]|exact L].
      cbn [fst snd]. split; [|split; reflexivity]. replace (min (rc J) 1) with 1 by lia. symmetry. exact Fs.
    + destruct (Ok_run (rc J) (One L) eq_refl) as [f ->]. cbn [fst snd]. split; [|reflexivity].
      destruct (rc J) as [|[|m]]; [|cbn [repeat Nat.min]; symmetry; exact Fs|lia]. cbn [repeat Nat.min]. rewrite app_nil_r, Nat.add_0_r. symmetry. exact Fn.
  - destruct (Ok_run (rc J)) as [f ->]; [|reflexivity|].
    { apply goodf_app; [exact G1|]. apply goodf_repeat; [congruence|exact Gv]. }
    cbn [fst snd]. split; [|reflexivity]. rewrite parse_middle by exact Eo. reflexivity.
Qed.
End Stream.

Lemma pk_killed_bus c k gps s p o fuel l :
  byte_bus c k -> c_timeout c = 0%Z ->
  let ps := map snd gps in
  Forall (fun p => p_data p <> [] /\ all_bytes (p_data p) /\ channel_ok c (p_channel p)) ps ->
  Forall (fun p => length l + length (p_data p) < fuel) ps -> p <> PReadOnly -> k_offered o = false ->
  let '(r, w) := pk_send_gaps c fuel gps (World s p o [] l) in
  exists n, n <= length (want c ps) /\ forall J,
    let '(rs, err) := if k_offered (out w) then repeated_word (out w) (want c ps) n (ready_cycles (k_accepts (c_ready c)) J)
                      else (firstn n (want c ps), false) in
    fst (pk_after_kill c w J) = rs
    /\ match snd (pk_after_kill c w J) with
       | Ok _ => err = false
       | Err e => err = true /\ e = EAvalonProtocol
       end.
Proof.
  intros BB TO ps Hps Hf Hp Ho.
  assert (T := tx_send_gaps c k o fuel (byte_word _ _ BB) gps s p o [] l).
  assert (Hps' : Forall (fun p => p_data p <> [] /\ all_bytes (p_data p) /\ channel_ok c (p_channel p) /\ fills c k (p_data p)) ps).
  { eapply Forall_impl; [|exact Hps]. cbn. intros a (A1 & A2 & A3). repeat split; try assumption. left. apply (bb_symbol _ _ BB). }
  assert (Hch : Forall (fun p => channel_ok c (p_channel p)) ps).
  { eapply Forall_impl; [|exact Hps]. cbn. intros a Ha. apply Ha. }
  assert (Hb : inv_base c o o) by (repeat split; reflexivity).
  specialize (T Hch Hf Hp (free_nil _ _) Hb Ho).
  apply tx_result_next in T; [|intros a w Hw; apply Hw].
  destruct (pk_send_gaps c fuel gps (World s p o [] l)) as [r w].
  destruct (all_good c k o ps (byte_word _ _ BB) (bb_width _ _ BB) Hps' [] eq_refl) as (G1 & G0 & G2 & G3).
  cbn [app] in G0, G2. change (PktSpec.completed []) with (@nil (list pk_out)) in G2. cbn [app] in G2.
  assert (Wants : want c ps = map (reported c) (PktSpec.completed (all_words c k o ps))).
  { rewrite G2. unfold want. rewrite map_map. apply map_ext_in. intros q Hq. rewrite Forall_forall in Hps'.
    destruct (Hps' q Hq) as (H1 & H2 & H3 & H4). symmetry. apply (pw_reported c k o _ (byte_word _ _ BB) (bb_width _ _ BB)); assumption. }
  destruct T as (_ & _ & T). fold ps in T.
  assert (Pre : exists j, transfers k_offered (k_accepts (c_ready c)) (trace w) = firstn j (all_words c k o ps)
             /\ (k_offered (out w) = true -> nth_error (all_words c k o ps) j = Some (out w))).
  { destruct r; try contradiction.
    - destruct T as (T & _ & T'). exists (length (all_words c k o ps)). rewrite firstn_all. split; [exact T|]. congruence.
    - destruct T as (_ & _ & T). exact T. }
  destruct Pre as (j & Tj & Nj). set (words := all_words c k o ps) in *.
  exists (length (PktSpec.completed (firstn j words))). split.
  { rewrite Wants, map_length. destruct (parse_app_completed (skipn j words) (firstn j words)) as [d E].
    rewrite firstn_skipn in E. rewrite E, app_length. lia. }
  intro J. unfold pk_after_kill. destruct (k_offered (out w)) eqn:O.
  - destruct (nth_error_split words j (Nj eq_refl)) as (a & b & E & La).
    assert (Ea : firstn j words = a). { rewrite E, <- La, firstn_app, Nat.sub_diag, firstn_all. cbn [firstn]. apply app_nil_r. }
    rewrite Ea in *. apply (killed_stream c TO (trace w) a (out w) b J); rewrite <- ?E; assumption.
  - assert (TJ : transfers k_offered (k_accepts (c_ready c)) (trace w ++ held (out w) J) = firstn j words).
    { rewrite transfers_app, transfers_idle, app_nil_r by exact O. exact Tj. }
    pose proof G1 as G1'. rewrite <- (firstn_skipn j words) in G1'. apply goodf_prefix in G1' as [G1' _].
    pose proof G3 as G3'. rewrite <- (firstn_skipn j words) in G3'. apply Forall_app in G3' as [G3' _].
    destruct (stream_ok c TO (trace w ++ held (out w) J)) as [m H]; [rewrite TJ; exact G1'|rewrite TJ; exact G3'|].
    rewrite H. cbn [fst snd]. split; [|reflexivity]. rewrite TJ, Wants.
    destruct (parse_app_completed (skipn j words) (firstn j words)) as [d E]. rewrite firstn_skipn in E.
    rewrite E, map_app, firstn_app, map_length, Nat.sub_diag. cbn [firstn]. rewrite app_nil_r. symmetry. apply firstn_all2. rewrite map_length. lia.
Qed.

Lemma pk_killed_top c k beh acts1 acts2 gps s p o fuel l :
  byte_bus c k -> c_timeout c = 0%Z ->
  let d := run ptx beh acts1 drv_init in
  let d' := run ptx beh (acts1 ++ AKill :: acts2) drv_init in
  Forall (fun i => sendable c (i_tx i)) (appended (log d)) -> map snd gps = thread_calls (log d') ->
  Forall (fun p => length l + length (p_data p) < fuel) (map snd gps) -> p <> PReadOnly -> k_offered o = false ->
  let reps := reports_of c (started (log d)) in
  let '(r, w) := pk_send_gaps c fuel gps (World s p o [] l) in
  exists n, n <= length reps /\ forall J,
    let '(rs, err) := if k_offered (out w) then repeated_word (out w) reps n (ready_cycles (k_accepts (c_ready c)) J)
                      else (firstn n reps, false) in
    fst (pk_after_kill c w J) = rs
    /\ match snd (pk_after_kill c w J) with
       | Ok _ => err = false
       | Err e => err = true /\ e = EAvalonProtocol
       end.
Proof.
  intros BB TO d d' Hs E Hf Hp Ho reps.
  destruct (killed_thm beh acts1 acts2) as (K & _). fold d d' in K.
  assert (St : started (log d') = started (log d)) by (rewrite (started_by_thread (log d)), <- K, <- started_by_thread; reflexivity).
  pose proof (pk_killed_bus c k gps s p o fuel l BB TO) as G. cbn zeta in G.
  assert (Ew : want c (map snd gps) = reps) by (rewrite E, want_started, St; reflexivity).
  rewrite Ew in G. apply G; try assumption.
  rewrite E. apply Forall_forall. intros q Hq.
  assert (Hq' : In (p_data q, p_channel q) (map i_tx (started (log d)))).
  { rewrite <- St, <- calls_started. apply (in_map (fun p => (p_data p, p_channel p))), Hq. }
  apply in_map_iff in Hq'. destruct Hq' as (i & Ei & Hi). apply started_appended in Hi.
  rewrite Forall_forall in Hs. specialize (Hs i Hi). rewrite Ei in Hs. exact Hs.
Qed.
