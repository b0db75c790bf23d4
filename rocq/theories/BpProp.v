(** BpProp.v -- C139: an Avalon-ST driver against a BitDriver that drives the ready signal. *)
From Verif Require Import Base Async CompatModel DrvUtilModel DrvUtilSpec DrvUtilProof DrvUtilProp HandshakeSpec AvalonSTModel AvalonSTSpec AvalonSTProp PktModel PktSpec PktProof TmSpec TmProof TmProp BpSpec BpProof.
Local Open Scope list_scope.

(** The ready cycle that is lost: the sender that waits for an edge first does not offer anything
    in its first cycle. *)
Definition lost (sync : bool) (ready : list logic) : nat :=
  if sync then match ready with L1 :: _ => 1 | _ => 0 end else 0.

Lemma lost_ones : forall (sync : bool) l, ones (firstn (if sync then 1 else 0) l) = lost sync l.
Proof. intros [] [|[] l]; reflexivity. Qed.

Lemma wave_split : forall gen stored vi n, gen <> [] -> length (waveform gen) <= n ->
  bd_wave n (bd_start (Some gen) stored vi) = waveform gen ++ repeat L0 (n - length (waveform gen)).
Proof.
  intros gen stored vi n G L. destruct (C29_waveform gen stored vi n G) as [W _]. rewrite W.
  rewrite firstn_app, firstn_all2 by exact L. f_equal.
  replace n with ((n - length (waveform gen)) + length (waveform gen)) at 2 by lia.
  rewrite repeat_app, firstn_app, repeat_length, Nat.sub_diag, firstn_O, app_nil_r.
  apply firstn_all2. rewrite repeat_length. lia.
Qed.

(** what full speed means for the number of ready cycles *)
Lemma speed_done : forall (sync : bool) l m N, ones (firstn m (skipn (if sync then 1 else 0) l)) = N ->
  ones (firstn ((if sync then 1 else 0) + m) l) = lost sync l + N.
Proof.
  intros sync l m N H. rewrite <- lost_ones, <- H. set (x := if sync then 1 else 0).
  rewrite <- count_app. f_equal.
  rewrite <- (firstn_skipn x l) at 1. destruct (Nat.le_gt_cases x (length l)) as [L|L].
  - rewrite firstn_app. assert (E : length (firstn x l) = x) by (rewrite firstn_length; lia). rewrite E.
    rewrite firstn_all2 by lia. f_equal. f_equal. lia.
  - rewrite (skipn_all2 l) by lia. rewrite app_nil_r, firstn_nil, app_nil_r. rewrite firstn_firstn. f_equal. lia.
Qed.
Lemma ones_split : forall (sync : bool) l, ones l = lost sync l + ones (skipn (if sync then 1 else 0) l).
Proof. intros sync l. rewrite <- lost_ones, <- count_app, firstn_skipn. reflexivity. Qed.
Lemma ones_firstn_le : forall n l, ones (firstn n l) <= ones l.
Proof. intros n l. rewrite <- (firstn_skipn n l) at 2. rewrite count_app. lia. Qed.

(** C139.  A BitDriver on the ready signal follows a generator of (on, off) pairs, a driver
    without valid generator sends words, started in the same cycle: all sends return if and only
    if the generator asks for as many ready cycles as there are words (one more if the sender
    waits for an edge in a ready cycle), and otherwise the sends wait for ever. *)
Theorem C139_words : forall width fuel v0 sync vs p o gen stored vi n,
  gen <> [] -> Forall (fun v => exists d, create_binary v width false = Ok d) (v0 :: vs) ->
  n < fuel -> p <> PReadOnly -> length (waveform gen) <= n ->
  let ready := bd_wave n (bd_start (Some gen) stored vi) in
  let '(r, w) := st_send_all width true fuel ((v0, sync) :: map (fun v => (v, false)) vs)
                   (World (set_valid_generator None) p o [] ready) in
  (length (v0 :: vs) + lost sync ready <= on_cycles gen -> r = Done tt) /\
  (on_cycles gen < length (v0 :: vs) + lost sync ready -> r = Susp).
Proof.
  intros width fuel v0 sync vs p o gen stored vi n G F L P N ready.
  assert (E : ready = waveform gen ++ repeat L0 (n - length (waveform gen))) by (apply wave_split; assumption).
  assert (O : ones ready = on_cycles gen) by (rewrite E, count_app, ones_wave, ones_L0; lia).
  assert (Lr : length ready = n) by (rewrite E, app_length, repeat_length; lia).
  pose proof (C136_full_speed_words width true fuel v0 sync vs p o ready F ltac:(lia) P) as H.
  destruct (st_send_all width true fuel ((v0, sync) :: map (fun v => (v, false)) vs) (World (set_valid_generator None) p o [] ready)) as [r w].
  cbv zeta in H. change (accepts true) with isone in H. destruct H as [(D & m & _ & _ & C)|(D & _ & C)].
  - apply speed_done in C. pose proof (ones_firstn_le ((if sync then 1 else 0) + m) ready). split; [auto|lia].
  - pose proof (ones_split sync ready). split; [lia|auto].
Qed.
Print Assumptions C139_words.

Lemma sends_values : forall width v0 (sync : bool) vs (ds : list bits),
  Forall2 (fun v d => create_binary v width false = Ok d) (v0 :: vs) ds ->
  Forall2 (fun w d => create_binary (fst w) width false = Ok d) ((v0, sync) :: map (fun v => (v, false)) vs) ds.
Proof.
  intros width v0 sync vs ds F. inversion F as [|? d ? ds' H1 H2]; subst. constructor; [exact H1|].
  clear - H2. induction H2; cbn [map]; constructor; assumption.
Qed.

(** C139, the rate.  [on] cycles on and [off] cycles off, again and again, often enough: the sends
    return exactly with the cycle that is the on cycle number "words" (one later with sync), and
    the words went over in order. *)
Theorem C139_rate : forall width fuel v0 (sync : bool) vs ds p o on off N stored vi n,
  Forall2 (fun v d => create_binary v width false = Ok d) (v0 :: vs) ds ->
  o_valid o <> L1 -> n < fuel -> p <> PReadOnly -> N * (on + off) <= n ->
  let j := length (v0 :: vs) + (if sync then 1 else 0) in
  j <= N * on ->
  let ready := bd_wave n (bd_start (Some (repeat (Z.of_nat on, Z.of_nat off) N)) stored vi) in
  let '(r, w) := st_send_all width true fuel ((v0, sync) :: map (fun v => (v, false)) vs)
                   (World (set_valid_generator None) p o [] ready) in
  r = Done tt /\ length (trace w) = nth_on on off j /\ transfers true (trace w) = ds.
Proof.
  intros width fuel v0 sync vs ds p o on off N stored vi n F V L P Ln j J ready.
  set (gen := repeat (Z.of_nat on, Z.of_nat off) N) in *.
  assert (Nz : 0 < N /\ 0 < on) by (unfold j in J; cbn [length] in J; destruct N, on; lia).
  assert (G : gen <> []) by (unfold gen; destruct N; [lia|discriminate]).
  assert (Lw : length (waveform gen) = N * (on + off)).
  { unfold gen. clear. induction N as [|N IH]; [reflexivity|]. cbn [repeat]. unfold waveform in *. cbn [flat_map fst snd].
    rewrite !app_length, !repeat_length, !Nat2Z.id, IH. lia. }
  assert (E : ready = waveform gen ++ repeat L0 (n - length (waveform gen))) by (apply wave_split; [exact G|lia]).
  assert (Lr : length ready = n) by (rewrite E, app_length, repeat_length; lia).
  assert (On : on_cycles gen = N * on).
  { unfold gen. clear. induction N as [|N IH]; [reflexivity|]. unfold on_cycles in *. cbn [repeat map fst].
    change (list_sum (?a :: ?l)) with (a + list_sum l). rewrite Nat2Z.id, IH. lia. }
  assert (Lo : lost sync ready = if sync then 1 else 0).
  { rewrite E. unfold gen. destruct N as [|N']; [lia|]. cbn [repeat]. unfold waveform. cbn [flat_map fst snd].
    rewrite Nat2Z.id. destruct on; [lia|]. destruct sync; reflexivity. }
  assert (F1 : Forall (fun v => exists d, create_binary v width false = Ok d) (v0 :: vs)).
  { clear - F. induction F as [|v d vs' ds H _ IH]; [constructor|]. constructor; [exists d; exact H|exact IH]. }
  set (ws := (v0, sync) :: map (fun v => (v, false)) vs).
  assert (F2 : Forall (fun w => exists d, create_binary (fst w) width false = Ok d) ws).
  { unfold ws. constructor; [exact (Forall_inv F1)|]. apply Forall_map. exact (Forall_inv_tail F1). }
  assert (F3 : Forall2 (fun w d => create_binary (fst w) width false = Ok d) ws ds).
  { apply sends_values. exact F. }
  pose proof (C139_words width fuel v0 sync vs p o gen stored vi n G F1 L P ltac:(lia)) as H1.
  pose proof (C136_full_speed_words width true fuel v0 sync vs p o ready F1 ltac:(lia) P) as H2.
  pose proof (C136_words width true fuel ws (set_valid_generator None) p o ready F2 ltac:(lia) P) as H3.
  pose proof (C32_transfers width true ws ds (set_valid_generator None) p o fuel ready F3 ltac:(lia) P V) as H4.
  cbv zeta in H1. fold ready in H1. fold ws in H1, H2.
  destruct (st_send_all width true fuel ws (World (set_valid_generator None) p o [] ready)) as [r w].
  destruct H1 as [D _]. specialize (D ltac:(rewrite Lo, On; exact J)). subst r.
  split; [reflexivity|]. destruct H4 as (_ & _ & T & _). split; [|exact T].
  destruct H3 as (rest & T3 & C3). destruct rest as [l'|]; [|destruct C3; discriminate].
  apply (time_last isone) with (l' := l') in T3; [|unfold ws, idles; cbn [map combine length gaps]; discriminate|reflexivity].
  destruct H2 as [(_ & m & O2 & _ & C)|(D & _)]; [|discriminate].
  cbv zeta in C. change (accepts true) with isone in C. apply speed_done in C.
  rewrite map_length in T3.
  assert (Lt : length (trace w) = (if sync then 1 else 0) + m).
  { cbv zeta in O2. apply (f_equal (@length bool)) in O2. rewrite map_length, app_length, !repeat_length in O2. exact O2. }
  apply (nth_unique isone ready j).
  - split; [rewrite Lt, C, Lo; unfold j; lia|exact T3].
  - rewrite E. apply (is_nth_prefix isone _ (length (waveform gen))).
    rewrite firstn_app, Nat.sub_diag, firstn_O, app_nil_r, firstn_all2 by lia.
    apply wave_nth. unfold j in *. cbn [length] in *. lia.
Qed.
Print Assumptions C139_rate.

(** C139 for the packetized driver: the words of all packets, the first packet with or without
    sync. *)
Theorem C139_packets : forall c k fuel q0 qs p o gen stored vi n,
  word_bus c k -> c_ready c = true ->
  Forall (fun q => channel_ok c (p_channel q) /\ p_data q <> []) (q0 :: qs) ->
  Forall (fun q => p_sync q = false) qs ->
  (forall q, In q (q0 :: qs) -> n + length (p_data q) < fuel) -> p <> PReadOnly ->
  gen <> [] -> length (waveform gen) <= n ->
  let ready := bd_wave n (bd_start (Some gen) stored vi) in
  let words := list_sum (map (words_of k) (q0 :: qs)) in
  let '(r, w) := pk_send_all c fuel (q0 :: qs) (World (set_valid_generator None) p o [] ready) in
  (words + lost (p_sync q0) ready <= on_cycles gen -> r = Done tt) /\
  (on_cycles gen < words + lost (p_sync q0) ready -> r = Susp).
Proof.
  intros c k fuel q0 qs p o gen stored vi n B R F Sy L P G N ready words.
  assert (E : ready = waveform gen ++ repeat L0 (n - length (waveform gen))) by (apply wave_split; assumption).
  assert (O : ones ready = on_cycles gen) by (rewrite E, count_app, ones_wave, ones_L0; lia).
  assert (Lr : length ready = n) by (rewrite E, app_length, repeat_length; lia).
  pose proof (C136_full_speed_packets c k fuel q0 qs p o ready B F ltac:(rewrite Lr; exact L) P Sy) as H.
  destruct (pk_send_all c fuel (q0 :: qs) (World (set_valid_generator None) p o [] ready)) as [r w].
  cbv zeta in H. fold words in H. rewrite R in H. change (k_accepts true) with isone in H. destruct H as [(D & m & _ & _ & C)|(D & _ & C)].
  - apply speed_done in C. pose proof (ones_firstn_le ((if p_sync q0 then 1 else 0) + m) ready). split; [auto|lia].
  - pose proof (ones_split (p_sync q0) ready). split; [lia|auto].
Qed.
Print Assumptions C139_packets.

Theorem C139_packet_rate : forall c k fuel q0 qs p o on off N stored vi n,
  word_bus c k -> c_ready c = true ->
  Forall (fun q => channel_ok c (p_channel q) /\ p_data q <> []) (q0 :: qs) ->
  Forall (fun q => p_sync q = false) qs ->
  (forall q, In q (q0 :: qs) -> n + length (p_data q) < fuel) -> p <> PReadOnly ->
  N * (on + off) <= n ->
  let j := list_sum (map (words_of k) (q0 :: qs)) + (if p_sync q0 then 1 else 0) in
  1 <= j <= N * on ->
  let ready := bd_wave n (bd_start (Some (repeat (Z.of_nat on, Z.of_nat off) N)) stored vi) in
  let '(r, w) := pk_send_all c fuel (q0 :: qs) (World (set_valid_generator None) p o [] ready) in
  r = Done tt /\ length (trace w) = nth_on on off j.
Proof.
  intros c k fuel q0 qs p o on off N stored vi n B R F Sy L P Ln j J ready.
  set (gen := repeat (Z.of_nat on, Z.of_nat off) N) in *.
  assert (Nz : 0 < N /\ 0 < on) by (destruct N, on; lia).
  assert (G : gen <> []) by (unfold gen; destruct N; [lia|discriminate]).
  assert (Lw : length (waveform gen) = N * (on + off)).
  { unfold gen. clear. induction N as [|N IH]; [reflexivity|]. cbn [repeat]. unfold waveform in *. cbn [flat_map fst snd].
    rewrite !app_length, !repeat_length, !Nat2Z.id, IH. lia. }
  assert (E : ready = waveform gen ++ repeat L0 (n - length (waveform gen))) by (apply wave_split; [exact G|lia]).
  assert (Lr : length ready = n) by (rewrite E, app_length, repeat_length; lia).
  assert (On : on_cycles gen = N * on).
  { unfold gen. clear. induction N as [|N IH]; [reflexivity|]. unfold on_cycles in *. cbn [repeat map fst].
    change (list_sum (?a :: ?l)) with (a + list_sum l). rewrite Nat2Z.id, IH. lia. }
  assert (Lo : lost (p_sync q0) ready = if p_sync q0 then 1 else 0).
  { rewrite E. unfold gen. destruct N as [|N']; [lia|]. cbn [repeat]. unfold waveform. cbn [flat_map fst snd].
    rewrite Nat2Z.id. destruct on; [lia|]. destruct (p_sync q0); reflexivity. }
  assert (L' : forall q, In q (q0 :: qs) -> length ready + length (p_data q) < fuel) by (rewrite Lr; exact L).
  pose proof (C139_packets c k fuel q0 qs p o gen stored vi n B R F Sy L P G ltac:(lia)) as H1.
  pose proof (C136_full_speed_packets c k fuel q0 qs p o ready B F L' P Sy) as H2.
  pose proof (C136_packets c k fuel (q0 :: qs) (set_valid_generator None) p o ready B F L' P) as H3.
  cbv zeta in H1. fold ready in H1.
  destruct (pk_send_all c fuel (q0 :: qs) (World (set_valid_generator None) p o [] ready)) as [r w].
  destruct H1 as [D _]. specialize (D ltac:(rewrite Lo, On; lia)). subst r. split; [reflexivity|].
  destruct H3 as (rest & T3 & C3). destruct rest as [l'|]; [|destruct C3; discriminate].
  rewrite R in T3. change (k_accepts true) with isone in T3.
  assert (W0 : exists u, words_of k q0 = S u).
  { rewrite Forall_forall in F. destruct (F q0 (or_introl eq_refl)) as [_ Ne]. unfold words_of. exists (nwords k (length (p_data q0)) - 1).
    change (nwords k (length (p_data q0)) = S (nwords k (length (p_data q0)) - 1)). rewrite (nwords_S c k B _ Ne). lia. }
  destruct W0 as [u W0].
  apply time_last with (l' := l') in T3;
    [|change (list_sum (map (words_of k) (q0 :: qs))) with (words_of k q0 + list_sum (map (words_of k) qs)); rewrite W0; unfold idles; cbn [map concat app Nat.add gaps combine]; discriminate|reflexivity].
  destruct H2 as [(_ & m & O2 & _ & C)|(D & _)]; [|discriminate].
  cbv zeta in C. rewrite R in C. change (k_accepts true) with isone in C. apply speed_done in C.
  rewrite map_length in T3.
  assert (Lt : length (trace w) = (if p_sync q0 then 1 else 0) + m).
  { cbv zeta in O2. apply (f_equal (@length bool)) in O2. rewrite map_length, app_length, !repeat_length in O2. exact O2. }
  apply (nth_unique isone ready j).
  - split; [rewrite Lt, C, Lo; unfold j; lia|exact T3].
  - rewrite E. apply (is_nth_prefix isone _ (length (waveform gen))).
    rewrite firstn_app, Nat.sub_diag, firstn_O, app_nil_r, firstn_all2 by lia.
    apply wave_nth. lia.
Qed.
Print Assumptions C139_packet_rate.

(** ** cases *)
(** three words against (2 on, 3 off): with sync the first ready cycle is lost, the second takes
    the first word, the others wait for the second round; the sends return with the fourth ready
    cycle, which is cycle 7 *)
Definition exb_ready (n : nat) : list logic := bd_wave n (bd_start (Some (repeat (2, 3)%Z 3)) None LX).
Example exb_words :
  exb_ready 12 = [L1; L1; L0; L0; L0; L1; L1; L0; L0; L0; L1; L1] /\
  nth_on 2 3 4 = 7 /\ on_cycles (repeat (2, 3)%Z 3) = 6 /\
  let '(r, w) := st_send_all 8 true 30 [(BInt 1, true); (BInt 2, false); (BInt 3, false)]
                   (World (set_valid_generator None) PActive (StOut L0 (xs 8)) [] (exb_ready 15)) in
  r = Done tt /\ length (trace w) = 7 /\ lost true (exb_ready 15) = 1.
Proof. vm_compute. repeat split. Qed.

(** one (on, off) pair too few: the last word is never taken *)
Example exb_short :
  let ready := bd_wave 20 (bd_start (Some [(2, 3); (1, 1)]%Z) None LX) in
  on_cycles [(2, 3); (1, 1)]%Z = 3 /\
  let '(r, w) := st_send_all 8 true 30 [(BInt 1, true); (BInt 2, false); (BInt 3, false)]
                   (World (set_valid_generator None) PActive (StOut L0 (xs 8)) [] ready) in
  r = Susp /\ 3 < length [BInt 1; BInt 2; BInt 3] + lost true ready.
Proof. vm_compute. repeat split. apply le_n. Qed.

Example exb_packets :
  word_bus ext_c 4 /\ Forall (fun q => channel_ok ext_c (p_channel q) /\ p_data q <> []) ext_ps /\
  Forall (fun q => p_sync q = false) (tl ext_ps) /\
  let '(r, w) := pk_send_all ext_c 40 ext_ps (World (set_valid_generator None) PActive (pk_init_out ext_c) [] (exb_ready 15)) in
  r = Done tt /\ length (trace w) = 7 /\ list_sum (map (words_of 4) ext_ps) + 1 = 4.
Proof.
  split; [exact ext_bus|]. split; [repeat constructor; discriminate|]. split; [repeat constructor|]. vm_compute. repeat split.
Qed.
