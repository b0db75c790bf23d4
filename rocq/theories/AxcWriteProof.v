(** AxcWriteProof.v -- concurrent writes. *)
From Verif Require Import Base Async BitsLemmas CompatModel PktModel HandshakeSpec Handshake AxiModel AxiSpec AxiDataProof AxiReadProof AxiChanProof AxiRunProof AxiTopProof AxcModel AxcSpec AxcProof AxcTopProof.
Local Open Scope list_scope.

Section Writes.
Context (c : axi_cfg) (fuel : nat) (calls : list (nat * waccess)) (p : phase) (oa : ax_out) (ow : w_out) (l : list axi_in).
Hypothesis Hok : writes_ok c fuel calls p oa ow l.
Notation accesses := (map snd calls).
Definition sized (x : nat * waccess) : nat * (waccess * Z) := (fst x, (snd x, size_or (x_bytes c) (wa_size (snd x)))).
Notation jobs := (map sized calls).

Lemma admitted_all : admitted (write_check c) calls = jobs.
Proof.
  destruct Hok as (Hb & F & _). clear Hok. induction F as [|[t a] cs (Hl & _) _ IH]; [reflexivity|].
  cbn [admitted flat_map map fst snd]. unfold write_check at 1. cbn [snd] in Hl. destruct (legal_facts c _ _ _ _ Hb Hl) as (-> & _). cbn [app]. f_equal. exact IH.
Qed.
Lemma jobs_fst : map fst jobs = map fst calls.
Proof. rewrite map_map. reflexivity. Qed.
Lemma jobs_snd : map fst (map snd jobs) = accesses.
Proof. rewrite !map_map. reflexivity. Qed.
Lemma jobs_ok : Forall (fun j => aw_ok c (snd j)) jobs.
Proof.
  destruct Hok as (_ & F & _). apply Forall_forall. intros j Hj. apply in_map_iff in Hj. destruct Hj as (x & <- & Hx).
  rewrite Forall_forall in F. split; [apply F; exact Hx|reflexivity].
Qed.

Notation aw_full := (ws_aw (concurrent_writes c fuel calls p oa ow l)).
Notation w_full := (ws_w (concurrent_writes c fuel calls p oa ow l)).
Definition aw_words (x : waccess * Z) : list request := [write_request c (fst x)].
Definition aw_cost (x : waccess * Z) : nat := 2 + wa_alat (fst x).
Definition w_cost (x : waccess * Z) : nat := 1 + wa_dlat (fst x) + length (wa_value (fst x)).

Lemma aw_channel : 
  let '(rs, v) := serve (aw_job c fuel) jobs (World tt p oa [] l) in
  let full := trace v ++ held (out v) (ins v) in
  map fst full = l /\ stable aw_offered aw_accepts full /\
  Forall (fun x => snd x = Done tt) rs /\ length rs <= length calls /\
  (exists k, map (decode c) (transfers aw_offered aw_accepts full) = firstn k (map (write_request c) accesses)) /\
  (list_max (map fst calls) + list_sum (map (fun a => 2 + wa_alat a) accesses) <= ready_cycles aw_accepts l ->
     map (decode c) (transfers aw_offered aw_accepts full) = map (write_request c) accesses) /\
  (forall j m, j < length calls -> S j <= length (transfers aw_offered aw_accepts (firstn m full)) ->
     exists x, nth_error rs j = Some x /\ snd (fst x) <= m) /\
  (forall i j x y, i < j -> nth_error rs i = Some x -> nth_error rs j = Some y -> snd (fst x) < snd (fst y)).
Proof.
  pose proof jobs_ok as Jk. destruct Hok as (Hb & F & Hp & Ho1 & Ho2 & Hl).
  pose proof (channel aw_offered aw_accepts (aw_job c fuel) (decode c) aw_words aw_cost fuel (aw_ok c)
    (aw_HB c fuel Hb) (fun a w => aw_HS c fuel Hb a w) (fun a w r w' _ _ => aw_HP c fuel Hb a w r w')
    (fun a _ => ltac:(discriminate)) jobs p oa l Jk Hp Ho1 Hl) as C.
  destruct (serve (aw_job c fuel) jobs (World tt p oa [] l)) as [rs v]. destruct C as (C1 & C2 & C3 & C4 & C5 & C6 & C7 & C8 & C9).
  assert (Fw : flat_map aw_words (map snd jobs) = map (write_request c) accesses).
  { clear. induction calls as [|x cs IH]; [reflexivity|]. cbn [map flat_map app aw_words sized snd fst]. f_equal. exact IH. }
  rewrite map_length in C5. rewrite Fw in C6, C7. rewrite jobs_fst in C7.
  assert (Ec : costs aw_cost (map snd jobs) = list_sum (map (fun a => 2 + wa_alat a) accesses)).
  { unfold costs. rewrite !map_map. reflexivity. }
  rewrite Ec in C7.
  repeat (split; [assumption|]). split; [|exact C9].
  intros j m Hj Ht. apply C8; [rewrite map_length; exact Hj|].
  assert (Et : forall n, n <= length calls -> total aw_words (firstn n (map snd jobs)) = n).
  { clear. intros n. revert n. induction calls as [|x cs IH]; intros n Hn; [cbn [length] in Hn; replace n with 0 by lia; reflexivity|].
    destruct n as [|n]; [reflexivity|]. cbn [map firstn]. unfold total in *. cbn [flat_map aw_words app length] in *. f_equal. apply IH. lia. }
  rewrite Et by lia. exact Ht.
Qed.

Lemma w_total n : n <= length calls -> total (w_expected c) (firstn n (map snd jobs)) = beats_before accesses n.
Proof.
  pose proof jobs_ok as Jk. destruct Hok as (Hb & _). revert Jk. clear Hok. unfold total, beats_before. revert n. 
  induction calls as [|x cs IH]; intros n Jk Hn; [cbn [length] in Hn; replace n with 0 by lia; reflexivity|].
  destruct n as [|n]; [reflexivity|]. inversion Jk as [|? ? J1 J2]; subst. cbn [map firstn flat_map]. rewrite !app_length, (w_expected_length c Hb) by exact J1.
  cbn [sized fst snd]. f_equal. apply IH; [exact J2|]. cbn [length] in Hn. lia.
Qed.
Lemma w_expected_split : exists bs, Forall2 (beats_of_write c) accesses bs /\
  map fst (flat_map (w_expected c) (map snd jobs)) = concat bs /\
  (x_wlast c = true -> map snd (flat_map (w_expected c) (map snd jobs)) = flat_map (fun a => lasts (length (wa_value a))) accesses).
Proof.
  pose proof jobs_ok as Jk. destruct Hok as (Hb & _). revert Jk. clear Hok.
  induction calls as [|x cs IH]; intro Jk; [exists []; repeat split; constructor|]. inversion Jk as [|? ? J1 J2]; subst.
  destruct (IH J2) as (bs & B1 & B2 & B3). destruct (w_facts c Hb _ J1) as (b & E & L & Ff & P). cbn [sized snd fst] in E, L.
  assert (Lc : length b = length (w_lasts c (length b))) by (rewrite w_lasts_length by exact P; reflexivity).
  exists (b :: bs). split; [constructor; [exact E|exact B1]|].
  assert (We : w_expected c (snd (sized x)) = combine b (w_lasts c (length b))).
  { unfold w_expected. cbn [sized snd fst]. rewrite E. reflexivity. }
  cbn [map flat_map concat]. rewrite We, !map_app, B2. split.
  - f_equal. clear - Lc. revert Lc. generalize (w_lasts c (length b)) as y. induction b as [|a b IH]; intros [|z y] H; try discriminate; [reflexivity|]. cbn. f_equal. apply IH. cbn in H. lia.
  - intro X. rewrite (B3 X). f_equal. rewrite <- L.
    transitivity (w_lasts c (length b)); [|unfold w_lasts; rewrite X; reflexivity].
    clear - Lc. revert Lc. generalize (w_lasts c (length b)) as y. induction b as [|a b IH]; intros [|z y] H; try discriminate; [reflexivity|]. cbn. f_equal. apply IH. cbn in H. lia.
Qed.

Lemma w_channel : exists bs, Forall2 (beats_of_write c) accesses bs /\
  let '(rs, v) := serve (w_job c fuel) jobs (World tt p ow [] l) in
  let full := trace v ++ held (out v) (ins v) in
  map fst full = l /\ stable w_offered w_accepts full /\
  Forall (fun x => snd x = Done tt) rs /\ length rs <= length calls /\
  (exists k, map beat_of (transfers w_offered w_accepts full) = firstn k (concat bs) /\
     (x_wlast c = true -> map x_last (transfers w_offered w_accepts full) = firstn k (flat_map (fun a => lasts (length (wa_value a))) accesses))) /\
  (list_max (map fst calls) + list_sum (map (fun a => 1 + wa_dlat a + length (wa_value a)) accesses) <= ready_cycles w_accepts l ->
     map beat_of (transfers w_offered w_accepts full) = concat bs) /\
  (forall j m, j < length calls -> beats_before accesses (S j) <= length (transfers w_offered w_accepts (firstn m full)) ->
     exists x, nth_error rs j = Some x /\ snd (fst x) <= m) /\
  (forall i j x y, i < j -> nth_error rs i = Some x -> nth_error rs j = Some y -> snd (fst x) < snd (fst y)).
Proof.
  pose proof jobs_ok as Jk. pose proof w_total as WT. destruct w_expected_split as (bs & B1 & B2 & B3). exists bs. split; [exact B1|].
  destruct Hok as (Hb & F & Hp & Ho1 & Ho2 & Hl).
  assert (HN : forall a, aw_ok c a -> w_expected c a <> []).
  { intros a Ha E. pose proof (w_expected_length c Hb a Ha) as L. destruct (w_facts c Hb a Ha) as (b & _ & L2 & _ & P). rewrite E in L. cbn [length] in L. lia. }
  pose proof (channel w_offered w_accepts (w_job c fuel) (w_proj c) (w_expected c) w_cost fuel (aw_ok c)
    (w_HB c fuel Hb) (w_HS c fuel Hb) (w_HP c fuel) HN jobs p ow l Jk Hp Ho2 Hl) as C.
  destruct (serve (w_job c fuel) jobs (World tt p ow [] l)) as [rs v]. destruct C as (C1 & C2 & C3 & C4 & C5 & (k & C6) & C7 & C8 & C9).
  rewrite map_length in C5. rewrite jobs_fst in C7.
  assert (Ec : costs w_cost (map snd jobs) = list_sum (map (fun a => 1 + wa_dlat a + length (wa_value a)) accesses)).
  { unfold costs. rewrite !map_map. reflexivity. }
  rewrite Ec in C7. set (full := trace v ++ held (out v) (ins v)) in *. cbn zeta.
  assert (P1 : forall x, map beat_of x = map fst (map (w_proj c) x)) by (intro x; rewrite map_map; reflexivity).
  repeat (split; [assumption|]). split; [|split; [|split; [|exact C9]]].
  - exists k. rewrite P1, C6, <- B2, firstn_map. split; [reflexivity|]. intro X. rewrite <- (B3 X), firstn_map, <- C6, map_map.
    apply map_ext. intro a. unfold w_proj. rewrite X. reflexivity.
  - intro R. rewrite P1, (C7 R). exact B2.
  - intros j m Hj Ht. apply C8; [rewrite map_length; exact Hj|]. rewrite WT by lia. exact Ht.
Qed.

(** both channels *)
Lemma writes_channels :
  let r := concurrent_writes c fuel calls p oa ow l in
  map fst (ws_aw r) = l /\ map fst (ws_w r) = l /\
  stable aw_offered aw_accepts (ws_aw r) /\ stable w_offered w_accepts (ws_w r) /\
  (exists k, map (decode c) (transfers aw_offered aw_accepts (ws_aw r)) = firstn k (map (write_request c) accesses)) /\
  (exists bs, Forall2 (beats_of_write c) accesses bs /\
    (exists k, map beat_of (transfers w_offered w_accepts (ws_w r)) = firstn k (concat bs) /\
       (x_wlast c = true -> map x_last (transfers w_offered w_accepts (ws_w r)) = firstn k (flat_map (fun a => lasts (length (wa_value a))) accesses))) /\
    (list_max (map fst calls) + list_sum (map (fun a => 1 + wa_dlat a + length (wa_value a)) accesses) <= ready_cycles w_accepts l ->
       map beat_of (transfers w_offered w_accepts (ws_w r)) = concat bs)) /\
  (list_max (map fst calls) + list_sum (map (fun a => 2 + wa_alat a) accesses) <= ready_cycles aw_accepts l ->
     map (decode c) (transfers aw_offered aw_accepts (ws_aw r)) = map (write_request c) accesses).
Proof.
  unfold concurrent_writes. rewrite admitted_all. pose proof aw_channel as CA. destruct w_channel as (bs & B1 & CW).
  destruct (serve (aw_job c fuel) jobs (World tt p oa [] l)) as [ra va]. destruct (serve (w_job c fuel) jobs (World tt p ow [] l)) as [rw vw].
  destruct (serve _ (by_time (joined 0 ra rw)) _) as [rb vb]. cbn [ws_aw ws_w].
  destruct CA as (A1 & A2 & A3 & A4 & A5 & A6 & A7 & A8). destruct CW as (W1 & W2 & W3 & W4 & W5 & W6 & W7 & W8).
  repeat (split; [assumption|]). split; [|exact A6]. exists bs. auto.
Qed.

Lemma b_count x : length (b_responses x) = nb x.
Proof. unfold b_responses, nb. apply map_length. Qed.
Lemma last_response n : nb l = S n -> exists pre i post, l = pre ++ i :: post /\ b_valid i = true /\ nb pre = n.
Proof.
  clear Hok. induction l as [|i x IH] using rev_ind; [discriminate|]. rewrite nb_app. unfold nb at 2. cbn [filter]. destruct (b_valid i) eqn:E; cbn [length]; intro H.
  - exists x, i, []. repeat split; [exact E|lia].
  - destruct IH as (pre & j & post & -> & H1 & H2); [lia|]. exists pre, j, (post ++ [i]). rewrite <- app_assoc. auto.
Qed.

Lemma writes_results :
  let r := concurrent_writes c fuel calls p oa ow l in
  answers_writes accesses r l ->
  Forall (fun i => b_valid i = true -> bval (g_bresp i) <> None) l ->
  ws_results r = combine (seq 0 (length calls)) (map response_outcome (b_responses l)) /\ length (b_responses l) <= length calls.
Proof.
  unfold concurrent_writes. rewrite admitted_all. pose proof aw_channel as CA. destruct w_channel as (bs & B1 & CW).
  destruct Hok as (Hb & F & Hp & Ho1 & Ho2 & Hl).
  destruct (serve (aw_job c fuel) jobs (World tt p oa [] l)) as [ra va]. destruct (serve (w_job c fuel) jobs (World tt p ow [] l)) as [rw vw].
  destruct CA as (A1 & A2 & A3 & A4 & (ka & A5) & A6 & A7 & A8). destruct CW as (W1 & W2 & W3 & W4 & W5 & W6 & W7 & W8).
  assert (Sj : by_time (joined 0 ra rw) = joined 0 ra rw).
  { apply by_time_sorted, sorted_nth. intros i j x y Hij Hi Hj. rewrite joined_nth in Hi, Hj by assumption.
    destruct (nth_error ra i) as [xa|] eqn:E1; [|discriminate]. destruct (nth_error rw i) as [xw|] eqn:E2; [|discriminate].
    destruct (nth_error ra j) as [ya|] eqn:E3; [|discriminate]. destruct (nth_error rw j) as [yw|] eqn:E4; [|discriminate].
    inversion Hi; inversion Hj; subst. cbn [fst]. pose proof (A8 i j xa ya Hij E1 E3). pose proof (W8 i j xw yw Hij E2 E4). lia. }
  rewrite Sj, raised_none by assumption. cbn [app]. intros HA HR.
  assert (HJ : forall pre i post, l = pre ++ i :: post -> b_valid i = true -> exists j, nth_error (joined 0 ra rw) (nb pre) = Some j /\ fst j <= length pre).
  { intros pre i post El Hi. destruct (nth_at_split pre i post) as [N1 N2]. rewrite <- El in N1, N2.
    destruct (HA _ _ N1 Hi) as [H1 H2]. rewrite N2 in H1, H2. fold (nb pre) in H1, H2.
    destruct (serve _ (joined 0 ra rw) _) as [rb vb]. cbn [ws_aw ws_w] in H1, H2.
    assert (Ln : nb pre < length calls).
    { apply (f_equal (@length _)) in A5. rewrite map_length, firstn_length, !map_length in A5. pose proof (transfers_firstn aw_offered aw_accepts (trace va ++ held (out va) (ins va)) (length pre)). lia. }
    destruct (A7 (nb pre) (length pre) Ln ltac:(lia)) as (xa & Ea & La). destruct (W7 (nb pre) (length pre) Ln H2) as (xw & Ew & Lw).
    rewrite joined_nth by assumption. rewrite Ea, Ew. eexists. split; [reflexivity|]. cbn [fst]. lia. }
  assert (Lb : length (b_responses l) <= min (length ra) (length rw)).
  { rewrite b_count. destruct (nb l) as [|n] eqn:En; [lia|]. destruct (last_response n En) as (pre & i & post & El & Hi & Hn).
    destruct (HJ pre i post El Hi) as (j & Ej & _). rewrite Hn in Ej. rewrite joined_nth in Ej by assumption.
    destruct (nth_error ra n) eqn:E1; [|discriminate]. destruct (nth_error rw n) eqn:E2; [|discriminate].
    assert (n < length ra) by (apply nth_error_Some; congruence). assert (n < length rw) by (apply nth_error_Some; congruence). lia. }
  split; [|lia].
  pose proof (serve_b l fuel Hl HR (joined 0 ra rw) (World tt p tt [] l) eq_refl Hp) as SB.
  destruct (serve (fun _ : nat => write_response (TO := unit) fuel) (joined 0 ra rw) _) as [rb vb]. cbn [ws_results fst ins trace map] in *.
  rewrite SB.
  - rewrite joined_snd by assumption. apply combine_seq; rewrite map_length; lia.
  - intros pre i post El Hi _. change (nb []) with 0. rewrite Nat.sub_0_r. exact (HJ pre i post El Hi).
Qed.
End Writes.

(** ** what the writes store *)
Lemma fixed_written_ext a size data be : forall j m m', (forall x, m x = m' x) -> forall x, fixed_written a size data be j m x = fixed_written a size data be j m' x.
Proof.
  induction data as [|d r IH]; intros j m m' H x; [apply H|]. cbn [fixed_written]. apply IH. intro y. unfold put_low. rewrite H. reflexivity.
Qed.
Lemma written_ext b a size data be m m' : (forall x, m x = m' x) -> forall x, written b a size data be m x = written b a size data be m' x.
Proof.
  intros H x. destruct b; cbn [written].
  - apply fixed_written_ext. exact H.
  - unfold incr_written. rewrite H. reflexivity.
  - unfold wrap_written. rewrite H. reflexivity.
Qed.
Lemma store_burst_ext bus b size n a beats : forall i m m', (forall x, m x = m' x) -> forall x, store_burst bus b size n a m i beats x = store_burst bus b size n a m' i beats x.
Proof.
  induction beats as [|w r IH]; intros i m m' H x; [apply H|]. cbn [store_burst]. apply IH. intro y. unfold store_beat. rewrite H. reflexivity.
Qed.
Lemma slave_stores_ext c reqs : forall beats m m', (forall x, m x = m' x) -> forall x, slave_stores c reqs beats m x = slave_stores c reqs beats m' x.
Proof.
  induction reqs as [|q r IH]; intros beats m m' H x; [apply H|]. cbn [slave_stores]. apply IH. intro y. apply store_burst_ext. exact H.
Qed.
Lemma all_written_ext c calls : forall m m', (forall x, m x = m' x) -> forall x, all_written c calls m x = all_written c calls m' x.
Proof.
  induction calls as [|a r IH]; intros m m' H x; [apply H|]. unfold all_written in *. cbn [fold_left]. apply IH. intro y. apply written_ext. exact H.
Qed.
Lemma stores_all c accesses bs : axi_bus c -> Forall (write_call_ok c) accesses ->
  Forall (fun a => (wa_burst a = WRAP -> wrap_smooth (x_bytes c) (wa_address a) (size_or (x_bytes c) (wa_size a)) (Z.of_nat (length (wa_value a))))) accesses ->
  Forall2 (beats_of_write c) accesses bs ->
  forall m x, slave_stores c (map (write_request c) accesses) (concat bs) m x = all_written c accesses m x.
Proof.
  intros Hb F1 F2 H. induction H as [|a b accesses bs Hab _ IH]; intros m x; [reflexivity|].
  inversion F1 as [|? ? (Hl & _ & Hbe & _) F1']; inversion F2 as [|? ? Hw F2']; subst.
  destruct (beats_meaning c _ _ _ _ (wa_value a) (wa_be a) Hb Hl eq_refl Hbe Hw) as (b' & E & L & _ & _ & St).
  unfold beats_of_write in Hab. rewrite Hab in E. inversion E; subst b'. clear E.
  cbn [map concat slave_stores write_request q_beats q_burst q_size q_address]. rewrite Nat2Z.id.
  rewrite firstn_app, L, Nat.sub_diag, firstn_O, app_nil_r, skipn_app, L, Nat.sub_diag. cbn [skipn].
  rewrite (firstn_all2 b) by lia. rewrite (skipn_all2 b) by lia. cbn [app].
  etransitivity; [|exact (IH F1' F2' _ x)]. apply slave_stores_ext. intro y. apply St.
Qed.

Lemma writes_stored c fuel calls p oa ow l m : writes_ok c fuel calls p oa ow l ->
  Forall (fun x => let a := snd x in (wa_burst a = WRAP -> wrap_smooth (x_bytes c) (wa_address a) (size_or (x_bytes c) (wa_size a)) (Z.of_nat (length (wa_value a))))) calls ->
  let r := concurrent_writes c fuel calls p oa ow l in
  answers_writes (map snd calls) r l -> length (b_responses l) = length calls ->
  forall x, slave_stores c (map (decode c) (transfers aw_offered aw_accepts (ws_aw r))) (map beat_of (transfers w_offered w_accepts (ws_w r))) m x
            = all_written c (map snd calls) m x.
Proof.
  intros Hok Hw r HA Hn x. destruct (writes_channels c fuel calls p oa ow l Hok) as (_ & _ & _ & _ & (ka & A) & (bs & B & (kw & W & _) & _) & _). fold r in A, W.
  assert (Lc : forall a, write_call_ok c a -> axi_bus c -> forall b, beats_of_write c a b -> length b = length (wa_value a)).
  { intros a (Hl & _ & Hbe & _) Hb b E. destruct (beats_exist c _ _ _ _ (wa_value a) (wa_be a) Hb Hl eq_refl Hbe) as (b' & E' & L & _).
    unfold beats_of_write in E. rewrite E in E'. inversion E'; subst. exact L. }
  destruct Hok as (Hb & F & Hp & Ho1 & Ho2 & Hl).
  assert (F1 : Forall (write_call_ok c) (map snd calls)) by (apply Forall_map; exact F).
  assert (F2 : Forall (fun a => (wa_burst a = WRAP -> wrap_smooth (x_bytes c) (wa_address a) (size_or (x_bytes c) (wa_size a)) (Z.of_nat (length (wa_value a))))) (map snd calls)) by (apply Forall_map; exact Hw).
  assert (Lb : length (concat bs) = length (flat_map wa_value (map snd calls))).
  { clear - B F1 Lc Hb. induction B as [|a b accesses bs H _ IH]; [reflexivity|]. inversion F1; subst. cbn [concat flat_map]. rewrite !app_length, IH by assumption.
    rewrite (Lc a) by assumption. reflexivity. }
  destruct (length calls) as [|n] eqn:En.
  - destruct calls; [|discriminate]. cbn [map] in *. inversion B; subst. cbn [concat] in W. rewrite firstn_nil in A, W. rewrite A, W. reflexivity.
  - rewrite (b_count l) in Hn. destruct (last_response l n Hn) as (pre & i & post & El & Hi & Hnb).
    destruct (nth_at_split pre i post) as [N1 N2]. rewrite <- El in N1, N2. destruct (HA _ _ N1 Hi) as [H1 H2]. rewrite N2 in H1, H2. fold (nb pre) in H1, H2. rewrite Hnb in *.
    pose proof (transfers_firstn aw_offered aw_accepts (ws_aw r) (length pre)) as T1. pose proof (transfers_firstn w_offered w_accepts (ws_w r) (length pre)) as T2.
    apply firstn_full in A; [|rewrite !map_length; lia]. apply firstn_full in W.
    2: { rewrite Lb, map_length. unfold beats_before in H2. rewrite firstn_all2 in H2 by (rewrite map_length; lia). lia. }
    rewrite A, W. apply stores_all; assumption.
Qed.

(** a call whose parameters are rejected does nothing *)
Lemma writes_rejected c fuel calls1 t a calls2 p oa ow l : axi_bus c ->
  ~ legal_access (x_bytes c) (wa_address a) (Z.of_nat (length (wa_value a))) (wa_size a) (wa_burst a) ->
  concurrent_writes c fuel (calls1 ++ (t, a) :: calls2) p oa ow l = concurrent_writes c fuel (calls1 ++ calls2) p oa ow l.
Proof.
  intros (P & L & E) H. unfold concurrent_writes.
  assert (A : admitted (write_check c) (calls1 ++ (t, a) :: calls2) = admitted (write_check c) (calls1 ++ calls2)).
  { unfold admitted. rewrite !flat_map_app. f_equal. cbn [flat_map snd]. unfold write_check at 1.
    pose proof (check_params_spec (x_bytes c) (wa_address a) (Z.of_nat (length (wa_value a))) (wa_size a) (wa_burst a) P ltac:(lia)) as [_ K].
    rewrite (K H). reflexivity. }
  rewrite A. reflexivity.
Qed.
