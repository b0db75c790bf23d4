(** PktRefProof.v -- the length of what the packet monitor reports (C73). *)
From Verif Require Import Base Async BitsLemmas CompatModel HandshakeSpec PktModel PktSpec PktProof PktMonProof.
Local Open Scope list_scope.

Definition report_bytes (r : report) : bytes := match r with RData b => b | RChan b _ => b end.

Lemma convert_length v big b : convert_binary_to_bytes v big = Ok b -> length b = nbytes (length v).
Proof.
  unfold convert_binary_to_bytes. destruct (bval v); [|discriminate]. intro H. injection H as <-.
  destruct big; rewrite ?rev_length, z_to_le_length; reflexivity.
Qed.

Section Mon.
Context (c : pcfg).

Lemma valid_transfer s : pm_valid c s = transfer c s.
Proof.
  unfold pm_valid, transfer, k_offered, k_accepts, is1. destruct (c_ready c); [reflexivity|]. rewrite andb_true_r. reflexivity.
Qed.

(** the bytes of the last word *)
Lemma last_length e o b e' n : pm_last c e o = Ok (b, e') ->
  n = (if use_empty c then match bval (k_empty o) with Some z => Z.to_nat (z * Z.of_nat (c_dbs c)) | None => 0 end else 0) ->
  length b = nbytes (length (k_data o) - n).
Proof.
  unfold pm_last, rbind. intros H En.
  assert (G : forall v e0, (match create_binary (BStr v) (length v) (c_high c) with
     | Ok vec => if negb (resolvable vec) then match e0 with None => Err EUnboundLocal | Some _ => Err EAvalonProtocol end
                 else if length vec =? 1 then Err EAttribute
                 else match convert_binary_to_bytes vec (c_high c) with Ok b0 => Ok (b0, e0) | Err x => Err x end
     | Err x => Err x end) = Ok (b, e') -> length b = nbytes (length v)).
  { intros v e0. rewrite create_str. destruct (negb (resolvable v)); [destruct e0; discriminate|].
    destruct (length v =? 1); [discriminate|]. destruct (convert_binary_to_bytes v (c_high c)) eqn:E; [|discriminate].
    intro X. injection X as <- _. exact (convert_length _ _ _ E). }
  destruct (use_empty c).
  - destruct (bval (k_empty o)) as [z|]; [|discriminate]. destruct (Z.eqb_spec z 0).
    + subst z. cbn in En. subst n. rewrite Nat.sub_0_r. exact (G _ _ H).
    + rewrite (G _ _ H), En. destruct (c_high c).
      * unfold drop_right. rewrite firstn_length. f_equal. lia.
      * rewrite skipn_length. reflexivity.
  - cbn in H. subst n. rewrite Nat.sub_0_r. exact (G _ _ H).
Qed.

Definition no_reset (s : psample) : Prop := s_rstn s = None /\ s_rst s = None.

Lemma step_idle m s rep m' : no_reset s -> transfer c s = false -> pm_step c m s = Ok (rep, m') -> rep = None /\ m_pkt m' = m_pkt m.
Proof.
  intros (R1 & R2) T. unfold pm_step, in_reset, rbind. rewrite R1, R2, valid_transfer, T.
  destruct (m_in m).
  - destruct (negb (c_timeout c =? 0)%Z && (c_timeout c <=? m_cnt m + 1)%Z); [discriminate|]. intro H. injection H as <- <-. auto.
  - intro H. injection H as <- <-. auto.
Qed.

Lemma step_word m s rep m' : no_reset s -> transfer c s = true -> pm_step c m s = Ok (rep, m') ->
  if is_eop (s_bus s)
  then exists r, rep = Some r /\ length (report_bytes r) = length (m_pkt m) + nbytes (length (k_data (s_bus s)) -
         (if use_empty c then match bval (k_empty (s_bus s)) with Some z => Z.to_nat (z * Z.of_nat (c_dbs c)) | None => 0 end else 0))
  else rep = None /\ length (m_pkt m') = length (m_pkt m) + nbytes (length (k_data (s_bus s))).
Proof.
  intros (R1 & R2) T. unfold pm_step, in_reset. cbn [rbind]. rewrite R1, R2. cbn [rbind]. rewrite valid_transfer, T.
  change (is1 (k_eop (s_bus s))) with (is_eop (s_bus s)).
  assert (P : forall pi, (if is1 (k_sop (s_bus s)) then match m_pkt m with [] => Ok ([], true) | _ => Err EAvalonProtocol end
      else Ok (m_pkt m, m_in m)) = Ok pi -> fst pi = m_pkt m).
  { intros pi. destruct (is1 (k_sop (s_bus s))); [destruct (m_pkt m); [|discriminate]|]; intro H; injection H as <-; reflexivity. }
  match type of P with forall pi, ?x = _ -> _ => destruct x as [[pkt inp]|e]; [|discriminate] end.
  specialize (P _ eq_refl). cbn [fst] in P. subst pkt. cbn [rbind]. destruct (negb inp); [discriminate|].
  destruct (is_eop (s_bus s)) eqn:Ee; cbn [negb].
  - destruct (pm_last c (m_empty m) (s_bus s)) as [[b e]|x] eqn:L; [|discriminate]. cbn [rbind].
    destruct (pm_channel c (m_ch m) (s_bus s)) as [ch|x]; [|discriminate]. cbn [rbind]. intro H. injection H as <- _.
    eexists. split; [reflexivity|]. pose proof (last_length _ _ _ _ _ L eq_refl) as E. rewrite <- E, <- app_length. destruct (c_report c); reflexivity.
  - destruct (convert_binary_to_bytes (k_data (s_bus s)) (c_high c)) as [b|x] eqn:L; [|discriminate]. cbn [rbind].
    destruct (pm_channel c (m_ch m) (s_bus s)) as [ch|x]; [|discriminate]. cbn [rbind]. intro H. injection H as <- <-.
    split; [reflexivity|]. cbn [m_pkt]. rewrite app_length, (convert_length _ _ _ L). reflexivity.
Qed.

Lemma seen_cons s l : no_reset s -> seen c (s :: l) = (if transfer c s then [s_bus s] else []) ++ seen c l.
Proof. intros (R1 & R2). unfold seen. cbn [filter]. unfold running_cycle at 1. rewrite R1, R2. cbn [andb]. destruct (transfer c s); reflexivity. Qed.

Lemma run_quiet : forall l m, Forall no_reset l -> seen c l = [] -> fst (pm_run c m l) = [].
Proof.
  induction l as [|s l IH]; intros m F H; [reflexivity|]. apply Forall_cons_iff in F. destruct F as [Fs F].
  rewrite (seen_cons s l Fs) in H. destruct (transfer c s) eqn:T; [discriminate|]. cbn [app] in H. cbn [pm_run].
  destruct (pm_step c m s) as [[rep m']|e] eqn:E; [|reflexivity]. destruct (step_idle _ _ _ _ Fs T E) as [-> _].
  specialize (IH m' F H). destruct (pm_run c m' l). exact IH.
Qed.

(** one packet of [front] words and the last one: what is reported has this length *)
Lemma run_length W n : forall l front lw post m, Forall no_reset l -> front ++ [lw] = seen c l ++ post ->
  Forall (fun w => is_eop w = false /\ length (k_data w) = W) front -> is_eop lw = true -> length (k_data lw) = W ->
  n = (if use_empty c then match bval (k_empty lw) with Some z => Z.to_nat (z * Z.of_nat (c_dbs c)) | None => 0 end else 0) ->
  Forall (fun r => length (report_bytes r) = length (m_pkt m) + nbytes W * length front + nbytes (W - n)) (fst (pm_run c m l)).
Proof.
  induction l as [|s l IH]; intros front lw post m F H Ff El Wl En; [constructor|].
  apply Forall_cons_iff in F. destruct F as [Fs F]. rewrite (seen_cons s l Fs) in H. cbn [pm_run].
  destruct (pm_step c m s) as [[rep m']|e] eqn:E; [|constructor].
  destruct (transfer c s) eqn:T.
  - pose proof (step_word _ _ _ _ Fs T E) as G. cbn [app] in H. destruct front as [|w front].
    + cbn [app] in H. injection H as -> H. symmetry in H. apply app_eq_nil in H. destruct H as [H _]. rewrite El in G.
      destruct G as (r & -> & G). pose proof (run_quiet l m' F H) as Q. destruct (pm_run c m' l) as [reps f]. cbn [fst] in *. subst reps.
      constructor; [|constructor]. cbn [length]. rewrite Nat.mul_0_r, Nat.add_0_r, En, <- Wl. exact G.
    + cbn [app] in H. injection H as -> H. apply Forall_cons_iff in Ff. destruct Ff as [(Ew & Ww) Ff]. rewrite Ew in G. destruct G as (-> & G).
      specialize (IH front lw post m' F H Ff El Wl En). destruct (pm_run c m' l) as [reps f]. cbn [fst] in *.
      eapply Forall_impl; [|exact IH]. intros r Hr. cbn beta in Hr. rewrite Hr, G, Ww. cbn [length]. lia.
  - cbn [app] in H. destruct (step_idle _ _ _ _ Fs T E) as (-> & P).
    specialize (IH front lw post m' F H Ff El Wl En). destruct (pm_run c m' l) as [reps f]. cbn [fst] in *. rewrite P in IH. exact IH.
Qed.
End Mon.

Lemma chunk_length high pad b k : length b = k -> length (padded high pad (word_bits high b)) = 8 * k + pad.
Proof.
  intro H. unfold padded, word_bits. destruct high; rewrite app_length, repeat_length.
  - fold (bytes_bits b). rewrite bytes_bits_length. lia.
  - fold (bytes_bits (rev b)). rewrite bytes_bits_length, rev_length. lia.
Qed.

Lemma nbytes_whole n : nbytes (8 * n) = n.
Proof. unfold nbytes. replace (8 * n + 7) with (7 + n * 8) by lia. rewrite Nat.div_add by lia. reflexivity. Qed.
Lemma nbytes_le a b : a <= b -> nbytes a <= nbytes b.
Proof. intro H. unfold nbytes. apply Nat.div_le_mono; lia. Qed.
Lemma nbytes_more a n : 8 * n < a -> n < nbytes a.
Proof.
  intro H. unfold nbytes. apply Nat.lt_le_trans with (Nat.div (8 * n + 1 + 7) 8).
  - replace (8 * n + 1 + 7) with (S n * 8) by lia. rewrite Nat.div_mul by lia. lia.
  - apply Nat.div_le_mono; lia.
Qed.

(** the length of a packet of [pkt] bytes as it arrives *)
Lemma sent_length c k pkt sync ch s p o fuel l : word_bus c k -> channel_ok c ch -> pkt <> [] -> length l + length pkt < fuel -> p <> PReadOnly ->
  let n := Nat.div (length pkt + k - 1) k in
  let e := k * n - length pkt in
  let '(r, w) := pk_send c fuel pkt sync ch (World s p o [] l) in
  Forall (fun r => length (report_bytes r) =
     nbytes (c_width c) * (n - 1) + nbytes (c_width c - (if use_empty c then e * c_dbs c else 0)))
    (fst (pm_run c pm_init (sampled (trace w)))).
Proof.
  intros BB CH N Hf Hp n e. pose proof (wb_pos _ _ BB) as K. pose proof (wb_width _ _ BB) as WW.
  destruct (pk_packet c k pkt sync ch s p o fuel l BB CH N Hf Hp) as (ws & [F1 F2 F3 F4 F5] & _ & H).
  destruct (pk_send c fuel pkt sync ch (World s p o [] l)) as [r w]. destruct H as (_ & _ & H).
  assert (exists post, ws = transfers k_offered (k_accepts (c_ready c)) (trace w) ++ post) as (post & Ep).
  { destruct r; try contradiction.
    - destruct H as (-> & _). exists []. rewrite app_nil_r. reflexivity.
    - destruct H as (_ & j & ->). exists (skipn j ws). symmetry. apply firstn_skipn. }
  rewrite <- seen_sampled in Ep.
  assert (Np : 0 < length pkt) by (destruct pkt; [contradiction|cbn; lia]).
  assert (Hn : 0 < n) by (apply Nat.div_str_pos; lia).
  assert (exists front lw, ws = front ++ [lw]) as (front & lw & Ew).
  { destruct (@exists_last _ ws) as (front & lw & E); [intro Z; rewrite Z in F1; cbn in F1; unfold n in Hn; lia|]. eauto. }
  assert (Lf : length front = n - 1) by (rewrite Ew, app_length in F1; cbn [length] in F1; unfold n; lia).
  assert (Eo : Forall (fun w => is_eop w = false) front /\ is_eop lw = true).
  { rewrite Ew, map_app, app_length in F3. cbn [length map] in F3. rewrite Nat.add_sub in F3. apply app_inj_tail in F3. destruct F3 as [A B]. split.
    - apply Forall_forall. intros x Hx. apply (in_map k_eop) in Hx. rewrite A in Hx. apply repeat_spec in Hx. unfold is_eop. rewrite Hx. reflexivity.
    - unfold is_eop. rewrite B. reflexivity. }
  assert (Dl : Forall (fun w => length (k_data w) = c_width c) ws).
  { destruct F5 as (chunks & C1 & _ & C3). apply Forall_forall. intros x Hx. apply (in_map k_data) in Hx. rewrite C3 in Hx.
    apply in_map_iff in Hx. destruct Hx as (b & Eb & Hb). rewrite Forall_forall in C1. rewrite <- Eb, (chunk_length _ _ _ k (C1 b Hb)). lia. }
  rewrite Ew in Dl. apply Forall_app in Dl. destruct Dl as [D1 D2]. apply Forall_cons_iff in D2. destruct D2 as [D2 _].
  assert (Sz : (if use_empty c then e * c_dbs c else 0) =
     (if use_empty c then match bval (k_empty lw) with Some z => Z.to_nat (z * Z.of_nat (c_dbs c)) | None => 0 end else 0)).
  { destruct (use_empty c) eqn:U; [|reflexivity]. destruct (F4 eq_refl) as (bf & lw' & E' & V). rewrite Ew in E'. apply app_inj_tail in E'.
    destruct E' as [_ <-]. rewrite V, F1. fold n. unfold e.
    assert (length pkt <= k * n).
    { unfold n. pose proof (Nat.div_mod (length pkt + k - 1) k ltac:(lia)). pose proof (Nat.mod_upper_bound (length pkt + k - 1) k ltac:(lia)). lia. }
    nia. }
  assert (Nr : Forall no_reset (sampled (trace w))).
  { unfold sampled. apply Forall_map, Forall_forall. intros [i o'] _. split; reflexivity. }
  pose proof (run_length c (c_width c) (if use_empty c then e * c_dbs c else 0) (sampled (trace w)) front lw post pm_init Nr) as G.
  rewrite <- Lf. change (length (m_pkt pm_init)) with 0 in G. cbn [Nat.add] in G. apply G; try assumption.
  - rewrite <- Ep. symmetry. exact Ew.
  - apply Forall_forall. intros x Hx. destruct Eo as [Eo _]. rewrite Forall_forall in Eo, D1. split; [apply Eo, Hx|apply D1, Hx].
  - apply Eo.
Qed.

(** never as sent *)
Lemma never_as_sent c k pkt sync ch s p o fuel l : word_bus c k -> channel_ok c ch -> pkt <> [] -> length l + length pkt < fuel -> p <> PReadOnly ->
  (c_width c = 8 * k /\ Nat.modulo (length pkt) k <> 0 /\ (c_dbs c < 8 \/ 16 <= c_dbs c)) \/ (c_width c <> 8 * k /\ c_dbs c <= 8) ->
  let '(r, w) := pk_send c fuel pkt sync ch (World s p o [] l) in
  Forall (fun r => report_bytes r <> pkt) (fst (pm_run c pm_init (sampled (trace w)))).
Proof.
  intros BB CH N Hf Hp Hc. pose proof (wb_pos _ _ BB) as K. pose proof (wb_width _ _ BB) as WW.
  pose proof (sent_length c k pkt sync ch s p o fuel l BB CH N Hf Hp) as H. cbn zeta in H.
  destruct (pk_send c fuel pkt sync ch (World s p o [] l)) as [r w]. eapply Forall_impl; [|exact H].
  intros x Hx E. cbn beta in Hx. rewrite E in Hx. clear H E.
  assert (Np : 0 < length pkt) by (destruct pkt; [contradiction|cbn; lia]).
  set (n := Nat.div (length pkt + k - 1) k) in *. set (e := k * n - length pkt) in *.
  assert (Hn : length pkt <= k * n /\ k * n < length pkt + k /\ 0 < n).
  { unfold n. pose proof (Nat.div_mod (length pkt + k - 1) k ltac:(lia)). pose proof (Nat.mod_upper_bound (length pkt + k - 1) k ltac:(lia)).
    split; [lia|]. split; [lia|]. apply Nat.div_str_pos. lia. }
  destruct Hn as (N1 & N2 & N3).
  assert (Ex : length pkt = k * (n - 1) + (k - e) /\ 0 < k - e /\ e < k).
  { unfold e. assert (k * n = k * (n - 1) + k) by (destruct n; [lia|]; cbn [Nat.sub]; rewrite Nat.sub_0_r; lia). lia. }
  destruct Ex as (Ex & E1 & E2).
  destruct Hc as [(W8 & Hm & Hd)|(W8 & Hd)].
  - assert (E0 : 0 < e).
    { destruct e as [|e'] eqn:Ee; [|lia]. exfalso. apply Hm. replace (length pkt) with (n * k) by lia. apply Nat.mod_mul. lia. }
    rewrite W8, nbytes_whole in Hx.
    assert (nbytes (8 * k - (if use_empty c then e * c_dbs c else 0)) <> k - e).
    { destruct (use_empty c).
      - destruct Hd as [Hd|Hd].
        + assert (8 * (k - e) < 8 * k - e * c_dbs c) by nia. pose proof (nbytes_more _ _ H). lia.
        + assert (8 * k - e * c_dbs c <= 8 * (k - e - e)) by nia. pose proof (nbytes_le _ _ H) as G. rewrite nbytes_whole in G. lia.
      - rewrite Nat.sub_0_r, nbytes_whole. lia. }
    lia.
  - assert (U : use_empty c = true) by (unfold use_empty; apply Nat.ltb_lt; lia). rewrite U in Hx.
    pose proof (nbytes_more (c_width c) k ltac:(lia)) as G1.
    pose proof (nbytes_more (c_width c - e * c_dbs c) (k - e) ltac:(nia)) as G2.
    assert (k * (n - 1) <= nbytes (c_width c) * (n - 1)) by (apply Nat.mul_le_mono_r; lia). lia.
Qed.
