(** AxLegProof.v -- the bursts AXI4Master puts on the bus. *)
From Verif Require Import Base Async HandshakeSpec AxiModel AxiSpec AxiDataProof AxiTopProof AxcModel AxcSpec AxcWriteProof AxcReadProof AxfSpec AxfProof AxLegSpec.
Local Open Scope Z_scope.

(** ** pages *)
Lemma same_block t a x : 0 < t -> (t | 4096) -> a / t = x / t -> same_page a x.
Proof.
  intros Ht [k Hk] E. unfold same_page. rewrite Hk, (Z.mul_comm k t).
  assert (0 < k) by nia. rewrite <- !Z.div_div by lia. rewrite E. reflexivity.
Qed.
Lemma block_range t a x : 0 < t -> a / t * t <= x < a / t * t + t -> x / t = a / t.
Proof. intros Ht H. symmetry. apply Z.div_unique with (r := x - a / t * t); lia. Qed.
Lemma pow_divides p k n : p = 2 ^ k -> 0 <= k <= n -> (p | 2 ^ n).
Proof. intros -> H. exists (2 ^ (n - k)). rewrite <- Z.pow_add_r by lia. f_equal. lia. Qed.
Lemma pow_small p bus : power_of_two p -> power_of_two bus -> p <= bus -> bus <= 128 -> exists k, 0 <= k <= 7 /\ p = 2 ^ k.
Proof.
  intros (k & Hk & ->) _ H H'. exists k. split; [|reflexivity]. split; [exact Hk|].
  destruct (Z_le_gt_dec k 7); [assumption|]. assert (2 ^ 8 <= 2 ^ k) by (apply Z.pow_le_mono_r; lia). change (2 ^ 8) with 256 in *. lia.
Qed.
Lemma aligned_block a s : 0 < s -> aligned a s / s = a / s.
Proof. intro H. unfold aligned. rewrite Z.div_mul by lia. reflexivity. Qed.
Lemma aligned_le a s : 0 < s -> aligned a s <= a < aligned a s + s.
Proof. intro H. unfold aligned. pose proof (Z.div_mod a s ltac:(lia)). pose proof (Z.mod_pos_bound a s H). lia. Qed.
Lemma aligned_mul k s : 0 < s -> aligned (k * s) s = k * s.
Proof. intro H. unfold aligned. rewrite Z.div_mul by lia. reflexivity. Qed.

Lemma range_mul s n B A x : 0 < s -> B <= A < B + n -> A * s <= x < A * s + s -> B * s <= x < B * s + s * n.
Proof. intros Hs H Hx. nia. Qed.

Lemma paged bus a n size b : power_of_two bus -> bus <= 128 -> legal_access bus a n size b ->
  paged_ok (Request a n (size_or bus size) b).
Proof.
  intros Pb Lb [Hs [Hl Hp]]. set (s := size_or bus size) in *.
  assert (Ls : legal_size bus s).
  { subst s. destruct size as [z|]; cbn [size_or]; [apply Hs; reflexivity|]. split; [exact Pb|lia]. }
  destruct Ls as [Ps Ls]. destruct (pow_small s bus Ps Pb Ls Lb) as (k & Hk & Es).
  assert (Hs0 : 0 < s) by (rewrite Es; apply Z.pow_pos_nonneg; lia).
  intros i x Hi b0 Hx. subst b0. cbn [q_beats q_burst q_size q_address] in *.
  assert (F0 : a <= x < aligned a s + s -> same_page a x).
  { intro H. apply (same_block s); [exact Hs0|apply (pow_divides s k 12); [exact Es|lia]|]. symmetry. apply block_range; [exact Hs0|].
    pose proof (aligned_le a s Hs0). unfold aligned in *. lia. }
  destruct b; cbn [beat_address] in Hx.
  - exact (F0 Hx).
  - destruct (Z.eqb_spec i 0) as [->|Ni]; [exact (F0 Hx)|]. apply (Hp eq_refl). unfold incr_bytes.
    replace (aligned a s + i * s) with ((a / s + i) * s) in Hx by (unfold aligned; ring). rewrite aligned_mul in Hx by exact Hs0.
    pose proof (aligned_le a s Hs0). unfold aligned in *. nia.
  - destruct (Z.eqb_spec i 0) as [->|Ni]; [exact (F0 Hx)|].
    assert (Hn : exists j, 0 <= j <= 4 /\ n = 2 ^ j).
    { cbn [legal_length] in Hl. cbn [In] in Hl. destruct Hl as [<-|[<-|[<-|[<-|[<-|[]]]]]];
        [exists 0|exists 1|exists 2|exists 3|exists 4]; (split; [lia|reflexivity]). }
    destruct Hn as (j & Hj & En). set (t := s * n) in *.
    assert (Et : t = 2 ^ (k + j)) by (unfold t; rewrite Es, En, Z.pow_add_r by lia; reflexivity).
    assert (Ht : 0 < t) by (rewrite Et; apply Z.pow_pos_nonneg; lia).
    apply (same_block t); [exact Ht|apply (pow_divides t (k + j) 12); [exact Et|lia]|]. symmetry. apply block_range; [exact Ht|].
    assert (Eq : a / t * t = a / t * n * s) by (unfold t; ring).
    assert (Ha : a / t * n <= a / s < a / t * n + n).
    { unfold t. rewrite <- Z.div_div by lia. pose proof (Z.div_mod (a / s) n ltac:(lia)). pose proof (Z.mod_pos_bound (a / s) n ltac:(lia)). lia. }
    replace (aligned a s + i * s) with ((a / s + i) * s) in Hx by (unfold aligned; ring).
    destruct (Z.ltb_spec ((a / s + i) * s) (a / t * t + t)) as [H|H].
    + rewrite aligned_mul in Hx by exact Hs0. rewrite Eq in H |- *.
      replace t with (s * n) at 2 by reflexivity. assert (H' : (a / s + i) * s < (a / t * n + n) * s) by (rewrite (Z.mul_add_distr_r (a / t * n)), (Z.mul_comm n s); exact H).
      apply Z.mul_lt_mono_pos_r in H'; [|exact Hs0].
      apply (range_mul s n (a / t * n) (a / s + i) x); lia.
    + replace ((a / s + i) * s - t) with ((a / s + i - n) * s) in Hx by (unfold t; ring). rewrite aligned_mul in Hx by exact Hs0. rewrite Eq in H |- *.
      replace t with (s * n) at 2 by reflexivity. assert (H' : (a / t * n + n) * s <= (a / s + i) * s) by (rewrite (Z.mul_add_distr_r (a / t * n)), (Z.mul_comm n s); exact H).
      apply Z.mul_le_mono_pos_r in H'; [|exact Hs0].
      apply (range_mul s n (a / t * n) (a / s + i - n) x); lia.
Qed.

(** what the checks let through *)
Definition passed (bus : Z) (q : request) : Prop :=
  sized_ok bus q /\ paged_ok q /\
  (q_burst q <> WRAP -> allowed bus q) /\
  (q_burst q = WRAP -> In (q_beats q) [1; 2; 4; 8; 16] /\ (allowed bus q <-> q_beats q <> 1 /\ (q_size q | q_address q))).
Lemma checks bus a n size b : power_of_two bus -> bus <= 128 -> legal_access bus a n size b ->
  passed bus (Request a n (size_or bus size) b).
Proof.
  intros Pb Lb H. pose proof (paged bus a n size b Pb Lb H) as P. destruct H as [Hs [Hl Hp]].
  assert (Ls : legal_size bus (size_or bus size)).
  { destruct size as [z|]; cbn [size_or]; [apply Hs; reflexivity|]. split; [exact Pb|lia]. }
  split; [exact Ls|]. split; [exact P|]. unfold allowed, counted_ok, sized_ok. cbn [q_burst q_beats q_size q_address]. split.
  - intro Nb. split; [exact Ls|]. split; [|exact P]. destruct b; [exact Hl|exact Hl|congruence].
  - intros ->. split; [exact Hl|]. split.
    + intros (_ & (H & D) & _). split; [|exact D]. cbn in H. lia.
    + intros [N D]. split; [exact Ls|]. split; [|exact P]. split; [|exact D]. cbn in Hl |- *. destruct Hl as [E|Hl]; [congruence|exact Hl].
Qed.

(** ** the channels *)
Local Close Scope Z_scope.
Local Open Scope list_scope.
Definition ok_check {A} (check : A -> res Z) (x : nat * A) : bool := match check (snd x) with Ok _ => true | Err _ => false end.
Lemma admitted_filter {A} (check : A -> res Z) calls : admitted check calls = admitted check (filter (ok_check check) calls).
Proof.
  unfold admitted. induction calls as [|x r IH]; [reflexivity|]. cbn [flat_map filter]. unfold ok_check at 1.
  destruct (check (snd x)) eqn:E; cbn [flat_map]; [rewrite E, IH; reflexivity|exact IH].
Qed.
Lemma legal_ok bus a n size b : power_of_two bus -> (bus <= 128)%Z ->
  match check_params bus a n size b with Ok _ => true | Err _ => false end = true -> legal_access bus a n size b.
Proof.
  intros Pb L H. destruct (check_params bus a n size b) eqn:E; [|discriminate]. clear H. unfold check_params in E.
  destruct (match size with Some s => rbind (check_size s bus) (fun _ => Ok s) | None => Ok bus end) as [s|] eqn:E0; [|discriminate]. cbn [rbind] in E.
  assert (S : s = size_or bus size /\ (forall s', size = Some s' -> legal_size bus s')).
  { destruct size as [s'|]; [|inversion E0; split; [reflexivity|discriminate]].
    destruct (check_size s' bus) as [[]|] eqn:E1; [|discriminate]. inversion E0; subst. split; [reflexivity|]. intros s' H; inversion H; subst. apply check_size_spec, E1. }
  destruct S as [-> S]. destruct (check_length n b) as [[]|] eqn:E1; [|discriminate]. cbn [rbind] in E. apply check_length_spec in E1.
  assert (P : power_of_two (size_or bus size) /\ (size_or bus size <= bus)%Z).
  { destruct size as [s|]; [apply (S s eq_refl)|split; [exact Pb|cbn; lia]]. }
  destruct P as [P Ls].
  assert (D : (size_or bus size | 4096)%Z).
  { apply pow2_divide; [exact P|exists 12%Z; split; [lia|reflexivity]|lia]. }
  destruct (check_4kB_spec a b (size_or bus size) n (legal_length_pos _ _ E1) (pow2_pos' _ P) D) as [Q1 _].
  destruct (check_4kB a b (size_or bus size) n) as [[]|] eqn:E2; [|discriminate].
  split; [exact S|]. split; [exact E1|]. apply Q1. reflexivity.
Qed.

(** the address channel does not use data_latency *)
Definition prompt (a : waccess) : waccess :=
  WAccess (wa_address a) (wa_value a) (wa_size a) (wa_burst a) (wa_be a) (wa_alat a) 0 (wa_sync a).
Definition kept_writes (c : axi_cfg) (calls : list (nat * waccess)) : list (nat * waccess) :=
  map (fun x => (fst x, prompt (snd x))) (filter (ok_check (write_check c)) calls).
Lemma kept_aw c fuel calls p oa ow l :
  ws_aw (concurrent_writes c fuel calls p oa ow l) = ws_aw (concurrent_writes c fuel (kept_writes c calls) p oa ow l).
Proof.
  unfold concurrent_writes, kept_writes. rewrite admitted_filter. set (ks := filter (ok_check (write_check c)) calls).
  assert (E : admitted (write_check c) (map (fun x => (fst x, prompt (snd x))) ks)
              = map (fun x => (fst x, (fun y => (prompt (fst y), snd y)) (snd x))) (admitted (write_check c) ks)).
  { unfold admitted. induction ks as [|x r IH]; [reflexivity|]. cbn [map flat_map fst snd]. rewrite IH.
    change (write_check c (prompt (snd x))) with (write_check c (snd x)). destruct (write_check c (snd x)); reflexivity. }
  rewrite E.
  destruct (serve_ext (aw_job c fuel) (aw_job c fuel) (fun y => (prompt (fst y), snd y)) (fun '(a, s) => eq_refl) (admitted (write_check c) ks) (World tt p oa [] l)) as [X _].
  destruct (serve (aw_job c fuel) (admitted (write_check c) ks) (World tt p oa [] l)) as [ra va].
  destruct (serve (aw_job c fuel) (map _ (admitted (write_check c) ks)) (World tt p oa [] l)) as [ra' va']. cbn [snd] in X. subst va'.
  do 2 (destruct (serve (w_job c fuel) _ _)). do 2 (destruct (serve (fun _ : nat => write_response fuel) _ _)). reflexivity.
Qed.
Lemma firstn_in {A} (l : list A) k x : In x (firstn k l) -> In x l.
Proof. revert k. induction l as [|y l IH]; intros [|k] H; cbn in *; try contradiction. destruct H as [H|H]; [left; exact H|right; exact (IH k H)]. Qed.

Lemma writes_thm c fuel calls p oa ow l : axi_bus c ->
  Forall (fun x => (0 <= wa_address (snd x))%Z /\ on_bus c (Z.of_nat (length (wa_value (snd x)))) (wa_burst (snd x)) (wa_size (snd x))) calls ->
  p <> PReadOnly -> aw_offered oa = false -> w_offered ow = false -> length l < fuel ->
  forall o, In o (transfers aw_offered aw_accepts (ws_aw (concurrent_writes c fuel calls p oa ow l))) -> passed (x_bytes c) (decode c o).
Proof.
  intros Hb F Hp O1 O2 Hl o Ho. rewrite kept_aw in Ho.
  assert (F' : Forall (fun x => write_call_any c (snd x)) (kept_writes c calls)).
  { unfold kept_writes. apply Forall_map. rewrite Forall_forall in F |- *. intros x Hx. apply filter_In in Hx. destruct Hx as [Hx Ok].
    destruct (F x Hx) as [F1 F2]. cbn [snd prompt wa_address wa_value wa_size wa_burst wa_dlat]. unfold write_call_any. cbn [prompt wa_address wa_value wa_size wa_burst wa_dlat].
    destruct Hb as (P & L & _). split; [apply legal_ok; [exact P|exact L|exact Ok]|]. split; [exact F1|]. split; [left; reflexivity|exact F2]. }
  destruct (writes_any c fuel (kept_writes c calls) p oa ow l Hb F' Hp O1 O2 Hl) as (_ & _ & _ & _ & (k & E) & _).
  apply (in_map (decode c)) in Ho. rewrite E in Ho. apply firstn_in in Ho. apply in_map_iff in Ho. destruct Ho as (a & <- & Ha).
  apply filter_In in Ha. destruct Ha as [Ha _]. apply in_map_iff in Ha. destruct Ha as (x & <- & Hx). rewrite Forall_forall in F'.
  destruct (F' x Hx) as [Lg _]. destruct Hb as (P & L & _). exact (checks _ _ _ _ _ P L Lg).
Qed.
Lemma kept_reads c fuel calls p o l :
  concurrent_reads c fuel calls p o l = concurrent_reads c fuel (filter (ok_check (read_check c)) calls) p o l.
Proof. unfold concurrent_reads. rewrite admitted_filter. reflexivity. Qed.
Lemma later_snd {A} (x y : list (nat * A)) : later x y -> map snd x = map snd y.
Proof. induction 1 as [|? ? ? ? [H _] _ IH]; [reflexivity|]. cbn. rewrite H, IH. reflexivity. Qed.
Lemma reads_thm c fuel calls p o l : axi_bus c ->
  Forall (fun x => (0 <= ra_address (snd x))%Z /\ on_bus c (ra_length (snd x)) (ra_burst (snd x)) (ra_size (snd x))) calls ->
  p <> PReadOnly -> aw_offered o = false -> length l < fuel ->
  forall q, In q (transfers aw_offered ar_accepts (rs_ar (concurrent_reads c fuel calls p o l))) -> passed (x_bytes c) (decode c q).
Proof.
  intros Hb F Hp O1 Hl q Hq. rewrite kept_reads in Hq. set (ks := filter (ok_check (read_check c)) calls) in *.
  assert (F' : Forall (fun x => read_call_any c (snd x)) ks).
  { subst ks. rewrite Forall_forall in F |- *. intros x Hx. apply filter_In in Hx. destruct Hx as [Hx Ok]. destruct (F x Hx) as [F1 F2].
    destruct Hb as (P & L & _). split; [apply legal_ok; [exact P|exact L|exact Ok]|]. split; assumption. }
  destruct (reads_good c fuel ks p o l Hb F' Hp O1 Hl) as (calls' & La & Ok & E). rewrite E in Hq.
  destruct (reads_channel c fuel calls' p o l Ok) as (_ & _ & (k & Ek) & _).
  apply (in_map (decode c)) in Hq. rewrite Ek in Hq. apply firstn_in in Hq. apply in_map_iff in Hq. destruct Hq as (a & <- & Ha).
  rewrite <- (later_snd _ _ La) in Ha. apply in_map_iff in Ha. destruct Ha as (x & <- & Hx). apply filter_In in Hx. destruct Hx as [Hx _].
  rewrite Forall_forall in F'. destruct (F' x Hx) as [Lg _]. destruct Hb as (P & L & _). exact (checks _ _ _ _ _ P L Lg).
Qed.
