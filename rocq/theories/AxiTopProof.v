(** AxiTopProof.v -- AXI accesses as a conforming slave sees them. *)
From Verif Require Import Base Async BitsLemmas CompatModel PktModel HandshakeSpec Handshake AxiModel AxiSpec AxiDataProof AxiReadProof AxiChanProof AxiRunProof.
Local Open Scope list_scope.

Lemma value_zbits n z : fits_bits n z -> value (zbits n z) = z.
Proof. intros H. unfold value. rewrite bval_zbits. apply Z.mod_small. exact H. Qed.
Lemma pow2_log2 s : power_of_two s -> (2 ^ Z.log2 s)%Z = s.
Proof. intros (k & Hk & ->). rewrite Z.log2_pow2 by exact Hk. reflexivity. Qed.

Section Top.
Context (c : axi_cfg).

Lemma decode_request o address n b size : fits_bits (x_awidth c) address -> (1 <= n <= 256)%Z -> power_of_two size -> (size <= 128)%Z ->
  (x_full c = true \/ (n = 1%Z /\ b = INCR /\ size = x_bytes c)) ->
  decode c (ax_request c o address n b size) = Request address n size b.
Proof.
  intros Ha Hn Ps Ls H. unfold decode, ax_request. cbn [x_addr x_len x_size x_burst]. rewrite (value_zbits _ _ Ha).
  destruct (x_full c).
  - rewrite (value_zbits 8 (n - 1)) by (unfold fits_bits; change (2 ^ Z.of_nat 8)%Z with 256%Z; lia).
    rewrite (value_zbits 3 (Z.log2 size)).
    2: { unfold fits_bits. change (2 ^ Z.of_nat 3)%Z with 8%Z. split; [apply Z.log2_nonneg|]. pose proof (Z.log2_le_mono _ _ Ls) as L. change (Z.log2 128) with 7%Z in L. lia. }
    rewrite (pow2_log2 _ Ps). replace (n - 1 + 1)%Z with n by lia. destruct b; reflexivity.
  - destruct H as [H|(-> & -> & ->)]; [discriminate|reflexivity].
Qed.

Lemma beats_of_words o beats : Forall (beat_fits c) beats -> map beat_of (w_words c o beats) = beats.
Proof.
  induction 1 as [|[w s] r [H1 H2] _ IH]; [reflexivity|]. cbn [w_words map]. rewrite IH. f_equal.
  unfold beat_of. cbn [x_wdata x_wstrb fst snd] in *. rewrite !value_zbits by assumption. reflexivity.
Qed.

Lemma words_length o beats : length (w_words c o beats) = length beats.
Proof. induction beats as [|b r IH]; [reflexivity|]. cbn [w_words length]. rewrite IH. reflexivity. Qed.

(** the beats of a legal write and what they store *)
Lemma beats_meaning a n size b data be : axi_bus c -> legal_access (x_bytes c) a n size b -> n = Z.of_nat (length data) -> be <> [] ->
  (b = WRAP -> wrap_smooth (x_bytes c) a (size_or (x_bytes c) size) n) ->
  exists beats, write_beats (x_bytes c) a b (size_or (x_bytes c) size) data be = Ok beats /\ length beats = length data /\ Forall (beat_fits c) beats /\
   (forall i w s k, nth_error beats i = Some (w, s) -> (0 <= k)%Z -> Z.testbit s k = true ->
      lanes (x_bytes c) (size_or (x_bytes c) size) (beat_address b (size_or (x_bytes c) size) n a (Z.of_nat i)) k) /\
   forall m x, store_burst (x_bytes c) b (size_or (x_bytes c) size) n a m 0 beats x = written b a (size_or (x_bytes c) size) data be m x.
Proof.
  intros Hb Hl -> Nb Hw. destruct (beats_exist c a _ size b data be Hb Hl eq_refl Nb) as (beats0 & E0 & L0' & F0).
  destruct (legal_facts c _ _ _ _ Hb Hl) as (_ & Ps & _ & Hn & q & Hq & Eq). set (s := size_or (x_bytes c) size) in *. pose proof (pow2_pos' _ Ps) as Hs.
  exists beats0. split; [exact E0|]. split; [exact L0'|]. split; [exact F0|].
  destruct b.
  - destruct (fixed_thm _ s q a Hs Hq Eq data be Nb) as (beats & E & L & H & M). rewrite E0 in E. injection E as <-. split; [|exact M].
    intros i w st k Hi. exact (proj2 (proj2 (H i w st Hi)) k).
  - destruct (incr_thm _ s q a Hs Hq Eq data be Nb) as (beats & E & L & H & M). rewrite E0 in E. injection E as <-. split; [|exact M].
    intros i w st k Hi. exact (proj2 (proj2 (H i w st Hi)) k).
  - destruct (Hw eq_refl) as [Hal Hsm].
    destruct (wrap_thm _ s q a Hs Hq Eq data be Nb ltac:(destruct data; [cbn [length] in Hn; lia|discriminate]) Hal Hsm) as (beats & E & L & H & M).
    rewrite E0 in E. injection E as <-. split; [|exact M]. intros i w st k Hi. exact (proj2 (proj2 (H i w st Hi)) k).
Qed.

(** ** writes *)
Lemma write_stored fuel a p oa ow l m : write_ok c fuel a p oa ow l ->
  (x_full c = true \/ (length (wa_value a) = 1 /\ wa_burst a = INCR /\ wa_size a = None)) ->
  (wa_burst a = WRAP -> wrap_smooth (x_bytes c) (wa_address a) (size_or (x_bytes c) (wa_size a)) (Z.of_nat (length (wa_value a)))) ->
  let r := axi_write c fuel a p oa ow l in wr_result r <> Susp ->
  exists req, transfers aw_offered aw_accepts (wr_aw r) = [req] /\
    decode c req = Request (wa_address a) (Z.of_nat (length (wa_value a))) (size_or (x_bytes c) (wa_size a)) (wa_burst a) /\
    conforming_write c req (transfers w_offered w_accepts (wr_w r)) /\
    forall x, slave_store c req (transfers w_offered w_accepts (wr_w r)) m x =
              written (wa_burst a) (wa_address a) (size_or (x_bytes c) (wa_size a)) (wa_value a) (wa_be a) m x.
Proof.
  intros [Hb Hl Ha Nb Hp Hoa How Hf Hd] Hx Hw r Hr.
  destruct (legal_facts c _ _ _ _ Hb Hl) as (_ & Ps & Ls & Hn & _).
  destruct (write_run_spec c fuel a p oa ow l Hb Hl Ha Nb Hp Hoa How Hf Hd) as (beats & Eb & Lb & _ & _ & _ & _ & R). fold r in R.
  destruct R as [[R _]|(done & nr & i & r' & _ & _ & _ & [C1 C2] & _)]; [contradiction|].
  destruct (beats_meaning _ _ _ _ (wa_value a) (wa_be a) Hb Hl eq_refl Nb Hw) as (beats' & E & _ & F & La & M). rewrite Eb in E. injection E as <-.
  eexists. split; [exact C1|].
  assert (D : decode c (ax_request c oa (wa_address a) (Z.of_nat (length (wa_value a))) (wa_burst a) (size_or (x_bytes c) (wa_size a)))
    = Request (wa_address a) (Z.of_nat (length (wa_value a))) (size_or (x_bytes c) (wa_size a)) (wa_burst a)).
  { apply decode_request; try assumption. destruct Hx as [Hx|(H1 & H2 & H3)]; [left; exact Hx|right]. rewrite H1, H2, H3. auto. }
  split; [exact D|]. rewrite C2. split.
  - unfold conforming_write. rewrite D. cbn [q_beats q_size q_burst q_address]. split; [rewrite words_length, Lb; reflexivity|].
    intros j w k Hj Hk Hs. assert (Hj' : nth_error beats j = Some (beat_of w)).
    { rewrite <- (beats_of_words ow beats F), nth_error_map, Hj. reflexivity. }
    destruct (beat_of w) as [wd st]. exact (La j wd st k Hj' Hk Hs).
  - intro x. unfold slave_store. rewrite D. cbn [q_beats q_size q_burst q_address]. rewrite (beats_of_words ow beats F). apply M.
Qed.

(** ** reads *)
Notation W := (World (TS := unit) (TI := axi_in) (TO := ax_out)).
Record read_ok (fuel : nat) (a : raccess) (p : phase) (l : list axi_in) : Prop := {
  ro_bus : axi_bus c;
  ro_legal : legal_access (x_bytes c) (ra_address a) (ra_length a) (ra_size a) (ra_burst a);
  ro_addr : fits_bits (x_awidth c) (ra_address a);
  ro_start : may_start (ra_sync a) p;
  ro_fuel : length l < fuel }.

Definition first_bad (rs : list Z) : option Z := find (fun r => negb (r =? 0)%Z) rs.

Lemma read_complete fuel a s p o tr l pre w h seg f tl : read_ok fuel a p l -> read_cycles c (ra_sync a) l pre w h seg f tl ->
  let size := size_or (x_bytes c) (ra_size a) in
  let req := ax_request c o (ra_address a) (ra_length a) (ra_burst a) size in
  let o' := ax_set_valid L0 req in
  let bs := filter r_beat (seg ++ [f]) in
  let after := W s PActive o' (tr ++ held o pre ++ held req (w ++ [h]) ++ held o' (seg ++ [f])) tl in
  exists ws words, extract (x_bytes c) (ra_burst a) size (ra_address a mod x_bytes c / size * size) (map g_rdata bs) = Ok ws /\
    realigned (ra_address a) (ra_burst a) size ws = Ok words /\ length words = length bs /\
    axi_read_raw c fuel a (W s p o tr l) =
      (if (Z.of_nat (length bs) =? ra_length a)%Z then Done (words, map rresp_of bs) else Exn EAXILength, after).
Proof.
  intros [Hb Hl Ha Hp Hf] [E1 E2 E3 E4 E5 E6 E7] size req o' bs after.
  pose proof (read_run_spec c fuel a size s p o tr l Hb Hl Ha eq_refl Hp Hf) as R. cbn zeta in R. fold req in R. fold o' in R.
  assert (Ep : (if ra_sync a then firstn 1 l else []) = pre /\ (if ra_sync a then skipn 1 l else l) = w ++ h :: seg ++ f :: tl).
  { rewrite E1. destruct (ra_sync a).
    - destruct pre as [|x [|]]; try discriminate. split; reflexivity.
    - destruct pre; [|discriminate]. split; reflexivity. }
  destruct Ep as [Ep1 Ep2]. rewrite Ep1, Ep2 in R. rewrite (span_split ar_accepts w h (seg ++ f :: tl) E3 E4) in R.
  rewrite (span_split (r_final c) seg f tl E5 E6) in R. destruct (R E7) as (ws & words & R1 & R2 & R3 & R4). exists ws, words.
  split; [exact R1|]. split; [exact R2|]. split; [exact R3|]. rewrite R4. unfold after. rewrite !app_assoc. reflexivity.
Qed.

(** C57, C58 for reads *)
Lemma read_thm fuel a s p o tr l pre w h seg f tl : read_ok fuel a p l -> read_cycles c (ra_sync a) l pre w h seg f tl ->
  let req := ax_request c o (ra_address a) (ra_length a) (ra_burst a) (size_or (x_bytes c) (ra_size a)) in
  let o' := ax_set_valid L0 req in
  let bs := filter r_beat (seg ++ [f]) in
  let after := W s PActive o' (tr ++ held o pre ++ held req (w ++ [h]) ++ held o' (seg ++ [f])) tl in
  exists words, length words = length bs /\
  (Z.of_nat (length bs) <> ra_length a ->
     axi_read_rresp c fuel a (W s p o tr l) = (Exn EAXILength, after) /\
     axi_read c fuel a (W s p o tr l) = (Exn EAXILength, after)) /\
  (Z.of_nat (length bs) = ra_length a ->
     axi_read_rresp c fuel a (W s p o tr l) = (Done (combine words (map rresp_of bs)), after) /\
     axi_read c fuel a (W s p o tr l) =
       (match first_bad (map rresp_of bs) with Some r => Exn (EAXIProtocol r) | None => Done words end, after)).
Proof.
  intros H1 H2 req o' bs after. destruct (read_complete fuel a s p o tr l pre w h seg f tl H1 H2) as (ws & words & _ & _ & E3 & E4).
  fold req in E4. fold o' in E4. fold bs in E3, E4. fold after in E4. exists words. split; [exact E3|]. unfold axi_read_rresp, axi_read. split.
  - intro N. destruct (Z.eqb_spec (Z.of_nat (length bs)) (ra_length a)); [contradiction|].
    split; apply bind_exn; exact E4.
  - intro N. destruct (Z.eqb_spec (Z.of_nat (length bs)) (ra_length a)); [|contradiction]. rewrite !(bind_done _ _ _ _ _ E4). cbn [fst snd].
    split; [reflexivity|]. unfold first_bad. destruct (find _ (map rresp_of bs)); reflexivity.
Qed.

(** a read that is never acknowledged, or whose last beat never comes, waits *)
Lemma read_waits fuel a s p o tr l pre : read_ok fuel a p l -> length pre = min (length l) (if ra_sync a then 1 else 0) ->
  (exists w, l = pre ++ w /\ Forall (fun i => ar_accepts i = false) w) \/
  (exists w h seg, l = pre ++ w ++ h :: seg /\ Forall (fun i => ar_accepts i = false) w /\ ar_accepts h = true /\
     Forall (fun i => r_final c i = false) seg /\ Forall (fun i => r_beat i = true -> r_beat_ok c i) seg) ->
  fst (axi_read c fuel a (W s p o tr l)) = Susp /\ fst (axi_read_rresp c fuel a (W s p o tr l)) = Susp.
Proof.
  intros [Hb Hl Ha Hp Hf] Lp H.
  pose proof (read_run_spec c fuel a (size_or (x_bytes c) (ra_size a)) s p o tr l Hb Hl Ha eq_refl Hp Hf) as R. cbn zeta in R.
  assert (G : exists w', axi_read_raw c fuel a (W s p o tr l) = (Susp, w')).
  { destruct H as [(w & E & F)|(w & h & seg & E & F1 & F2 & F3 & F4)].
    - assert (E2 : (if ra_sync a then skipn 1 l else l) = w).
      { rewrite E in *. rewrite app_length in Lp. destruct (ra_sync a).
        - destruct pre as [|x [|]]; cbn [length] in Lp; try lia; [|reflexivity]. destruct w; [reflexivity|cbn [length] in Lp; lia].
        - destruct pre; [reflexivity|cbn [length] in Lp; lia]. }
      rewrite E2, (span_none' ar_accepts w F) in R. destruct R as (p' & o' & R). eauto.
    - assert (E2 : (if ra_sync a then skipn 1 l else l) = w ++ h :: seg).
      { rewrite E in *. rewrite !app_length in Lp. cbn [length] in Lp. destruct (ra_sync a).
        - destruct pre as [|x [|]]; cbn [length] in Lp; try lia. reflexivity.
        - destruct pre; [reflexivity|cbn [length] in Lp; lia]. }
      rewrite E2, (span_split ar_accepts w h seg F1 F2), (span_none' (r_final c) seg F3) in R. destruct (R F4) as (p' & R'). eauto. }
  destruct G as [w' G]. unfold axi_read, axi_read_rresp. rewrite !(bind_susp _ _ _ _ G). auto.
Qed.

Lemma nth_error_rdata (bs : list axi_in) i : (i < length bs)%nat -> exists b, nth_error bs i = Some b /\ nth i (map g_rdata bs) [] = g_rdata b.
Proof.
  intro H. destruct (nth_error bs i) as [b|] eqn:E; [|apply nth_error_None in E; lia]. exists b. split; [reflexivity|].
  apply nth_error_nth. rewrite nth_error_map, E. reflexivity.
Qed.

(** C53 *)
Lemma read_memory fuel a s p o tr l pre w h seg f tl mems : read_ok fuel a p l -> read_cycles c (ra_sync a) l pre w h seg f tl ->
  (x_full c = true \/ (ra_length a = 1%Z /\ ra_burst a = INCR /\ ra_size a = None)) ->
  (ra_burst a = WRAP -> wrap_smooth (x_bytes c) (ra_address a) (size_or (x_bytes c) (ra_size a)) (ra_length a)) ->
  (ra_burst a <> FIXED -> forall i, mems i = mems 0) ->
  let size := size_or (x_bytes c) (ra_size a) in
  let req := ax_request c o (ra_address a) (ra_length a) (ra_burst a) size in
  let o' := ax_set_valid L0 req in
  let bs := filter r_beat (seg ++ [f]) in
  let after := W s PActive o' (tr ++ held o pre ++ held req (w ++ [h]) ++ held o' (seg ++ [f])) tl in
  slave_reads c req mems bs ->
  let words := read_words (ra_burst a) mems (ra_address a) size (Z.to_nat (ra_length a)) in
  axi_read_rresp c fuel a (W s p o tr l) = (Done (combine words (map rresp_of bs)), after) /\
  (first_bad (map rresp_of bs) = None -> axi_read c fuel a (W s p o tr l) = (Done words, after)).
Proof.
  intros H1 H2 Hx Hw Hm size req o' bs after SR words.
  destruct (read_complete fuel a s p o tr l pre w h seg f tl H1 H2) as (ws & words' & X1 & X2 & X3 & X4).
  fold size in X1, X2, X4. fold req in X4. fold o' in X4. fold bs in X1, X3, X4. fold after in X4.
  destruct H1 as [Hb Hl Ha Hp Hf]. destruct (legal_facts c _ _ _ _ Hb Hl) as (_ & Ps & Ls & Hn & q & Hq & Eq). fold size in Ps, Ls, Eq. pose proof (pow2_pos' _ Ps) as Hs.
  assert (D : decode c req = Request (ra_address a) (ra_length a) size (ra_burst a)).
  { apply decode_request; try assumption. destruct Hx as [Hx|(A1 & A2 & A3)]; [left; exact Hx|right]. unfold size. rewrite A1, A2, A3. auto. }
  unfold slave_reads in SR. rewrite D in SR. cbn [q_beats q_size q_burst q_address] in SR. destruct SR as (S1 & S2 & S3).
  assert (Ln : Z.to_nat (ra_length a) = length (map g_rdata bs)) by (rewrite map_length; lia).
  assert (R : forall i, (i < Z.to_nat (ra_length a))%nat -> read_beat_ok (x_bytes c) (ra_burst a) size (Z.of_nat (Z.to_nat (ra_length a))) (ra_address a) (mems i) (Z.of_nat i) (nth i (map g_rdata bs) [])).
  { intros i Hi. rewrite Ln, map_length in Hi. destruct (nth_error_rdata bs i Hi) as (b & Eb & ->). rewrite Z2Nat.id by lia. exact (S3 i b Eb). }
  assert (Ew : words' = words).
  { unfold words, read_words. set (n := Z.to_nat (ra_length a)) in *.
    destruct (ra_burst a) eqn:Bt.
    - destruct (fixed_read _ size q (ra_address a) Hs Hq Eq mems n _ Ln S2 R) as (ws' & Y1 & _ & Y2). rewrite X1 in Y1. injection Y1 as <-. congruence.
    - assert (R0 : forall i, (i < n)%nat -> read_beat_ok (x_bytes c) INCR size (Z.of_nat n) (ra_address a) (mems 0) (Z.of_nat i) (nth i (map g_rdata bs) [])).
      { intros i Hi. rewrite <- (Hm ltac:(discriminate) i). exact (R i Hi). }
      destruct (incr_read _ size q (ra_address a) (mems 0) Hs Hq Eq (S2 0) n _ Ln R0) as (ws' & Y1 & _ & Y2). rewrite X1 in Y1. injection Y1 as <-. congruence.
    - assert (R0 : forall i, (i < n)%nat -> read_beat_ok (x_bytes c) WRAP size (Z.of_nat n) (ra_address a) (mems 0) (Z.of_nat i) (nth i (map g_rdata bs) [])).
      { intros i Hi. rewrite <- (Hm ltac:(discriminate) i). exact (R i Hi). }
      destruct (Hw eq_refl) as [Hal Hsm]. fold size in Hal, Hsm.
      destruct (wrap_read _ size q (ra_address a) Hs Hq Eq (mems 0) n _ Ln (S2 0) ltac:(lia) Hal ltac:(unfold n; rewrite Z2Nat.id by lia; exact Hsm) R0) as (ws' & Y1 & _ & Y2).
      rewrite X1 in Y1. injection Y1 as <-. congruence. }
  subst words'. rewrite S1, Z.eqb_refl in X4. unfold axi_read, axi_read_rresp. rewrite !(bind_done _ _ _ _ _ X4). cbn [fst snd].
  split; [reflexivity|]. unfold first_bad. intros ->. reflexivity.
Qed.
End Top.

Section More.
Context (c : axi_cfg).
Notation W := (World (TS := unit) (TI := axi_in) (TO := ax_out)).

(** ** C49 *)
Lemma rejected_write fuel a p oa ow l : axi_bus c ->
  ~ legal_access (x_bytes c) (wa_address a) (Z.of_nat (length (wa_value a))) (wa_size a) (wa_burst a) ->
  axi_write c fuel a p oa ow l = WriteRun (Exn EValue) [] [] oa ow l.
Proof.
  intros (P & L & _) H. unfold axi_write. destruct (check_params_spec (x_bytes c) (wa_address a) (Z.of_nat (length (wa_value a))) (wa_size a) (wa_burst a) P ltac:(lia)) as [_ E].
  rewrite (E H). reflexivity.
Qed.
Lemma rejected_read fuel a w : axi_bus c -> ~ legal_access (x_bytes c) (ra_address a) (ra_length a) (ra_size a) (ra_burst a) ->
  axi_read c fuel a w = (Exn EValue, w) /\ axi_read_rresp c fuel a w = (Exn EValue, w).
Proof.
  intros (P & L & _) H. destruct (check_params_spec (x_bytes c) (ra_address a) (ra_length a) (ra_size a) (ra_burst a) P ltac:(lia)) as [_ E].
  assert (R : axi_read_raw c fuel a w = (Exn EValue, w)) by (unfold axi_read_raw; rewrite (E H); reflexivity).
  unfold axi_read, axi_read_rresp. rewrite !(bind_exn _ _ _ _ _ R). auto.
Qed.
Lemma accepted_write fuel a p oa ow : axi_bus c ->
  legal_access (x_bytes c) (wa_address a) (Z.of_nat (length (wa_value a))) (wa_size a) (wa_burst a) ->
  fits_bits (x_awidth c) (wa_address a) -> wa_be a <> [] -> may_start (wa_sync a) p -> aw_offered oa = false -> w_offered ow = false -> 0 < fuel ->
  wr_result (axi_write c fuel a p oa ow []) = Susp.
Proof.
  intros Hb Hl Ha Nb Hp Hoa How Hf. destruct (legal_facts c _ _ _ _ Hb Hl) as (Ec & Ps & Ls & Hn & _).
  pose proof (tx_result _ _ _ _ _ _ _ _ _ _
    (aw_tx c fuel (wa_address a) (Z.of_nat (length (wa_value a))) (wa_burst a) (size_or (x_bytes c) (wa_size a)) (wa_alat a) (wa_sync a) tt p oa [] []
       Ha Hn Ps Ls Hp Hoa (free_nil _ _) Hf) ltac:(intros ? ? [_ H]; exact (handshake_free _ _ _ H))) as TA.
  destruct (beats_exist c _ _ _ _ (wa_value a) (wa_be a) Hb Hl eq_refl Nb) as (beats & Eb & Lb & Fb).
  assert (Bn : beats <> []) by (destruct beats; [cbn [length] in Lb; lia|discriminate]).
  assert (TW : exists vw, send_write_data c fuel (wa_address a) (wa_value a) (wa_burst a) (size_or (x_bytes c) (wa_size a)) (wa_dlat a) (wa_be a) (wa_sync a) (World tt p ow [] []) = (Susp, vw)).
  { destruct (wa_dlat a) as [|d] eqn:Ed.
    - pose proof (tx_result _ _ _ _ _ _ _ _ _ _
        (w_tx c fuel (wa_address a) (wa_value a) (wa_burst a) (size_or (x_bytes c) (wa_size a)) 0 (wa_be a) (wa_sync a) beats tt p ow [] []
           Eb Fb Bn Hp How (free_nil _ _) Hf (or_introl eq_refl)) ltac:(intros ? ? [_ H]; exact (handshake_free _ _ _ H))) as TW.
      destruct (send_write_data _ _ _ _ _ _ _ _ _ _) as [rw vw]. destruct TW as (IW & _ & TW). destruct rw; try contradiction; [|eauto].
      destruct TW as [_ [_ (t & i & o & E & _)]]. rewrite E in IW. rewrite map_app in IW. destruct (map fst t); discriminate.
    - unfold send_write_data. rewrite Eb. cbn [of_res]. destruct beats as [|[w st] r]; [contradiction|]. destruct (wa_sync a).
      + eexists. reflexivity.
      + eexists. cbn [send_beats edges]. reflexivity. }
  destruct TW as [vw TW]. unfold axi_write. rewrite Ec.
  destruct (send_write_address _ _ _ _ _ _ _ _ _) as [ra va]. rewrite TW. destruct TA as (IA & _ & TA). destruct ra as [[]|e| |]; try contradiction; reflexivity.
Qed.
Lemma accepted_read fuel a s p o tr : axi_bus c -> legal_access (x_bytes c) (ra_address a) (ra_length a) (ra_size a) (ra_burst a) ->
  fits_bits (x_awidth c) (ra_address a) -> may_start (ra_sync a) p -> 0 < fuel ->
  fst (axi_read c fuel a (W s p o tr [])) = Susp /\ fst (axi_read_rresp c fuel a (W s p o tr [])) = Susp.
Proof.
  intros Hb Hl Ha Hp Hf. apply (read_waits c fuel a s p o tr [] []); [constructor; assumption|reflexivity|]. left. exists []. auto.
Qed.

(** ** C52: where the lanes of a WRAP write are wrong *)
Lemma wrap_wrong_lane a n size data : axi_bus c -> legal_access (x_bytes c) a n size WRAP -> n = Z.of_nat (length data) ->
  (a mod size_or (x_bytes c) size = 0)%Z -> ~ wrap_smooth (x_bytes c) a (size_or (x_bytes c) size) n ->
  exists beats, write_beats (x_bytes c) a WRAP (size_or (x_bytes c) size) data [None] = Ok beats /\
  ~ (forall i w s k, nth_error beats i = Some (w, s) -> (0 <= k)%Z -> Z.testbit s k = true ->
      lanes (x_bytes c) (size_or (x_bytes c) size) (beat_address WRAP (size_or (x_bytes c) size) n a (Z.of_nat i)) k).
Proof.
  intros Hb Hl -> Hal Ns. destruct (beats_exist c a _ size WRAP data [None] Hb Hl eq_refl ltac:(discriminate)) as (beats & E & L & _).
  destruct (legal_facts c _ _ _ _ Hb Hl) as (_ & Ps & _ & Hn & q & Hq & Eq). set (s := size_or (x_bytes c) size) in *. pose proof (pow2_pos' _ Ps) as Hs.
  exists beats. split; [exact E|]. intro H. apply Ns. split; [exact Hal|].
  apply (wrap_lanes_exact _ s q a Hs Hq Eq data beats); [destruct data; [cbn [length] in Hn; lia|discriminate]|exact Hal|exact E|exact H].
Qed.
Lemma wrap_wrong_write fuel a p oa ow l : write_ok c fuel a p oa ow l -> x_full c = true -> wa_burst a = WRAP -> wa_be a = [None] ->
  (wa_address a mod size_or (x_bytes c) (wa_size a) = 0)%Z ->
  ~ wrap_smooth (x_bytes c) (wa_address a) (size_or (x_bytes c) (wa_size a)) (Z.of_nat (length (wa_value a))) ->
  let r := axi_write c fuel a p oa ow l in wr_result r <> Susp ->
  exists req, transfers aw_offered aw_accepts (wr_aw r) = [req] /\ ~ conforming_write c req (transfers w_offered w_accepts (wr_w r)).
Proof.
  intros [Hb Hl Ha Nb Hp Hoa How Hf Hd] Hx Hw Hbe Hal Ns r Hr.
  destruct (legal_facts c _ _ _ _ Hb Hl) as (_ & Ps & Ls & Hn & _).
  destruct (write_run_spec c fuel a p oa ow l Hb Hl Ha Nb Hp Hoa How Hf Hd) as (beats & Eb & Lb & _ & _ & _ & _ & R). fold r in R.
  destruct R as [[R _]|(done & nr & i & r' & _ & _ & _ & [C1 C2] & _)]; [contradiction|].
  destruct (beats_exist c _ _ _ _ (wa_value a) (wa_be a) Hb Hl eq_refl Nb) as (beats0 & E0 & _ & F). rewrite Eb in E0. injection E0 as <-.
  eexists. split; [exact C1|]. rewrite C2. unfold conforming_write. rewrite decode_request by (try assumption; left; exact Hx). cbn [q_beats q_size q_burst q_address].
  intros [_ H]. rewrite Hw in *. rewrite Hbe in Eb. destruct (wrap_wrong_lane _ _ _ (wa_value a) Hb Hl eq_refl Hal Ns) as (beats' & E & N). rewrite Eb in E. injection E as <-.
  apply N. intros j wd st k Hj Hk Hs. assert (Hj' : exists w, nth_error (w_words c ow beats) j = Some w /\ beat_of w = (wd, st)).
  { rewrite <- (beats_of_words c ow beats F), nth_error_map in Hj. destruct (nth_error (w_words c ow beats) j) as [w|]; [|discriminate]. cbn [option_map] in Hj. exists w. split; [reflexivity|congruence]. }
  destruct Hj' as (w & Hj' & Ew). apply (H j w k Hj' Hk). rewrite Ew. exact Hs.
Qed.

(** ** C54 *)
Lemma written_back fuel1 aw p1 oa ow l1 fuel2 s p2 o tr l2 pre w h seg f tl sync m :
  write_ok c fuel1 aw p1 oa ow l1 -> x_full c = true -> wa_burst aw = INCR -> wa_be aw = [None] ->
  let r := axi_write c fuel1 aw p1 oa ow l1 in wr_result r <> Susp ->
  let ar := RAccess (wa_address aw) (Z.of_nat (length (wa_value aw))) (wa_size aw) INCR sync in
  may_start sync p2 -> length l2 < fuel2 -> read_cycles c sync l2 pre w h seg f tl ->
  let size := size_or (x_bytes c) (wa_size aw) in
  let bs := filter r_beat (seg ++ [f]) in
  let n := length (wa_value aw) in
  (exists reqw reqr,
     transfers aw_offered aw_accepts (wr_aw r) = [reqw] /\
     reqr = ax_request c o (wa_address aw) (Z.of_nat n) INCR size /\
     slave_reads c reqr (fun _ x => zbits 8 (slave_store c reqw (transfers w_offered w_accepts (wr_w r)) m x)) bs) ->
  first_bad (map rresp_of bs) = None ->
  fst (axi_read c fuel2 ar (W s p2 o tr l2)) =
  Done (map (fun j => zbits (8 * Z.to_nat (if Nat.eqb (S j) n then size - wa_address aw mod size else size)) (nth j (wa_value aw) 0%Z)) (seq 0 n)).
Proof.
  intros Hw Hx Hbu Hbe r Hr ar Hp2 Hf2 Hc size bs n (reqw & reqr & E1 & E2 & SR) Fb.
  destruct (write_stored c fuel1 aw p1 oa ow l1 m Hw (or_introl Hx) ltac:(rewrite Hbu; discriminate) Hr) as (req & E1' & _ & _ & St).
  fold r in E1'. rewrite E1 in E1'. injection E1' as <-. fold r in St. fold size in St. rewrite Hbu, Hbe in St. cbn [written] in St.
  destruct Hw as [Hb Hl Ha Nb Hp Hoa How Hf Hd]. rewrite Hbu in Hl.
  assert (RO : read_ok c fuel2 ar p2 l2) by (constructor; assumption).
  assert (SR' : slave_reads c reqr (fun _ x => zbits 8 (incr_written (wa_address aw) size (wa_value aw) [None] m x)) bs).
  { destruct SR as (S1 & S2 & S3). split; [exact S1|]. split; [intros j x; apply zbits_length|]. intros i b Hi. destruct (S3 i b Hi) as [L R].
    split; [exact L|]. intros k Hk. rewrite (R k Hk), St. reflexivity. }
  rewrite E2 in SR'.
  destruct (read_memory c fuel2 ar s p2 o tr l2 pre w h seg f tl (fun _ x => zbits 8 (incr_written (wa_address aw) size (wa_value aw) [None] m x)) RO Hc (or_introl Hx) ltac:(discriminate) ltac:(reflexivity) SR') as [_ R].
  rewrite (R Fb). cbn [fst]. f_equal. unfold read_words. cbn [ra_burst ra_address ra_length ra_size ar]. rewrite Nat2Z.id.
  destruct (legal_facts c _ _ _ _ Hb Hl) as (_ & Ps & _). exact (write_read (wa_address aw) size (wa_value aw) m (pow2_pos' _ Ps)).
Qed.

(** ** C55 *)
Definition with_be (a : waccess) (be : list (option Z)) : waccess :=
  WAccess (wa_address a) (wa_value a) (wa_size a) (wa_burst a) be (wa_alat a) (wa_dlat a) (wa_sync a).
Definition extended (n : nat) (be : list (option Z)) : list (option Z) := map (fun j => nth j be (last be None)) (seq 0 n).

Lemma strobes_extended n size be : be <> [] -> strobes n size be = strobes n size (extended n be).
Proof.
  intro N. unfold strobes. assert (Le : length (extended n be) = n) by (unfold extended; rewrite map_length, seq_length; reflexivity). rewrite Le, Nat.leb_refl.
  rewrite (firstn_all2 (extended n be)) by lia.
  assert (Fi : forall k d, map (fun j => nth j be d) (seq 0 k) = firstn k be ++ repeat d (k - length be)).
  { clear. intros k d. revert be. induction k as [|k IH]; intro be; [reflexivity|]. cbn [seq map]. rewrite <- seq_shift, map_map. destruct be as [|x be].
    - cbn [nth firstn length app]. replace (S k - 0) with (S k) by lia. cbn [repeat]. f_equal. etransitivity; [|apply (eq_trans (IH []))].
      + apply map_ext. intro j. destruct j; reflexivity.
      + rewrite firstn_nil. cbn [length app]. replace (k - 0) with k by lia. reflexivity.
    - cbn [nth firstn length app Nat.sub]. f_equal. exact (IH be). }
  unfold extended. rewrite Fi, map_app.
  destruct (Nat.leb_spec n (length be)) as [L|L].
  - replace (n - length be) with 0 by lia. cbn [repeat map]. rewrite app_nil_r. reflexivity.
  - rewrite (firstn_all2 be) by lia. destruct (exists_last N) as (x & y & ->). rewrite last_last. rewrite map_app, rev_app_distr. cbn [map rev app].
    f_equal. f_equal. rewrite !app_length, map_length. cbn [length]. generalize (n - (length x + 1)) as k. induction k as [|k IH]; [reflexivity|]. cbn [repeat map]. f_equal. exact IH.
Qed.
Lemma be_extended fuel a be p oa ow l : be <> [] ->
  axi_write c fuel (with_be a be) p oa ow l = axi_write c fuel (with_be a (extended (length (wa_value a)) be)) p oa ow l.
Proof.
  intro N. unfold axi_write, with_be. cbn [wa_address wa_value wa_size wa_burst wa_be wa_alat wa_dlat wa_sync].
  destruct (check_params _ _ _ _ _) as [size|]; [|reflexivity]. unfold send_write_data, write_beats. rewrite (strobes_extended _ size be N). reflexivity.
Qed.
Lemma be_none fuel a p oa ow l be : axi_bus c ->
  legal_access (x_bytes c) (wa_address a) (Z.of_nat (length (wa_value a))) (wa_size a) (wa_burst a) ->
  axi_write c fuel (with_be a be) p oa ow l =
  axi_write c fuel (with_be a (map (fun x => match x with None => Some (2 ^ size_or (x_bytes c) (wa_size a) - 1)%Z | v => v end) be)) p oa ow l.
Proof.
  intros Hb Hl. destruct (legal_facts c _ _ _ _ Hb Hl) as (Ec & _). unfold axi_write, with_be. cbn [wa_address wa_value wa_size wa_burst wa_be wa_alat wa_dlat wa_sync].
  rewrite Ec. unfold send_write_data, write_beats. set (size := size_or _ _).
  replace (strobes (length (wa_value a)) size (map _ be)) with (strobes (length (wa_value a)) size be); [reflexivity|].
  unfold strobes.
  assert (M : forall x, map (strobe_of size) (map (fun x => match x with None => Some (2 ^ size - 1)%Z | v => v end) x) = map (strobe_of size) x).
  { intro x. rewrite map_map. apply map_ext. intros [v|]; reflexivity. }
  assert (M' : forall k, map (strobe_of size) (firstn k (map (fun x => match x with None => Some (2 ^ size - 1)%Z | v => v end) be)) = map (strobe_of size) (firstn k be)).
  { intro k. rewrite firstn_map. apply M. }
  rewrite M'. rewrite (map_length _ be). reflexivity.
Qed.
Lemma be_empty fuel a p oa ow l : axi_bus c ->
  legal_access (x_bytes c) (wa_address a) (Z.of_nat (length (wa_value a))) (wa_size a) (wa_burst a) ->
  fits_bits (x_awidth c) (wa_address a) -> may_start (wa_sync a) p -> aw_offered oa = false -> length l < fuel ->
  wr_result (axi_write c fuel (with_be a []) p oa ow l) = Exn EIndex.
Proof.
  intros Hb Hl Ha Hp Hoa Hf. destruct (legal_facts c _ _ _ _ Hb Hl) as (Ec & Ps & Ls & Hn & _).
  pose proof (tx_result _ _ _ _ _ _ _ _ _ _
    (aw_tx c fuel (wa_address a) (Z.of_nat (length (wa_value a))) (wa_burst a) (size_or (x_bytes c) (wa_size a)) (wa_alat a) (wa_sync a) tt p oa [] l
       Ha Hn Ps Ls Hp Hoa (free_nil _ _) Hf) ltac:(intros ? ? [_ H]; exact (handshake_free _ _ _ H))) as TA.
  unfold axi_write, with_be. cbn [wa_address wa_value wa_size wa_burst wa_be wa_alat wa_dlat wa_sync]. rewrite Ec.
  destruct (send_write_address _ _ _ _ _ _ _ _ _) as [ra va]. unfold send_write_data, write_beats. rewrite strobes_empty by lia. cbn [of_res rbind].
  destruct TA as (_ & _ & TA). destruct ra; try contradiction; reflexivity.
Qed.
End More.

(** ** C59: AXI4-Lite *)
Section Lite.
Context (c : axi_cfg).
Notation W := (World (TS := unit) (TI := axi_in) (TO := ax_out)).
Lemma lite_bytes : x_bytes (lite_cfg c) = x_bytes c.
Proof. reflexivity. Qed.
Lemma lite_legal a : axi_bus c -> legal_access (x_bytes c) a 1 None INCR.
Proof.
  intros (P & L & _). pose proof (pow2_pos' _ P) as Pp. split; [discriminate|]. cbn [size_or]. split; [cbn; lia|]. intros _.
  apply page_exact; [lia|exact Pp| |].
  - apply pow2_divide; [exact P|exists 12%Z; split; [lia|reflexivity]|lia].
  - f_equal. lia.
Qed.
Lemma lite_write_seq fuel address vs be alat dlat sync p oa ow l :
  lite_write c fuel address (LiteSeq vs) be alat dlat sync p oa ow l = WriteRun (Exn EValue) [] [] oa ow l.
Proof. reflexivity. Qed.
Lemma lite_write_ok fuel address z be alat dlat sync p oa ow l : axi_bus c -> fits_bits (x_awidth c) address ->
  may_start sync p -> aw_offered oa = false -> w_offered ow = false -> length l < fuel ->
  write_ok (lite_cfg c) fuel (WAccess address [z] None INCR [be] alat dlat sync) p oa ow l.
Proof.
  intros Hb Ha Hp Hoa How Hf. constructor; cbn [wa_address wa_value wa_size wa_burst wa_be wa_alat wa_dlat wa_sync]; try assumption.
  - cbn [length]. change (Z.of_nat 1) with 1%Z. apply lite_legal. exact Hb.
  - discriminate.
  - right. reflexivity.
Qed.
Lemma lite_write_thm fuel address z be alat dlat sync p oa ow l m : axi_bus c -> fits_bits (x_awidth c) address ->
  may_start sync p -> aw_offered oa = false -> w_offered ow = false -> length l < fuel ->
  let r := lite_write c fuel address (LiteInt z) be alat dlat sync p oa ow l in
  wr_result r <> Susp ->
  exists req word, transfers aw_offered aw_accepts (wr_aw r) = [req] /\ value (x_addr req) = address /\
    transfers w_offered w_accepts (wr_w r) = [word] /\ conforming_write (lite_cfg c) req [word] /\
    (forall x, slave_store (lite_cfg c) req [word] m x = incr_written address (x_bytes c) [z] [be] m x) /\
    exists done nr i r', l = done ++ nr ++ i :: r' /\
      transfers aw_offered aw_accepts (firstn (length done) (wr_aw r)) = [req] /\ transfers w_offered w_accepts (firstn (length done) (wr_w r)) = [word] /\
      Forall (fun i => b_valid i = false) nr /\ b_valid i = true /\ wr_result r = response_outcome (g_bresp i).
Proof.
  intros Hb Ha Hp Hoa How Hf r Hr. pose proof (lite_write_ok fuel address z be alat dlat sync p oa ow l Hb Ha Hp Hoa How Hf) as Ho.
  destruct (write_stored (lite_cfg c) fuel _ p oa ow l m Ho (or_intror (conj eq_refl (conj eq_refl eq_refl))) ltac:(discriminate) Hr) as (req & E1 & E2 & E3 & E4).
  pose proof E3 as [E3a _]. rewrite E2 in E3a. cbn [q_beats wa_value length] in E3a.
  destruct (write_run_spec (lite_cfg c) fuel (WAccess address [z] None INCR [be] alat dlat sync) p oa ow l (wo_bus _ _ _ _ _ _ _ Ho) (wo_legal _ _ _ _ _ _ _ Ho) (wo_addr _ _ _ _ _ _ _ Ho) (wo_be _ _ _ _ _ _ _ Ho) (wo_start _ _ _ _ _ _ _ Ho) Hoa How Hf (or_intror eq_refl)) as (beats & _ & _ & _ & _ & _ & _ & R).
  change (axi_write (lite_cfg c) fuel (WAccess address [z] None INCR [be] alat dlat sync) p oa ow l) with r in R, E1, E3, E3a, E4. cbn zeta in R.
  destruct R as [[R _]|(done & nr & i & r' & El & [D1 D2] & _ & [C1 C2] & _ & _ & N & B & Rr & Re)]; [contradiction|].
  destruct (transfers w_offered w_accepts (wr_w r)) as [|word [|]] eqn:Ew; cbn [length] in E3a; try lia.
  exists req, word. split; [exact E1|]. split.
  { assert (A : q_address (decode (lite_cfg c) req) = address) by (rewrite E2; reflexivity). exact A. }
  split; [reflexivity|]. split; [exact E3|]. split; [exact E4|]. exists done, nr, i, r'. split; [exact El|].
  split; [rewrite D1, <- C1; exact E1|]. split; [rewrite D2, <- C2; reflexivity|]. auto.
Qed.
Lemma lite_read_thm fuel address sync s p o tr l pre w h seg f tl mem : axi_bus c -> fits_bits (x_awidth c) address ->
  may_start sync p -> length l < fuel -> read_cycles (lite_cfg c) sync l pre w h seg f tl ->
  (forall x, length (mem x) = 8) -> read_beat_ok (x_bytes c) INCR (x_bytes c) 1 address mem 0 (g_rdata f) ->
  let r := lite_read c fuel address sync (W s p o tr l) in
  fst r = (if (rresp_of f =? 0)%Z then Done (cells mem address (Z.to_nat (x_bytes c - address mod x_bytes c))) else Exn (EAXIProtocol (rresp_of f))) /\
  ins (snd r) = tl.
Proof.
  intros Hb Ha Hp Hf Hc Hm Hr r.
  set (a := RAccess address 1 None INCR sync).
  assert (RO : read_ok (lite_cfg c) fuel a p l) by (constructor; try assumption; exact (lite_legal address Hb)).
  (* the only beat is the final one *)
  assert (Fs : filter r_beat (seg ++ [f]) = [f]).
  { destruct Hc as [_ _ _ _ H5 H6 _]. unfold r_final in H5, H6. cbn [lite_cfg x_full negb orb] in H5, H6. rewrite andb_true_r in H6.
    rewrite filter_app. cbn [filter]. rewrite H6. replace (filter r_beat seg) with (@nil axi_in); [reflexivity|]. symmetry.
    clear - H5. induction H5 as [|x l H _ IH]; [reflexivity|]. cbn [filter]. rewrite andb_true_r in H. rewrite H. exact IH. }
  assert (SR : slave_reads (lite_cfg c) (ax_request (lite_cfg c) o address 1 INCR (x_bytes c)) (fun _ => mem) [f]).
  { unfold slave_reads. destruct (legal_facts c _ _ _ _ Hb (lite_legal address Hb)) as (_ & Ps & Ls & Hn & _). cbn [size_or] in *.
    rewrite decode_request; [|exact Ha|lia|exact Ps|exact Ls|right; auto]. cbn [q_beats q_size q_burst q_address].
    split; [reflexivity|]. split; [intros; apply Hm|]. intros [|[|]] b Hi; try discriminate. injection Hi as <-. exact Hr. }
  pose proof (read_memory (lite_cfg c) fuel a s p o tr l pre w h seg f tl (fun _ => mem) RO Hc (or_intror (conj eq_refl (conj eq_refl eq_refl))) ltac:(discriminate) ltac:(reflexivity)) as R.
  cbn zeta in R. rewrite Fs in R. specialize (R SR). destruct R as [_ R].
  destruct (read_thm (lite_cfg c) fuel a s p o tr l pre w h seg f tl RO Hc) as (words & Lw & _ & T). rewrite Fs in T. cbn [length] in T. specialize (T eq_refl). destruct T as [_ T].
  unfold r, lite_read. fold a. unfold first_bad in *. cbn [map find] in *. destruct (rresp_of f =? 0)%Z; cbn [negb] in *.
  - specialize (R eq_refl). rewrite (bind_done _ _ _ _ _ R). unfold read_words, incr_words. cbn [a ra_burst ra_length ra_address ra_size size_or].
    change (Z.to_nat 1) with 1. cbn [seq map Nat.eqb]. rewrite Z.mul_0_l, Z.add_0_r. split; reflexivity.
  - rewrite (bind_exn _ _ _ _ _ T). split; reflexivity.
Qed.

(** signals that AXI4-Lite does not have are not touched *)
Lemma keeps_assign {TO} (P : TO -> Prop) n z (set : bits -> TO -> TO) : (forall v o, P o -> P (set v o)) ->
  keeps P (assign n z set : M unit axi_in TO unit).
Proof. intro H. unfold assign. apply keeps_bind; [apply keeps_of_res|]. intro v. apply keeps_drive, H. Qed.
Lemma keeps_until1 {TO} (P : TO -> Prop) key f : keeps P (until1 key f : M unit axi_in TO unit).
Proof.
  unfold until1. apply keeps_loop. intro. apply keeps_bind; [apply keeps_readonly|]. intro.
  apply keeps_bind; [apply keeps_input|]. intro i. destruct (is1 (key i)); auto with keeps.
Qed.
Lemma keeps_when {TO} (P : TO -> Prop) b (m : M unit axi_in TO unit) : keeps P m -> keeps P (x_when b m).
Proof. destruct b; [auto|]. intros _. apply keeps_ret. Qed.
Lemma keeps_edge_sample {TO} (P : TO -> Prop) : keeps P (edge_sample : M unit axi_in TO axi_in).
Proof.
  intros w [H1 H2]. unfold edge_sample. destruct (ins w); split; cbn; auto.
  apply Forall_app. split; [exact H2|]. constructor; [exact H1|constructor].
Qed.
Definition burst_kept (o o' : ax_out) : Prop := x_burst o' = x_burst o /\ x_len o' = x_len o /\ x_size o' = x_size o.
Lemma lite_address fuel a n b size delay sync o : keeps (burst_kept o) (send_write_address (lite_cfg c) fuel a n b size delay sync).
Proof.
  unfold send_write_address, burst_kept. cbn [lite_cfg x_full x_when].
  repeat (apply keeps_bind; [first [apply keeps_when, keeps_edge|apply keeps_edges|apply keeps_edge|apply keeps_until1|apply keeps_assign; auto|apply keeps_drive; auto|apply keeps_ret]|intro]).
  apply keeps_drive; auto.
Qed.
Lemma lite_data fuel a vs b size delay be sync v : keeps (fun o => x_last o = v) (send_write_data (lite_cfg c) fuel a vs b size delay be sync).
Proof.
  unfold send_write_data. apply keeps_bind; [apply keeps_of_res|]. intro beats. apply keeps_bind; [apply keeps_when, keeps_edge|]. intro.
  induction beats as [|[w st] r IH]; [apply keeps_ret|]. cbn [send_beats lite_cfg x_wlast x_when].
  apply keeps_bind; [apply keeps_edges|]. intro. apply keeps_bind; [apply keeps_drive; auto|]. intro.
  apply keeps_bind; [apply keeps_assign; auto|]. intro. apply keeps_bind; [apply keeps_assign; auto|]. intro.
  apply keeps_bind; [apply keeps_ret|]. intro.
  apply keeps_bind; [|intro; apply keeps_bind; [apply keeps_when, keeps_drive; auto|intro; exact IH]].
  apply keeps_loop. intro. apply keeps_bind; [apply keeps_edge_sample|]. intro i. destruct (is1 (g_wready i)); apply keeps_ret.
Qed.
Lemma lite_read_kept fuel address sync o : keeps (burst_kept o) (lite_read c fuel address sync).
Proof.
  unfold lite_read, axi_read, axi_read_raw. cbn [lite_cfg x_full x_when].
  apply keeps_bind; [|intros [|]; auto with keeps].
  apply keeps_bind; [|intro x; destruct (find _ _); auto with keeps].
  apply keeps_bind; [apply keeps_of_res|]. intro size. cbn zeta.
  apply keeps_bind; [apply keeps_when, keeps_edge|]. intro. apply keeps_bind; [apply keeps_assign; unfold burst_kept; auto|]. intro.
  apply keeps_bind; [apply keeps_drive; unfold burst_kept; auto|]. intro.
  apply keeps_bind; [apply keeps_ret|]. intro. apply keeps_bind; [apply keeps_ret|]. intro. apply keeps_bind; [apply keeps_ret|]. intro.
  apply keeps_bind; [apply keeps_until1|]. intro. apply keeps_bind; [apply keeps_edge|]. intro.
  apply keeps_bind; [apply keeps_drive; unfold burst_kept; auto|]. intro.
  apply keeps_bind.
  - unfold read_beats. apply keeps_loop. intros [[d rr] off]. apply keeps_bind.
    + unfold read_beat. apply keeps_loop. intro. apply keeps_bind; [apply keeps_readonly|]. intro.
      apply keeps_bind; [apply keeps_input|]. intro i. destruct (is1 (g_rvalid i)); [|auto with keeps].
      apply keeps_bind; [apply keeps_of_res|]. intro. destruct (bval (g_rresp i)); auto with keeps.
    + intros [[w r] rl]. destruct (negb _ || _); auto with keeps.
  - intros [d rr]. apply keeps_bind; [apply keeps_edge|]. intro.
    apply keeps_bind; [destruct (_ =? _)%Z; auto with keeps|]. intro. apply keeps_bind; auto with keeps. Qed.
Lemma held_Forall {I O} (P : O -> Prop) (o : O) (l : list I) : P o -> Forall (fun x => P (snd x)) (held o l).
Proof. intro H. apply Forall_forall. intros x G. apply in_map_iff in G. destruct G as (i & <- & _). exact H. Qed.
Lemma lite_signals fuel address v be alat dlat sync p oa ow l :
  let r := lite_write c fuel address v be alat dlat sync p oa ow l in
  Forall (fun x => burst_kept oa (snd x)) (wr_aw r) /\ burst_kept oa (wr_aw_out r) /\
  Forall (fun x => x_last (snd x) = x_last ow) (wr_w r) /\ x_last (wr_w_out r) = x_last ow.
Proof.
  assert (K : burst_kept oa oa) by (unfold burst_kept; auto).
  destruct v as [z|zs]; cbn [lite_write]; [|cbn; auto]. unfold axi_write.
  destruct (check_params _ _ _ _ _) as [size|e]; [|cbn; auto]. cbn [wa_address wa_value wa_burst wa_alat wa_dlat wa_sync wa_be].
  pose proof (lite_address fuel address (Z.of_nat (length [z])) INCR size alat sync oa (World tt p oa [] l) (conj K (Forall_nil _))) as [A1 A2].
  pose proof (lite_data fuel address [z] INCR size dlat [be] sync (x_last ow) (World tt p ow [] l) (conj eq_refl (Forall_nil _))) as [D1 D2].
  destruct (send_write_address _ _ _ _ _ _ _ _ _) as [ra va]. destruct (send_write_data _ _ _ _ _ _ _ _ _ _) as [rw vw].
  cbn [snd] in *.
  assert (FA : forall n, Forall (fun x => burst_kept oa (snd x)) (trace va ++ held (out va) (firstn n (ins va)))).
  { intro n. apply Forall_app. split; [exact A2|]. apply (held_Forall (burst_kept oa)), A1. }
  assert (FD : forall n, Forall (fun x => x_last (snd x) = x_last ow) (trace vw ++ held (out vw) (firstn n (ins vw)))).
  { intro n. apply Forall_app. split; [exact D2|]. apply (held_Forall (fun o => x_last o = x_last ow)), D1. }
  pose proof (FA (length (ins va))) as FA'. rewrite firstn_all in FA'. pose proof (FD (length (ins vw))) as FD'. rewrite firstn_all in FD'.
  destruct ra, rw; try (cbn [wr_aw wr_w wr_aw_out wr_w_out]; auto 10).
  destruct (write_response _ _) as [rb vb]. cbn [wr_aw wr_w wr_aw_out wr_w_out]. auto.
Qed.
Lemma lite_read_signals fuel address sync s p o l :
  let w := snd (lite_read c fuel address sync (W s p o [] l)) in
  Forall (fun x => burst_kept o (snd x)) (trace w) /\ burst_kept o (out w).
Proof.
  cbn zeta. destruct (lite_read_kept fuel address sync o (W s p o [] l)) as [H1 H2].
  - split; [unfold burst_kept; cbn; auto|constructor].
  - auto.
Qed.
End Lite.

(** ** the statements of AxiProp *)
Lemma page_thm a size n : (0 < n)%Z -> power_of_two size -> (size <= 4096)%Z ->
  check_4kB a INCR size n = Ok tt <-> (forall x, incr_bytes a size n x -> same_page a x).
Proof.
  intros Hn Ps Ls. pose proof (pow2_pos' _ Ps) as Hs.
  assert (D : (size | 4096)%Z) by (apply pow2_divide; [exact Ps|exists 12%Z; split; [lia|reflexivity]|exact Ls]).
  destruct (check_4kB_spec a INCR size n Hn Hs D) as [H _]. rewrite H. split; [intro K; exact (K eq_refl)|intros K _; exact K].
Qed.
Lemma beats_any c a size data b be : axi_bus c -> legal_access (x_bytes c) a (Z.of_nat (length data)) size b -> be <> [] -> b <> WRAP ->
  let s := size_or (x_bytes c) size in
  exists beats, write_beats (x_bytes c) a b s data be = Ok beats /\ length beats = length data /\
   (forall i w st k, nth_error beats i = Some (w, st) -> (0 <= k)%Z -> Z.testbit st k = true ->
      lanes (x_bytes c) s (beat_address b s (Z.of_nat (length data)) a (Z.of_nat i)) k) /\
   forall m x, store_burst (x_bytes c) b s (Z.of_nat (length data)) a m 0 beats x = written b a s data be m x.
Proof.
  intros Hb Hl Nb Nw s. destruct (beats_meaning c a _ size b data be Hb Hl eq_refl Nb ltac:(intro E; contradiction)) as (beats & E & L & _ & La & M).
  exists beats. auto.
Qed.
Lemma wrap_stored c fuel a p oa ow l m : write_ok c fuel a p oa ow l -> x_full c = true -> wa_burst a = WRAP ->
  wrap_smooth (x_bytes c) (wa_address a) (size_or (x_bytes c) (wa_size a)) (Z.of_nat (length (wa_value a))) ->
  let r := axi_write c fuel a p oa ow l in wr_result r <> Susp ->
  exists req, transfers aw_offered aw_accepts (wr_aw r) = [req] /\
    decode c req = Request (wa_address a) (Z.of_nat (length (wa_value a))) (size_or (x_bytes c) (wa_size a)) WRAP /\
    conforming_write c req (transfers w_offered w_accepts (wr_w r)) /\
    forall x, slave_store c req (transfers w_offered w_accepts (wr_w r)) m x =
              wrap_written (wa_address a) (size_or (x_bytes c) (wa_size a)) (wa_value a) (wa_be a) m x.
Proof.
  intros H1 H2 H3 H4 r Hr. destruct (write_stored c fuel a p oa ow l m H1 (or_introl H2) (fun _ => H4) Hr) as (req & E1 & E2 & E3 & E4).
  rewrite H3 in E2, E4. exists req. auto.
Qed.
Lemma read_mem_thm c fuel a s p o tr l pre w h seg f tl mems : read_ok c fuel a p l -> read_cycles c (ra_sync a) l pre w h seg f tl ->
  x_full c = true ->
  (ra_burst a = WRAP -> wrap_smooth (x_bytes c) (ra_address a) (size_or (x_bytes c) (ra_size a)) (ra_length a)) ->
  (ra_burst a <> FIXED -> forall i, mems i = mems 0) ->
  let size := size_or (x_bytes c) (ra_size a) in
  let req := ax_request c o (ra_address a) (ra_length a) (ra_burst a) size in
  let bs := filter r_beat (seg ++ [f]) in
  slave_reads c req mems bs ->
  let words := read_words (ra_burst a) mems (ra_address a) size (Z.to_nat (ra_length a)) in
  fst (axi_read_rresp c fuel a (World s p o tr l)) = Done (combine words (map rresp_of bs)) /\
  (first_bad (map rresp_of bs) = None -> fst (axi_read c fuel a (World s p o tr l)) = Done words).
Proof.
  intros H1 H2 H3 H4 H5 size req bs SR words. destruct (read_memory c fuel a s p o tr l pre w h seg f tl mems H1 H2 (or_introl H3) H4 H5 SR) as [R1 R2].
  split; [exact (f_equal fst R1)|]. intro F. exact (f_equal fst (R2 F)).
Qed.
Lemma channels_thm c fuel a p oa ow l : write_ok c fuel a p oa ow l ->
  exists beats, write_beats (x_bytes c) (wa_address a) (wa_burst a) (size_or (x_bytes c) (wa_size a)) (wa_value a) (wa_be a) = Ok beats /\
  length beats = length (wa_value a) /\
  let r := axi_write c fuel a p oa ow l in
  let req := ax_request c oa (wa_address a) (Z.of_nat (length (wa_value a))) (wa_burst a) (size_or (x_bytes c) (wa_size a)) in
  map fst (wr_aw r) = map fst (wr_w r) /\ map fst (wr_aw r) ++ wr_rest r = l /\
  stable aw_offered aw_accepts (wr_aw r) /\ stable w_offered w_accepts (wr_w r) /\
  (wr_result r <> Susp ->
     transfers aw_offered aw_accepts (wr_aw r) = [req] /\ transfers w_offered w_accepts (wr_w r) = w_words c ow beats /\
     aw_offered (wr_aw_out r) = false /\ w_offered (wr_w_out r) = false) /\
  (wr_result r = Susp ->
     wr_rest r = [] /\
     (exists k, transfers aw_offered aw_accepts (wr_aw r) = firstn k [req]) /\
     (exists k, transfers w_offered w_accepts (wr_w r) = firstn k (w_words c ow beats)) /\
     (ready_cycles aw_accepts l < 2 + wa_alat a \/ ready_cycles w_accepts l < 1 + (wa_dlat a + length beats) \/
      exists n, n <= length l /\ transfers aw_offered aw_accepts (firstn n (wr_aw r)) = [req] /\
        transfers w_offered w_accepts (firstn n (wr_w r)) = w_words c ow beats /\ Forall (fun i => b_valid i = false) (skipn n l))).
Proof.
  intros [Hb Hl Ha Nb Hp Hoa How Hf Hd].
  destruct (write_run_spec c fuel a p oa ow l Hb Hl Ha Nb Hp Hoa How Hf Hd) as (beats & Eb & Lb & E1 & E2 & S1 & S2 & R).
  exists beats. split; [exact Eb|]. split; [exact Lb|]. cbn zeta. split; [exact E1|]. split; [exact E2|]. split; [exact S1|]. split; [exact S2|].
  destruct R as [(R1 & R2 & R3 & R4 & R5)|(done & nr & i & r' & _ & _ & _ & [C1 C2] & O1 & O2 & _ & _ & Rr & _)].
  - split; [intro N; contradiction|]. intros _. split; [exact R2|]. split; [exact R3|]. split; [exact R4|].
    destruct R5 as [R5|[R5|(n & Hn & [C1 C2] & F)]]; [left; exact R5|right; left; exact R5|]. right; right. exists n. auto.
  - split; [intros _; auto|]. intro E. rewrite E in Rr. unfold response_outcome in Rr. destruct (bval (g_bresp i)) as [v|]; [destruct (v =? 0)%Z|]; discriminate.
Qed.
Lemma response_thm c fuel a p oa ow l : write_ok c fuel a p oa ow l ->
  let r := axi_write c fuel a p oa ow l in wr_result r <> Susp ->
  exists done nr i rest, l = done ++ nr ++ i :: rest /\
    (let complete k := transfers aw_offered aw_accepts (firstn k (wr_aw r)) = transfers aw_offered aw_accepts (wr_aw r) /\
                       transfers w_offered w_accepts (firstn k (wr_w r)) = transfers w_offered w_accepts (wr_w r) in
     complete (length done) /\ forall k, k < length done -> ~ complete k) /\
    Forall (fun i => b_valid i = false) nr /\ b_valid i = true /\ wr_result r = response_outcome (g_bresp i) /\
    wr_rest r = match bval (g_bresp i) with Some _ => rest | None => i :: rest end.
Proof.
  intros [Hb Hl Ha Nb Hp Hoa How Hf Hd] r Hr.
  destruct (write_run_spec c fuel a p oa ow l Hb Hl Ha Nb Hp Hoa How Hf Hd) as (beats & _ & _ & _ & _ & _ & _ & R). fold r in R.
  destruct R as [[R _]|(done & nr & i & r' & El & [D1 D2] & Mn & [C1 C2] & _ & _ & N & B & Rr & Re)]; [contradiction|].
  exists done, nr, i, r'. split; [exact El|]. split; [|auto]. cbn zeta. rewrite C1, C2. split; [split; assumption|].
  intros k Hk [K1 K2]. apply (Mn k Hk). split; assumption.
Qed.
Lemma first_bad_spec rs r : first_bad rs = Some r <-> exists pre post, rs = pre ++ r :: post /\ r <> 0%Z /\ Forall (fun x => x = 0%Z) pre.
Proof.
  unfold first_bad. split.
  - induction rs as [|x rs IH]; [discriminate|]. cbn [find]. destruct (Z.eqb_spec x 0) as [->|N]; cbn [negb].
    + intro H. destruct (IH H) as (pre & post & -> & Nr & F). exists (0%Z :: pre), post. split; [reflexivity|]. split; [exact Nr|]. constructor; auto.
    + intros [= <-]. exists [], rs. auto.
  - intros (pre & post & -> & N & F). induction F as [|x pre -> _ IH]; cbn [app find].
    + destruct (Z.eqb_spec r 0); [contradiction|reflexivity].
    + exact IH.
Qed.

(** two beats with data_latency 1: the first is sent twice *)
Lemma latency_repeats : exists c fuel a p oa ow l beats,
  axi_bus c /\ legal_access (x_bytes c) (wa_address a) (Z.of_nat (length (wa_value a))) (wa_size a) (wa_burst a) /\
  fits_bits (x_awidth c) (wa_address a) /\ wa_be a <> [] /\ may_start (wa_sync a) p /\ aw_offered oa = false /\ w_offered ow = false /\ length l < fuel /\
  write_beats (x_bytes c) (wa_address a) (wa_burst a) (size_or (x_bytes c) (wa_size a)) (wa_value a) (wa_be a) = Ok beats /\
  let r := axi_write c fuel a p oa ow l in
  wr_result r = Done tt /\ length (transfers w_offered w_accepts (wr_w r)) > length beats.
Proof.
  exists (AxiCfg 8 8 true true), 20, (WAccess 0 [1; 2]%Z None INCR [None] 0 1 true), PActive, (AxOut L0 [] [] [] []), (WOut L0 [] [] L0),
    (repeat (AxiIn L1 L1 L1 (zbits 2 0) L0 L0 (zbits 2 0) (zbits 8 0) L0) 10), [(1, 1); (2, 1)]%Z.
  split; [split; [exists 0%Z; split; [lia|reflexivity]|split; [vm_compute; discriminate|reflexivity]]|].
  split. { split; [discriminate|]. split; [cbn; lia|]. intros _ x [H1 H2]. unfold same_page. cbn [wa_address wa_value length] in *.
           assert (H2' : (x < 2)%Z) by exact H2. change (0 / 4096)%Z with 0%Z. symmetry. apply Z.div_small. lia. }
  split; [unfold fits_bits; cbn; lia|]. split; [discriminate|]. split; [discriminate|]. split; [reflexivity|]. split; [reflexivity|]. split; [cbn; lia|].
  split; [reflexivity|]. vm_compute. split; [reflexivity|]. repeat constructor.
Qed.
Lemma address_thm c fuel address n b size delay sync p o l :
  fits_bits (x_awidth c) address -> (1 <= n <= 256)%Z -> power_of_two size -> (size <= 128)%Z ->
  may_start sync p -> aw_offered o = false -> length l < fuel ->
  let '(r, w) := send_write_address c fuel address n b size delay sync (World tt p o [] l) in
  map fst (trace w) ++ ins w = l /\ (forall i, stable aw_offered aw_accepts (trace w ++ [(i, out w)])) /\
  match r with
  | Done _ => transfers aw_offered aw_accepts (trace w) = [ax_request c o address n b size] /\ aw_offered (out w) = false
  | Susp => ins w = [] /\ ready_cycles aw_accepts l < 2 + delay /\
            exists k, transfers aw_offered aw_accepts (trace w) = firstn k [ax_request c o address n b size]
  | _ => False
  end.
Proof.
  intros Ha Hn Ps Ls Hp Ho Hf.
  pose proof (tx_result _ _ _ _ _ _ _ _ _ _ (aw_tx c fuel address n b size delay sync tt p o [] l Ha Hn Ps Ls Hp Ho (free_nil _ _) Hf)
    ltac:(intros ? ? [_ H]; exact (handshake_free _ _ _ H))) as T.
  destruct (send_write_address c fuel address n b size delay sync (World tt p o [] l)) as [r w]. destruct T as (T1 & T2 & T3). split; [exact T1|]. split; [exact T2|].
  destruct r; try exact T3. destruct T3 as [T3 [T4 _]]. auto.
Qed.
