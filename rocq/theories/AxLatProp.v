(** AxLatProp.v -- C56: the write data channel with data_latency. *)
From Verif Require Import Base Async CompatModel PktModel HandshakeSpec AxiModel AxiSpec AxLatSpec AxLatProof.
Local Open Scope list_scope.

(** the words of a write, as WDATA, WSTRB and WLAST present them *)
Definition words_of (c : axi_cfg) (a : waccess) (ow : w_out) (ws : list w_out) : Prop :=
  exists beats, write_beats (x_bytes c) (wa_address a) (wa_burst a) (size_or (x_bytes c) (wa_size a)) (wa_value a) (wa_be a) = Ok beats /\
    length beats = length (wa_value a) /\ ws = w_words c ow beats.
Lemma words_length c ow beats : length (w_words c ow beats) = length beats.
Proof. induction beats as [|b r IH]; [reflexivity|]. cbn [w_words length]. rewrite IH. reflexivity. Qed.

(** C56, for every write, latency and ready pattern: exactly which words the slave takes.
    After the call and the first delay the words are offered in order; each but the last is
    still offered during the delay before the next one ([taken], AxLatSpec.v). *)
Theorem C56_data_partial : forall c fuel a p oa ow l, write_any c fuel a p oa ow l ->
  exists ws, words_of c a ow ws /\ let r := axi_write c fuel a p oa ow l in
    map fst (wr_w r) ++ wr_rest r = l /\
    transfers w_offered w_accepts (wr_w r)
    = taken w_accepts (wa_dlat a) ws (skipn ((if wa_sync a then 1 else 0) + wa_dlat a) l).
Proof.
  intros c fuel a p oa ow l [H1 H2 H3 H4 H5 H6 H7 H8]. destruct (write_taken c fuel a p oa ow l H1 H2 H3 H4 H5 H6 H7 H8) as (beats & E & L & A & B & _).
  exists (w_words c ow beats). split; [exists beats; auto|]. split; [exact A|exact B].
Qed.
Print Assumptions C56_data_partial.

(** When the write has ended, every word was taken, in order, at least once and at most
    1 + data_latency times, and the last one exactly once. *)
Theorem C56_counts_partial : forall c fuel a p oa ow l, write_any c fuel a p oa ow l ->
  let r := axi_write c fuel a p oa ow l in wr_result r <> Susp ->
  exists ws ks, words_of c a ow ws /\ length ks = length ws /\ Forall (fun k => 1 <= k <= S (wa_dlat a)) ks /\ last ks 1 = 1 /\
    transfers w_offered w_accepts (wr_w r) = flat_map (fun x => repeat (fst x) (snd x)) (combine ws ks).
Proof.
  intros c fuel a p oa ow l [H1 H2 H3 H4 H5 H6 H7 H8] r Hr. destruct (write_taken c fuel a p oa ow l H1 H2 H3 H4 H5 H6 H7 H8) as (beats & E & L & A & B & C).
  assert (Hn : w_words c ow beats <> []).
  { intro N. apply (f_equal (@length _)) in N. rewrite words_length, L in N. destruct H2 as [_ [H2 _]]. destruct (wa_burst a); cbn in N, H2; lia. }
  destruct (finished_counts w_accepts (wa_dlat a) (w_words c ow beats) _ Hn ltac:(rewrite words_length; exact (C Hr))) as (ks & K1 & K2 & K3 & K4).
  exists (w_words c ow beats), ks. split; [exists beats; auto|]. repeat (split; [assumption|]). rewrite <- K4. exact B.
Qed.
Print Assumptions C56_counts_partial.

(** C56, false for every data_latency > 0 and more than one value with a slave that is always
    ready: every word but the last is taken 1 + data_latency times. *)
Theorem C56_always_ready_refuted : forall c fuel a p oa ow l, write_any c fuel a p oa ow l ->
  0 < wa_dlat a -> 2 <= length (wa_value a) ->
  Forall (fun i => w_accepts i = true) l -> 1 + wa_dlat a + length (wa_value a) * S (wa_dlat a) <= length l ->
  exists ws, words_of c a ow ws /\
    transfers w_offered w_accepts (wr_w (axi_write c fuel a p oa ow l)) = all_but_last (S (wa_dlat a)) ws /\
    length (all_but_last (S (wa_dlat a)) ws) > length ws.
Proof.
  intros c fuel a p oa ow l H Hd Hn Hl Hlen. destruct (C56_data_partial c fuel a p oa ow l H) as (ws & W & _ & E). exists ws. split; [exact W|].
  destruct W as (beats & _ & L & ->). split.
  - rewrite E. apply taken_ready; [apply Forall_fs; exact Hl|]. rewrite words_length, skipn_length, L. destruct (wa_sync a); lia.
  - assert (N : 2 <= length (w_words c ow beats)) by (rewrite words_length; lia). clear - N Hd.
    assert (G : forall ws : list w_out, length ws <= length (all_but_last (S (wa_dlat a)) ws)).
    { induction ws as [|w [|w2 ws] IH]; [cbn; lia|cbn; lia|]. change (all_but_last (S (wa_dlat a)) (w :: w2 :: ws)) with (repeat w (S (wa_dlat a)) ++ all_but_last (S (wa_dlat a)) (w2 :: ws)).
      rewrite app_length, repeat_length. cbn [length] in *. lia. }
    destruct (w_words c ow beats) as [|w [|w2 ws]]; cbn [length] in N; try lia. change (all_but_last (S (wa_dlat a)) (w :: w2 :: ws)) with (repeat w (S (wa_dlat a)) ++ all_but_last (S (wa_dlat a)) (w2 :: ws)).
    rewrite app_length, repeat_length. specialize (G (w2 :: ws)). cbn [length] in *. lia.
Qed.
Print Assumptions C56_always_ready_refuted.

(** C56 holds with a slave that is not ready in the data_latency cycles after each cycle in
    which it was: every word once, in order. *)
Theorem C56_pausing_partial : forall c fuel a p oa ow l, write_any c fuel a p oa ow l -> pauses w_accepts (wa_dlat a) l ->
  exists ws, words_of c a ow ws /\ let r := axi_write c fuel a p oa ow l in
    (exists k, transfers w_offered w_accepts (wr_w r) = firstn k ws) /\
    (wr_result r <> Susp -> transfers w_offered w_accepts (wr_w r) = ws).
Proof.
  intros c fuel a p oa ow l H Hp. pose proof (C56_counts_partial c fuel a p oa ow l H) as HC. destruct (C56_data_partial c fuel a p oa ow l H) as (ws & W & _ & E). exists ws. split; [exact W|].
  cbn zeta. destruct (taken_pauses w_accepts (wa_dlat a) ws (skipn ((if wa_sync a then 1 else 0) + wa_dlat a) l) (pauses_skip _ _ _ _ Hp)) as [k Ek].
  rewrite <- E in Ek. split; [exists k; exact Ek|]. intro Hr. destruct (HC Hr) as (ws' & ks & W' & K1 & K2 & K3 & K4).
  assert (ws' = ws). { destruct W as (b1 & E1 & _ & ->), W' as (b2 & E2 & _ & ->). congruence. } subst ws'.
  rewrite K4 in Ek |- *. apply (counts_one ws ks k K1); [|exact Ek]. eapply Forall_impl; [|exact K2]. cbn. intros. lia.
Qed.
Print Assumptions C56_pausing_partial.

(** Examples: two values with data_latency 1; a slave that is always ready, and one that is
    ready in every second cycle, whose cycles show that a word may also be withdrawn before
    it is taken *)
Definition exl_cfg := AxiCfg 8 8 true true.
Definition exl_a := WAccess 0 [1; 2]%Z None INCR [None] 0 1 true.
Definition exl_in (r b : logic) := AxiIn r r b (zbits 2 0) L0 L0 (zbits 2 0) (zbits 8 0) L0.
Definition exl_oa := AxOut L0 [] [] [] [].
Definition exl_ow := WOut L0 [] [] L0.
Example exl_any l : length l < 20 -> write_any exl_cfg 20 exl_a PActive exl_oa exl_ow l.
Proof.
  intro H. constructor; try reflexivity; try discriminate; try exact H.
  - split; [exists 0%Z; split; [lia|reflexivity]|split; [vm_compute; discriminate|reflexivity]].
  - split; [discriminate|]. split; [cbn; lia|]. intros _ x [H1 H2]. unfold same_page. cbn [wa_address wa_value length exl_a] in *.
    assert (H2' : (x < 2)%Z) by exact H2. change (0 / 4096)%Z with 0%Z. symmetry. apply Z.div_small. lia.
  - unfold fits_bits. cbn. lia.
Qed.
Example exl_ready : let r := axi_write exl_cfg 20 exl_a PActive exl_oa exl_ow (repeat (exl_in L1 L1) 10) in
  wr_result r = Done tt /\ map (fun w => bval (x_wdata w)) (transfers w_offered w_accepts (wr_w r)) = [Some 1; Some 1; Some 2]%Z.
Proof. vm_compute. split; reflexivity. Qed.
Definition exl_slow := [exl_in L0 L0; exl_in L1 L0; exl_in L0 L0; exl_in L1 L0; exl_in L0 L0; exl_in L1 L0; exl_in L0 L1; exl_in L0 L1].
Example exl_pauses : pauses w_accepts 1 exl_slow.
Proof.
  intros pre i mid post E A L. destruct mid as [|j [|k mid]]; [constructor| |cbn in L; lia]. constructor; [|constructor].
  unfold exl_slow in E.
  do 8 (destruct pre as [|? pre]; cbn [app] in E; [inversion E; subst; first [discriminate A|reflexivity]|apply (f_equal (@tl _)) in E; cbn [tl] in E]).
  destruct pre; discriminate.
Qed.
Example exl_paused : let r := axi_write exl_cfg 20 exl_a PActive exl_oa exl_ow exl_slow in
  wr_result r = Done tt /\ map (fun w => bval (x_wdata w)) (transfers w_offered w_accepts (wr_w r)) = [Some 1; Some 2]%Z /\
  ~ stable w_offered w_accepts (wr_w r).
Proof.
  vm_compute. split; [reflexivity|]. split; [reflexivity|]. intros H.
  repeat match goal with H : _ /\ _ |- _ => destruct H end.
  repeat match goal with H : ?a = ?a -> _ |- _ => specialize (H eq_refl) end. repeat match goal with H : ?a = ?a -> _ |- _ => specialize (H eq_refl) end. congruence.
Qed.
