(** XgGapProof.v *)
From Verif Require Import Base CompatModel BitsLemmas Async XgModel XgSpec XgProof XgDrvProof XgTopProof XgGapSpec.
Local Open Scope list_scope.

Lemma gaps_data b xs rest : is_char 253 (data b) = false /\ gaps_from None (map data xs ++ rest) = gaps_from None rest.
Proof. split; [reflexivity|]. induction xs as [|x xs IH]; [reflexivity|]. exact IH. Qed.
Lemma gaps_idle_none k rest : gaps_from None (repeat IDLE' k ++ rest) = gaps_from None rest.
Proof. induction k as [|k IH]; [reflexivity|]. exact IH. Qed.
Lemma gaps_idle_some k : forall m rest, gaps_from (Some m) (repeat IDLE' k ++ rest) = gaps_from (Some (m + k)) rest.
Proof.
  induction k as [|k IH]; intros m rest; [rewrite Nat.add_0_r; reflexivity|]. cbn [repeat app gaps_from is_char IDLE' fst snd andb].
  change (7 =? 253)%Z with false. change (7 =? 251)%Z with false. cbn match. rewrite IH. f_equal. f_equal. lia.
Qed.
Lemma gaps_frame_none crc p k rest : gaps_from None (frame crc p k ++ rest) = gaps_from (Some (1 + k)) rest.
Proof.
  unfold frame. cbn [app gaps_from is_char START fst snd andb]. change (251 =? 253)%Z with false. cbn match. rewrite <- app_assoc.
  rewrite (proj2 (gaps_data 0 _ _)). cbn [app gaps_from]. change (is_char 253 TERMINATE) with true. cbn match. apply gaps_idle_some.
Qed.
Lemma gaps_frame_some crc p k m rest : gaps_from (Some m) (frame crc p k ++ rest) = m :: gaps_from (Some (1 + k)) rest.
Proof.
  rewrite <- (gaps_frame_none crc p k rest). unfold frame. cbn [app gaps_from]. change (is_char 253 START) with false. change (is_char 251 START) with true. reflexivity.
Qed.

Section N.
Context (n : nat) (inter : bool) (crc32 : bytes -> Z) (Hn : 1 <= n).

Definition lanes_of (s : nat * bool * bytes) : list lane := repeat IDLE' (n * lead s) ++ frame crc32 (snd s) (idles_after n (snd s)).

Lemma concat_len (ws : list (list lane)) : Forall (fun w => length w = n) ws -> length (concat ws) = n * length ws.
Proof. induction 1 as [|w ws H _ IH]; cbn [concat length]; [lia|]. rewrite app_length, IH, H. lia. Qed.
Lemma frame_len p k : length (frame crc32 p k) = chars p + k.
Proof. unfold frame, chars. cbn [length]. rewrite app_length, map_length, !app_length. cbn [length le32 map]. rewrite repeat_length. lia. Qed.

Lemma tail_unique c k w : n * w = c + k -> n <= k < 2 * n -> k = (n - c mod n) mod n + n /\ w = (c + n - 1) / n + 1.
Proof.
  intros E K. pose proof (Nat.div_mod c n ltac:(lia)) as D. pose proof (Nat.mod_upper_bound c n ltac:(lia)) as B. split.
  - assert (k - n = (n - c mod n) mod n); [|lia]. destruct (Nat.eq_dec (c mod n) 0) as [Z|NZ].
    + rewrite Z, Nat.sub_0_r, Nat.mod_same by lia.
      assert (n * (w - c / n) = k) by (rewrite Nat.mul_sub_distr_l; lia). assert (w - c / n < 2) by nia. assert (w - c / n = 1) by nia. nia.
    + rewrite Nat.mod_small by lia. assert (n * w = n * (c / n) + (c mod n + k)) by lia. assert (n * (w - c / n) = c mod n + k) by (rewrite Nat.mul_sub_distr_l; lia).
      assert (w - c / n < 3) by nia. assert (1 < w - c / n) by nia. assert (w - c / n = 2) by lia. nia.
  - assert ((c + n - 1) / n = w - 1); [|nia]. symmetry. destruct w as [|w]; [lia|].
    apply (Nat.div_unique _ _ _ (c + n - 1 - n * w)); nia.
Qed.

Lemma words_frame p : fills_word n p ->
  Forall (fun w => length w = n) (pkt_words n crc32 p) /\ concat (pkt_words n crc32 p) = frame crc32 p (idles_after n p) /\ length (pkt_words n crc32 p) = words_of n p.
Proof.
  intro Hf. destruct (pkt_words_frame n crc32 Hn p Hf) as (k & K & E & F & _).
  pose proof (concat_len _ F) as L. rewrite E, frame_len in L. destruct (tail_unique (chars p) k _ (eq_sym L) K) as [Hk Hw].
  split; [exact F|]. split; [rewrite E, Hk; reflexivity|exact Hw].
Qed.
Lemma concat_idle j : concat (repeat (repeat IDLE' n) j) = repeat IDLE' (n * j).
Proof. induction j as [|j IH]; [rewrite Nat.mul_0_r; reflexivity|]. cbn [repeat concat]. rewrite IH, <- repeat_app. f_equal. lia. Qed.

Lemma stream_lanes sends : Forall (fun s => fills_word n (snd s)) sends ->
  concat (flat_map (send_stream n crc32) sends) = flat_map lanes_of sends /\ length (flat_map (send_stream n crc32) sends) = cycles n sends.
Proof.
  induction 1 as [|[[g sy] p] r Hf _ [IH1 IH2]]; [split; reflexivity|]. cbn [snd] in Hf. destruct (words_frame p Hf) as (F & E & L).
  cbn [flat_map]. rewrite concat_app, app_length, IH1, IH2. unfold cycles, lanes_of, lead, send_stream. cbn [map list_sum fst snd].
  change (list_sum (?a :: ?l)) with (a + list_sum l). rewrite !concat_app, E, !app_length, L, repeat_length, concat_idle. split.
  - f_equal. rewrite app_assoc. f_equal. destruct sy; cbn [concat]; rewrite ?app_nil_r, <- ?repeat_app; f_equal; lia.
  - destruct sy; cbn [length]; cbn [fold_right]; unfold list_sum; lia.
Qed.

Lemma gaps_stream sends : packet_gaps (flat_map lanes_of sends) = spacing n sends.
Proof.
  assert (G : forall s1 r m, gaps_from (Some m) (flat_map lanes_of (s1 :: r)) = (m + n * lead s1) :: spacing n (s1 :: r)).
  { intros s1 r. revert s1. induction r as [|s2 r IH]; intros s1 m; cbn [flat_map]; unfold lanes_of at 1; rewrite <- app_assoc, gaps_idle_some, gaps_frame_some; [reflexivity|].
    cbn [spacing]. f_equal. apply IH. }
  unfold packet_gaps. destruct sends as [|s1 r]; [reflexivity|]. cbn [flat_map]. unfold lanes_of at 1. rewrite <- app_assoc, gaps_idle_none, gaps_frame_none.
  destruct r as [|s2 r]; [reflexivity|]. cbn [spacing]. apply G.
Qed.

Lemma sends_lanes sends o p l : p <> PReadOnly -> carries inter o (repeat IDLE' n) ->
  Forall (fun s => fills_word n (snd s) /\ all_bytes (snd s)) sends ->
  exists lss, concat lss = flat_map lanes_of sends /\ Forall (fun w => length w = n) lss /\ length lss = cycles n sends /\
  let '(r, w) := send_all (9 * n) inter true crc32 sends (World 0%Z p o [] l) in
    Forall2 (carries inter) (map snd (trace w)) (firstn (length l) lss) /\
    (cycles n sends <= length l -> r = Done tt /\ length (trace w) = cycles n sends) /\ (length l < cycles n sends -> r = Susp).
Proof.
  intros Hp C B. assert (A : all_fill n sends) by (unfold all_fill; eapply Forall_impl; [|exact B]; intros ? [? _]; assumption).
  destruct (stream_lanes sends A) as [S1 S2]. exists (flat_map (send_stream n crc32) sends). split; [exact S1|]. split; [apply send_stream_len; [exact Hn|exact A]|]. split; [exact S2|].
  destruct (emits_all n inter crc32 Hn sends B o p [] l Hp C) as [Y N]. rewrite <- S2.
  destruct (le_lt_dec (length (flat_map (send_stream n crc32) sends)) (length l)) as [G|G].
  - destruct (Y G) as (ws & o' & p' & Fw & C' & _ & R). rewrite R. cbn [trace].
    cbn [app]. rewrite (map_snd_combine n Hn) by (rewrite firstn_length; pose proof (Forall2_len _ _ _ Fw); lia).
    split; [rewrite firstn_all2 by exact G; exact Fw|]. split; [|lia]. intros _. split; [reflexivity|].
    pose proof (Forall2_len _ _ _ Fw). cbn [app]. rewrite combine_length, firstn_length. lia.
  - destruct (N G) as (ws & w' & Fw & R & T & _). rewrite R. rewrite T. cbn [app].
    rewrite (map_snd_combine n Hn) by (pose proof (Forall2_len _ _ _ Fw) as Q; rewrite firstn_length in Q; lia).
    split; [exact Fw|]. split; [lia|reflexivity].
Qed.
End N.
