(** RspProp.v -- C141: Avalon-ST transmission to receivers that answer within D cycles. *)
From Verif Require Import Base Async CompatModel DrvUtilModel DrvUtilProof HandshakeSpec AvalonSTModel AvalonSTSpec PktModel PktSpec PktProof TmSpec TmProof AxTmProof TmProp RspSpec RspProof.
Local Open Scope list_scope.

Definition syncs_in (bs : list bool) : nat := length (filter (fun b : bool => b) bs).

(** C141, single words.  Whatever the receiver does with ready while valid is low, and however
    ready depends on what it has seen (it may wait for valid): if it accepts at least once in any
    [D] cycles with valid high, the sends take no more than [bound] cycles and return. *)
Theorem C141_words : forall width hr fuel ws s p o l D,
  Forall (fun w => exists d, create_binary (fst w) width false = Ok d) ws -> length l < fuel -> p <> PReadOnly ->
  let '(r, w) := st_send_all width hr fuel ws (World s p o [] l) in
  let on := map (fun c => is1 (o_valid (snd c))) (trace w) in
  let bound := syncs_in (map snd ws) + list_sum (gaps (length ws) s) + D * length ws in
  answers_within (accepts hr) D (combine l on) ->
  length (trace w) <= bound /\ (bound < length l -> r = Done tt).
Proof.
  intros width hr fuel ws s p o l D F L P. pose proof (C136_words width hr fuel ws s p o l F L P) as H.
  destruct (st_send_all width hr fuel ws (World s p o [] l)) as [r w]. destruct H as (rest & T & C). cbv zeta. intro A.
  pose proof (rsp_bound _ D _ _ _ _ T A) as B. destruct (idles_sum (map snd ws) (gaps (length ws) s)) as [E1 E2]; [rewrite map_length, gaps_len; reflexivity|].
  rewrite E1, E2, gaps_len, map_length in B. fold (syncs_in (map snd ws)) in B. split; [exact B|]. intro Q.
  pose proof (time_length _ _ _ _ _ T) as Lt. destruct rest as [l'|]; [apply C|]. rewrite map_length in Lt. lia.
Qed.
Print Assumptions C141_words.

(** C141, packets on a bus of [k] bytes *)
Theorem C141_packets : forall c k fuel ps s p o l D,
  word_bus c k -> Forall (fun q => channel_ok c (p_channel q) /\ p_data q <> []) ps ->
  (forall q, In q ps -> length l + length (p_data q) < fuel) -> p <> PReadOnly ->
  let '(r, w) := pk_send_all c fuel ps (World s p o [] l) in
  let on := map (fun c => is1 (k_valid (snd c))) (trace w) in
  let n := list_sum (map (words_of k) ps) in
  let bound := syncs_in (map p_sync ps) + list_sum (gaps n s) + D * n in
  answers_within (k_accepts (c_ready c)) D (combine l on) ->
  length (trace w) <= bound /\ (bound < length l -> r = Done tt).
Proof.
  intros c k fuel ps s p o l D W F L P. pose proof (C136_packets c k fuel ps s p o l W F L P) as H.
  destruct (pk_send_all c fuel ps (World s p o [] l)) as [r w]. destruct H as (rest & T & C). cbv zeta. intro A.
  pose proof (rsp_bound _ D _ _ _ _ T A) as B.
  assert (K : 0 < k) by exact (wb_pos _ _ W).
  assert (S : length (concat (map (fun q => p_sync q :: repeat false (words_of k q - 1)) ps)) = list_sum (map (words_of k) ps) /\
              syncs_in (concat (map (fun q => p_sync q :: repeat false (words_of k q - 1)) ps)) = syncs_in (map p_sync ps)).
  { clear - F K. induction F as [|q ps [_ N] _ [IH1 IH2]]; [split; reflexivity|]. cbn [map concat].
    change (list_sum (words_of k q :: map (words_of k) ps)) with (words_of k q + list_sum (map (words_of k) ps)).
    assert (Wq : 1 <= words_of k q).
    { unfold words_of. destruct (p_data q) as [|b r]; [contradiction|]. cbn [length]. apply Nat.div_le_lower_bound; lia. }
    split.
    - rewrite app_length, IH1. cbn [length]. rewrite repeat_length. lia.
    - unfold syncs_in in *. rewrite filter_app, app_length, IH2. cbn [filter].
      assert (Z : forall n, filter (fun b : bool => b) (repeat false n) = []) by (induction n; auto).
      destruct (p_sync q); rewrite Z; cbn [length]; lia. }
  destruct S as [S1 S2]. destruct (idles_sum _ (gaps (list_sum (map (words_of k) ps)) s) ltac:(rewrite S1, gaps_len; reflexivity)) as [E1 E2].
  rewrite E1, E2, gaps_len, map_length in B. fold (syncs_in (concat (map (fun q => p_sync q :: repeat false (words_of k q - 1)) ps))) in B. rewrite S2 in B. split; [exact B|]. intro Q.
  pose proof (time_length _ _ _ _ _ T) as Lt. destruct rest as [l'|]; [apply C|]. rewrite map_length in Lt. lia.
Qed.
Print Assumptions C141_packets.

(** ** cases: a sink that gives ready only after it has seen valid for a cycle *)
Definition exr_check {TI} (acc : TI -> bool) (D : nat) (tr : list (TI * bool)) : bool :=
  forallb (fun k => negb (forallb snd (firstn D (skipn k tr))) || existsb (fun y => acc (fst y)) (firstn D (skipn k tr))) (seq 0 (S (length tr - D))).
Lemma exr_ok {TI} (acc : TI -> bool) D tr : exr_check acc D tr = true -> answers_within acc D tr.
Proof.
  intros H b w f -> L V. unfold exr_check in H. rewrite forallb_forall in H. specialize (H (length b)).
  rewrite skipn_app, skipn_all, Nat.sub_diag in H. cbn [skipn app] in H. rewrite firstn_app, <- L, firstn_all, Nat.sub_diag, firstn_O, app_nil_r, V in H. cbn [negb orb] in H.
  apply H. apply in_seq. rewrite !app_length. lia.
Qed.
Definition exr_l : list logic := [L0; L0; hi; L0; L0; L0; hi; L0; L0; L0; hi; L0; L0; L0].
Example exr_words :
  let '(r, w) := st_send_all 8 true 20 [(BInt 1, true); (BInt 2, false); (BInt 3, false)] (World ext_gen PActive (StOut L0 (xs 8)) [] exr_l) in
  let on := map (fun c => is1 (o_valid (snd c))) (trace w) in
  answers_within (accepts true) 2 (combine exr_l on) /\ r = Done tt /\ length (trace w) = 11 /\ syncs_in [true; false; false] + list_sum (gaps 3 ext_gen) + 2 * 3 = 11.
Proof.
  destruct (st_send_all 8 true 20 [(BInt 1, true); (BInt 2, false); (BInt 3, false)] (World ext_gen PActive (StOut L0 (xs 8)) [] exr_l)) as [r w] eqn:E.
  vm_compute in E. injection E as <- <-. cbv zeta. split; [apply exr_ok; vm_compute; reflexivity|]. vm_compute. repeat split.
Qed.
Definition exr_l2 : list logic := [L0; L0; hi; L0; hi; L0; hi; L0; L0].
Example exr_packets :
  let '(r, w) := pk_send_all ext_c 40 ext_ps (World (set_valid_generator None) PActive (pk_init_out ext_c) [] exr_l2) in
  let on := map (fun c => is1 (k_valid (snd c))) (trace w) in
  answers_within (k_accepts true) 2 (combine exr_l2 on) /\ r = Done tt /\ length (trace w) = 7 /\ 1 + 0 + 2 * 3 = 7.
Proof.
  destruct (pk_send_all ext_c 40 ext_ps (World (set_valid_generator None) PActive (pk_init_out ext_c) [] exr_l2)) as [r w] eqn:E.
  vm_compute in E. injection E as <- <-. cbv zeta. split; [apply exr_ok; vm_compute; reflexivity|]. vm_compute. repeat split.
Qed.
