(** TmProp.v -- C136: in which cycles the Avalon-ST drivers have a word on offer. *)
From Verif Require Import Base Async CompatModel DrvUtilModel DrvUtilProof HandshakeSpec AvalonSTModel AvalonSTSpec PktModel PktSpec PktProof TmSpec TmProof.
Local Open Scope list_scope.

(** C136, the driver of single words: a list of sends, each with its sync flag.  The idle cycles
    are those that the valid generator asks for ([gaps], see C30) and one for each sync.  Each word
    is then on offer in every cycle until it is accepted, and the idle cycles of the next word
    follow at once.  The sends return with the last acceptance. *)
Theorem C136_words : forall width hr fuel ws s p o l,
  Forall (fun w => exists d, create_binary (fst w) width false = Ok d) ws -> length l < fuel -> p <> PReadOnly ->
  let '(r, w) := st_send_all width hr fuel ws (World s p o [] l) in
  exists rest,
    on_time (accepts hr) (idles (map snd ws) (gaps (length ws) s)) l (map (fun c => is1 (o_valid (snd c))) (trace w)) rest /\
    match rest with
    | Some l' => r = Done tt /\ ins w = l'
    | None => r = Susp /\ ins w = []
    end.
Proof.
  intros width hr fuel ws s p o l F L P.
  assert (D : exists ds, Forall2 (fun w d => create_binary (fst w) width false = Ok d) ws ds).
  { clear - F. induction F as [|w ws [d D] _ [ds IH]]; [exists []; constructor|exists (d :: ds); constructor; assumption]. }
  destruct D as [ds D]. destruct (st_timing width hr fuel ws ds D s p o [] l L P) as (r & w & new & rest & E & T & O & C).
  rewrite E, T. exists rest. split; [exact O|exact C].
Qed.
Print Assumptions C136_words.

(** C136, the packetized driver: a list of packets, each with its sync flag, on a bus of [k] bytes.
    A packet has one word for each [k] bytes and for a last incomplete one; only its first word
    waits for the edge. *)
Definition words_of (k : nat) (q : packet) : nat := Nat.div (length (p_data q) + k - 1) k.
Theorem C136_packets : forall c k fuel ps s p o l,
  word_bus c k -> Forall (fun q => channel_ok c (p_channel q) /\ p_data q <> []) ps ->
  (forall q, In q ps -> length l + length (p_data q) < fuel) -> p <> PReadOnly ->
  let '(r, w) := pk_send_all c fuel ps (World s p o [] l) in
  exists rest,
    on_time (k_accepts (c_ready c))
      (idles (concat (map (fun q => p_sync q :: repeat false (words_of k q - 1)) ps)) (gaps (list_sum (map (words_of k) ps)) s))
      l (map (fun c => is1 (k_valid (snd c))) (trace w)) rest /\
    match rest with
    | Some l' => r = Done tt /\ ins w = l'
    | None => r = Susp /\ ins w = []
    end.
Proof.
  intros c k fuel ps s p o l B F L P.
  destruct (pk_timing c k B fuel ps F s p o [] l L P) as (r & w & new & rest & E & T & O & C).
  rewrite E, T. exists rest. split; [exact O|exact C].
Qed.
Print Assumptions C136_packets.

(** The cycles of [on_time] are determined by the idle cycles and the receiver. *)
Theorem C136_determined : forall (TI : Type) (acc : TI -> bool) gs l v v' rest rest',
  on_time acc gs l v rest -> on_time acc gs l v' rest' -> v = v' /\ rest = rest'.
Proof. intros TI acc gs l v v' rest rest' H H'. exact (time_fun acc _ _ _ _ H' _ _ H). Qed.
Print Assumptions C136_determined.

(** C136, full speed.  Without a valid generator, and with sync at most on the first word (which is
    what the queue of the driver asks for), a word is on offer in every cycle after the
    synchronising one, and every cycle in which the receiver is ready takes one: the sends
    return once the receiver was ready in as many cycles as there are words, and not before. *)
Theorem C136_full_speed_words : forall width hr fuel v0 sync vs p o l,
  Forall (fun v => exists d, create_binary v width false = Ok d) (v0 :: vs) -> length l < fuel -> p <> PReadOnly ->
  let '(r, w) := st_send_all width hr fuel ((v0, sync) :: map (fun v => (v, false)) vs)
                   (World (set_valid_generator None) p o [] l) in
  let x := if sync then 1 else 0 in
  let on := map (fun c => is1 (o_valid (snd c))) (trace w) in
  (r = Done tt /\ exists m, on = repeat false x ++ repeat true m /\ ins w = skipn (x + m) l /\
     HandshakeSpec.ready_cycles (accepts hr) (firstn m (skipn x l)) = length (v0 :: vs)) \/
  (r = Susp /\ on = repeat false (Nat.min x (length l)) ++ repeat true (length l - x) /\
     HandshakeSpec.ready_cycles (accepts hr) (skipn x l) < length (v0 :: vs)).
Proof.
  intros width hr fuel v0 sync vs p o l F L P.
  set (ws := (v0, sync) :: map (fun v => (v, false)) vs).
  assert (F' : Forall (fun w => exists d, create_binary (fst w) width false = Ok d) ws).
  { unfold ws. constructor; [exact (Forall_inv F)|]. apply Forall_map. exact (Forall_inv_tail F). }
  pose proof (C136_words width hr fuel ws (set_valid_generator None) p o l F' L P) as H.
  destruct (st_send_all width hr fuel ws (World (set_valid_generator None) p o [] l)) as [r w].
  destruct H as (rest & T & C). cbv zeta.
  assert (I : idles (map snd ws) (gaps (length ws) (set_valid_generator None)) = (if sync then 1 else 0) :: repeat 0 (length vs)).
  { rewrite gaps_none. unfold ws. cbn [map snd length repeat]. rewrite map_map, map_length. cbn [snd].
    unfold idles. cbn [combine map fst snd]. f_equal; [destruct sync; reflexivity|].
    clear. induction vs as [|v vs IH]; [reflexivity|]. cbn [map length repeat combine fst snd]. f_equal. exact IH. }
  rewrite I in T. apply time_first in T. cbn [length]. destruct rest as [l'|].
  - left. destruct C as [-> ->]. split; [reflexivity|]. destruct T as (m & A & B & D). exists m. auto.
  - right. destruct C as [-> _]. destruct T as [A B]. auto.
Qed.
Print Assumptions C136_full_speed_words.

Theorem C136_full_speed_packets : forall c k fuel q0 qs p o l,
  word_bus c k -> Forall (fun q => channel_ok c (p_channel q) /\ p_data q <> []) (q0 :: qs) ->
  (forall q, In q (q0 :: qs) -> length l + length (p_data q) < fuel) -> p <> PReadOnly ->
  Forall (fun q => p_sync q = false) qs ->
  let '(r, w) := pk_send_all c fuel (q0 :: qs) (World (set_valid_generator None) p o [] l) in
  let x := if p_sync q0 then 1 else 0 in
  let on := map (fun c => is1 (k_valid (snd c))) (trace w) in
  let n := list_sum (map (words_of k) (q0 :: qs)) in
  (r = Done tt /\ exists m, on = repeat false x ++ repeat true m /\ ins w = skipn (x + m) l /\
     HandshakeSpec.ready_cycles (k_accepts (c_ready c)) (firstn m (skipn x l)) = n) \/
  (r = Susp /\ on = repeat false (Nat.min x (length l)) ++ repeat true (length l - x) /\
     HandshakeSpec.ready_cycles (k_accepts (c_ready c)) (skipn x l) < n).
Proof.
  intros c k fuel q0 qs p o l B F L P Sy.
  pose proof (C136_packets c k fuel (q0 :: qs) (set_valid_generator None) p o l B F L P) as H.
  destruct (pk_send_all c fuel (q0 :: qs) (World (set_valid_generator None) p o [] l)) as [r w].
  destruct H as (rest & T & C). cbv zeta.
  assert (Wp : forall q, In q (q0 :: qs) -> 0 < words_of k q).
  { intros q I. rewrite Forall_forall in F. destruct (F q I) as [_ N]. unfold words_of. change (0 < nwords k (length (p_data q))). rewrite (nwords_S c k B _ N). lia. }
  assert (G : concat (map (fun q => p_sync q :: repeat false (words_of k q - 1)) qs) = repeat false (list_sum (map (words_of k) qs))).
  { assert (W : forall q, In q qs -> 0 < words_of k q) by (intros q I; apply Wp; right; exact I).
    clear - Sy W. induction Sy as [|q qs H _ IH]; [reflexivity|]. change (list_sum (map (words_of k) (q :: qs))) with (words_of k q + list_sum (map (words_of k) qs)).
    cbn [map concat]. rewrite H, IH by (intros q' I; apply W; right; exact I). rewrite repeat_app. f_equal.
    specialize (W q (or_introl eq_refl)). destruct (words_of k q) as [|n]; [lia|]. cbn [repeat]. f_equal. f_equal. lia. }
  set (n := list_sum (map (words_of k) (q0 :: qs))) in *.
  assert (N : n = S (words_of k q0 - 1 + list_sum (map (words_of k) qs))).
  { unfold n. change (list_sum (map (words_of k) (q0 :: qs))) with (words_of k q0 + list_sum (map (words_of k) qs)).
    pose proof (Wp q0 (or_introl eq_refl)). lia. }
  assert (I : idles (concat (map (fun q => p_sync q :: repeat false (words_of k q - 1)) (q0 :: qs))) (gaps n (set_valid_generator None))
              = (if p_sync q0 then 1 else 0) :: repeat 0 (n - 1)).
  { rewrite gaps_none. cbn [map concat]. rewrite G. cbn [app]. rewrite <- repeat_app, N. cbn [repeat].
    unfold idles at 1. cbn [combine map fst snd]. f_equal; [destruct (p_sync q0); reflexivity|].
    rewrite Nat.sub_succ, Nat.sub_0_r. apply idles_no_sync. apply repeat_length. }
  rewrite I in T. apply time_first in T. destruct rest as [l'|].
  - left. destruct C as [-> ->]. split; [reflexivity|]. destruct T as (m & A & D & E). exists m. repeat split; auto. lia.
  - right. destruct C as [-> _]. destruct T as [A D]. repeat split; auto. lia.
Qed.
Print Assumptions C136_full_speed_packets.

(** ** cases *)
Notation hi := L1 (only parsing).
(** three words with a generator asking for 1 on, 2 off: the idle cycles are 1 (sync), 2 and 2, and
    the sink refuses the second word once *)
Definition ext_gen : valid := set_valid_generator (Some [(1, 2); (1, 2); (1, 0)]%Z).
Definition ext_l : list logic := [hi; hi; hi; hi; L0; hi; hi; hi; hi; hi; hi; hi].
Example ext_words :
  let '(r, w) := st_send_all 8 true 20 [(BInt 1, true); (BInt 2, false); (BInt 3, false)] (World ext_gen PActive (StOut L0 (xs 8)) [] ext_l) in
  r = Done tt /\ length (ins w) = 3 /\
  map (fun c => is1 (o_valid (snd c))) (trace w) = [false; true; false; false; true; true; false; false; true] /\
  idles [true; false; false] (gaps 3 ext_gen) = [1; 2; 2].
Proof. vm_compute. repeat split. Qed.

(** two packets of five and four bytes on a bus of four bytes: three words *)
Definition ext_l2 : list logic := [hi; hi; L0; hi; hi; hi; hi].
Definition ext_c : pcfg := PCfg 32 8 true None true (Some 2) None false 0 false.
Definition ext_ps : list packet := [Packet [1; 2; 3; 4; 5]%Z true None; Packet [6; 7; 8; 9]%Z false None].
Lemma ext_bus : word_bus ext_c 4.
Proof. constructor; try reflexivity; cbn; try lia. intros _. exists 2. split; [reflexivity|cbn; lia]. Qed.
Example ext_packets :
  word_bus ext_c 4 /\ Forall (fun q => channel_ok ext_c (p_channel q) /\ p_data q <> []) ext_ps /\
  map (words_of 4) ext_ps = [2; 1] /\
  let '(r, w) := pk_send_all ext_c 40 ext_ps (World (set_valid_generator None) PActive (pk_init_out ext_c) [] ext_l2) in
  r = Done tt /\ length (ins w) = 2 /\
  map (fun c => is1 (k_valid (snd c))) (trace w) = [false; true; true; true; true] /\
  HandshakeSpec.ready_cycles (k_accepts true) (firstn 4 (skipn 1 ext_l2)) = 3.
Proof.
  split; [exact ext_bus|]. split; [repeat constructor; discriminate|]. vm_compute. repeat split.
Qed.
