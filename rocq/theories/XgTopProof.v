(** XgTopProof.v -- the XGMII theorems *)
From Verif Require Import Base CompatModel BitsLemmas Async XgModel XgSpec XgProof XgDrvProof XgMonProof.
Local Open Scope nat_scope.

(** every list of lanes is carried by some word *)
Lemma carries_exists inter (ls : list lane) : Forall (fun v => is_byte (fst v)) ls -> exists w, carries inter w ls.
Proof.
  intro B. destruct (encode_ok (length ls) inter (at_lanes (fun j => nth j ls (0%Z, false)) (seq 0 (length ls)))) as (I & _ & _ & C).
  - unfold ok_asg, at_lanes. apply Forall_map, Forall_forall. intros j Hj. apply in_seq in Hj. cbn [fst snd]. split; [lia|].
    rewrite Forall_forall in B. apply B. apply nth_In. lia.
  - unfold at_lanes. rewrite map_map. cbn. rewrite map_id. apply seq_NoDup.
  - exists (zbits (9 * length ls) I).
    replace (map (assigned (at_lanes (fun j => nth j ls (0%Z, false)) (seq 0 (length ls)))) (seq 0 (length ls))) with ls in C; [exact C|].
    symmetry. apply map_seq_nth. intros i Hi. rewrite assigned_at_lanes by (apply in_seq; lia). apply nth_error_nth'. exact Hi.
Qed.
Lemma carries_exist_all inter lss : Forall (Forall (fun v : lane => is_byte (fst v))) lss -> exists ws, Forall2 (carries inter) ws lss.
Proof.
  induction 1 as [|ls lss B _ (ws & F)]; [exists []; constructor|]. destruct (carries_exists inter ls B) as [w C].
  exists (w :: ws). constructor; assumption.
Qed.

(** ** C61 *)
Lemma encode_decode n inter asg p o tr l : 1 <= n -> ok_asg n asg -> NoDup (map fst asg) ->
  exists w, carries inter w (map (assigned asg) (seq 0 n)) /\
    bind (for_each (fun a => set_lane (9 * n) inter (fst a) (snd a)) asg) (fun _ => bus_value (9 * n) true)
      (World 0%Z p o tr l) = (Done w, World 0%Z p o tr l).
Proof.
  intros Hn H N. destruct (encode_ok n inter asg H N) as (I & E & R & C). exists (zbits (9 * n) I). split; [exact C|].
  assert (Dd : does n inter (for_each (fun a => set_lane (9 * n) inter (fst a) (snd a)) asg) asg tt).
  { rewrite <- (map_id asg) at 2. apply does_for. intros [i v] _. apply does_set. exact Hn. }
  unfold bind at 1. rewrite (Dd 0%Z I p o tr l E). unfold bus_value, bind, get, put, ret. cbn [st].
  rewrite lanes_n by exact Hn. replace (n * 9) with (9 * n) by lia. unfold create_binary. destruct (Nat.eqb_spec (9 * n) 1); [lia|].
  unfold logicarray_of_int. replace ((0 <=? I) && (I <? 2 ^ Z.of_nat (9 * n)))%Z with true by (symmetry; apply andb_true_intro; lia).
  reflexivity.
Qed.
Lemma decode n inter w ls : carries inter w ls -> length ls = n -> get_bytes n inter w = Ok ls.
Proof. intros C <-. apply get_bytes_ok. exact C. Qed.
Lemma index_error n inter i v p o tr l I : 1 <= n -> n <= i ->
  set_lane (9 * n) inter i v (World I p o tr l) = (Exn EIndex, World I p o tr l).
Proof.
  intros Hn H. unfold set_lane, bind, get. cbn [st]. rewrite lanes_n by exact Hn. destruct v as [b c]. unfold bus_set.
  destruct (Nat.leb_spec n i); [reflexivity|lia].
Qed.
Lemma value_name_error width (w : world Z unit bits) : bus_value width bound_as_shipped w = (Exn EName, w).
Proof. reflexivity. Qed.

(** ** C62 *)
Lemma set_lane_frame width inter i v (w : world Z unit bits) : i < lanes width ->
  exists I, set_lane width inter i v w = (Done tt, World I (ph w) (out w) (trace w) (ins w)).
Proof.
  intro H. unfold set_lane, bind, get. destruct w as [I p o tr l]. cbn [st]. unfold bus_set. destruct v as [b c].
  destruct (Nat.leb_spec (lanes width) i); [lia|]. cbn zeta. destruct inter; eexists; reflexivity.
Qed.
Lemma sets_frame width inter l0 : forall (w : world Z unit bits), (forall i, In i l0 -> i < lanes width) ->
  exists I, for_each (fun i => set_lane width inter i IDLE) l0 w = (Done tt, World I (ph w) (out w) (trace w) (ins w)).
Proof.
  induction l0 as [|i l0 IH]; intros w H; [destruct w; eexists; reflexivity|]. cbn [for_each].
  destruct (set_lane_frame width inter i IDLE w (H i (or_introl eq_refl))) as [I E].
  destruct (IH (World I (ph w) (out w) (trace w) (ins w))) as [I2 E2]; [intros; apply H; right; assumption|].
  exists I2. unfold bind. rewrite E. exact E2.
Qed.
Lemma construct_name_error width inter (w : world Z unit bits) :
  exists w', construct width inter bound_as_shipped w = (Exn EName, w') /\ out w' = out w /\ trace w' = trace w.
Proof.
  unfold construct, idle. destruct (sets_frame width inter (seq 0 (lanes width)) (World 0%Z (ph w) (out w) (trace w) (ins w))) as [I E].
  { intros i Hi. apply in_seq in Hi. lia. }
  exists (World I (ph w) (out w) (trace w) (ins w)). unfold bind at 1, put. unfold bind at 1. rewrite E. cbn. repeat split.
Qed.
Lemma construct_ok n inter I p o tr l : 1 <= n -> p <> PReadOnly ->
  exists o', carries inter o' (repeat IDLE' n) /\
    construct (9 * n) inter true (World I p o tr l) = (Done tt, World 0%Z p o' tr l).
Proof.
  intros Hn Hp. unfold construct. unfold bind, put. cbn [ph out trace ins].
  destruct (sets_total n inter (fun _ => IDLE') (seq 0 n)) as [J E].
  { intros j Hj. apply in_seq in Hj. split; [lia|]. unfold lane_byte, is_byte. cbn. lia. }
  destruct (drive_word_ok n inter Hn (fun _ => IDLE') J p o tr l) as (w & C & Dw); [intros; unfold lane_byte, is_byte; cbn; lia|exact Hp|exact E|].
  exists w. rewrite map_const_seq in C. split; [exact C|]. unfold idle. rewrite lanes_n by exact Hn. unfold bind.
  assert (Dd : does n inter (for_each (fun i => set_lane (9 * n) inter i IDLE) (seq 0 n)) (at_lanes (fun _ => IDLE') (seq 0 n)) tt).
  { apply does_for. intros. apply does_set. exact Hn. }
  rewrite (Dd 0%Z J p o tr l E). exact Dw.
Qed.
Lemma construct_width width inter (w : world Z unit bits) : width mod 9 <> 0 -> 9 <= width ->
  exists w', construct width inter true w = (Exn EValue, w') /\ out w' = out w /\ trace w' = trace w.
Proof.
  intros Hm Hw. set (n := width / 9). assert (Hn : 1 <= n) by (apply Nat.div_le_lower_bound; lia).
  assert (L : lanes width = n) by reflexivity.
  assert (L9 : lanes (9 * n) = n) by (apply lanes_n; exact Hn).
  destruct (sets_total n inter (fun _ => IDLE') (seq 0 n)) as [J E].
  { intros j Hj. apply in_seq in Hj. split; [lia|]. unfold lane_byte, is_byte. cbn. lia. }
  destruct (encode_ok n inter (at_lanes (fun _ => IDLE') (seq 0 n))) as (J' & E' & R & _).
  { apply Forall_map, Forall_forall. intros j Hj. apply in_seq in Hj. cbn [fst snd IDLE']. unfold is_byte. split; lia. }
  { unfold at_lanes. rewrite map_map. cbn. rewrite map_id. apply seq_NoDup. }
  rewrite E in E'. inversion E'; subst J'. clear E'.
  assert (Dd : for_each (fun i => set_lane width inter i IDLE) (seq 0 n) (World 0%Z (ph w) (out w) (trace w) (ins w)) = (Done tt, World J (ph w) (out w) (trace w) (ins w))).
  { assert (X : does n inter (for_each (fun i => set_lane (9 * n) inter i IDLE) (seq 0 n)) (at_lanes (fun _ => IDLE') (seq 0 n)) tt).
    { apply does_for. intros. apply does_set. exact Hn. }
    assert (Y : forall l0 v, for_each (fun i => set_lane width inter i IDLE) l0 v = for_each (fun i => set_lane (9 * n) inter i IDLE) l0 v).
    { induction l0 as [|i l0 IH]; intro v; [reflexivity|]. cbn [for_each]. unfold bind. unfold set_lane at 1 3. rewrite L, L9.
      match goal with |- match ?x with _ => _ end = _ => destruct x as [[[]|e| |] v'] end; try reflexivity. apply IH. }
    rewrite Y. apply X. exact E. }
  exists (World 0%Z (ph w) (out w) (trace w) (ins w)). unfold construct, idle. unfold bind at 1, put. rewrite L. unfold bind at 1. rewrite Dd.
  unfold drive_word, bus_value, bind, get, put, ret. cbn [st]. rewrite L. unfold create_binary. destruct (Nat.eqb_spec (n * 9) 1); [lia|].
  unfold logicarray_of_int. replace (n * 9) with (9 * n) by lia.
  replace ((0 <=? J) && (J <? 2 ^ Z.of_nat (9 * n)))%Z with true by (symmetry; apply andb_true_intro; lia). cbn [of_res ret]. rewrite zbits_length.
  destruct (Nat.eqb_spec (9 * n) width) as [C|C]; [|cbn; repeat split].
  exfalso. apply Hm. rewrite <- C. rewrite Nat.mul_comm. apply Nat.mod_mul. lia.
Qed.

(** ** C63 *)
Section Send.
Variables (n : nat) (inter : bool) (crc32 : bytes -> Z).
Hypothesis (Hn1 : 1 <= n).
Notation idles := (repeat IDLE' n).

(** a packet that does not fill the first word: IndexError before anything of it is driven *)
Lemma send_index_error bound pkt (sync : bool) (w : world Z unit bits) : ~ fills_word n pkt -> (sync = true -> ins w <> []) ->
  exists w', driver_send (9 * n) inter bound crc32 pkt sync w = (Exn EIndex, w') /\ out w' = out w.
Proof.
  intros Hf Hs. rewrite (layer1_fills crc32) in Hf. unfold driver_send. cbn zeta.
  assert (S0 : exists v, (if sync then edge else ret tt) w = (Done tt, v) /\ out v = out w).
  { destruct sync; [|eexists; split; reflexivity]. unfold edge. destruct (ins w); [exfalso; apply Hs; reflexivity|eexists; split; reflexivity]. }
  destruct S0 as (v & E0 & <-). unfold bind at 1. rewrite E0.
  set (l1 := layer1 crc32 pkt) in *. rewrite lanes_n by exact Hn1.
  destruct (set_lane_frame (9 * n) inter 0 (XGMII_START, true) v) as [I E]; [rewrite lanes_n by exact Hn1; lia|].
  unfold bind at 1. rewrite E.
  assert (F : forall k i u, i + k = n -> 1 <= i <= S (length l1) ->
    exists u', for_each (fun i => bind (of_res (byte_at l1 (i - 1))) (fun b => set_lane (9 * n) inter i (b, false))) (seq i k) u = (Exn EIndex, u') /\ out u' = out u).
  { induction k as [|k IH]; intros i u Hk Hi; [lia|]. cbn [seq for_each].
    destruct (Nat.eq_dec i (S (length l1))) as [->|Ni].
    - exists u. unfold bind. replace (byte_at l1 (S (length l1) - 1)) with (@Err Z EIndex); [split; reflexivity|].
      unfold byte_at. rewrite (proj2 (nth_error_None l1 _)) by lia. reflexivity.
    - unfold bind at 1. unfold bind at 1. rewrite byte_at_ok by lia. cbn [of_res ret].
      destruct (set_lane_frame (9 * n) inter i (nth (i - 1) l1 0%Z, false) u) as [J EJ]; [rewrite lanes_n by exact Hn1; lia|].
      unfold ret. rewrite EJ. destruct (IH (S i) (World J (ph u) (out u) (trace u) (ins u))) as (u' & E' & O'); [lia|lia|].
      exists u'. split; [exact E'|exact O']. }
  destruct (F (n - 1) 1 (World I (ph v) (out v) (trace v) (ins v))) as (u & EF & O); [lia|lia|].
  exists u. unfold bind at 1. rewrite EF. split; [reflexivity|exact O].
Qed.
Lemma send_name_error pkt (sync : bool) (w : world Z unit bits) : fills_word n pkt -> (sync = true -> ins w <> []) ->
  exists w', driver_send (9 * n) inter bound_as_shipped crc32 pkt sync w = (Exn EName, w').
Proof.
  intros Hf Hs. rewrite (layer1_fills crc32) in Hf. unfold driver_send. cbn zeta.
  assert (S0 : exists v, (if sync then edge else ret tt) w = (Done tt, v)).
  { destruct sync; [|eexists; reflexivity]. unfold edge. destruct (ins w); [exfalso; apply Hs; reflexivity|eexists; reflexivity]. }
  destruct S0 as [v E0]. unfold bind at 1. rewrite E0.
  pose proof (layer1_length crc32 pkt) as L. set (l1 := layer1 crc32 pkt) in *. rewrite lanes_n by exact Hn1.
  destruct (set_lane_frame (9 * n) inter 0 (XGMII_START, true) v) as [I E]; [rewrite lanes_n by exact Hn1; lia|].
  unfold bind at 1. rewrite E.
  assert (F : forall l0 u, (forall i, In i l0 -> 1 <= i < n) -> exists u', for_each (fun i => bind (of_res (byte_at l1 (i - 1))) (fun b => set_lane (9 * n) inter i (b, false))) l0 u = (Done tt, u')).
  { induction l0 as [|i l0 IH]; intros u H; [eexists; reflexivity|]. cbn [for_each]. pose proof (H i (or_introl eq_refl)) as Hi.
    unfold bind at 1. unfold bind at 1. rewrite byte_at_ok by lia. cbn [of_res ret].
    destruct (set_lane_frame (9 * n) inter i (nth (i - 1) l1 0%Z, false) u) as [J EJ]; [rewrite lanes_n by exact Hn1; lia|].
    unfold ret. rewrite EJ. apply IH. intros. apply H. right. assumption. }
  destruct (F (seq 1 (n - 1)) (World I (ph v) (out v) (trace v) (ins v))) as [u EF]; [intros i Hi; apply in_seq in Hi; lia|].
  unfold bind at 1. rewrite EF. eexists. reflexivity.
Qed.
Lemma map_snd_combine {A B} (a : list A) (b : list B) : length a = length b -> map snd (combine a b) = b.
Proof. revert b. induction a as [|x a IH]; intros [|y b] H; try discriminate; [reflexivity|]. cbn. f_equal. apply IH. cbn in H. lia. Qed.
Definition pre_idle (k : nat) (sync : bool) : list (list lane) := repeat idles k ++ (if sync then [idles] else []).
Lemma send_frame pkt (sync : bool) : fills_word n pkt -> all_bytes pkt ->
  exists lss k, n <= k < 2 * n /\ concat lss = frame crc32 pkt k /\ Forall (fun w => length w = n) lss /\
  let exp := (if sync then [idles] else []) ++ lss in
  forall o p tr l, p <> PReadOnly -> carries inter o idles ->
    let '(r, w) := driver_send (9 * n) inter true crc32 pkt sync (World 0%Z p o tr l) in
    exists ws, map snd (trace w) = map snd tr ++ ws /\ Forall2 (carries inter) ws (firstn (length l) exp) /\
      (length exp <= length l -> r = Done tt /\ carries inter (out w) idles) /\ (length l < length exp -> r = Susp).
Proof.
  intros Hf B. destruct (pkt_words_frame n crc32 Hn1 pkt Hf) as (k & K & E & F & _).
  exists (pkt_words n crc32 pkt), k. split; [exact K|]. split; [exact E|]. split; [exact F|]. intros exp o p tr l Hp C.
  destruct (emits_send n inter crc32 Hn1 pkt sync idles Hf B o p tr l Hp C) as [Y N]. fold exp in Y, N.
  destruct (le_lt_dec (length exp) (length l)) as [G|G].
  - destruct (Y G) as (ws & o' & p' & Fw & C' & _ & R). rewrite R. exists ws. cbn [trace out].
    rewrite map_app, map_snd_combine by (rewrite firstn_length; pose proof (Forall2_len _ _ _ Fw); lia).
    split; [reflexivity|]. split; [rewrite firstn_all2 by exact G; exact Fw|]. split; [intros _; split; [reflexivity|exact C']|lia].
  - destruct (N G) as (ws & w' & Fw & R & T & _). rewrite R. exists ws. rewrite T.
    rewrite map_app, map_snd_combine by (pose proof (Forall2_len _ _ _ Fw) as Q; rewrite firstn_length in Q; lia).
    split; [reflexivity|]. split; [exact Fw|]. split; [lia|reflexivity].
Qed.

(** ** C64 *)
Definition send_stream (s : nat * bool * bytes) : list (list lane) :=
  let '(gap, sync, pkt) := s in repeat idles gap ++ (if sync then [idles] else []) ++ pkt_words n crc32 pkt.
Lemma emits_all sends : Forall (fun s => fills_word n (snd s) /\ all_bytes (snd s)) sends ->
  emits inter (send_all (9 * n) inter true crc32 sends) idles (flat_map send_stream sends) idles tt.
Proof.
  induction sends as [|[[gap sync] pkt] sends IH]; intro H; [apply emits_ret|].
  inversion H as [|? ? H1 H2]; subst. cbn [snd] in H1. destruct H1 as [Hf H1]. unfold send_all. cbn [for_each flat_map].
  apply emits_bind with (ls1 := idles) (a := tt); [|apply IH; exact H2].
  unfold send_stream. apply emits_bind with (ls1 := idles) (a := tt); [apply emits_edges|].
  apply (emits_send n inter crc32 Hn1 pkt sync idles Hf H1).
Qed.
Lemma no_start_idle : no_start n idles.
Proof.
  assert (X : forall i, ~ is_start (nth_error idles i)).
  { intros i C. unfold is_start in C. apply nth_error_In in C. apply repeat_spec in C. discriminate. }
  split; [apply X|intros _; apply X].
Qed.
Lemma frames_idle k ws fs : frames n ws fs -> frames n (repeat idles k ++ ws) fs.
Proof. intro H. induction k as [|k IH]; [exact H|]. cbn [repeat app]. apply frames_skip; [apply no_start_idle|exact IH]. Qed.
Definition pkt_stream (p : bytes) : list (list lane) := first_word n p :: body_words n (S (length p - (n - 1))) (skipn (n - 1) p).
Lemma frames_stream p ws fs : n - 1 <= length p -> frames n ws fs -> frames n (pkt_stream p ++ ws) ((p, 253%Z) :: fs).
Proof.
  intros L H. unfold pkt_stream. cbn [app].
  destruct (body_words_lanes n Hn1 (S (length p - (n - 1))) (skipn (n - 1) p)) as (k & mid & last & K & E & M & Ll & F).
  { rewrite skipn_length. lia. }
  apply frames_frame with (rest := map data (firstn (n - 1) p)) (last := last) (junk := repeat IDLE' k).
  - left. rewrite first_word_lanes by (try exact Hn1; exact L). split; reflexivity.
  - rewrite E, app_assoc, <- map_app, firstn_skipn. reflexivity.
  - right. exists mid. exact M.
  - rewrite repeat_length, Ll. exact K.
  - exact H.
Qed.
Lemma frames_pkt pkt ws fs : fills_word n pkt -> frames n ws fs -> frames n (pkt_words n crc32 pkt ++ ws) ((layer1 crc32 pkt, 253%Z) :: fs).
Proof.
  intros Hf H. rewrite (layer1_fills crc32) in Hf.
  replace (pkt_words n crc32 pkt ++ ws) with (pkt_stream (layer1 crc32 pkt) ++ idles :: ws)
    by (unfold pkt_stream, pkt_words; cbn [app]; rewrite <- app_assoc; reflexivity).
  apply frames_stream; [lia|]. apply frames_skip; [apply no_start_idle|exact H].
Qed.
Definition all_fill (sends : list (nat * bool * bytes)) : Prop := Forall (fun s => fills_word n (snd s)) sends.
Lemma frames_all sends : all_fill sends -> frames n (flat_map send_stream sends) (map (fun s => (layer1 crc32 (snd s), 253%Z)) sends).
Proof.
  induction sends as [|[[gap sync] pkt] sends IH]; intro A; [constructor|]. inversion A as [|? ? A1 A2]; subst. cbn [snd] in A1. cbn [flat_map map snd]. unfold send_stream at 1.
  rewrite <- !app_assoc. apply frames_idle. destruct sync; cbn [app]; [apply frames_skip; [apply no_start_idle|]|]; (apply frames_pkt; [exact A1|exact (IH A2)]).
Qed.
Lemma wf_unique f payload crc payload' crc' : well_formed f payload crc -> well_formed f payload' crc' -> payload = payload' /\ crc = crc'.
Proof.
  intros (_ & E & L & _) (_ & E' & L' & _). rewrite E in E'. apply app_inv_head in E'. revert E'. clear - L L'. revert payload'.
  induction payload as [|x p IH]; intros [|y p'] E; cbn [app] in E.
  - split; [reflexivity|exact E].
  - exfalso. rewrite E in L. cbn [length] in L. rewrite app_length in L. lia.
  - exfalso. rewrite <- E in L'. cbn [length] in L'. rewrite app_length in L'. lia.
  - inversion E as [[E1 E2]]. destruct (IH p' E2) as [-> ->]. split; reflexivity.
Qed.
Lemma layer1_wf pkt : well_formed (layer1 crc32 pkt, 253%Z) (padded pkt) (le32 (crc32 (padded pkt))).
Proof.
  split; [reflexivity|]. split; [apply layer1_padded|]. split; [reflexivity|]. pose proof (padded_length pkt) as L. intro C. rewrite C in L. cbn in L. lia.
Qed.
Lemma closing_layer1 pkt : closing crc32 (layer1 crc32 pkt) 253 = [Deliver (padded pkt)].
Proof.
  pose proof (closing_report crc32 (layer1 crc32 pkt) 253) as R. pose proof (layer1_wf pkt) as W. pose proof (layer1_length crc32 pkt) as L.
  remember (closing crc32 (layer1 crc32 pkt) 253) as es. destruct R as [H|H E|H L'|e H L' P E1 E2|e e' payload crc W' E1 E2 E3 E4]; cbn [fst snd] in *.
  - contradiction.
  - rewrite E in L. cbn in L. lia.
  - lia.
  - exfalso. eapply P. apply layer1_padded.
  - destruct (wf_unique _ _ _ _ _ W W') as [<- <-]. rewrite E2, E3 by (try exact L; reflexivity). reflexivity.
Qed.
Lemma monl_prefix a b : forall pkt inner, exists es, monl n crc32 pkt inner (a ++ b) = monl n crc32 pkt inner a ++ es.
Proof.
  induction a as [|w a IH]; intros pkt inner; [eexists; reflexivity|]. cbn [app monl].
  assert (P : forall ls, exists es, (let '(more, pkt', log) := add_payload pkt ls in
       if more then monl n crc32 pkt' true (a ++ b) else log ++ finish crc32 pkt' ++ monl n crc32 [] false (a ++ b)) =
      (let '(more, pkt', log) := add_payload pkt ls in
       if more then monl n crc32 pkt' true a else log ++ finish crc32 pkt' ++ monl n crc32 [] false a) ++ es).
  { intro ls. destruct (add_payload pkt ls) as [[[] pkt'] log]; [apply IH|]. destruct (IH [] false) as [es E]. exists es. rewrite E, <- !app_assoc. reflexivity. }
  cbn zeta. destruct inner; [apply P|]. destruct (starts w 0); [apply P|]. destruct (_ && _); [apply P|].
  destruct (IH [] false) as [es E]. exists es. rewrite E, <- app_assoc. reflexivity.
Qed.
Lemma send_stream_len sends : all_fill sends -> Forall (fun w => length w = n) (flat_map send_stream sends).
Proof.
  intro A. unfold all_fill in A. rewrite Forall_forall in A. apply Forall_forall. intros w Hw. apply in_flat_map in Hw. destruct Hw as ([[gap sync] pkt] & Hi & Hw). unfold send_stream in Hw.
  destruct (pkt_words_frame n crc32 Hn1 pkt (A _ Hi)) as (_ & _ & _ & F & _). rewrite Forall_forall in F.
  apply in_app_or in Hw. destruct Hw as [Hw|Hw]; [apply repeat_spec in Hw; subst; apply repeat_length|].
  apply in_app_or in Hw. destruct Hw as [Hw|Hw]; [|apply F; exact Hw]. destruct sync; [|destruct Hw].
  destruct Hw as [<-|[]]. apply repeat_length.
Qed.
Lemma events_all sends : all_fill sends -> monl n crc32 [] false (flat_map send_stream sends) = map (fun s => Deliver (padded (snd s))) sends.
Proof.
  intro A. rewrite (frames_monl n crc32 _ _ (frames_all sends A)). rewrite map_map. cbn [fst snd]. clear A.
  induction sends as [|s sends IH]; [reflexivity|]. cbn [map concat]. rewrite IH, closing_layer1. reflexivity.
Qed.
Lemma end_to_end sends I p o l : p <> PReadOnly -> Forall (fun s => fills_word n (snd s) /\ all_bytes (snd s)) sends ->
  let '(r, w) := bind (construct (9 * n) inter true) (fun _ => send_all (9 * n) inter true crc32 sends) (World I p o [] l) in
  exists es later, observe n inter crc32 (map snd (trace w)) = (es, None) /\
    map (fun s => Deliver (padded (snd s))) sends = es ++ later /\
    (r = Done tt /\ later = [] \/ r = Susp /\ ins w = []).
Proof.
  intros Hp B. destruct (construct_ok n inter I p o [] l Hn1 Hp) as (o' & C & E). unfold bind. rewrite E.
  assert (A : all_fill sends) by (unfold all_fill; eapply Forall_impl; [|exact B]; intros ? [H0 _]; exact H0).
  destruct (emits_all sends B o' p [] l Hp C) as [Y N]. pose proof (send_stream_len sends A) as Ln. unfold observe.
  destruct (le_lt_dec (length (flat_map send_stream sends)) (length l)) as [G|G].
  - destruct (Y G) as (ws & o2 & p2 & Fw & _ & _ & R). rewrite R. cbn [trace ins app].
    rewrite map_snd_combine by (rewrite firstn_length; pose proof (Forall2_len _ _ _ Fw); lia).
    exists (map (fun s => Deliver (padded (snd s))) sends), []. rewrite app_nil_r. split; [|split; [reflexivity|left; split; reflexivity]].
    rewrite (monitor_monl n inter crc32 Hn1 _ _ Fw Ln). rewrite events_all by exact A. reflexivity.
  - destruct (N G) as (ws & w' & Fw & R & T & Z0). rewrite R. rewrite T. cbn [app].
    rewrite map_snd_combine by (pose proof (Forall2_len _ _ _ Fw) as Q; rewrite firstn_length in Q; lia).
    destruct (monl_prefix (firstn (length l) (flat_map send_stream sends)) (skipn (length l) (flat_map send_stream sends)) [] false) as [es Ep].
    rewrite firstn_skipn, events_all in Ep by exact A.
    exists (monl n crc32 [] false (firstn (length l) (flat_map send_stream sends))), es.
    split; [|split; [exact Ep|right; split; [reflexivity|exact Z0]]].
    apply monitor_monl; [exact Hn1|exact Fw|]. rewrite <- (firstn_skipn (length l) (flat_map send_stream sends)), Forall_app in Ln. apply Ln.
Qed.
Lemma end_to_end_done sends I p o l : p <> PReadOnly -> Forall (fun s => fills_word n (snd s) /\ all_bytes (snd s)) sends ->
  length (flat_map send_stream sends) <= length l ->
  fst (bind (construct (9 * n) inter true) (fun _ => send_all (9 * n) inter true crc32 sends) (World I p o [] l)) = Done tt.
Proof.
  intros Hp B G. destruct (construct_ok n inter I p o [] l Hn1 Hp) as (o' & C & E). unfold bind. rewrite E.
  destruct (emits_all sends B o' p [] l Hp C) as [Y _]. destruct (Y G) as (ws & o2 & p2 & _ & _ & _ & R). rewrite R. reflexivity.
Qed.
End Send.

(** ** C65 *)
Lemma monitor_frames n inter crc32 ws lss fs : 1 <= n -> Forall2 (carries inter) ws lss -> Forall (fun w => length w = n) lss ->
  frames n lss fs ->
  exists evs, Forall2 (report crc32) fs evs /\ observe n inter crc32 ws = (concat evs, None).
Proof.
  intros Hn F L H. exists (map (fun f => closing crc32 (fst f) (snd f)) fs). split; [apply closing_reports|].
  unfold observe. rewrite (monitor_monl n inter crc32 Hn _ _ F L). rewrite (frames_monl n crc32 _ _ H). reflexivity.
Qed.
Lemma monitor_delivers n inter crc32 ws lss fs : 1 <= n -> Forall2 (carries inter) ws lss -> Forall (fun w => length w = n) lss ->
  frames n lss fs ->
  deliverable fs (delivered (fst (observe n inter crc32 ws))) /\ snd (observe n inter crc32 ws) = None.
Proof.
  intros Hn F L H. destruct (monitor_frames n inter crc32 ws lss fs Hn F L H) as (evs & R & ->). cbn [fst snd]. split; [|reflexivity].
  apply reports_deliverable with (crc32 := crc32). exact R.
Qed.
Lemma deliverable_unique fs l l' : deliverable fs l -> deliverable fs l' -> l = l'.
Proof.
  intro H. revert l'. induction H as [|f payload crc fs l W H IH|f fs l W H IH]; intros l' H'; inversion H'; subst; try reflexivity.
  - destruct (wf_unique _ _ _ _ _ W H2) as [-> _]. f_equal. apply IH. assumption.
  - exfalso. eapply H2. exact W.
  - exfalso. eapply W. eassumption.
  - apply IH. assumption.
Qed.
Lemma monitor_unresolvable n inter crc32 w r : resolvable w = false -> forall ws lss pkt inner, 1 <= n -> Forall2 (carries inter) ws lss -> Forall (fun v => length v = n) lss ->
  monitor n inter crc32 pkt inner (ws ++ w :: r) = (monl n crc32 pkt inner lss, Some EValue).
Proof.
  intros Hr ws lss pkt inner Hn F L. revert pkt inner L. induction F as [|v ls ws lss C _ IH]; intros pkt inner L.
  - cbn [app monitor monl]. rewrite get_bytes_bad by exact Hr. reflexivity.
  - pose proof (Forall_inv L) as L1. pose proof (Forall_inv_tail L) as L2. cbn beta in L1. cbn [app monitor monl]. rewrite (decode n inter v ls C L1).
    assert (P : forall ls', (let '(more, pkt', log) := add_payload pkt ls' in
             if more then monitor n inter crc32 pkt' true (ws ++ w :: r)
             else let '(d, e) := monitor n inter crc32 [] false (ws ++ w :: r) in (log ++ finish crc32 pkt' ++ d, e)) =
            (let '(more, pkt', log) := add_payload pkt ls' in
             if more then monl n crc32 pkt' true lss else log ++ finish crc32 pkt' ++ monl n crc32 [] false lss, Some EValue)).
    { intro ls'. destruct (add_payload pkt ls') as [[more pkt'] log]. destruct more; [apply IH; exact L2|]. rewrite IH by exact L2. reflexivity. }
    cbn zeta. destruct inner; [apply P|]. rewrite start_at_ok by (unfold lane in *; lia). destruct (starts ls 0); [apply P|].
    destruct (Nat.eqb_spec n 8) as [E8|E8].
    + rewrite start_at_ok by (unfold lane in *; lia). cbn [andb]. destruct (starts ls 4); [apply P|]. rewrite IH by exact L2. reflexivity.
    + cbn [andb]. rewrite IH by exact L2. reflexivity.
Qed.
(** a wrong CRC does not prevent delivery *)
Lemma wrong_crc n inter crc32 payload crc : 1 <= n <= 12 -> all_bytes payload -> payload <> [] ->
  all_bytes crc -> length crc = 4 -> crc <> le32 (crc32 payload) ->
  exists ws lss, Forall2 (carries inter) ws lss /\ Forall (fun w => length w = n) lss /\
    frames n lss [([85; 85; 85; 85; 85; 85; 213]%Z ++ payload ++ crc, 253%Z)] /\
    delivered (fst (observe n inter crc32 ws)) = [payload] /\ In LogCrc (fst (observe n inter crc32 ws)).
Proof.
  intros Hn Bp Np Bc Lc Wc. set (p := [85; 85; 85; 85; 85; 85; 213]%Z ++ payload ++ crc).
  assert (Lp : 12 <= length p).
  { unfold p. rewrite !app_length, Lc. destruct payload; [congruence|]. cbn [length]. lia. }
  assert (Bb : all_bytes p).
  { unfold p. apply all_bytes_app; [unfold all_bytes; repeat constructor; unfold is_byte; lia|]. apply all_bytes_app; assumption. }
  assert (Hn72 : 1 <= n) by lia. pose proof (frames_stream n crc32 Hn72 p [] [] ltac:(lia) (frames_end n)) as F. rewrite app_nil_r in F.
  assert (Len : Forall (fun w => length w = n) (pkt_stream n p)).
  { unfold pkt_stream. destruct (body_words_lanes n ltac:(lia) (S (length p - (n - 1))) (skipn (n - 1) p)) as (k & mid & last & _ & _ & _ & _ & Fl); [rewrite skipn_length; lia|].
    constructor; [unfold first_word; rewrite map_length, seq_length; reflexivity|exact Fl]. }
  assert (Bs : Forall (Forall (fun v : lane => is_byte (fst v))) (pkt_stream n p)).
  { unfold pkt_stream. constructor.
    - unfold first_word. apply Forall_map, Forall_forall. intros [|j] Hj; cbn [first_lane START data fst]; [unfold is_byte; lia|].
      apply in_seq in Hj. unfold all_bytes in Bb. rewrite Forall_forall in Bb. apply Bb. apply nth_In. lia.
    - assert (X : forall fuel q, all_bytes q -> Forall (Forall (fun v : lane => is_byte (fst v))) (body_words n fuel q)).
      { induction fuel as [|fuel IH]; intros q Bq; [constructor|]. cbn [body_words]. constructor.
        - unfold word_of. apply Forall_map, Forall_forall. intros j _. apply (lane_of_byte q j Bq).
        - destruct (_ <? _); [constructor|]. apply IH. apply all_bytes_skipn. exact Bq. }
      apply X. apply all_bytes_skipn. exact Bb. }
  destruct (carries_exist_all inter (pkt_stream n p) Bs) as [ws Fw]. exists ws, (pkt_stream n p).
  split; [exact Fw|]. split; [exact Len|]. split; [exact F|].
  destruct (monitor_frames n inter crc32 ws _ _ ltac:(lia) Fw Len F) as (evs & R & ->). cbn [fst].
  inversion R as [|? es ? ? R1 R2]; subst. inversion R2; subst. cbn [concat]. rewrite app_nil_r.
  assert (W : well_formed (p, 253%Z) payload crc) by (repeat split; assumption).
  destruct (report_delivered crc32 _ _ R1) as [(pl & c & W' & E)|[W' _]]; [|exfalso; apply (W' payload crc); exact W].
  destruct (wf_unique _ _ _ _ _ W W') as [<- <-]. split; [exact E|].
  destruct R1 as [H|H E0|H L'|e H L' P E1 E2|e e' pl c W2 E1 E2 E3 E4]; try discriminate E; cbn [fst snd] in *.
  - exfalso. apply (P (payload ++ crc)). reflexivity.
  - destruct (wf_unique _ _ _ _ _ W W2) as [<- <-]. rewrite (E4 Wc). apply in_or_app. right. left. reflexivity.
Qed.
(** a frame without a terminate, followed at once by a good frame: the good one is lost *)
Lemma swallowed n inter crc32 pkt : 1 <= n -> fills_word n pkt -> all_bytes pkt ->
  exists ws lss, Forall2 (carries inter) ws ((START :: map data (repeat 85%Z (n - 1))) :: lss) /\
    concat lss = frame crc32 pkt (length (concat lss) - length (layer1 crc32 pkt) - 2) /\
    Forall (fun w => length w = n) lss /\
    observe n inter crc32 ws = ([LogControl], None).
Proof.
  intros Hn Hf B. pose proof (proj1 (layer1_fills crc32 n pkt) Hf) as Hf'. set (w0 := START :: map data (repeat 85%Z (n - 1))).
  destruct (pkt_words_frame n crc32 Hn pkt Hf) as (k & K & E & F & _).
  assert (L0 : length w0 = n) by (unfold w0; cbn [length]; rewrite map_length, repeat_length; lia).
  assert (Bs : Forall (Forall (fun v : lane => is_byte (fst v))) (w0 :: pkt_words n crc32 pkt)).
  { constructor.
    - unfold w0. constructor; [cbn; unfold is_byte; lia|]. apply Forall_map, Forall_forall. intros b Hb. apply repeat_spec in Hb. subst b. cbn. unfold is_byte; lia.
    - assert (Q : Forall (fun v : lane => is_byte (fst v)) (concat (pkt_words n crc32 pkt))).
      { rewrite E. unfold frame. rewrite <- layer1_padded. constructor; [cbn; unfold is_byte; lia|]. apply Forall_app. split.
        - apply Forall_map. apply (layer1_bytes crc32 pkt B).
        - constructor; [cbn; unfold is_byte; lia|]. apply Forall_forall. intros v Hv. apply repeat_spec in Hv. subst v. cbn. unfold is_byte; lia. }
      rewrite Forall_forall in Q. apply Forall_forall. intros ls Hl. apply Forall_forall. intros v Hv. apply Q. apply in_concat. exists ls. split; assumption. }
  destruct (carries_exist_all inter _ Bs) as [ws Fw]. exists ws, (pkt_words n crc32 pkt). split; [exact Fw|].
  split; [|split; [exact F|]].
  - rewrite E at 1. f_equal. rewrite E. unfold frame. rewrite <- layer1_padded. cbn [length]. rewrite app_length, map_length. cbn [length]. rewrite repeat_length. lia.
  - unfold observe. rewrite (monitor_monl n inter crc32 Hn _ _ Fw (Forall_cons _ L0 F)). f_equal.
    rewrite (begins_pay n crc32 w0 (map data (repeat 85%Z (n - 1)))) by (left; split; reflexivity).
    unfold pkt_words. cbn zeta. rewrite pay_data. pose proof (layer1_length crc32 pkt) as L1. set (l1 := layer1 crc32 pkt) in *.
    rewrite first_word_lanes by lia. change (START :: map data (firstn (n - 1) l1)) with (map data [] ++ (251%Z, true) :: map data (firstn (n - 1) l1)).
    rewrite pay_end. change (closing crc32 _ 251) with [LogControl]. cbn [app]. f_equal.
    destruct (body_words_lanes n Hn (S (length l1 - (n - 1))) (skipn (n - 1) l1)) as (k' & mid & last & _ & Eb & _ & _ & _); [rewrite skipn_length; lia|].
    assert (NS : Forall (fun ls => no_start n ls) (body_words n (S (length l1 - (n - 1))) (skipn (n - 1) l1) ++ [idle_word n])).
    { apply Forall_app. split; [|constructor; [apply no_start_idle|constructor]]. apply Forall_forall. intros ls Hl.
      assert (X : forall i, ~ is_start (nth_error ls i)).
      { intros i C. unfold is_start in C. apply nth_error_In in C.
        assert (Y : In START (concat (body_words n (S (length l1 - (n - 1))) (skipn (n - 1) l1)))) by (apply in_concat; exists ls; split; assumption).
        rewrite Eb in Y. apply in_app_or in Y. destruct Y as [Y|[Y|Y]]; [|discriminate|apply repeat_spec in Y; discriminate].
        apply in_map_iff in Y. destruct Y as (b & Y & _). discriminate. }
      split; [apply X|intros _; apply X]. }
    clear - NS. induction NS as [|ls r [H0 H4] _ IH]; [reflexivity|].
    rewrite monl_skip; [exact IH|apply starts_false; exact H0|intro E8; apply starts_false; auto].
Qed.
