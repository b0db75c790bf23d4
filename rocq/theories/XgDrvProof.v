(** XgDrvProof.v -- the words the XGMII driver puts on the bus *)
From Verif Require Import Base CompatModel BitsLemmas Async XgModel XgSpec XgProof.
Local Open Scope nat_scope.

Lemma le32_z_to_le c : z_to_le 4 c = le32 c.
Proof.
  unfold le32. cbn [z_to_le map]. change (256 ^ Z.of_nat 0)%Z with 1%Z. change (256 ^ Z.of_nat 1)%Z with 256%Z.
  change (256 ^ Z.of_nat 2)%Z with (256 * 256)%Z. change (256 ^ Z.of_nat 3)%Z with (256 * (256 * 256))%Z.
  rewrite Z.div_1_r, <- !Z.div_div by lia. reflexivity.
Qed.

Section Drv.
Variables (n : nat) (inter : bool) (crc32 : bytes -> Z).
Hypothesis (Hn : 1 <= n).
Notation width := (9 * n).
Notation W := (world Z unit bits).
Notation D := (M Z unit bits).
Lemma lanes_n : lanes width = n.
Proof. unfold lanes. rewrite Nat.mul_comm. apply Nat.div_mul. lia. Qed.

(** ** Assembling a word *)
Lemma sets_app a b : forall I, sets n inter I (a ++ b) = rbind (sets n inter I a) (fun I' => sets n inter I' b).
Proof.
  induction a as [|[i v] a IH]; intro I; cbn [sets app rbind]; [reflexivity|].
  destruct (bus_set n inter I i v); cbn [rbind]; [apply IH|reflexivity].
Qed.
Definition does {A} (m : D A) (asg : list assignment) (a : A) : Prop :=
  forall I I' p o tr l, sets n inter I asg = Ok I' ->
    m (World I p o tr l) = (Done a, World I' p o tr l).
Lemma does_ret {A} (a : A) : does (ret a) [] a.
Proof. intros I I' p o tr l H. cbn in H. inversion H. reflexivity. Qed.
Lemma does_bind {A B} (m : D A) (f : A -> D B) s1 s2 a b : does m s1 a -> does (f a) s2 b -> does (bind m f) (s1 ++ s2) b.
Proof.
  intros H1 H2 I I' p o tr l H. rewrite sets_app in H. destruct (sets n inter I s1) as [I1|] eqn:E; [|discriminate].
  unfold bind. rewrite (H1 _ _ p o tr l E). apply H2. exact H.
Qed.
Lemma does_set i v : does (set_lane width inter i v) [(i, v)] tt.
Proof.
  intros I I' p o tr l H. cbn [sets] in H. unfold set_lane, bind, get. cbn [st]. rewrite lanes_n.
  destruct (bus_set n inter I i v); [|discriminate]. cbn in *. inversion H. reflexivity.
Qed.
Lemma does_res {A} (r : res A) (a : A) : r = Ok a -> does (of_res r) [] a.
Proof. intros ->. apply does_ret. Qed.
Lemma does_for {X} (body : X -> D unit) (f : X -> assignment) l :
  (forall x, In x l -> does (body x) [f x] tt) -> does (for_each body l) (map f l) tt.
Proof.
  induction l as [|x l IH]; intro H; cbn [for_each map]; [apply does_ret|].
  change (f x :: map f l) with ([f x] ++ map f l). apply does_bind with (a := tt); [apply H; left; reflexivity|].
  apply IH. intros y Hy. apply H. right. exact Hy.
Qed.

(** lane [j] of a word that carries the rest [pkt] of a packet *)
Definition lane_of (pkt : bytes) (j : nat) : lane :=
  if j <? length pkt then data (nth j pkt 0%Z) else if Nat.eqb j (length pkt) then TERMINATE else IDLE'.
Definition at_lanes (f : nat -> lane) (is : list nat) : list assignment := map (fun j => (j, f j)) is.

Lemma does_terminate i pkt : i < n -> length pkt = i -> does (terminate width inter i) (at_lanes (lane_of pkt) (seq i (n - i))) tt.
Proof.
  intros H E. unfold terminate. rewrite lanes_n. replace (n - i) with (S (n - (i + 1))) by lia. cbn [seq at_lanes map].
  match goal with |- does _ (?a :: ?r) _ => change (a :: r) with ([a] ++ r) end.
  apply does_bind with (a := tt).
  - assert (lane_of pkt i = TERMINATE) as ->; [|apply does_set].
    unfold lane_of. rewrite E, Nat.ltb_irrefl, Nat.eqb_refl. reflexivity.
  - destruct (Nat.ltb_spec i (n - 1)).
    + replace (i + 1) with (S i) by lia. apply does_for. intros j Hj. apply in_seq in Hj.
      assert (lane_of pkt j = IDLE') as ->; [|apply does_set].
      unfold lane_of. destruct (Nat.ltb_spec j (length pkt)); [lia|]. destruct (Nat.eqb_spec j (length pkt)); [lia|reflexivity].
    + replace (n - (i + 1)) with 0 by lia. apply does_ret.
Qed.
Lemma byte_at_ok (pkt : bytes) j : j < length pkt -> byte_at pkt j = Ok (nth j pkt 0%Z).
Proof using. try clear Hn; try clear crc32. intro H. unfold byte_at. rewrite (nth_error_nth' pkt 0%Z H). reflexivity. Qed.
Lemma does_fill pkt k : forall i, i + k = n -> i <= length pkt ->
  does (fill_word width inter pkt k i) (at_lanes (lane_of pkt) (seq i k)) (length pkt <? n).
Proof.
  induction k as [|k IH]; intros i E L; cbn [fill_word].
  - destruct (Nat.ltb_spec (length pkt) n); [lia|]. apply does_ret.
  - destruct (Nat.eqb_spec i (length pkt)) as [Ei|Ni].
    + destruct (Nat.ltb_spec (length pkt) n); [|lia]. rewrite <- (app_nil_r (at_lanes _ _)). apply does_bind with (a := tt); [|apply does_ret].
      replace (S k) with (n - i) by lia. apply does_terminate; [lia|congruence].
    + rewrite <- (app_nil_l (at_lanes _ _)). rewrite byte_at_ok by lia. apply does_bind with (a := nth i pkt 0%Z); [apply does_res; reflexivity|].
      cbn [seq at_lanes map]. match goal with |- does _ (?a :: ?r) _ => change (a :: r) with ([a] ++ r) end.
      apply does_bind with (a := tt).
      * assert (lane_of pkt i = (nth i pkt 0%Z, false)) as ->; [|apply does_set].
        unfold lane_of. destruct (Nat.ltb_spec i (length pkt)); [reflexivity|lia].
      * apply IH; lia.
Qed.

(** a word with all lanes assigned *)
Lemma assigned_at_lanes f is i : In i is -> assigned (at_lanes f is) i = f i.
Proof using. try clear Hn; try clear crc32. try clear Hn.
  unfold assigned, at_lanes. induction is as [|j is IH]; intro H; [destruct H|]. cbn [map find fst].
  destruct (Nat.eqb_spec j i) as [->|N]; [reflexivity|]. apply IH. destruct H; [contradiction|assumption].
Qed.
Definition lane_byte (v : lane) : Prop := is_byte (fst v).
Lemma drive_word_ok f I p o tr l : (forall j, j < n -> lane_byte (f j)) -> p <> PReadOnly ->
  sets n inter 0 (at_lanes f (seq 0 n)) = Ok I ->
  exists w, carries inter w (map f (seq 0 n)) /\
    drive_word width true (World I p o tr l : W) = (Done tt, World 0%Z p w tr l).
Proof.
  intros B Hp E. destruct (encode_ok n inter (at_lanes f (seq 0 n))) as (I' & E' & R & C).
  - unfold ok_asg, at_lanes. apply Forall_map. apply Forall_forall. intros j Hj. apply in_seq in Hj. cbn [fst snd]. split; [lia|].
    apply B. lia.
  - unfold at_lanes. rewrite map_map. cbn. rewrite map_id. apply seq_NoDup.
  - rewrite E in E'. inversion E'; subst I'. exists (zbits width I). split.
    + rewrite (map_ext_in f (assigned (at_lanes f (seq 0 n)))); [exact C|]. intros i Hi. symmetry. apply assigned_at_lanes. exact Hi.
    + unfold drive_word, bus_value, bind, get, put, ret. cbn [st]. rewrite lanes_n. replace (n * 9) with width by lia.
      unfold create_binary. destruct (Nat.eqb_spec width 1); [lia|]. unfold logicarray_of_int.
      replace ((0 <=? I) && (I <? 2 ^ Z.of_nat width))%Z with true by (symmetry; apply andb_true_intro; lia).
      cbn [of_res ret]. rewrite zbits_length, Nat.eqb_refl. cbn [st ph out trace ins]. destruct p; try contradiction; reflexivity.
Qed.
Lemma sets_total f is : (forall j, In j is -> j < n /\ lane_byte (f j)) -> exists I, sets n inter 0 (at_lanes f is) = Ok I.
Proof using. try clear Hn; try clear crc32. try clear Hn.
  intro H. destruct (sets_bits n inter (at_lanes f is) 0) as (I & E & _); [|lia|exists I; exact E].
  unfold ok_asg, at_lanes. apply Forall_map, Forall_forall. exact H.
Qed.

(** ** What a coroutine puts on the bus, cycle by cycle *)
Definition emits {A} (m : D A) (ls0 : list lane) (lss : list (list lane)) (ls1 : list lane) (a : A) : Prop :=
  forall o p tr l, p <> PReadOnly -> carries inter o ls0 ->
  (length lss <= length l -> exists ws o' p', Forall2 (carries inter) ws lss /\ carries inter o' ls1 /\ p' <> PReadOnly /\
     m (World 0%Z p o tr l) = (Done a, World 0%Z p' o' (tr ++ combine (firstn (length lss) l) ws) (skipn (length lss) l))) /\
  (length l < length lss -> exists ws w', Forall2 (carries inter) ws (firstn (length l) lss) /\
     m (World 0%Z p o tr l) = (Susp, w') /\ trace w' = tr ++ combine l ws /\ ins w' = []).
Lemma emits_ret {A} (a : A) ls : emits (ret a) ls [] ls a.
Proof using. try clear Hn; try clear crc32.
  intros o p tr l Hp C. split; [|cbn; lia]. intros _. exists [], o, p. split; [constructor|]. split; [exact C|]. split; [exact Hp|].
  cbn. rewrite app_nil_r. reflexivity.
Qed.
Lemma combine_app {A B} (a a' : list A) (b b' : list B) : length a = length b -> combine (a ++ a') (b ++ b') = combine a b ++ combine a' b'.
Proof using. try clear Hn; try clear crc32. revert b. induction a as [|x a IH]; intros [|y b] H; try discriminate; [reflexivity|]. cbn. f_equal. apply IH. cbn in H. lia. Qed.
Lemma firstn_plus {A} a b (l : list A) : firstn (a + b) l = firstn a l ++ firstn b (skipn a l).
Proof using. try clear Hn; try clear crc32. revert l. induction a as [|a IH]; intros [|x l]; cbn; [reflexivity|reflexivity|rewrite firstn_nil; reflexivity|f_equal; apply IH]. Qed.
Lemma emits_bind {A B} (m : D A) (f : A -> D B) ls0 ls1 ls2 s1 s2 a b :
  emits m ls0 s1 ls1 a -> emits (f a) ls1 s2 ls2 b -> emits (bind m f) ls0 (s1 ++ s2) ls2 b.
Proof using. try clear Hn; try clear crc32.
  intros H1 H2 o p tr l Hp C. destruct (H1 o p tr l Hp C) as (Y & N). rewrite app_length.
  destruct (le_lt_dec (length s1) (length l)) as [G|G].
  - destruct (Y G) as (ws & o' & p' & F & C' & Hp' & E). clear Y N. pose proof (Forall2_len _ _ _ F) as Lw.
    destruct (H2 o' p' (tr ++ combine (firstn (length s1) l) ws) (skipn (length s1) l) Hp' C') as (Y' & N').
    rewrite skipn_length in *. split; intro G'.
    + destruct (Y' ltac:(lia)) as (ws' & o2 & p2 & F' & C2 & Hp2 & E2). exists (ws ++ ws'), o2, p2.
      split; [apply Forall2_app; assumption|]. split; [exact C2|]. split; [exact Hp2|].
      unfold bind. rewrite E, E2. rewrite firstn_plus, combine_app, app_assoc by (rewrite firstn_length; lia).
      rewrite skipn_skipn. reflexivity.
    + destruct (N' ltac:(lia)) as (ws' & w' & F' & E2 & T & Z0). exists (ws ++ ws'), w'.
      split; [rewrite firstn_app, firstn_all2 by lia; apply Forall2_app; assumption|].
      unfold bind. rewrite E, E2. split; [reflexivity|].
      split; [|exact Z0]. rewrite T. rewrite <- app_assoc. f_equal.
      rewrite <- combine_app by (rewrite firstn_length; lia). rewrite firstn_skipn. reflexivity.
  - destruct (N G) as (ws & w' & F & E & T & Z0). split; [lia|]. intros _.
    exists ws, w'. split; [rewrite firstn_app; replace (length l - length s1) with 0 by lia; cbn [firstn]; rewrite app_nil_r; exact F|].
    unfold bind. rewrite E. repeat split; assumption.
Qed.
Lemma emits_edge ls : emits edge ls [ls] ls tt.
Proof using. try clear Hn; try clear crc32.
  intros o p tr l Hp C. destruct l as [|i l]; cbn [length]; (split; intro H; [try lia|try lia]).
  - exists [], (World 0%Z p o tr []). cbn. split; [constructor|]. split; [reflexivity|]. rewrite app_nil_r. split; reflexivity.
  - exists [o], o, PActive. split; [constructor; [exact C|constructor]|]. split; [exact C|]. split; [discriminate|]. reflexivity.
Qed.
Lemma emits_edges k ls : emits (edges k) ls (repeat ls k) ls tt.
Proof using. try clear Hn; try clear crc32.
  induction k as [|k IH]; [apply emits_ret|]. cbn [edges repeat]. change (ls :: repeat ls k) with ([ls] ++ repeat ls k).
  apply emits_bind with (ls1 := ls) (a := tt); [apply emits_edge|exact IH].
Qed.
(** assembling a word and driving it *)
Lemma emits_word {A} (m : D A) f (a : A) ls0 : does m (at_lanes f (seq 0 n)) a -> (forall j, j < n -> lane_byte (f j)) ->
  emits (x <- m ;; drive_word width true ;; ret x) ls0 [] (map f (seq 0 n)) a.
Proof.
  intros H B o p tr l Hp C. split; [|cbn; lia]. intros _.
  destruct (sets_total f (seq 0 n)) as [I E]. { intros j Hj. apply in_seq in Hj. split; [lia|apply B; lia]. }
  destruct (drive_word_ok f I p o tr l B Hp E) as (w & Cw & Dw).
  exists [], w, p. split; [constructor|]. split; [exact Cw|]. split; [exact Hp|].
  unfold bind at 1. rewrite (H _ _ p o tr l E). unfold bind, ret. rewrite Dw. cbn. rewrite app_nil_r. reflexivity.
Qed.
Lemma emits_eq {A} (m m' : D A) ls0 s ls1 a : (forall w, m' w = m w) -> emits m ls0 s ls1 a -> emits m' ls0 s ls1 a.
Proof using. try clear Hn; try clear crc32. intros E H o p tr l Hp C. rewrite E. apply H; assumption. Qed.

(** ** The words of a packet *)
Definition word_of (pkt : bytes) : list lane := map (lane_of pkt) (seq 0 n).
Definition idle_word : list lane := repeat IDLE' n.
Fixpoint body_words (fuel : nat) (pkt : bytes) : list (list lane) :=
  match fuel with
  | O => []
  | S f => word_of pkt :: (if length pkt <? n then [] else body_words f (skipn n pkt))
  end.

Lemma map_const_seq {A} (x : A) k : forall i, map (fun _ => x) (seq i k) = repeat x k.
Proof using. try clear Hn; try clear crc32. induction k as [|k IH]; intro i; [reflexivity|]. cbn. f_equal. apply IH. Qed.
Lemma emits_idle ls0 : emits (idle width inter true) ls0 [] idle_word tt.
Proof.
  apply emits_eq with (m := x <- for_each (fun i => set_lane width inter i IDLE) (seq 0 n) ;; drive_word width true ;; ret x).
  - intro w. unfold idle. rewrite lanes_n. unfold bind, ret. destruct (for_each _ _ w) as [[[]|e| |] w1]; try reflexivity.
    destruct (drive_word width true w1) as [[[]|e| |] w2]; reflexivity.
  - unfold idle_word. rewrite <- (map_const_seq IDLE' n 0). apply emits_word.
    + apply does_for. intros. apply does_set.
    + intros. unfold lane_byte, is_byte. cbn. lia.
Qed.
Lemma lane_of_byte pkt j : all_bytes pkt -> lane_byte (lane_of pkt j).
Proof using. try clear Hn; try clear crc32. try clear Hn.
  intro B. unfold lane_of, lane_byte. destruct (Nat.ltb_spec j (length pkt)) as [L|L].
  - cbn [data fst]. unfold all_bytes in B. rewrite Forall_forall in B. apply B. apply nth_In. exact L.
  - destruct (Nat.eqb _ _); cbn; unfold is_byte; lia.
Qed.
Lemma all_bytes_skipn k pkt : all_bytes pkt -> all_bytes (skipn k pkt).
Proof using. try clear Hn; try clear crc32. intro H. rewrite <- (firstn_skipn k pkt) in H. unfold all_bytes in H. rewrite Forall_app in H. apply H. Qed.
Lemma terminate0 : does (terminate width inter 0) (at_lanes (lane_of []) (seq 0 n)) tt.
Proof. replace n with (n - 0) at 2 by lia. apply does_terminate; [lia|reflexivity]. Qed.

Definition send_tail (fuel : nat) (pkt : bytes) (d : bool) : D unit :=
  done <- loop fuel (fun x : bytes * bool =>
    let '(pkt, done) := x in
    match pkt with
    | [] => ret (inr done)
    | _ =>
        t <- fill_word width inter pkt (lanes width) 0 ;;
        drive_word width true ;;
        edge ;;
        ret (inl (skipn (lanes width) (if t : bool then [] else pkt), done || t))
    end) (pkt, d) ;;
  (if done : bool then ret tt
   else terminate width inter 0 ;; drive_word width true ;; edge).

Lemma loop_S {L A} f (body : L -> D (L + A)) x w :
  loop (S f) body x w = bind (body x) (fun r => match r with inl l' => loop f body l' | inr a => ret a end) w.
Proof. reflexivity. Qed.
Lemma send_tail_done fuel d w : send_tail (S fuel) [] d w =
  (if d then ret tt else terminate width inter 0 ;; drive_word width true ;; edge) w.
Proof. unfold send_tail. cbn [loop]. unfold bind at 1 2. cbn. reflexivity. Qed.
Lemma send_tail_step fuel pkt d w : pkt <> [] -> send_tail (S fuel) pkt d w =
  (t <- (x <- fill_word width inter pkt n 0 ;; drive_word width true ;; ret x) ;;
   edge ;; send_tail fuel (skipn n (if t : bool then [] else pkt)) (d || t)) w.
Proof.
  intro N. unfold send_tail. cbn [loop]. destruct pkt as [|b pkt]; [contradiction|]. rewrite !bind_assoc. rewrite lanes_n.
  unfold bind at 1. unfold bind at 10.
  destruct (fill_word width inter (b :: pkt) n 0 w) as [[t|e| |] w1]; try reflexivity.
  unfold bind, ret. destruct (drive_word width true w1) as [[[]|e| |] w2]; try reflexivity.
  destruct (edge w2) as [[[]|e| |] w3]; reflexivity.
Qed.
Lemma emits_tail fuel : forall pkt ls0, length pkt < fuel -> all_bytes pkt ->
  exists ls1, emits (send_tail (S fuel) pkt false) ls0 (body_words fuel pkt) ls1 tt.
Proof.
  induction fuel as [|fuel IH]; intros pkt ls0 L B; [lia|]. destruct pkt as [|b pkt].
  - cbn [body_words length]. destruct (Nat.ltb_spec 0 n); [|lia]. exists (word_of []).
    apply emits_eq with (m := (x <- terminate width inter 0 ;; drive_word width true ;; ret x) ;; edge).
    + intro w. rewrite send_tail_done. rewrite bind_assoc. unfold bind, ret.
      destruct (terminate width inter 0 w) as [[[]|e| |] w1]; try reflexivity.
      destruct (drive_word width true w1) as [[[]|e| |] w2]; reflexivity.
    + change [word_of []] with ([] ++ [word_of []]). apply emits_bind with (ls1 := word_of []) (a := tt); [|apply emits_edge].
      apply emits_word; [apply terminate0|]. intros. apply lane_of_byte. constructor.
  - set (pk := b :: pkt) in *. cbn [body_words].
    assert (Ft : does (fill_word width inter pk n 0) (at_lanes (lane_of pk) (seq 0 n)) (length pk <? n)) by (apply does_fill; lia).
    destruct (Nat.ltb_spec (length pk) n) as [G|G].
    + exists (word_of pk). apply emits_eq with (m := (t <- (x <- fill_word width inter pk n 0 ;; drive_word width true ;; ret x) ;;
         edge ;; send_tail (S fuel) (skipn n (if t : bool then [] else pk)) (false || t))).
      { intro w. apply send_tail_step. discriminate. }
      change [word_of pk] with ([] ++ [word_of pk]). apply emits_bind with (ls1 := word_of pk) (a := true).
      { apply emits_word; [exact Ft|]. intros. apply lane_of_byte. exact B. }
      change [word_of pk] with ([word_of pk] ++ []). apply emits_bind with (ls1 := word_of pk) (a := tt); [apply emits_edge|].
      rewrite skipn_nil. apply emits_eq with (m := ret tt); [|apply emits_ret]. intro w. apply send_tail_done.
    + destruct (IH (skipn n pk) (word_of pk)) as [ls1 H1]; [rewrite skipn_length; cbn [length] in *; lia|apply all_bytes_skipn; exact B|].
      exists ls1. apply emits_eq with (m := (t <- (x <- fill_word width inter pk n 0 ;; drive_word width true ;; ret x) ;;
         edge ;; send_tail (S fuel) (skipn n (if t : bool then [] else pk)) (false || t))).
      { intro w. apply send_tail_step. discriminate. }
      change (word_of pk :: body_words fuel (skipn n pk)) with ([] ++ [word_of pk] ++ body_words fuel (skipn n pk)).
      apply emits_bind with (ls1 := word_of pk) (a := false).
      { apply emits_word; [exact Ft|]. intros. apply lane_of_byte. exact B. }
      apply emits_bind with (ls1 := word_of pk) (a := tt); [apply emits_edge|]. exact H1.
Qed.

Definition first_lane (pkt : bytes) (j : nat) : lane := match j with O => START | S k => data (nth k pkt 0%Z) end.
Definition first_word (pkt : bytes) : list lane := map (first_lane pkt) (seq 0 n).
(** the words of one packet, including the idle word that follows it *)
Definition pkt_words (pkt : bytes) : list (list lane) :=
  let l1 := layer1 crc32 pkt in
  first_word l1 :: body_words (S (length l1 - (n - 1))) (skipn (n - 1) l1) ++ [idle_word].

Lemma layer1_padded pkt : layer1 crc32 pkt = [85; 85; 85; 85; 85; 85; 213]%Z ++ padded pkt ++ le32 (crc32 (padded pkt)).
Proof using. try clear Hn; try clear crc32. try clear Hn.
  unfold layer1, padded, PREAMBLE_SFD. rewrite <- !le32_z_to_le. destruct (Nat.ltb_spec (length pkt) 60); [reflexivity|].
  replace (60 - length pkt) with 0 by lia. cbn [repeat]. rewrite app_nil_r. reflexivity.
Qed.
Lemma padded_length pkt : 60 <= length (padded pkt).
Proof using. try clear Hn; try clear crc32. unfold padded. rewrite app_length, repeat_length. lia. Qed.
Lemma le32_length c : length (le32 c) = 4.
Proof using. try clear Hn; try clear crc32. reflexivity. Qed.
Lemma layer1_length pkt : 71 <= length (layer1 crc32 pkt).
Proof using. try clear Hn; try clear crc32. rewrite layer1_padded, !app_length, le32_length. pose proof (padded_length pkt). cbn [length]. lia. Qed.
Lemma layer1_fills m pkt : fills_word m pkt <-> m <= S (length (layer1 crc32 pkt)).
Proof using. try clear Hn. unfold fills_word. rewrite layer1_padded, !app_length, le32_length. cbn [length]. lia. Qed.
Lemma padded_bytes pkt : all_bytes pkt -> all_bytes (padded pkt).
Proof using. try clear Hn; try clear crc32. intro H. unfold padded. apply all_bytes_app; [exact H|apply all_bytes_zeros]. Qed.
Lemma layer1_bytes pkt : all_bytes pkt -> all_bytes (layer1 crc32 pkt).
Proof using. try clear Hn; try clear crc32. try clear Hn.
  intro H. rewrite layer1_padded. apply all_bytes_app; [|apply all_bytes_app; [apply padded_bytes; exact H|rewrite <- le32_z_to_le; apply z_to_le_bytes]].
  unfold all_bytes. repeat constructor; unfold is_byte; lia.
Qed.

(** with lanes already assembled but not yet driven *)
Definition emitsI {A} (asg : list assignment) (m : D A) (ls0 : list lane) (lss : list (list lane)) (ls1 : list lane) (a : A) : Prop :=
  forall o p tr l I, sets n inter 0 asg = Ok I -> p <> PReadOnly -> carries inter o ls0 ->
  (length lss <= length l -> exists ws o' p', Forall2 (carries inter) ws lss /\ carries inter o' ls1 /\ p' <> PReadOnly /\
     m (World I p o tr l) = (Done a, World 0%Z p' o' (tr ++ combine (firstn (length lss) l) ws) (skipn (length lss) l))) /\
  (length l < length lss -> exists ws w', Forall2 (carries inter) ws (firstn (length l) lss) /\
     m (World I p o tr l) = (Susp, w') /\ trace w' = tr ++ combine l ws /\ ins w' = []).
Lemma emitsI_nil {A} (m : D A) ls0 lss ls1 a : emitsI [] m ls0 lss ls1 a -> emits m ls0 lss ls1 a.
Proof. intros H o p tr l. apply H. reflexivity. Qed.
Lemma emitsI_does {A B} asg s (m : D A) (f : A -> D B) ls0 lss ls1 a b : does m s a ->
  (forall I, sets n inter 0 asg = Ok I -> exists I', sets n inter I s = Ok I') ->
  emitsI (asg ++ s) (f a) ls0 lss ls1 b -> emitsI asg (bind m f) ls0 lss ls1 b.
Proof.
  intros H T K o p tr l I E Hp C. destruct (T I E) as [I' E'].
  assert (E2 : sets n inter 0 (asg ++ s) = Ok I') by (rewrite sets_app, E; exact E').
  unfold bind. rewrite (H I I' p o tr l E'). apply K; assumption.
Qed.
Lemma emitsI_drive {B} f (k : unit -> D B) ls0 lss ls1 b : (forall j, j < n -> lane_byte (f j)) ->
  emits (k tt) (map f (seq 0 n)) lss ls1 b -> emitsI (at_lanes f (seq 0 n)) (bind (drive_word width true) k) ls0 lss ls1 b.
Proof.
  intros B0 K o p tr l I E Hp C. destruct (drive_word_ok f I p o tr l B0 Hp E) as (w & Cw & Dw).
  unfold bind. rewrite Dw. apply K; assumption.
Qed.
Lemma send_words_tail {B} fuel pkt (k : unit -> D B) w :
  bind (send_words width inter true fuel pkt) (fun done : bool =>
    bind (if done then ret tt else terminate width inter 0 ;; drive_word width true ;; edge) k) w
  = bind (send_tail fuel pkt false) k w.
Proof. unfold send_tail. rewrite bind_assoc. reflexivity. Qed.
Lemma sets_ok_more asg s : (forall a, In a (asg ++ s) -> fst a < n /\ is_byte (fst (snd a))) ->
  forall I, sets n inter 0 asg = Ok I -> exists I', sets n inter I s = Ok I'.
Proof.
  intros H I E. destruct (sets_bits n inter (asg ++ s) 0) as (I' & E' & _); [apply Forall_forall; exact H|lia|].
  rewrite sets_app, E in E'. exists I'. exact E'.
Qed.

Lemma emits_send pkt (sync : bool) ls0 : fills_word n pkt -> all_bytes pkt ->
  emits (driver_send width inter true crc32 pkt sync) ls0 ((if sync then [ls0] else []) ++ pkt_words pkt) idle_word tt.
Proof.
  intros Hu B. rewrite layer1_fills in Hu. pose proof (layer1_length pkt) as L. pose proof (layer1_bytes pkt B) as B1. unfold pkt_words, driver_send. cbn zeta.
  set (l1 := layer1 crc32 pkt) in *. rewrite lanes_n.
  apply emits_bind with (ls1 := ls0) (a := tt).
  { destruct sync; [apply emits_edge|apply emits_ret]. }
  assert (FB : forall j, j < n -> lane_byte (first_lane l1 j)).
  { intros [|j] Hj; unfold lane_byte, is_byte; cbn [first_lane START data fst]; [lia|].
    unfold all_bytes in B1. rewrite Forall_forall in B1. apply B1. apply nth_In. lia. }
  assert (Split : at_lanes (first_lane l1) (seq 0 n) = [(0, START)] ++ at_lanes (first_lane l1) (seq 1 (n - 1))).
  { destruct n as [|m]; [lia|]. cbn [seq at_lanes map app]. replace (S m - 1) with m by lia. reflexivity. }
  assert (OK : forall a, In a (at_lanes (first_lane l1) (seq 0 n)) -> fst a < n /\ is_byte (fst (snd a))).
  { unfold at_lanes. intros a Ha. apply in_map_iff in Ha. destruct Ha as (j & <- & Hj). apply in_seq in Hj. cbn [fst snd]. split; [lia|apply FB; lia]. }
  apply emitsI_nil. apply emitsI_does with (s := [(0, START)]) (a := tt).
  { apply does_set. }
  { apply sets_ok_more. intros a Ha. apply OK. rewrite Split. apply in_or_app. left. exact Ha. }
  apply emitsI_does with (s := at_lanes (first_lane l1) (seq 1 (n - 1))) (a := tt).
  { apply does_for. intros i Hi. apply in_seq in Hi. rewrite byte_at_ok by lia.
    change [(i, first_lane l1 i)] with ([] ++ [(i, first_lane l1 i)]). apply does_bind with (a := nth (i - 1) l1 0%Z); [apply does_ret|].
    destruct i as [|i]; [lia|]. cbn [first_lane]. replace (S i - 1) with i by lia. apply does_set. }
  { apply sets_ok_more. cbn [app]. intros a Ha. apply OK. rewrite Split. exact Ha. }
  match goal with |- emitsI ?x _ _ _ _ _ => replace x with (at_lanes (first_lane l1) (seq 0 n)) by exact Split end. apply emitsI_drive; [exact FB|]. fold (first_word l1).
  match goal with |- emits _ _ (?a :: ?r) _ _ => change (a :: r) with ([a] ++ r) end.
  apply emits_bind with (ls1 := first_word l1) (a := tt); [apply emits_edge|].
  set (rest := skipn (n - 1) l1) in *.
  eapply emits_eq; [intro w; apply send_words_tail|].
  assert (LR : length rest = length l1 - (n - 1)) by (unfold rest; apply skipn_length).
  rewrite <- LR. destruct (emits_tail (S (length rest)) rest (first_word l1)) as [ls1 H1]; [lia|apply all_bytes_skipn; exact B1|].
  apply emits_bind with (ls1 := ls1) (a := tt); [exact H1|].
  change [idle_word] with ([] ++ [idle_word]). apply emits_bind with (ls1 := idle_word) (a := tt); [apply emits_idle|apply emits_edge].
Qed.

(** ** Their lanes *)
Lemma word_of_full pkt : n <= length pkt -> word_of pkt = map data (firstn n pkt).
Proof using Hn. try clear crc32.
  intro H. unfold word_of. apply nth_ext_error. intro i. rewrite !nth_error_map. destruct (le_lt_dec n i) as [G|G].
  - rewrite (proj2 (nth_error_None (seq 0 n) i)) by (rewrite seq_length; exact G).
    rewrite (proj2 (nth_error_None (firstn n pkt) i)) by (rewrite firstn_length; lia). reflexivity.
  - rewrite (nth_error_nth' (seq 0 n) 0) by (rewrite seq_length; exact G). rewrite seq_nth by exact G.
    rewrite (nth_error_nth' (firstn n pkt) 0%Z) by (rewrite firstn_length; lia). cbn [option_map Nat.add]. f_equal.
    unfold lane_of. destruct (Nat.ltb_spec i (length pkt)); [|lia]. f_equal. rewrite <- (firstn_skipn n pkt) at 1.
    apply app_nth1. rewrite firstn_length. lia.
Qed.
Lemma word_of_last pkt : length pkt < n -> word_of pkt = map data pkt ++ TERMINATE :: repeat IDLE' (n - 1 - length pkt).
Proof using Hn. try clear crc32.
  intro H. unfold word_of. replace n with (length pkt + S (n - 1 - length pkt)) at 1 by lia. rewrite seq_app, map_app. f_equal.
  - apply nth_ext_error. intro i. rewrite !nth_error_map. destruct (le_lt_dec (length pkt) i) as [G|G].
    + rewrite (proj2 (nth_error_None (seq 0 (length pkt)) i)) by (rewrite seq_length; exact G).
      rewrite (proj2 (nth_error_None pkt i)) by exact G. reflexivity.
    + rewrite (nth_error_nth' (seq 0 (length pkt)) 0) by (rewrite seq_length; exact G). rewrite seq_nth by exact G.
      rewrite (nth_error_nth' pkt 0%Z) by exact G. cbn [option_map Nat.add]. f_equal. unfold lane_of.
      destruct (Nat.ltb_spec i (length pkt)); [reflexivity|lia].
  - cbn [seq map Nat.add]. f_equal.
    + unfold lane_of. rewrite Nat.ltb_irrefl, Nat.eqb_refl. reflexivity.
    + rewrite <- (map_const_seq IDLE' (n - 1 - length pkt) (S (length pkt))). apply map_ext_in. intros i Hi. apply in_seq in Hi.
      unfold lane_of. destruct (Nat.ltb_spec i (length pkt)); [lia|]. destruct (Nat.eqb_spec i (length pkt)); [lia|reflexivity].
Qed.
Lemma word_of_length pkt : length (word_of pkt) = n.
Proof. unfold word_of. rewrite map_length, seq_length. reflexivity. Qed.
(** the words after the first: data, terminate, idle lanes up to the end of the word *)
Lemma body_words_lanes fuel : forall pkt, length pkt < fuel ->
  exists k mid last, k < n /\ concat (body_words fuel pkt) = map data pkt ++ TERMINATE :: repeat IDLE' k /\
    body_words fuel pkt = mid ++ [last] /\ length last = n /\ Forall (fun w => length w = n) (body_words fuel pkt).
Proof using Hn. try clear crc32.
  induction fuel as [|fuel IH]; intros pkt L; [lia|]. cbn [body_words]. destruct (Nat.ltb_spec (length pkt) n) as [G|G].
  - exists (n - 1 - length pkt), [], (word_of pkt). split; [lia|]. cbn [concat]. rewrite app_nil_r. split; [apply word_of_last; exact G|].
    split; [reflexivity|]. split; [apply word_of_length|]. constructor; [apply word_of_length|constructor].
  - destruct (IH (skipn n pkt)) as (k & mid & last & K & E & M & Ll & F); [rewrite skipn_length; lia|].
    exists k, (word_of pkt :: mid), last. split; [exact K|]. cbn [concat]. rewrite E, word_of_full by exact G.
    split; [rewrite app_assoc, <- map_app, firstn_skipn; reflexivity|]. split; [rewrite M; reflexivity|].
    split; [exact Ll|]. constructor; [rewrite <- word_of_full by exact G; apply word_of_length|exact F].
Qed.
Lemma first_word_lanes pkt : n - 1 <= length pkt -> first_word pkt = START :: map data (firstn (n - 1) pkt).
Proof using Hn. try clear crc32.
  intro H. unfold first_word. replace n with (S (n - 1)) at 1 by lia. cbn [seq map]. f_equal.
  rewrite <- seq_shift, map_map. cbn [first_lane]. apply nth_ext_error. intro i. rewrite !nth_error_map. destruct (le_lt_dec (n - 1) i) as [G|G].
  - rewrite (proj2 (nth_error_None (seq 0 (n - 1)) i)) by (rewrite seq_length; exact G).
    rewrite (proj2 (nth_error_None (firstn (n - 1) pkt) i)) by (rewrite firstn_length; lia). reflexivity.
  - rewrite (nth_error_nth' (seq 0 (n - 1)) 0) by (rewrite seq_length; exact G). rewrite seq_nth by exact G.
    rewrite (nth_error_nth' (firstn (n - 1) pkt) 0%Z) by (rewrite firstn_length; lia). cbn [option_map Nat.add]. f_equal. f_equal.
    rewrite <- (firstn_skipn (n - 1) pkt) at 1. apply app_nth1. rewrite firstn_length. lia.
Qed.
Lemma pkt_words_frame pkt : fills_word n pkt ->
  exists k, n <= k < 2 * n /\ concat (pkt_words pkt) = frame crc32 pkt k /\ Forall (fun w => length w = n) (pkt_words pkt) /\
    (exists ws, pkt_words pkt = ws ++ [repeat IDLE' n]).
Proof.
  intro Hu. rewrite layer1_fills in Hu. pose proof (layer1_length pkt) as L. unfold pkt_words. cbn zeta. pose proof (layer1_padded pkt) as P. set (l1 := layer1 crc32 pkt) in *.
  destruct (body_words_lanes (S (length l1 - (n - 1))) (skipn (n - 1) l1)) as (k & mid & last & K & E & _ & _ & F).
  { rewrite skipn_length. lia. }
  exists (k + n). split; [lia|]. split; [|split].
  - cbn [concat]. rewrite concat_app, E. cbn [concat]. rewrite app_nil_r, first_word_lanes by lia.
    unfold frame, idle_word. rewrite <- P. cbn [app]. f_equal. rewrite repeat_app, <- app_assoc, app_assoc, <- map_app, firstn_skipn.
    reflexivity.
  - constructor; [unfold first_word; rewrite map_length, seq_length; reflexivity|]. apply Forall_app. split; [exact F|].
    constructor; [apply repeat_length|constructor].
  - exists (first_word l1 :: body_words (S (length l1 - (n - 1))) (skipn (n - 1) l1)). reflexivity.
Qed.
End Drv.
