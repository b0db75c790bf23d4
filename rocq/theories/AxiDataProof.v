(** AxiDataProof.v -- burst checks, write beats and read words. *)
From Verif Require Import Base BitsLemmas CompatModel AxiModel AxiSpec.
Local Open Scope Z_scope.

(** ** powers of two *)
Lemma pow2_land z : 0 < z -> (Z.land z (z - 1) = 0 <-> power_of_two z).
Proof.
  intro H. split.
  - intro E. exists (Z.log2 z). split; [apply Z.log2_nonneg|].
    destruct (Z.log2_spec z H) as [L U]. destruct (Z.eq_dec z (2 ^ Z.log2 z)) as [|N]; [assumption|]. exfalso.
    assert (Z.testbit (Z.land z (z - 1)) (Z.log2 z) = true).
    { rewrite Z.land_spec. rewrite Z.bit_log2 by exact H.
      assert (Z.log2 (z - 1) = Z.log2 z) as <-; [|apply Z.bit_log2; pose proof (Z.pow_pos_nonneg 2 (Z.log2 z) ltac:(lia) (Z.log2_nonneg z)); lia].
      apply Z.log2_unique; [apply Z.log2_nonneg|]. unfold Z.succ in *. lia. }
    rewrite E, Z.testbit_0_l in H0. discriminate.
  - intros (k & Hk & ->). replace (2 ^ k - 1) with (Z.ones k) by (rewrite Z.ones_equiv; lia).
    rewrite Z.land_ones by exact Hk. apply Z.mod_same. apply Z.pow_nonzero; lia.
Qed.
Lemma pow2_pos' z : power_of_two z -> 0 < z.
Proof. intros (k & Hk & ->). apply Z.pow_pos_nonneg; lia. Qed.
Lemma pow2_divide a b : power_of_two a -> power_of_two b -> a <= b -> (a | b).
Proof.
  intros (k & Hk & ->) (j & Hj & ->) L. assert (k <= j) by (apply (Z.pow_le_mono_r_iff 2); lia).
  exists (2 ^ (j - k)). rewrite <- Z.pow_add_r by lia. f_equal. lia.
Qed.

(** ** C49, C50 *)
Lemma check_length_spec n b : (check_length n b = Ok tt <-> legal_length n b) /\
  (~ legal_length n b -> check_length n b = Err EValue).
Proof.
  unfold check_length, legal_length. destruct b.
  - destruct (Z.leb_spec n 0), (Z.ltb_spec 16 n); split; try split; intros; try reflexivity; try discriminate; lia.
  - destruct (Z.leb_spec n 0), (Z.ltb_spec 256 n); split; try split; intros; try reflexivity; try discriminate; lia.
  - assert (E : existsb (Z.eqb n) [1; 2; 4; 8; 16] = true <-> In n [1; 2; 4; 8; 16]).
    { rewrite existsb_exists. split.
      - intros (x & I & E). apply Z.eqb_eq in E. subst. exact I.
      - intro I. exists n. split; [exact I|apply Z.eqb_refl]. }
    destruct (Z.leb_spec n 0) as [L|L].
    + assert (~ In n [1; 2; 4; 8; 16]) by (cbn; lia). split; [split; [discriminate|contradiction]|reflexivity].
    + destruct (existsb (Z.eqb n) [1; 2; 4; 8; 16]).
      * split; [split; [intros _; apply E; reflexivity|reflexivity]|]. intro N. exfalso. apply N, E. reflexivity.
      * split; [split; [discriminate|intro I; apply E in I; discriminate]|reflexivity].
Qed.
Lemma check_size_spec bus s : (check_size s bus = Ok tt <-> legal_size bus s) /\
  (~ legal_size bus s -> check_size s bus = Err EValue).
Proof.
  unfold check_size, legal_size. destruct (Z.ltb_spec bus s); [split; [split; [discriminate|lia]|reflexivity]|].
  destruct (Z.leb_spec s 0) as [L|L]; cbn [orb].
  - split; [split; [discriminate|]|reflexivity]. intros [P _]. apply pow2_pos' in P. lia.
  - pose proof (pow2_land s L) as P. destruct (Z.eqb_spec (Z.land s (s - 1)) 0) as [E|E]; cbn [negb].
    + split; [split; [|reflexivity]|]; intros; [tauto|]. exfalso. tauto.
    + split; [split; [discriminate|]|reflexivity]. intros [P' _]. tauto.
Qed.
Lemma page_land a : Z.land a (Z.lnot 4095) = 4096 * (a / 4096).
Proof.
  rewrite <- Z.ldiff_land. change 4095 with (Z.ones 12). rewrite Z.ldiff_ones_r by lia.
  rewrite Z.shiftr_div_pow2, Z.shiftl_mul_pow2 by lia. change (2 ^ 12) with 4096. lia.
Qed.
Lemma page_exact a size n : 0 < n -> 0 < size -> (size | 4096) ->
  (a / 4096 = (a + size * (n - 1)) / 4096 <-> forall x, incr_bytes a size n x -> same_page a x).
Proof.
  intros Hn Hs (q & Hq). unfold incr_bytes, same_page, aligned.
  pose proof (Z.div_mod a size ltac:(lia)) as E. pose proof (Z.mod_pos_bound a size Hs) as B.
  assert (Q : 0 < q) by nia.
  split.
  - intros H x [X1 X2]. symmetry. apply Z.le_antisymm; [|apply Z.div_le_mono; lia].
    rewrite H. set (y := a + size * (n - 1)). assert (x < (y / size + 1) * size).
    { unfold y. replace (a + size * (n - 1)) with (a + (n - 1) * size) by lia. rewrite Z.div_add by lia. nia. }
    pose proof (Z.div_mod y 4096 ltac:(lia)). pose proof (Z.mod_pos_bound y 4096 ltac:(lia)).
    apply Z.lt_succ_r. apply Z.div_lt_upper_bound; [lia|].
    assert (y / size < (y / 4096 + 1) * q). { apply Z.div_lt_upper_bound; [lia|]. rewrite Hq in *. nia. }
    rewrite Hq at 1. nia.
  - intro H. apply H. nia.
Qed.
Lemma check_4kB_spec a b s n : 0 < n -> 0 < s -> (s | 4096) ->
  (check_4kB a b s n = Ok tt <-> (b = INCR -> forall x, incr_bytes a s n x -> same_page a x)) /\
  (check_4kB a b s n = Ok tt \/ check_4kB a b s n = Err EValue).
Proof.
  intros Hn Hs Hd. pose proof (page_exact a s n Hn Hs Hd) as P. destruct b; cbn [check_4kB].
  - split; [split; [discriminate|reflexivity]|left; reflexivity].
  - rewrite !page_land. destruct (Z.eqb_spec (4096 * (a / 4096)) (4096 * ((a + s * (n - 1)) / 4096))) as [E|E].
    + split; [|left; reflexivity]. split; [|reflexivity]. intros _ _. apply P. lia.
    + split; [|right; reflexivity]. split; [discriminate|]. intro H. exfalso. apply E. f_equal. apply P, H. reflexivity.
  - split; [split; [discriminate|reflexivity]|left; reflexivity].
Qed.
Lemma legal_length_pos n b : legal_length n b -> 0 < n.
Proof. destruct b; cbn; lia. Qed.

Lemma check_params_spec bus a n size b : power_of_two bus -> bus <= 4096 ->
  let legal := (forall s, size = Some s -> legal_size bus s) /\ legal_burst bus a n (size_or bus size) b in
  (legal -> check_params bus a n size b = Ok (size_or bus size)) /\
  (~ legal -> check_params bus a n size b = Err EValue).
Proof.
  intros Pb Lb legal. unfold check_params.
  assert (S : (forall s, size = Some s -> legal_size bus s) \/ exists s, size = Some s /\ ~ legal_size bus s).
  { destruct size as [s|]; [|left; discriminate].
    destruct (check_size s bus) as [[]|e] eqn:E.
    - left. intros s' H. inversion H; subst. apply check_size_spec, E.
    - right. exists s. split; [reflexivity|]. intro L. apply check_size_spec in L. congruence. }
  destruct S as [S|(s & -> & S)].
  2:{ destruct (check_size_spec bus s) as [_ E]. rewrite (E S). cbn [rbind]. split; [|reflexivity].
      intros [H _]. exfalso. apply S, H. reflexivity. }
  assert (E0 : (match size with Some s => rbind (check_size s bus) (fun _ => Ok s) | None => Ok bus end) = Ok (size_or bus size)).
  { destruct size as [s|]; [|reflexivity]. destruct (check_size_spec bus s) as [[_ E] _]. rewrite (E (S s eq_refl)). reflexivity. }
  rewrite E0. cbn [rbind].
  assert (P : power_of_two (size_or bus size) /\ size_or bus size <= bus).
  { destruct size as [s|]; [apply (S s eq_refl)|split; [exact Pb|cbn; lia]]. }
  destruct P as [P L].
  assert (D : (size_or bus size | 4096)).
  { apply pow2_divide; [exact P|exists 12; split; [lia|reflexivity]|lia]. }
  destruct (check_length n b) as [[]|e] eqn:E1.
  2:{ assert (N : ~ legal_length n b). { intro H. apply check_length_spec in H. congruence. }
      apply (proj2 (check_length_spec n b)) in N as N'. rewrite N' in E1. inversion E1; subst. cbn [rbind].
      split; [|reflexivity]. intros [_ [H _]]. contradiction. }
  apply check_length_spec in E1. cbn [rbind].
  destruct (check_4kB_spec a b (size_or bus size) n (legal_length_pos _ _ E1) (pow2_pos' _ P) D) as [Q1 Q2].
  destruct Q2 as [Q2|Q2]; rewrite Q2; cbn [rbind].
  - split; [reflexivity|]. intro H. exfalso. apply H. split; [exact S|]. split; [exact E1|]. apply Q1, Q2.
  - split; [|reflexivity]. intros [_ [_ H]]. apply Q1 in H. congruence.
Qed.

(** ** bits of the write beats *)
Lemma byte_bits k z p : 0 <= k -> 0 <= p -> Z.testbit (byte k z) p = (p <? 8) && Z.testbit z (p + 8 * k).
Proof.
  intros Hk Hp. unfold byte. change 256 with (2 ^ 8). destruct (Z.ltb_spec p 8) as [L|L]; cbn [andb].
  - rewrite Z.mod_pow2_bits_low by lia. rewrite Z.div_pow2_bits by lia. reflexivity.
  - apply Z.mod_pow2_bits_high. lia.
Qed.
Lemma byte_ext k z k' z' : 0 <= k -> 0 <= k' -> (forall p, 0 <= p < 8 -> Z.testbit z (p + 8 * k) = Z.testbit z' (p + 8 * k')) ->
  byte k z = byte k' z'.
Proof.
  intros Hk Hk' H. apply Z.bits_inj'. intros p Hp. rewrite !byte_bits by lia.
  destruct (Z.ltb_spec p 8); [|reflexivity]. cbn [andb]. apply H. lia.
Qed.
Lemma mask_bits v n p : 0 <= n -> 0 <= p -> Z.testbit (Z.land v (2 ^ n - 1)) p = (p <? n) && Z.testbit v p.
Proof.
  intros Hn Hp. replace (2 ^ n - 1) with (Z.ones n) by (rewrite Z.ones_equiv; lia). rewrite Z.land_ones by exact Hn.
  destruct (Z.ltb_spec p n); cbn [andb]; [apply Z.mod_pow2_bits_low; lia|apply Z.mod_pow2_bits_high; lia].
Qed.
Lemma mask_and_shift_bits v s k p : 0 <= s -> 0 <= k -> 0 <= p ->
  Z.testbit (mask_and_shift v s k) p = (k * s <=? p) && (p <? (k + 1) * s) && Z.testbit v (p - k * s).
Proof.
  intros Hs Hk Hp. unfold mask_and_shift. destruct (Z.leb_spec (k * s) p) as [L|L]; cbn [andb].
  - rewrite Z.shiftl_spec by exact Hp. rewrite mask_bits by lia. f_equal. destruct (Z.ltb_spec (p - k * s) s), (Z.ltb_spec p ((k + 1) * s)); lia.
  - rewrite Z.shiftl_spec_low by lia. reflexivity.
Qed.
Lemma mask_and_shift_bound v s k q : 0 <= s -> 0 <= k < q -> 0 <= mask_and_shift v s k < 2 ^ (q * s).
Proof.
  intros Hs Hk. unfold mask_and_shift. replace (2 ^ s - 1) with (Z.ones s) by (rewrite Z.ones_equiv; lia).
  rewrite Z.land_ones by exact Hs. rewrite Z.shiftl_mul_pow2 by nia.
  pose proof (Z.mod_pos_bound v (2 ^ s) ltac:(apply Z.pow_pos_nonneg; lia)) as B.
  assert (P : 0 < 2 ^ (k * s)) by (apply Z.pow_pos_nonneg; nia). split; [nia|].
  apply Z.lt_le_trans with (2 ^ s * 2 ^ (k * s)); [nia|]. rewrite <- Z.pow_add_r by nia. apply Z.pow_le_mono_r; nia.
Qed.
Lemma unalign_word_bits sb sh prev cur p : 0 < sh < sb -> 0 <= p < sb ->
  Z.testbit (unalign_word sb sh prev cur) p = if p <? sh then Z.testbit prev (sb - sh + p) else Z.testbit cur (p - sh).
Proof.
  intros Hs Hp. unfold unalign_word. rewrite Z.lor_spec, Z.shiftr_spec by lia. rewrite Z.land_spec.
  rewrite (Z.shiftl_spec (2 ^ sh - 1)) by lia. replace (p + (sb - sh) - (sb - sh)) with p by lia.
  replace (2 ^ sh - 1) with (Z.ones sh) by (rewrite Z.ones_equiv; lia).
  destruct (Z.ltb_spec p sh) as [L|L].
  - rewrite Z.ones_spec_low, andb_true_r by lia. rewrite Z.shiftl_spec_low by lia. rewrite orb_false_r. f_equal. lia.
  - rewrite Z.ones_spec_high, andb_false_r by lia. cbn [orb]. rewrite Z.shiftl_spec by lia. rewrite mask_bits by lia.
    replace (p - sh <? sb - sh) with true by (symmetry; apply Z.ltb_lt; lia). reflexivity.
Qed.
Lemma shl_bits sb sh w p : 0 < sh < sb -> 0 <= p < sb ->
  Z.testbit (Z.land (Z.shiftl w sh) (2 ^ sb - 1)) p = negb (p <? sh) && Z.testbit w (p - sh).
Proof.
  intros Hs Hp. rewrite mask_bits by lia. replace (p <? sb) with true by (symmetry; apply Z.ltb_lt; lia). cbn [andb].
  destruct (Z.ltb_spec p sh); cbn [negb andb]; [apply Z.shiftl_spec_low; lia|apply Z.shiftl_spec; lia].
Qed.

(** ** strobes *)
Lemma strobes_spec n size be : be <> [] -> exists ss, strobes n size be = Ok ss /\ length ss = n /\
  forall j k, (j < n)%nat -> 0 <= k < size -> Z.testbit (nth j ss 0) k = enabled be j k.
Proof.
  intro N. unfold strobes.
  assert (T : forall o k, 0 <= k < size -> Z.testbit (strobe_of size o) k = match o with None => true | Some v => Z.testbit v k end).
  { intros [v|] k Hk; [reflexivity|]. cbn [strobe_of]. replace (2 ^ size - 1) with (Z.ones size) by (rewrite Z.ones_equiv; lia).
    apply Z.ones_spec_low. lia. }
  assert (A : forall j, (j < length (firstn n be))%nat -> nth j (map (strobe_of size) (firstn n be)) 0 = strobe_of size (nth j be (last be None))).
  { intros j Hj. rewrite (nth_indep _ 0 (strobe_of size (last be None))) by (rewrite map_length; exact Hj). rewrite map_nth. f_equal.
    rewrite firstn_length in Hj. transitivity (nth j (firstn n be ++ skipn n be) (last be None)); [|rewrite firstn_skipn; reflexivity].
    rewrite app_nth1 by (rewrite firstn_length; lia). reflexivity. }
  destruct (Nat.leb_spec n (length be)) as [L|L].
  - eexists. split; [reflexivity|]. rewrite map_length, firstn_length. split; [lia|]. intros j k Hj Hk.
    rewrite A by (rewrite firstn_length; lia). rewrite T by exact Hk. reflexivity.
  - rewrite (firstn_all2 be) in * by lia. destruct (exists_last N) as (l & x & ->). rewrite map_app, rev_app_distr. cbn [map rev app].
    eexists. split; [reflexivity|]. rewrite app_length, repeat_length. rewrite !app_length, !map_length in *. cbn [length map] in *.
    split; [lia|]. intros j k Hj Hk. destruct (Nat.lt_ge_cases j (length l + 1)) as [H|H].
    + rewrite app_nth1 by (rewrite app_length, map_length; cbn [length]; lia).
      change [strobe_of size x] with (map (strobe_of size) [x]). rewrite <- map_app. rewrite A by exact H. rewrite T by exact Hk. reflexivity.
    + rewrite app_nth2 by (rewrite app_length, map_length; cbn [length]; lia).
      rewrite app_length, map_length. cbn [length]. rewrite (nth_indep _ 0 (strobe_of size x)) by (rewrite repeat_length; lia).
      rewrite nth_repeat. rewrite T by exact Hk. unfold enabled. rewrite (nth_overflow (l ++ [x])) by (rewrite app_length; cbn [length]; lia).
      rewrite last_last. reflexivity.
Qed.
Lemma strobes_empty n size : (0 < n)%nat -> strobes n size [] = Err EIndex.
Proof. intro H. unfold strobes. cbn [length]. destruct (Nat.leb_spec n 0); [lia|]. destruct n; reflexivity. Qed.

(** ** the words before they are put on their lanes *)
(** bit t of the values laid out one after the other, [sb] bits each *)
Definition stream (data : list Z) (sb t : Z) : bool :=
  (0 <=? t) && Z.testbit (nth (Z.to_nat (t / sb)) data 0) (t mod sb).

Lemma unalign_length data sb sh : length (unalign_data data sb sh) = length data.
Proof. unfold unalign_data. rewrite map_length, combine_length. cbn [length]. lia. Qed.
Lemma unalign_nth data sb sh i : (i < length data)%nat ->
  nth i (unalign_data data sb sh) 0 = unalign_word sb sh (nth i (0 :: data) 0) (nth i data 0).
Proof.
  intro H. unfold unalign_data.
  rewrite (nth_indep _ 0 (unalign_word sb sh (fst (0, 0)) (snd (0, 0)))) by (rewrite map_length, combine_length; cbn [length]; lia).
  rewrite (map_nth (fun x => unalign_word sb sh (fst x) (snd x))).
  assert (C : forall (l l' : list Z) j, (length l' <= length l)%nat -> (j < length l')%nat -> nth j (combine l l') (0, 0) = (nth j l 0, nth j l' 0)).
  { clear. induction l as [|x l IH]; intros [|y l'] [|j] H1 H2; cbn [length combine nth] in *; try lia; [reflexivity|].
    apply IH; lia. }
  rewrite C by (cbn [length]; lia). reflexivity.
Qed.
Lemma unalign_stream data sb sh i p : 0 < sh < sb -> (i < length data)%nat -> 0 <= p < sb ->
  Z.testbit (nth i (unalign_data data sb sh) 0) p = stream data sb (Z.of_nat i * sb + p - sh).
Proof.
  intros Hs Hi Hp. rewrite unalign_nth by exact Hi. rewrite unalign_word_bits by assumption. unfold stream.
  destruct (Z.ltb_spec p sh) as [L|L].
  - destruct i as [|i].
    + cbn [nth]. rewrite Z.testbit_0_l. destruct (Z.leb_spec 0 (Z.of_nat 0 * sb + p - sh)); [lia|reflexivity].
    + cbn [nth]. replace (Z.of_nat (S i) * sb + p - sh) with (sb - sh + p + Z.of_nat i * sb) by lia.
      rewrite Z.div_add, Z.mod_add by lia. rewrite Z.div_small, Z.mod_small by lia. rewrite Z.add_0_l, Nat2Z.id.
      destruct (Z.leb_spec 0 (sb - sh + p + Z.of_nat i * sb)); [reflexivity|nia].
  - replace (Z.of_nat i * sb + p - sh) with (p - sh + Z.of_nat i * sb) by lia.
    rewrite Z.div_add, Z.mod_add by lia. rewrite Z.div_small, Z.mod_small by lia. rewrite Z.add_0_l, Nat2Z.id.
    destruct (Z.leb_spec 0 (p - sh + Z.of_nat i * sb)); [reflexivity|nia].
Qed.
Lemma plain_stream data sb i p : 0 <= p < sb ->
  Z.testbit (nth i data 0) p = stream data sb (Z.of_nat i * sb + p).
Proof.
  intro Hp. unfold stream. replace (Z.of_nat i * sb + p) with (p + Z.of_nat i * sb) by lia.
  rewrite Z.div_add, Z.mod_add by lia. rewrite Z.div_small, Z.mod_small by lia. rewrite Z.add_0_l, Nat2Z.id.
  destruct (Z.leb_spec 0 (p + Z.of_nat i * sb)); [reflexivity|nia].
Qed.

Section Write.
Context (bus size q a : Z).
Hypothesis (Hs : 0 < size) (Hq : 0 < q) (Hb : bus = q * size).
Let sh := a mod size.
Let al := aligned a size.
Let blk := a mod bus / size.

Lemma sh_range : 0 <= sh < size.
Proof. apply Z.mod_pos_bound, Hs. Qed.
Lemma al_eq : al = a - sh.
Proof. unfold al, sh, aligned. pose proof (Z.div_mod a size ltac:(lia)). lia. Qed.
Lemma blk_eq : blk = (a / size) mod q.
Proof.
  unfold blk. rewrite Hb, (Z.mul_comm q), Z.rem_mul_r by lia. pose proof sh_range. fold sh.
  rewrite (Z.mul_comm size), Z.div_add by lia. rewrite Z.div_small by assumption. reflexivity.
Qed.
Lemma blk_range : 0 <= blk < q.
Proof. rewrite blk_eq. apply Z.mod_pos_bound, Hq. Qed.
Lemma bus_div : bus / size = q.
Proof. rewrite Hb. apply Z.div_mul. lia. Qed.

(** the block of beat i *)
Definition block (b : burst) (i : Z) : Z := match b with FIXED => blk | _ => (blk + i) mod q end.
Lemma block_range b i : 0 <= block b i < q.
Proof. unfold block. destruct b; [apply blk_range| |]; apply Z.mod_pos_bound, Hq. Qed.
Lemma block_lane i : (al + i * size) mod bus = ((blk + i) mod q) * size.
Proof.
  unfold al, aligned. rewrite <- Z.mul_add_distr_r, Hb. rewrite Z.mul_mod_distr_r by lia. f_equal.
  rewrite blk_eq. rewrite Zplus_mod_idemp_l. reflexivity.
Qed.

Lemma beats_from_nth b l : forall i0 n, 0 <= i0 ->
  nth_error (beats_from bus b size (block b i0) l) n =
  option_map (fun x => (mask_and_shift (fst x) (size * 8) (block b (i0 + Z.of_nat n)),
                        mask_and_shift (snd x) size (block b (i0 + Z.of_nat n)))) (nth_error l n).
Proof.
  induction l as [|[w s] l IH]; intros i0 n Hi; [destruct n; reflexivity|]. cbn [beats_from].
  assert (E : (match b with FIXED => block b i0 | _ => (block b i0 + 1) mod (bus / size) end) = block b (i0 + 1)).
  { destruct b; [reflexivity| |]; cbn [block]; rewrite bus_div, Zplus_mod_idemp_l; f_equal; lia. }
  destruct n as [|n]; cbn [nth_error].
  - rewrite Z.add_0_r. reflexivity.
  - rewrite E, IH by lia. replace (i0 + 1 + Z.of_nat n) with (i0 + Z.of_nat (S n)) by lia. reflexivity.
Qed.
Lemma block_0 b : block b 0 = blk.
Proof. destruct b; [reflexivity| |]; unfold block; rewrite Z.add_0_r; apply Z.mod_small, blk_range. Qed.

(** one beat of word w, strobe s at block k: what it stores *)
Lemma store_block m addr A k w s x : A = aligned addr size -> A mod bus = k * size -> 0 <= k < q ->
  store_beat bus m addr (mask_and_shift w (size * 8) k, mask_and_shift s size k) x =
  if (A <=? x) && (x <? A + size) && Z.testbit s (x - A) then byte (x - A) w else m x.
Proof.
  intros EA Ek Hk. unfold store_beat. cbn [fst snd].
  assert (Hbus : 0 < bus) by nia.
  pose proof (Z.div_mod x bus ltac:(lia)) as Ex. pose proof (Z.mod_pos_bound x bus Hbus) as Bx.
  pose proof (Z.div_mod A bus ltac:(lia)) as EA'.
  assert (Ead : addr / bus = A / bus).
  { subst A. unfold aligned. rewrite Hb, (Z.mul_comm q), <- !Z.div_div by lia. rewrite Z.div_mul by lia. reflexivity. }
  rewrite Ead, mask_and_shift_bits by lia. set (X := x / bus) in *. set (r := x mod bus) in *. set (Y := A / bus) in *.
  destruct (Z.eqb_spec X Y) as [E|E]; cbn [andb].
  - replace (r - k * size) with (x - A) by nia.
    replace ((k * size <=? r) && (r <? (k + 1) * size)) with ((A <=? x) && (x <? A + size)).
    2:{ f_equal; [destruct (Z.leb_spec A x), (Z.leb_spec (k * size) r)|destruct (Z.ltb_spec x (A + size)), (Z.ltb_spec r ((k + 1) * size))]; try reflexivity; nia. }
    destruct ((A <=? x) && (x <? A + size)) eqn:R; cbn [andb]; [|reflexivity].
    destruct (Z.testbit s (x - A)); [|reflexivity]. apply andb_true_iff in R. destruct R as [R1 R2]. apply Z.leb_le in R1. apply Z.ltb_lt in R2.
    apply byte_ext; [lia|lia|]. intros p Hp. rewrite mask_and_shift_bits by nia.
    replace (k * (size * 8) <=? p + 8 * r) with true by (symmetry; apply Z.leb_le; nia).
    replace (p + 8 * r <? (k + 1) * (size * 8)) with true by (symmetry; apply Z.ltb_lt; nia). cbn [andb]. f_equal. nia.
  - replace ((A <=? x) && (x <? A + size)) with false; [reflexivity|].
    symmetry. apply andb_false_iff.
    destruct (Z.leb_spec A x) as [R1|R1]; [|left; reflexivity]. right. apply Z.ltb_ge.
    assert (Y + 1 <= X) by nia. assert (k * size + size <= q * size) by nia. nia.
Qed.

(** strobes stay on the lanes of the block *)
Lemma strobe_lanes s k p : 0 <= k < q -> 0 <= p -> Z.testbit (mask_and_shift s size k) p = true ->
  k * size <= p < k * size + size /\ Z.testbit s (p - k * size) = true.
Proof.
  intros Hk Hp H. rewrite mask_and_shift_bits in H by lia. apply andb_true_iff in H. destruct H as [H H3].
  apply andb_true_iff in H. destruct H as [H1 H2]. apply Z.leb_le in H1. apply Z.ltb_lt in H2. split; [nia|exact H3].
Qed.

(** *** bursts that advance (INCR, WRAP): the unaligned words as streams *)
Lemma unaligned_stream b data ss : b <> FIXED -> length ss = length data ->
  exists W T, unaligned a b size data ss = (W, T) /\ length W = length data /\ length T = length data /\
  forall i, (i < length data)%nat ->
   (forall p, 0 <= p < size * 8 -> Z.testbit (nth i W 0) p = stream data (size * 8) (Z.of_nat i * (size * 8) + p - sh * 8)) /\
   (forall p, 0 <= p < size -> Z.testbit (nth i T 0) p = stream ss size (Z.of_nat i * size + p - sh)).
Proof.
  intros Nb L. unfold unaligned. fold sh. pose proof sh_range as R. destruct (Z.eqb_spec sh 0) as [E|E].
  - exists data, ss. split; [reflexivity|]. split; [reflexivity|]. split; [exact L|]. intros i Hi. rewrite E. split; intros p Hp.
    + rewrite (plain_stream _ (size * 8)) by exact Hp. f_equal. lia.
    + rewrite (plain_stream _ size) by exact Hp. f_equal. lia.
  - exists (unalign_data data (size * 8) (sh * 8)), (unalign_data ss size sh). split; [destruct b; [contradiction| |]; reflexivity|].
    rewrite !unalign_length. split; [reflexivity|]. split; [exact L|]. intros i Hi. split; intros p Hp.
    + apply unalign_stream; lia.
    + apply unalign_stream; [lia|rewrite L; exact Hi|exact Hp].
Qed.

Lemma nth_error_combine {A B} (l : list A) : forall (l' : list B) n da db, length l = length l' ->
  nth_error (combine l l') n = if (n <? length l)%nat then Some (nth n l da, nth n l' db) else None.
Proof.
  induction l as [|x l IH]; intros [|y l'] n da db H; try discriminate; [destruct n; reflexivity|].
  destruct n as [|n]; [reflexivity|]. cbn [combine nth_error nth length]. rewrite (IH l' n da db) by (injection H; auto). reflexivity.
Qed.

(** the beats of an advancing burst *)
Lemma advancing b data be : b <> FIXED -> be <> [] -> exists beats W T ss,
  write_beats bus a b size data be = Ok beats /\ length beats = length data /\
  (forall i, nth_error beats i = if (i <? length data)%nat
     then Some (mask_and_shift (nth i W 0) (size * 8) (block b (Z.of_nat i)), mask_and_shift (nth i T 0) size (block b (Z.of_nat i)))
     else None) /\
  (forall i, (i < length data)%nat ->
   (forall p, 0 <= p < size * 8 -> Z.testbit (nth i W 0) p = stream data (size * 8) (Z.of_nat i * (size * 8) + p - sh * 8)) /\
   (forall p, 0 <= p < size -> Z.testbit (nth i T 0) p = stream ss size (Z.of_nat i * size + p - sh))) /\
  length ss = length data /\ (forall j k, (j < length data)%nat -> 0 <= k < size -> Z.testbit (nth j ss 0) k = enabled be j k).
Proof.
  intros Nb N. destruct (strobes_spec (length data) size be N) as (ss & Es & Ls & Hss).
  destruct (unaligned_stream b data ss Nb Ls) as (W & T & Eu & LW & LT & HU).
  assert (NE : forall i, nth_error (beats_from bus b size (a mod bus / size) (combine W T)) i = if (i <? length data)%nat
     then Some (mask_and_shift (nth i W 0) (size * 8) (block b (Z.of_nat i)), mask_and_shift (nth i T 0) size (block b (Z.of_nat i)))
     else None).
  { intro i. fold blk. rewrite <- (block_0 b), beats_from_nth by lia. rewrite Z.add_0_l.
    rewrite (nth_error_combine W T i 0 0) by congruence. rewrite LW. destruct (i <? length data)%nat; reflexivity. }
  exists (beats_from bus b size (a mod bus / size) (combine W T)), W, T, ss. split; [|split; [|split; [|split; [|split]]]]; auto.
  - unfold write_beats. rewrite Es. cbn [rbind]. rewrite Eu. reflexivity.
  - apply Nat.le_antisymm.
    + apply Nat.nlt_ge. intro H. apply nth_error_Some in H. rewrite NE in H. apply H. rewrite Nat.ltb_irrefl. reflexivity.
    + destruct (Nat.eq_dec (length data) 0) as [E|E]; [lia|].
      assert (H : nth_error (beats_from bus b size (a mod bus / size) (combine W T)) (length data - 1) <> None).
      { rewrite NE. destruct (Nat.ltb_spec (length data - 1) (length data)); [discriminate|lia]. }
      apply nth_error_Some in H. lia.
Qed.

(** addresses of INCR beats *)
Lemma aligned_mul k : aligned (k * size) size = k * size.
Proof. unfold aligned. rewrite Z.div_mul by lia. reflexivity. Qed.
Lemma incr_aligned n i : 0 <= i -> aligned (beat_address INCR size n a i) size = al + i * size.
Proof.
  intro Hi. cbn [beat_address]. destruct (Z.eqb_spec i 0) as [->|H].
  - fold al. lia.
  - unfold al, aligned at 1 2 3. rewrite <- Z.mul_add_distr_r. rewrite Z.div_mul by lia. reflexivity.
Qed.
Lemma aligned_le x : aligned x size <= x < aligned x size + size.
Proof. unfold aligned. pose proof (Z.div_mod x size ltac:(lia)). pose proof (Z.mod_pos_bound x size Hs). lia. Qed.

(** one INCR beat *)
Lemma incr_store m n data be i : let x_of := fun x => al + Z.of_nat i * size <= x < al + Z.of_nat i * size + size in
  forall W T ss, (i < length data)%nat ->
   (forall p, 0 <= p < size * 8 -> Z.testbit W p = stream data (size * 8) (Z.of_nat i * (size * 8) + p - sh * 8)) ->
   (forall p, 0 <= p < size -> Z.testbit T p = stream ss size (Z.of_nat i * size + p - sh)) ->
   (forall j k, (j < length data)%nat -> 0 <= k < size -> Z.testbit (nth j ss 0) k = enabled be j k) ->
   forall x, store_beat bus m (beat_address INCR size n a (Z.of_nat i))
     (mask_and_shift W (size * 8) (block INCR (Z.of_nat i)), mask_and_shift T size (block INCR (Z.of_nat i))) x =
   if (al + Z.of_nat i * size <=? x) && (x <? al + Z.of_nat i * size + size)
   then incr_written a size data be m x else m x.
Proof.
  intros x_of W T ss Hi HW HT Hss x. pose proof sh_range as R. pose proof al_eq as Ea.
  rewrite (store_block m _ (al + Z.of_nat i * size) _ W T x);
    [|symmetry; apply incr_aligned; lia|apply block_lane|apply (block_range INCR)].
  destruct ((al + Z.of_nat i * size <=? x) && (x <? al + Z.of_nat i * size + size)) eqn:Rg; cbn [andb]; [|reflexivity].
  apply andb_true_iff in Rg. destruct Rg as [R1 R2]. apply Z.leb_le in R1. apply Z.ltb_lt in R2.
  rewrite HT by lia. unfold incr_written. fold al.
  replace (x <? al + Z.of_nat (length data) * size) with true by (symmetry; apply Z.ltb_lt; nia).
  unfold stream at 1. replace (Z.of_nat i * size + (x - (al + Z.of_nat i * size)) - sh) with (x - a) by lia.
  destruct (Z.leb_spec a x) as [L|L]; destruct (Z.leb_spec 0 (x - a)) as [L'|L']; try lia; cbn [andb]; [|reflexivity].
  assert (Dj : 0 <= (x - a) / size < Z.of_nat (length data)).
  { split; [apply Z.div_pos; lia|]. apply Z.div_lt_upper_bound; [lia|]. nia. }
  rewrite Hss; [|lia|apply Z.mod_pos_bound, Hs].
  destruct (enabled be _ _); [|reflexivity]. pose proof (Z.mod_pos_bound (x - a) size Hs) as Mb.
  apply byte_ext; [lia|lia|]. intros p Hp. rewrite HW by lia. unfold stream.
  replace (Z.of_nat i * (size * 8) + (p + 8 * (x - (al + Z.of_nat i * size))) - sh * 8) with (p + 8 * (x - a)) by lia.
  destruct (Z.leb_spec 0 (p + 8 * (x - a))); [|lia]. cbn [andb].
  pose proof (Z.div_mod (x - a) size ltac:(lia)) as Ed.
  assert (D1 : (p + 8 * (x - a)) / (size * 8) = (x - a) / size /\ (p + 8 * (x - a)) mod (size * 8) = p + 8 * ((x - a) mod size)).
  { set (j := (x - a) / size) in *. set (k := (x - a) mod size) in *.
    assert (E : p + 8 * (x - a) = (size * 8) * j + (p + 8 * k)) by nia.
    split; [symmetry; apply (Z.div_unique_pos _ _ j (p + 8 * k)); [nia|exact E]|symmetry; apply (Z.mod_unique_pos _ _ j (p + 8 * k)); [nia|exact E]]. }
  destruct D1 as [-> ->]. reflexivity.
Qed.

Lemma incr_ext data be m m' x : m x = m' x -> incr_written a size data be m x = incr_written a size data be m' x.
Proof. intro H. unfold incr_written. rewrite H. reflexivity. Qed.

Lemma incr_burst n data be W T ss :
  (forall i, (i < length data)%nat ->
   (forall p, 0 <= p < size * 8 -> Z.testbit (nth i W 0) p = stream data (size * 8) (Z.of_nat i * (size * 8) + p - sh * 8)) /\
   (forall p, 0 <= p < size -> Z.testbit (nth i T 0) p = stream ss size (Z.of_nat i * size + p - sh))) ->
  (forall j k, (j < length data)%nat -> 0 <= k < size -> Z.testbit (nth j ss 0) k = enabled be j k) ->
  forall beats i m x, (forall j, nth_error beats j = if (i + j <? length data)%nat
     then Some (mask_and_shift (nth (i + j) W 0) (size * 8) (block INCR (Z.of_nat (i + j))),
                mask_and_shift (nth (i + j) T 0) size (block INCR (Z.of_nat (i + j)))) else None) ->
  store_burst bus INCR size n a m (Z.of_nat i) beats x =
  if (al + Z.of_nat i * size <=? x) && (x <? al + Z.of_nat (length data) * size) then incr_written a size data be m x else m x.
Proof.
  intros HU Hss. induction beats as [|bt beats IH]; intros i m x Hb'.
  - specialize (Hb' 0%nat). rewrite Nat.add_0_r in Hb'. cbn [nth_error] in Hb'. destruct (Nat.ltb_spec i (length data)) as [L|L]; [discriminate|].
    cbn [store_burst]. destruct (Z.leb_spec (al + Z.of_nat i * size) x), (Z.ltb_spec x (al + Z.of_nat (length data) * size)); cbn [andb]; try reflexivity. nia.
  - cbn [store_burst]. pose proof (Hb' 0%nat) as H0. rewrite Nat.add_0_r in H0. cbn [nth_error] in H0.
    destruct (Nat.ltb_spec i (length data)) as [L|L]; [|discriminate]. injection H0 as ->.
    replace (Z.of_nat i + 1) with (Z.of_nat (S i)) by lia.
    rewrite IH by (intro j; specialize (Hb' (S j)); cbn [nth_error] in Hb'; rewrite Hb'; replace (i + S j)%nat with (S i + j)%nat by lia; reflexivity).
    destruct (HU i L) as [HW HT].
    pose proof (incr_store m n data be i (nth i W 0) (nth i T 0) ss L HW HT Hss x) as Es. cbn zeta in Es.
    set (m1 := store_beat _ _ _ _) in *.
    destruct (Z.leb_spec (al + Z.of_nat (S i) * size) x) as [C|C]; cbn [andb].
    + destruct (Z.leb_spec (al + Z.of_nat i * size) x) as [C'|C']; [|lia]. cbn [andb] in *.
      destruct (Z.ltb_spec x (al + Z.of_nat i * size + size)) as [C2|C2]; [lia|].
      destruct (x <? al + Z.of_nat (length data) * size); [|exact Es]. apply incr_ext. exact Es.
    + rewrite Es. destruct (Z.leb_spec (al + Z.of_nat i * size) x) as [C'|C']; [|reflexivity]. cbn [andb].
      destruct (Z.ltb_spec x (al + Z.of_nat i * size + size)) as [C2|C2]; [|lia].
      destruct (Z.ltb_spec x (al + Z.of_nat (length data) * size)); [reflexivity|nia].
Qed.

(** legality of the strobes of an INCR burst *)
Lemma incr_lanes n i T (data ss : list Z) k : (i < length data)%nat -> length ss = length data -> 0 <= k ->
  (forall p, 0 <= p < size -> Z.testbit T p = stream ss size (Z.of_nat i * size + p - sh)) ->
  Z.testbit (mask_and_shift T size (block INCR (Z.of_nat i))) k = true ->
  lanes bus size (beat_address INCR size n a (Z.of_nat i)) k.
Proof.
  intros Hi Ls Hk HT H. apply strobe_lanes in H; [|apply (block_range INCR)|exact Hk]. destruct H as [H1 H2].
  unfold lanes. rewrite incr_aligned by lia. rewrite block_lane. fold (block INCR (Z.of_nat i)). split; [|lia].
  cbn [beat_address]. destruct (Z.eqb_spec (Z.of_nat i) 0) as [E|E].
  - (* the first beat: lanes below the address have no strobe *)
    rewrite HT in H2 by lia. unfold stream in H2. apply andb_true_iff in H2. destruct H2 as [H2 _]. apply Z.leb_le in H2.
    rewrite E in *. unfold block in *. rewrite Z.add_0_r, (Z.mod_small blk) in * by apply blk_range.
    assert (Em : a mod bus = sh + blk * size).
    { unfold sh. rewrite Hb at 1. rewrite (Z.mul_comm q), Z.rem_mul_r by lia. rewrite <- blk_eq. lia. }
    lia.
  - fold al. rewrite block_lane. exact (proj1 H1).
Qed.

Lemma incr_thm data be : be <> [] -> exists beats,
  write_beats bus a INCR size data be = Ok beats /\ length beats = length data /\
  (forall i w s, nth_error beats i = Some (w, s) -> 0 <= w < 2 ^ (8 * bus) /\ 0 <= s < 2 ^ bus /\
     forall k, 0 <= k -> Z.testbit s k = true -> lanes bus size (beat_address INCR size (Z.of_nat (length data)) a (Z.of_nat i)) k) /\
  forall m x, store_burst bus INCR size (Z.of_nat (length data)) a m 0 beats x = incr_written a size data be m x.
Proof.
  intro N. destruct (advancing INCR data be ltac:(discriminate) N) as (beats & W & T & ss & E & L & HN & HU & Ls & Hss).
  exists beats. split; [exact E|]. split; [exact L|]. split.
  - intros i w s Hi. rewrite HN in Hi. destruct (Nat.ltb_spec i (length data)) as [Li|Li]; [|discriminate]. inversion Hi; subst w s.
    split; [|split].
    + pose proof (mask_and_shift_bound (nth i W 0) (size * 8) (block INCR (Z.of_nat i)) q ltac:(lia) (block_range _ _)) as B.
      replace (8 * bus) with (q * (size * 8)) by lia. exact B.
    + pose proof (mask_and_shift_bound (nth i T 0) size (block INCR (Z.of_nat i)) q ltac:(lia) (block_range _ _)) as B. rewrite Hb. exact B.
    + intros k Hk. apply (incr_lanes _ _ _ data ss); try assumption. apply HU. exact Li.
  - intros m x. pose proof (incr_burst (Z.of_nat (length data)) data be W T ss HU Hss beats 0 m x HN) as EB.
    change (Z.of_nat 0) with 0 in EB. rewrite EB. rewrite Z.mul_0_l. rewrite Z.add_0_r. pose proof (aligned_le a). fold al in H.
    unfold incr_written. fold al.
    destruct (Z.leb_spec al x), (Z.leb_spec a x), (Z.ltb_spec x (al + Z.of_nat (length data) * size)); cbn [andb]; try reflexivity. lia.
Qed.

(** *** FIXED *)
Lemma fixed_unaligned data ss : length ss = length data ->
  exists W T, unaligned a FIXED size data ss = (W, T) /\ length W = length data /\ length T = length data /\
  forall i, (i < length data)%nat ->
   (forall p, 0 <= p < size * 8 -> Z.testbit (nth i W 0) p = negb (p <? sh * 8) && Z.testbit (nth i data 0) (p - sh * 8)) /\
   (forall p, 0 <= p < size -> Z.testbit (nth i T 0) p = negb (p <? sh) && Z.testbit (nth i ss 0) (p - sh)).
Proof.
  intro L. unfold unaligned. fold sh. pose proof sh_range as R. destruct (Z.eqb_spec sh 0) as [E|E].
  - exists data, ss. split; [reflexivity|]. split; [reflexivity|]. split; [exact L|]. intros i Hi. rewrite E. split; intros p Hp.
    + destruct (Z.ltb_spec p (0 * 8)); [lia|]. cbn [negb andb]. f_equal. lia.
    + destruct (Z.ltb_spec p 0); [lia|]. cbn [negb andb]. f_equal. lia.
  - eexists _, _. split; [reflexivity|]. rewrite !map_length. split; [reflexivity|]. split; [exact L|].
    assert (Mn : forall (f : Z -> Z) l i, (i < length l)%nat -> nth i (map f l) 0 = f (nth i l 0)).
    { intros f l i H. rewrite (nth_indep _ 0 (f 0)) by (rewrite map_length; exact H). apply map_nth. }
    intros i Hi. split; intros p Hp.
    + rewrite (Mn (fun w => Z.land (Z.shiftl w (sh * 8)) (2 ^ (size * 8) - 1))) by exact Hi. apply shl_bits; lia.
    + rewrite (Mn (fun s => Z.land (Z.shiftl s (sh * 8 / 8)) (2 ^ size - 1))) by (rewrite L; exact Hi). rewrite Z.div_mul by lia. apply shl_bits; lia.
Qed.
Lemma al_mod : al mod bus = blk * size.
Proof. pose proof (block_lane 0) as H. rewrite Z.mul_0_l, !Z.add_0_r in H. rewrite H. rewrite Z.mod_small by apply blk_range. reflexivity. Qed.
Lemma a_mod : a mod bus = blk * size + sh.
Proof. unfold sh. rewrite Hb. rewrite (Z.mul_comm q), Z.rem_mul_r by lia. rewrite <- blk_eq. lia. Qed.

Lemma fixed_store m w w' s s' en x :
  (forall p, 0 <= p < size * 8 -> Z.testbit w' p = negb (p <? sh * 8) && Z.testbit w (p - sh * 8)) ->
  (forall p, 0 <= p < size -> Z.testbit s' p = negb (p <? sh) && Z.testbit s (p - sh)) ->
  (forall k, 0 <= k < size -> Z.testbit s k = en k) ->
  store_beat bus m a (mask_and_shift w' (size * 8) blk, mask_and_shift s' size blk) x = put_low a size w en m x.
Proof.
  intros Hw Hs' He. pose proof sh_range as R. pose proof al_eq as Ea.
  rewrite (store_block m a al blk w' s' x eq_refl al_mod blk_range). unfold put_low. fold al.
  destruct (Z.leb_spec al x) as [L|L]; destruct (Z.leb_spec a x) as [L'|L']; try lia; cbn [andb]; try reflexivity.
  - destruct (Z.ltb_spec x (al + size)) as [L2|L2]; cbn [andb]; [|reflexivity].
    rewrite Hs' by lia. destruct (Z.ltb_spec (x - al) sh); [lia|]. cbn [negb andb]. replace (x - al - sh) with (x - a) by lia.
    rewrite He by lia. destruct (en (x - a)); [|reflexivity]. apply byte_ext; [lia|lia|]. intros p Hp.
    rewrite Hw by lia. destruct (Z.ltb_spec (p + 8 * (x - al)) (sh * 8)); [lia|]. cbn [negb andb]. f_equal. lia.
  - destruct (Z.ltb_spec x (al + size)) as [L2|L2]; cbn [andb]; [|reflexivity].
    rewrite Hs' by lia. destruct (Z.ltb_spec (x - al) sh); [|lia]. reflexivity.
Qed.

Lemma put_ext v en m m' x : m x = m' x -> put_low a size v en m x = put_low a size v en m' x.
Proof. intro H. unfold put_low. rewrite H. reflexivity. Qed.
Lemma fixed_ext be data : forall j m m' x, m x = m' x -> fixed_written a size data be j m x = fixed_written a size data be j m' x.
Proof. induction data as [|d r IH]; intros j m m' x H; cbn [fixed_written]; [exact H|]. apply IH, put_ext, H. Qed.

Lemma fixed_burst n be data : forall W T ss j i m x, length W = length data -> length T = length data ->
  (forall i, (i < length data)%nat ->
   (forall p, 0 <= p < size * 8 -> Z.testbit (nth i W 0) p = negb (p <? sh * 8) && Z.testbit (nth i data 0) (p - sh * 8)) /\
   (forall p, 0 <= p < size -> Z.testbit (nth i T 0) p = negb (p <? sh) && Z.testbit (nth i ss 0) (p - sh))) ->
  (forall i k, (i < length data)%nat -> 0 <= k < size -> Z.testbit (nth i ss 0) k = enabled be (j + i) k) ->
  store_burst bus FIXED size n a m i (beats_from bus FIXED size blk (combine W T)) x = fixed_written a size data be j m x.
Proof.
  induction data as [|d data IH]; intros W T ss j i m x LW LT HU Hss.
  - destruct W; [reflexivity|discriminate].
  - destruct W as [|w W]; [discriminate|]. destruct T as [|t T]; [discriminate|]. cbn [combine beats_from store_burst beat_address fixed_written].
    rewrite (IH W T (tl ss) (S j)).
    + apply fixed_ext. destruct (HU 0%nat ltac:(cbn [length]; lia)) as [H1 H2]. cbn [nth] in H1, H2.
      apply (fixed_store m d w (nth 0 ss 0) t); [exact H1|exact H2|]. intros k Hk.
      rewrite (Hss 0%nat) by (cbn [length]; lia). rewrite Nat.add_0_r. reflexivity.
    + injection LW; auto.
    + injection LT; auto.
    + intros n' Hn. destruct (HU (S n') ltac:(cbn [length]; lia)) as [H1 H2]. cbn [nth] in H1, H2. split; [exact H1|].
      intros p Hp. rewrite H2 by exact Hp. destruct ss as [|s ss]; [destruct n'; reflexivity|reflexivity].
    + intros n' k Hn Hk. replace (S j + n')%nat with (j + S n')%nat by lia. rewrite <- (Hss (S n') k) by (cbn [length]; lia).
      destruct ss as [|s ss]; [destruct n'; reflexivity|reflexivity].
Qed.

Lemma fixed_thm data be : be <> [] -> exists beats,
  write_beats bus a FIXED size data be = Ok beats /\ length beats = length data /\
  (forall i w s, nth_error beats i = Some (w, s) -> 0 <= w < 2 ^ (8 * bus) /\ 0 <= s < 2 ^ bus /\
     forall k, 0 <= k -> Z.testbit s k = true -> lanes bus size a k) /\
  forall m x, store_burst bus FIXED size (Z.of_nat (length data)) a m 0 beats x = fixed_written a size data be 0 m x.
Proof.
  intro N. destruct (strobes_spec (length data) size be N) as (ss & Es & Ls & Hss).
  destruct (fixed_unaligned data ss Ls) as (W & T & Eu & LW & LT & HU).
  exists (beats_from bus FIXED size blk (combine W T)). split; [|split; [|split]].
  - unfold write_beats. rewrite Es. cbn [rbind]. rewrite Eu. reflexivity.
  - assert (B : forall l k, length (beats_from bus FIXED size k l) = length l).
    { clear. induction l as [|[w s] l IH]; intro k; cbn [beats_from length]; [reflexivity|]. f_equal. apply IH. }
    rewrite B, combine_length. lia.
  - intros i w s Hi. change blk with (block FIXED 0) in Hi. rewrite beats_from_nth in Hi by lia. rewrite (nth_error_combine W T i 0 0) in Hi by congruence.
    rewrite LW in Hi. destruct (Nat.ltb_spec i (length data)) as [Li|Li]; [|discriminate]. cbn [option_map fst snd block] in Hi. inversion Hi; subst w s.
    split; [|split].
    + pose proof (mask_and_shift_bound (nth i W 0) (size * 8) blk q ltac:(lia) blk_range) as B.
      replace (8 * bus) with (q * (size * 8)) by lia. exact B.
    + pose proof (mask_and_shift_bound (nth i T 0) size blk q ltac:(lia) blk_range) as B. rewrite Hb. exact B.
    + intros k Hk H. apply strobe_lanes in H; [|apply blk_range|exact Hk]. destruct H as [H1 H2].
      destruct (HU i Li) as [_ HT]. rewrite HT in H2 by lia. destruct (Z.ltb_spec (k - blk * size) sh); [discriminate|].
      unfold lanes. fold al. rewrite al_mod, a_mod. lia.
  - intros m x. apply (fixed_burst _ be data W T ss 0 0 m x LW LT HU). intros i k Hi Hk. apply Hss; assumption.
Qed.

(** *** WRAP, at an aligned address *)
Section Wrap.
Context (n : Z).
Hypothesis (Hal : a mod size = 0) (Hn : 0 < n).
Let total := size * n.
Let bd := a / total * total.
Let addr i := beat_address WRAP size n a i.
Definition right_lanes := (bus | total) \/ (total | a).

Lemma total_pos : 0 < total.
Proof. unfold total. nia. Qed.
Lemma bd_range : bd <= a < bd + total.
Proof. unfold bd. pose proof total_pos. pose proof (Z.div_mod a total ltac:(lia)). pose proof (Z.mod_pos_bound a total ltac:(lia)). lia. Qed.
Lemma aligned_a : aligned a size = a.
Proof. unfold aligned. pose proof (Z.div_mod a size ltac:(lia)). lia. Qed.
Lemma addr_eq i : addr i = if i =? 0 then a else if a + i * size <? bd + total then a + i * size else a + i * size - total.
Proof. unfold addr. cbn [beat_address]. rewrite aligned_a. reflexivity. Qed.
Lemma a_mult : exists c, a = c * size.
Proof. exists (a / size). pose proof (Z.div_mod a size ltac:(lia)). lia. Qed.
Lemma addr_mult i : exists c, addr i = c * size.
Proof.
  destruct a_mult as [c E]. rewrite addr_eq. destruct (i =? 0); [exists c; exact E|].
  destruct (_ <? _); [exists (c + i)|exists (c + i - n)]; unfold total; nia.
Qed.
Lemma addr_aligned i : aligned (addr i) size = addr i.
Proof. destruct (addr_mult i) as [c ->]. apply aligned_mul. Qed.
Lemma addr_lane i : right_lanes -> 0 <= i < n -> addr i mod bus = ((blk + i) mod q) * size.
Proof.
  intros R Hi. pose proof (block_lane i) as B. unfold al in B. rewrite aligned_a in B. rewrite <- B. rewrite addr_eq.
  destruct (Z.eqb_spec i 0) as [->|Ni]; [f_equal; lia|].
  destruct (Z.ltb_spec (a + i * size) (bd + total)) as [L|L]; [reflexivity|].
  destruct R as [[c R]|[c R]].
  - rewrite R. replace (a + i * size - c * bus) with (a + i * size + (- c) * bus) by lia. apply Z.mod_add. clear - Hs Hq Hb. nia.
  - exfalso. pose proof total_pos. assert (bd = a) by (unfold bd; rewrite R at 1; rewrite Z.div_mul by lia; lia). assert (i * size < n * size) by (apply Z.mul_lt_mono_pos_r; lia). unfold total in *. lia.
Qed.
(** the beat that addresses a byte *)
Lemma addr_hit i x : 0 <= i < n ->
  (addr i <= x < addr i + size <-> (bd <= x < bd + total /\ (x - a) mod total / size = i)).
Proof.
  intro Hi. pose proof bd_range as B. pose proof total_pos as P. destruct a_mult as [c Ec].
  assert (Ebd : exists d, bd = d * size) by (exists (a / total * n); unfold bd, total; nia). destruct Ebd as [d Ed].
  assert (J : forall y, 0 <= y < total -> (y / size = i <-> i * size <= y < i * size + size)).
  { intros y Hy. split; intro H.
    - subst i. pose proof (Z.div_mod y size ltac:(lia)). pose proof (Z.mod_pos_bound y size Hs). lia.
    - symmetry. apply (Z.div_unique_pos _ _ i (y - i * size)); lia. }
  assert (Mx : bd <= x < bd + total -> (x - a) mod total = if a <=? x then x - a else x - a + total).
  { intro Hx. destruct (Z.leb_spec a x); [apply Z.mod_small; lia|].
    rewrite <- (Z.mod_add (x - a) 1 total) by lia. rewrite Z.mul_1_l. apply Z.mod_small. lia. }
  assert (Up : forall e, e * size < bd + total -> e * size + size <= bd + total).
  { intros e He. assert (Hd : bd + total = (d + n) * size) by (unfold total; lia). rewrite Hd in *. clear - He Hs. assert (e < d + n) by (apply (Z.mul_lt_mono_pos_r size); lia). replace (e * size + size) with ((e + 1) * size) by lia. apply Z.mul_le_mono_nonneg_r; lia. }
  assert (Ua : a + size <= bd + total) by (rewrite Ec; apply Up; lia).
  assert (I0 : 0 <= i * size) by (apply Z.mul_nonneg_nonneg; lia).
  assert (I1 : i * size + size <= total) by (unfold total; clear - Hi Hs; nia).
  rewrite addr_eq. clear Hal Hb. clearbody bd total. destruct (Z.eqb_spec i 0) as [E0|E0].
  - subst i. split.
    + intro Hx. assert (Hr : bd <= x < bd + total) by lia. split; [exact Hr|].
      rewrite Mx by exact Hr. destruct (Z.leb_spec a x); [|lia]. apply J; lia.
    + intros [Hr Hj]. rewrite Mx in Hj by exact Hr. destruct (Z.leb_spec a x); [apply J in Hj; [lia|clear Hj; lia]|].
      apply J in Hj; [lia|clear Hj; lia].
  - destruct (Z.ltb_spec (a + i * size) (bd + total)) as [L|L].
    + assert (L2 : a + i * size + size <= bd + total) by (replace (a + i * size) with ((c + i) * size) by lia; apply Up; lia).
      split.
      * intro Hx. assert (Hr : bd <= x < bd + total) by lia. split; [exact Hr|]. rewrite Mx by exact Hr.
        destruct (Z.leb_spec a x); [|lia]. apply J; lia.
      * intros [Hr Hj]. rewrite Mx in Hj by exact Hr. destruct (Z.leb_spec a x) as [H|H]; (apply J in Hj; [clear - B Hj L L2 Hr H I0 I1; lia|clear - H Hr B; lia]).
    + split.
      * intro Hx. assert (Hr : bd <= x < bd + total) by lia. split; [exact Hr|]. rewrite Mx by exact Hr.
        assert (x < a) by lia. destruct (Z.leb_spec a x); [lia|]. apply J; lia.
      * intros [Hr Hj]. rewrite Mx in Hj by exact Hr. destruct (Z.leb_spec a x) as [H|H]; (apply J in Hj; [clear - B Hj L Hr H I0 I1; lia|clear - H Hr B; lia]).
Qed.

Lemma wrap_store m data be W T ss i x : right_lanes -> n = Z.of_nat (length data) -> (i < length data)%nat ->
   (forall p, 0 <= p < size * 8 -> Z.testbit W p = stream data (size * 8) (Z.of_nat i * (size * 8) + p - sh * 8)) ->
   (forall p, 0 <= p < size -> Z.testbit T p = stream ss size (Z.of_nat i * size + p - sh)) ->
   (forall j k, (j < length data)%nat -> 0 <= k < size -> Z.testbit (nth j ss 0) k = enabled be j k) ->
   store_beat bus m (addr (Z.of_nat i))
     (mask_and_shift W (size * 8) (block WRAP (Z.of_nat i)), mask_and_shift T size (block WRAP (Z.of_nat i))) x =
   if (bd <=? x) && (x <? bd + total) && ((x - a) mod total / size =? Z.of_nat i)
   then wrap_written a size data be m x else m x.
Proof.
  intros RL En Hi HW HT Hss. assert (E0 : sh = 0) by exact Hal.
  rewrite (store_block m _ (addr (Z.of_nat i)) _ W T x);
    [|symmetry; apply addr_aligned|apply addr_lane; [exact RL|lia]|apply (block_range WRAP)].
  pose proof (addr_hit (Z.of_nat i) x ltac:(lia)) as Hit.
  destruct ((addr (Z.of_nat i) <=? x) && (x <? addr (Z.of_nat i) + size)) eqn:Rg; cbn [andb].
  - apply andb_true_iff in Rg. destruct Rg as [R1 R2]. apply Z.leb_le in R1. apply Z.ltb_lt in R2.
    destruct (proj1 Hit (conj R1 R2)) as [Hr Hj]. clear Hit.
    assert (C : (bd <=? x) && (x <? bd + total) = true) by (apply andb_true_iff; split; [apply Z.leb_le, Hr|apply Z.ltb_lt, Hr]).
    unfold wrap_written. rewrite <- En. fold total. fold bd. rewrite C, Hj, Z.eqb_refl. cbn [andb]. rewrite Nat2Z.id. clear Hr Hj C.
    assert (Ek : x mod size = x - addr (Z.of_nat i)).
    { destruct (addr_mult (Z.of_nat i)) as [c Ec]. symmetry. apply (Z.mod_unique_pos _ _ c); clear - Ec R1 R2; lia. }
    rewrite Ek. set (k := x - addr (Z.of_nat i)) in *. assert (Hk : 0 <= k < size) by (unfold k; clear - R1 R2; lia). clear Ek R1 R2. clearbody k.
    rewrite HT by exact Hk. rewrite E0. rewrite Z.sub_0_r. rewrite <- (plain_stream ss size i k Hk). rewrite Hss by (try exact Hk; exact Hi).
    destruct (enabled be i k); [|reflexivity]. apply byte_ext; [clear - Hk; lia|clear - Hk; lia|]. intros p Hp. rewrite HW by (clear - Hk Hp; lia). rewrite E0.
    rewrite Z.mul_0_l, Z.sub_0_r. symmetry. apply plain_stream. clear - Hk Hp; lia.
  - destruct (Z.leb_spec bd x) as [H|H]; cbn [andb]; [|reflexivity]. destruct (Z.ltb_spec x (bd + total)) as [H'|H']; cbn [andb]; [|reflexivity].
    destruct (Z.eqb_spec ((x - a) mod total / size) (Z.of_nat i)) as [E|E]; [|reflexivity]. exfalso.
    assert (Q : addr (Z.of_nat i) <= x < addr (Z.of_nat i) + size) by (apply Hit; split; [split; [exact H|exact H']|exact E]).
    rewrite (proj2 (Z.leb_le _ _) (proj1 Q)), (proj2 (Z.ltb_lt _ _) (proj2 Q)) in Rg. discriminate.
Qed.

Lemma wrap_ext data be m m' x : m x = m' x -> wrap_written a size data be m x = wrap_written a size data be m' x.
Proof. intro H. unfold wrap_written. rewrite H. reflexivity. Qed.

Lemma wrap_burst data be W T ss : right_lanes -> n = Z.of_nat (length data) ->
  (forall i, (i < length data)%nat ->
   (forall p, 0 <= p < size * 8 -> Z.testbit (nth i W 0) p = stream data (size * 8) (Z.of_nat i * (size * 8) + p - sh * 8)) /\
   (forall p, 0 <= p < size -> Z.testbit (nth i T 0) p = stream ss size (Z.of_nat i * size + p - sh))) ->
  (forall j k, (j < length data)%nat -> 0 <= k < size -> Z.testbit (nth j ss 0) k = enabled be j k) ->
  forall beats i m x, (forall j, nth_error beats j = if (i + j <? length data)%nat
     then Some (mask_and_shift (nth (i + j) W 0) (size * 8) (block WRAP (Z.of_nat (i + j))),
                mask_and_shift (nth (i + j) T 0) size (block WRAP (Z.of_nat (i + j)))) else None) ->
  store_burst bus WRAP size n a m (Z.of_nat i) beats x =
  if (bd <=? x) && (x <? bd + total) && (Z.of_nat i <=? (x - a) mod total / size) then wrap_written a size data be m x else m x.
Proof.
  intros RL En HU Hss. assert (Jn : forall x, 0 <= (x - a) mod total / size < n).
  { intro x. pose proof total_pos. pose proof (Z.mod_pos_bound (x - a) total ltac:(lia)). split; [apply Z.div_pos; lia|].
    apply Z.div_lt_upper_bound; [lia|]. fold total. lia. }
  induction beats as [|bt beats IH]; intros i m x Hb'.
  - specialize (Hb' 0%nat). rewrite Nat.add_0_r in Hb'. cbn [nth_error] in Hb'. destruct (Nat.ltb_spec i (length data)) as [L|L]; [discriminate|].
    cbn [store_burst]. specialize (Jn x). destruct (Z.leb_spec (Z.of_nat i) ((x - a) mod total / size)); [lia|]. rewrite andb_false_r. reflexivity.
  - cbn [store_burst]. pose proof (Hb' 0%nat) as H0. rewrite Nat.add_0_r in H0. cbn [nth_error] in H0.
    destruct (Nat.ltb_spec i (length data)) as [L|L]; [|discriminate]. injection H0 as ->.
    replace (Z.of_nat i + 1) with (Z.of_nat (S i)) by lia.
    rewrite IH by (intro j; specialize (Hb' (S j)); cbn [nth_error] in Hb'; rewrite Hb'; replace (i + S j)%nat with (S i + j)%nat by lia; reflexivity).
    destruct (HU i L) as [HW HT].
    pose proof (wrap_store m data be (nth i W 0) (nth i T 0) ss i x RL En L HW HT Hss) as Es. unfold addr in Es.
    set (m1 := store_beat _ _ _ _) in *. set (J := (x - a) mod total / size) in *.
    destruct ((bd <=? x) && (x <? bd + total)); cbn [andb] in *; [|exact Es]. clearbody J.
    destruct (Z.leb_spec (Z.of_nat (S i)) J) as [C1|C1], (Z.leb_spec (Z.of_nat i) J) as [C2|C2], (Z.eqb_spec J (Z.of_nat i)) as [C3|C3]; try (exfalso; clear - C1 C2 C3; lia); try exact Es.
    apply wrap_ext. exact Es.
Qed.
End Wrap.

Lemma wrap_thm data be : be <> [] -> data <> [] -> a mod size = 0 ->
  (bus | size * Z.of_nat (length data)) \/ (size * Z.of_nat (length data) | a) -> exists beats,
  write_beats bus a WRAP size data be = Ok beats /\ length beats = length data /\
  (forall i w s, nth_error beats i = Some (w, s) -> 0 <= w < 2 ^ (8 * bus) /\ 0 <= s < 2 ^ bus /\
     forall k, 0 <= k -> Z.testbit s k = true -> lanes bus size (beat_address WRAP size (Z.of_nat (length data)) a (Z.of_nat i)) k) /\
  forall m x, store_burst bus WRAP size (Z.of_nat (length data)) a m 0 beats x = wrap_written a size data be m x.
Proof.
  intros N Nd Hal RL. destruct (advancing WRAP data be ltac:(discriminate) N) as (beats & W & T & ss & E & L & HN & HU & Ls & Hss).
  assert (Hn : 0 < Z.of_nat (length data)) by (destruct data; [contradiction|cbn [length]; lia]).
  exists beats. split; [exact E|]. split; [exact L|]. split.
  - intros i w s Hi. rewrite HN in Hi. destruct (Nat.ltb_spec i (length data)) as [Li|Li]; [|discriminate]. inversion Hi; subst w s.
    split; [|split].
    + pose proof (mask_and_shift_bound (nth i W 0) (size * 8) (block WRAP (Z.of_nat i)) q ltac:(lia) (block_range _ _)) as B.
      replace (8 * bus) with (q * (size * 8)) by lia. exact B.
    + pose proof (mask_and_shift_bound (nth i T 0) size (block WRAP (Z.of_nat i)) q ltac:(lia) (block_range _ _)) as B. rewrite Hb. exact B.
    + intros k Hk H. apply strobe_lanes in H; [|apply (block_range WRAP)|exact Hk]. destruct H as [H1 _]. unfold lanes.
      rewrite addr_aligned by assumption. rewrite addr_lane by (try assumption; lia). exact H1.
  - intros m x. pose proof (wrap_burst _ Hal Hn data be W T ss RL eq_refl HU Hss beats 0 m x HN) as EB.
    change (Z.of_nat 0) with 0 in EB. rewrite EB.
    pose proof (Z.mod_pos_bound (x - a) (size * Z.of_nat (length data)) ltac:(nia)) as Mb.
    replace (0 <=? (x - a) mod (size * Z.of_nat (length data)) / size) with true by (symmetry; apply Z.leb_le, Z.div_pos; lia).
    rewrite andb_true_r. unfold wrap_written. destruct ((_ <=? x) && _); reflexivity.
Qed.

(** exactly the bursts of [wrap_thm] have the right lanes *)
Lemma wrap_lanes_exact data beats : data <> [] -> a mod size = 0 -> write_beats bus a WRAP size data [None] = Ok beats ->
  (forall i w s k, nth_error beats i = Some (w, s) -> 0 <= k -> Z.testbit s k = true ->
     lanes bus size (beat_address WRAP size (Z.of_nat (length data)) a (Z.of_nat i)) k) ->
  (bus | size * Z.of_nat (length data)) \/ (size * Z.of_nat (length data) | a).
Proof.
  intros Nd Hal Eb H. destruct (advancing WRAP data [None] ltac:(discriminate) ltac:(discriminate)) as (beats' & W & T & ss & E & L & HN & HU & Ls & Hss).
  rewrite Eb in E. injection E as <-. set (n := Z.of_nat (length data)) in *.
  assert (Hn : 0 < n) by (unfold n; destruct data; [contradiction|cbn [length]; lia]).
  pose proof (total_pos n Hal Hn) as Pt. pose proof (bd_range n Hal Hn) as Br. set (total := size * n) in *. set (bd := a / total * total) in *.
  destruct (Z.eq_dec (a mod total) 0) as [Ez|Nz]; [right; apply Z.mod_divide; lia|left].
  pose proof (Z.div_mod a total ltac:(lia)) as Ea. assert (Lt : bd < a) by (unfold bd; pose proof (Z.mod_pos_bound a total Pt); lia).
  destruct (a_mult n Hal Hn) as [c Ec]. assert (Ed : bd = a / total * n * size) by (unfold bd, total; lia). set (d := a / total * n) in *.
  (* the first beat after the wrap *)
  set (i := d + n - c). assert (Ei : a + i * size = bd + total) by (unfold i, total; rewrite Ec, Ed; ring).
  assert (Hi : 0 < i < n) by (unfold i, total in *; nia).
  assert (Hit : (Z.to_nat i < length data)%nat) by (unfold n in *; lia).
  pose proof (HN (Z.to_nat i)) as Hb'. destruct (Nat.ltb_spec (Z.to_nat i) (length data)); [|lia].
  rewrite Z2Nat.id in Hb' by lia. specialize (H _ _ _ (block WRAP i * size) Hb').
  pose proof (block_range WRAP i) as BR. assert (K : 0 <= block WRAP i * size) by (apply Z.mul_nonneg_nonneg; lia). specialize (H K).
  rewrite Z2Nat.id in H by lia. fold n in H.
  assert (Ad : beat_address WRAP size n a i = bd).
  { rewrite addr_eq by assumption. destruct (Z.eqb_spec i 0); [lia|]. fold total. fold bd.
    rewrite Ei. rewrite Z.ltb_irrefl. lia. }
  rewrite Ad in H. destruct H as [H1 H2].
  - rewrite mask_and_shift_bits by lia. rewrite Z.leb_refl. destruct (Z.ltb_spec (block WRAP i * size) ((block WRAP i + 1) * size)); [|lia].
    cbn [andb]. destruct (HU (Z.to_nat i) Hit) as [_ HT]. rewrite HT by lia. rewrite Z2Nat.id by lia.
    assert (E0 : sh = 0) by exact Hal. rewrite E0. rewrite Z.sub_0_r, Z.sub_diag.
    pose proof (plain_stream ss size (Z.to_nat i) 0 ltac:(lia)) as PS. rewrite Z2Nat.id in PS by lia. rewrite <- PS.
    rewrite Hss by (try lia; exact Hit). unfold enabled. destruct (Z.to_nat i) as [|u]; [reflexivity|]. destruct u; reflexivity.
  - assert (Eq : bd mod bus = (bd + total) mod bus).
    { pose proof (block_lane i) as B. unfold al in B. rewrite (aligned_a n Hal Hn) in B. rewrite Ei in B.
      rewrite B. unfold block in H1, H2. rewrite Ed in H2 at 1. rewrite aligned_mul in H2. rewrite <- Ed in H2.
      assert (X : exists e, bd mod bus = e * size).
      { exists (d mod q). rewrite Ed, Hb. apply Z.mul_mod_distr_r; lia. }
      destruct X as [e Xe]. rewrite Xe in *. set (bk := (blk + i) mod q) in *. clearbody bk. clear - H1 H2 Hs. assert (e = bk) by nia. congruence. }
    exists ((bd + total) / bus - bd / bus). assert (Bn : bus <> 0) by (clear - Hb Hs Hq; nia).
    pose proof (Z.div_mod bd bus Bn) as D1. pose proof (Z.div_mod (bd + total) bus Bn) as D2. rewrite <- Eq in D2.
    set (u := bd / bus) in *. set (v := (bd + total) / bus) in *. set (r := bd mod bus) in *. clearbody u v r. clear - D1 D2. lia.
Qed.
End Write.
