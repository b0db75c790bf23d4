(** CrcProof.v -- CRC-32 as a linear map over exclusive or, for C126. *)
From Verif Require Import Base CompatModel CompatSpec BitsLemmas XgModel XgSpec XgDrvProof XgMonProof CrcModel CrcSpec.
From Coq Require Import Znumtheory.
Local Open Scope Z_scope.

Notation L := crc_shift.
Notation iter n := (Nat.iter n L).

(** ** The shift is linear, undoes doubling and is one-to-one on 32 bits *)
Lemma odd_lxor a b : Z.odd (Z.lxor a b) = xorb (Z.odd a) (Z.odd b).
Proof. rewrite <- !Z.bit0_odd. apply Z.lxor_spec. Qed.
Lemma L_lxor a b : L (Z.lxor a b) = Z.lxor (L a) (L b).
Proof.
  unfold crc_shift. rewrite odd_lxor, Z.shiftr_lxor. destruct (Z.odd a), (Z.odd b); cbn [xorb]; apply Z.bits_inj'; intros k _;
    rewrite ?Z.lxor_spec; destruct (Z.testbit (Z.shiftr a 1) k), (Z.testbit (Z.shiftr b 1) k), (Z.testbit POLY k); reflexivity.
Qed.
Lemma L_zero : L 0 = 0.
Proof. reflexivity. Qed.
Lemma L_double v : L (2 * v) = v.
Proof.
  unfold crc_shift. rewrite Z.odd_mul. cbn [Z.odd andb]. rewrite Z.shiftr_div_pow2 by lia. change (2 ^ 1) with 2.
  rewrite Z.mul_comm. apply Z.div_mul. lia.
Qed.
Lemma lxor_lt a b n : 0 <= n -> 0 <= a < 2 ^ n -> 0 <= b < 2 ^ n -> 0 <= Z.lxor a b < 2 ^ n.
Proof.
  intros Hn Ha Hb. assert (P : 0 <= Z.lxor a b) by (apply Z.lxor_nonneg; lia). split; [exact P|].
  destruct (Z.eq_dec (Z.lxor a b) 0) as [->|NE]; [apply Z.pow_pos_nonneg; lia|].
  apply Z.log2_lt_pow2; [lia|]. pose proof (Z.log2_lxor a b ltac:(lia) ltac:(lia)).
  assert (G : forall x, 0 <= x < 2 ^ n -> 0 < n -> Z.log2 x < n).
  { intros x Hx N0. destruct (Z.eq_dec x 0) as [->|]; [rewrite Z.log2_nonpos by lia; lia|apply Z.log2_lt_pow2; lia]. }
  destruct (Z.eq_dec n 0) as [->|]; [|pose proof (G a Ha ltac:(lia)); pose proof (G b Hb ltac:(lia)); lia].
  change (2 ^ 0) with 1 in *. exfalso. apply NE. replace a with 0 by lia. replace b with 0 by lia. reflexivity.
Qed.
Lemma L_range v : 0 <= v < 2 ^ 32 -> 0 <= L v < 2 ^ 32.
Proof.
  intro H. assert (S : 0 <= Z.shiftr v 1 < 2 ^ 32).
  { rewrite Z.shiftr_div_pow2 by lia. change (2 ^ 1) with 2. split; [apply Z.div_pos; lia|apply Z.div_lt_upper_bound; lia]. }
  unfold crc_shift. destruct (Z.odd v); [|exact S]. apply lxor_lt; [lia|exact S|]. unfold POLY. split; [apply Z.leb_le; reflexivity|apply Z.ltb_lt; reflexivity].
Qed.
Lemma L_nonzero v : 0 < v < 2 ^ 32 -> 0 < L v < 2 ^ 32.
Proof.
  intro H. pose proof (L_range v ltac:(lia)) as R. split; [|lia]. assert (NE : L v <> 0); [|lia].
  unfold crc_shift. destruct (Z.odd v) eqn:O.
  - intro E. apply Z.lxor_eq in E. rewrite Z.shiftr_div_pow2 in E by lia. change (2 ^ 1) with 2 in E.
    assert (v / 2 < POLY); [|lia]. apply Z.div_lt_upper_bound; [lia|]. unfold POLY. change (2 ^ 32) with 4294967296 in H. lia.
  - rewrite Z.shiftr_div_pow2 by lia. change (2 ^ 1) with 2. intro E.
    pose proof (Z.div_mod v 2 ltac:(lia)) as D. rewrite E in D. rewrite Zmod_odd, O in D. lia.
Qed.

Lemma iter_S n v : iter (S n) v = L (iter n v).
Proof. reflexivity. Qed.
Lemma iter_add m n v : iter (m + n) v = iter m (iter n v).
Proof. induction m as [|m IH]; [reflexivity|]. cbn [Nat.add]. rewrite !iter_S, IH. reflexivity. Qed.
Lemma iter_lxor n a b : iter n (Z.lxor a b) = Z.lxor (iter n a) (iter n b).
Proof. induction n as [|n IH]; [reflexivity|]. rewrite !iter_S, IH. apply L_lxor. Qed.
Lemma iter_pow n v : iter n (2 ^ Z.of_nat n * v) = v.
Proof.
  revert v; induction n as [|n IH]; intro v; [change (2 ^ Z.of_nat 0) with 1; rewrite Z.mul_1_l; reflexivity|].
  replace (S n) with (n + 1)%nat by lia. rewrite iter_add. rewrite Nat2Z.inj_add, Z.pow_add_r by lia. change (Z.of_nat 1) with 1. change (2 ^ 1) with 2.
  replace (2 ^ Z.of_nat n * 2 * v) with (2 * (2 ^ Z.of_nat n * v)) by ring.
  change (iter 1 (2 * (2 ^ Z.of_nat n * v))) with (L (2 * (2 ^ Z.of_nat n * v))). rewrite L_double. apply IH.
Qed.
Lemma iter_range n v : 0 <= v < 2 ^ 32 -> 0 <= iter n v < 2 ^ 32.
Proof. intro H. induction n as [|n IH]; [exact H|]. rewrite iter_S. apply L_range. exact IH. Qed.
Lemma iter_nonzero n v : 0 < v < 2 ^ 32 -> 0 < iter n v < 2 ^ 32.
Proof. intro H. induction n as [|n IH]; [exact H|]. rewrite iter_S. apply L_nonzero. exact IH. Qed.
Lemma iter_zero n : iter n 0 = 0.
Proof. induction n as [|n IH]; [reflexivity|]. rewrite iter_S, IH. reflexivity. Qed.
Lemma iter_inj n a b : 0 <= a < 2 ^ 32 -> 0 <= b < 2 ^ 32 -> iter n a = iter n b -> a = b.
Proof.
  intros Ha Hb E. apply Z.lxor_eq. pose proof (lxor_lt a b 32 ltac:(lia) Ha Hb) as R.
  destruct (Z.eq_dec (Z.lxor a b) 0) as [|NE]; [assumption|]. exfalso.
  pose proof (iter_nonzero n (Z.lxor a b) ltac:(lia)) as X. rewrite iter_lxor, E, Z.lxor_nilpotent in X. lia.
Qed.

(** ** The checksum of a byte string is the map applied to its value *)
Lemma lxor_low b x : 0 <= b < 256 -> 0 <= x -> Z.lxor b (256 * x) = b + 256 * x.
Proof.
  intros Hb Hx. symmetry. apply Z.add_nocarry_lxor. apply Z.bits_inj'. intros k Hk. rewrite Z.land_spec, Z.bits_0.
  replace (256 * x) with (Z.shiftl x 8) by (rewrite Z.shiftl_mul_pow2 by lia; change (2 ^ 8) with 256; ring).
  rewrite Z.shiftl_spec by exact Hk. destruct (Z_lt_le_dec k 8) as [G|G].
  - rewrite (Z.testbit_neg_r x) by lia. apply andb_false_r.
  - replace (Z.testbit b k) with false; [reflexivity|]. symmetry. destruct (Z.eq_dec b 0) as [->|]; [apply Z.bits_0|].
    apply Z.bits_above_log2; [lia|]. apply Z.lt_le_trans with 8; [|exact G]. apply Z.log2_lt_pow2; [lia|]. change (2 ^ 8) with 256. lia.
Qed.
Lemma fold_iter m : all_bytes m -> forall c, fold_left crc_byte m c = iter (8 * length m) (Z.lxor c (from_le m)).
Proof.
  induction 1 as [|b m Hb Hm IH]; intro c; [cbn [fold_left length from_le]; rewrite Z.lxor_0_r; reflexivity|].
  cbn [fold_left from_le]. rewrite IH. cbn [length]. replace (8 * S (length m))%nat with (8 * length m + 8)%nat by lia.
  rewrite iter_add. f_equal. unfold crc_byte. rewrite <- lxor_low; [|exact Hb|pose proof (from_le_bound m Hm); lia].
  rewrite <- Z.lxor_assoc, (iter_lxor 8 (Z.lxor c b)). f_equal. symmetry. apply (iter_pow 8).
Qed.
Lemma fold_range m : all_bytes m -> forall c, 0 <= c < 2 ^ 32 -> 0 <= fold_left crc_byte m c < 2 ^ 32.
Proof.
  induction 1 as [|b m Hb Hm IH]; intros c Hc; [exact Hc|]. cbn [fold_left]. apply IH. unfold crc_byte. apply iter_range.
  apply lxor_lt; [lia|exact Hc|]. destruct Hb. change (2 ^ 32) with 4294967296. lia.
Qed.
Lemma ONES_range : 0 <= ONES < 2 ^ 32.
Proof. unfold ONES. split; [apply Z.leb_le; reflexivity|apply Z.ltb_lt; reflexivity]. Qed.
Lemma crc_range m : all_bytes m -> 0 <= zlib_crc32 m < 2 ^ 32.
Proof. intro H. apply lxor_lt; [lia|apply fold_range; [exact H|apply ONES_range]|apply ONES_range]. Qed.

(** the whole frame *)
Definition total (m : bytes) : Z := fold_left crc_byte m ONES.
Lemma total_app p c : all_bytes c -> length c = 4%nat -> total (p ++ c) = iter 32 (Z.lxor (total p) (from_le c)).
Proof. intros Hc Lc. unfold total. rewrite fold_left_app, fold_iter by exact Hc. rewrite Lc. reflexivity. Qed.
Lemma valid_total p c : all_bytes p -> all_bytes c -> length c = 4%nat ->
  c = le32 (zlib_crc32 p) <-> total (p ++ c) = iter 32 ONES.
Proof.
  intros Hp Hc Lc. rewrite total_app by assumption.
  assert (F : from_le (le32 (zlib_crc32 p)) = zlib_crc32 p).
  { rewrite <- le32_z_to_le, from_le_z_to_le. apply Z.mod_small. exact (crc_range p Hp). }
  split.
  - intros ->. rewrite F. unfold zlib_crc32. fold (total p). rewrite <- Z.lxor_assoc, Z.lxor_nilpotent, Z.lxor_0_l. reflexivity.
  - intro E. apply iter_inj in E; [|apply lxor_lt; [lia|apply fold_range; [exact Hp|apply ONES_range]|]|apply ONES_range].
    + apply from_le_inj; [exact Hc|rewrite <- le32_z_to_le; apply z_to_le_bytes|rewrite Lc; reflexivity|]. rewrite F. unfold zlib_crc32. fold (total p).
      rewrite <- E, <- Z.lxor_assoc, Z.lxor_nilpotent, Z.lxor_0_l. reflexivity.
    + pose proof (from_le_bound c Hc) as B. rewrite Lc in B. exact B.
Qed.

(** ** Wrong bits *)
Lemma wire_bit_from_le m : all_bytes m -> forall k, Z.testbit (from_le m) (Z.of_nat k) = wire_bit m k.
Proof.
  induction 1 as [|b m Hb Hm IH]; intro k.
  - cbn [from_le]. unfold wire_bit. rewrite Z.bits_0. destruct (k / 8)%nat; cbn [nth]; rewrite Z.bits_0; reflexivity.
  - cbn [from_le]. pose proof (from_le_bound m Hm) as B. rewrite <- lxor_low by (try exact Hb; lia). rewrite Z.lxor_spec.
    replace (256 * from_le m) with (Z.shiftl (from_le m) 8) by (rewrite Z.shiftl_mul_pow2 by lia; change (2 ^ 8) with 256; ring).
    rewrite Z.shiftl_spec by lia. unfold wire_bit. destruct (Nat.ltb_spec k 8) as [G|G].
    + rewrite Nat.div_small, Nat.mod_small by exact G. cbn [nth]. rewrite (Z.testbit_neg_r (from_le m)) by lia. apply xorb_false_r.
    + replace (Z.testbit b (Z.of_nat k)) with false.
      * rewrite xorb_false_l. replace (Z.of_nat k - 8) with (Z.of_nat (k - 8)) by lia. rewrite IH. unfold wire_bit.
        replace k with (k - 8 + 1 * 8)%nat at 3 4 by lia. rewrite Nat.div_add, Nat.mod_add by lia. rewrite Nat.add_1_r. cbn [nth]. reflexivity.
      * symmetry. destruct (Z.eq_dec b 0) as [->|]; [apply Z.bits_0|]. destruct Hb. apply Z.bits_above_log2; [lia|].
        apply Z.lt_le_trans with 8; [|lia]. apply Z.log2_lt_pow2; [lia|]. change (2 ^ 8) with 256. lia.
Qed.
Definition diff (m m' : bytes) : Z := Z.lxor (from_le m) (from_le m').
Lemma diff_bit m m' k : all_bytes m -> all_bytes m' -> Z.testbit (diff m m') (Z.of_nat k) = true <-> flips m m' k.
Proof.
  intros H H'. unfold diff, flips. rewrite Z.lxor_spec, !wire_bit_from_le by assumption.
  destruct (wire_bit m k), (wire_bit m' k); cbn [xorb]; split; intro X; try reflexivity; try discriminate; try congruence.
Qed.
Lemma diff_range m m' : all_bytes m -> all_bytes m' -> length m = length m' -> m <> m' ->
  0 < diff m m' < 2 ^ (8 * Z.of_nat (length m)).
Proof.
  intros H H' E N. pose proof (from_le_bound m H) as B. pose proof (from_le_bound m' H') as B'. rewrite <- E in B'.
  change 256 with (2 ^ 8) in B, B'. rewrite <- Z.pow_mul_r in B, B' by lia.
  pose proof (lxor_lt _ _ (8 * Z.of_nat (length m)) ltac:(lia) B B') as R. fold (diff m m') in R. split; [|apply R].
  assert (diff m m' <> 0); [|lia]. intro C. apply Z.lxor_eq in C. apply N. apply from_le_inj; assumption.
Qed.
Lemma total_diff m m' : all_bytes m -> all_bytes m' -> length m = length m' ->
  Z.lxor (total m) (total m') = iter (8 * length m) (diff m m').
Proof.
  intros H H' E. unfold total. rewrite !fold_iter by assumption. rewrite <- E, <- iter_lxor. f_equal. unfold diff.
  apply Z.bits_inj'. intros k _. rewrite !Z.lxor_spec. destruct (Z.testbit ONES k), (Z.testbit (from_le m) k), (Z.testbit (from_le m') k); reflexivity.
Qed.

(** the highest and the lowest wrong bit *)
Lemma some_bit d : 0 < d -> exists k, Z.testbit d (Z.of_nat k) = true.
Proof.
  intro H. exists (Z.to_nat (Z.log2 d)). rewrite Z2Nat.id by apply Z.log2_nonneg. apply Z.bit_log2. exact H.
Qed.
Lemma bits_below d n : 0 <= d -> (forall k, Z.testbit d (Z.of_nat k) = true -> (k < n)%nat) -> d < 2 ^ Z.of_nat n.
Proof.
  intros H B. destruct (Z.eq_dec d 0) as [->|]; [apply Z.pow_pos_nonneg; lia|]. apply Z.log2_lt_pow2; [lia|].
  specialize (B (Z.to_nat (Z.log2 d))). rewrite Z2Nat.id in B by apply Z.log2_nonneg. specialize (B (Z.bit_log2 d ltac:(lia))).
  pose proof (Z.log2_nonneg d). lia.
Qed.
Lemma shifted d a : (forall k, Z.testbit d (Z.of_nat k) = true -> (a <= k)%nat) -> d = 2 ^ Z.of_nat a * Z.shiftr d (Z.of_nat a).
Proof.
  intro B. rewrite Z.mul_comm, <- Z.shiftl_mul_pow2 by lia. apply Z.bits_inj'. intros k Hk. rewrite Z.shiftl_spec by exact Hk.
  destruct (Z_lt_le_dec k (Z.of_nat a)) as [G|G].
  - rewrite (Z.testbit_neg_r (Z.shiftr d _)) by lia. destruct (Z.testbit d k) eqn:E; [|reflexivity].
    specialize (B (Z.to_nat k)). rewrite Z2Nat.id in B by exact Hk. specialize (B E). lia.
  - rewrite Z.shiftr_spec by lia. f_equal. lia.
Qed.

(** ** Bursts *)
Lemma burst_detected d a M : 0 < d -> (forall k, Z.testbit d (Z.of_nat k) = true -> (a <= k < a + 32 /\ k < M)%nat) -> iter M d <> 0.
Proof.
  intros H B. destruct (some_bit d H) as [k0 K0]. pose proof (B _ K0) as [A0 A1].
  rewrite (shifted d a) by (intros k K; apply B in K; lia).
  set (b := Z.shiftr d (Z.of_nat a)). assert (D : d = 2 ^ Z.of_nat a * b) by (apply shifted; intros k K; apply B in K; lia).
  assert (Hb : 0 <= b < 2 ^ 32).
  { assert (P : 0 <= b) by (apply Z.shiftr_nonneg; lia). split; [exact P|]. change 32 with (Z.of_nat 32). apply bits_below; [exact P|].
    intros k K. unfold b in K. rewrite Z.shiftr_spec in K by lia. rewrite <- Nat2Z.inj_add in K. apply B in K. lia. }
  assert (NB : b <> 0) by (intro C; rewrite C, Z.mul_0_r in D; lia).
  replace M with (M - a + a)%nat by lia. rewrite iter_add, iter_pow. pose proof (iter_nonzero (M - a) b ltac:(lia)). lia.
Qed.

(** ** Two wrong bits: the map has order 2^32 - 1 at 1 *)
(** powers of the map as 32 columns, by squaring *)
Fixpoint app_cols (cols : list Z) (v : Z) : Z :=
  match cols with [] => 0 | c :: cs => Z.lxor (if Z.odd v then c else 0) (app_cols cs (Z.div2 v)) end.
Fixpoint basis (x : Z) (n : nat) : list Z := match n with O => [] | S n' => x :: basis (2 * x) n' end.
Fixpoint cols_pow (p : positive) : list Z :=
  match p with
  | xH => map L (basis 1 32)
  | xO q => let c := cols_pow q in map (app_cols c) c
  | xI q => let c := cols_pow q in map L (map (app_cols c) c)
  end.
Lemma app_cols_linear f n : (forall a b, f (Z.lxor a b) = Z.lxor (f a) (f b)) -> f 0 = 0 ->
  forall i v, 0 <= v < 2 ^ Z.of_nat n -> app_cols (map f (basis (2 ^ Z.of_nat i) n)) v = f (2 ^ Z.of_nat i * v).
Proof.
  intros Lin F0. induction n as [|n IH]; intros i v Hv.
  - change (2 ^ Z.of_nat 0) with 1 in Hv. replace v with 0 by lia. rewrite Z.mul_0_r. symmetry. exact F0.
  - cbn [basis map app_cols]. replace (2 * 2 ^ Z.of_nat i) with (2 ^ Z.of_nat (S i)) by (rewrite Nat2Z.inj_succ, Z.pow_succ_r by lia; reflexivity).
    rewrite Nat2Z.inj_succ, Z.pow_succ_r in Hv by lia. rewrite IH by (rewrite Z.div2_div; split; [apply Z.div_pos; lia|apply Z.div_lt_upper_bound; lia]).
    pose proof (Z.div2_odd v) as E. assert (D : 2 ^ Z.of_nat i * v = Z.lxor (if Z.odd v then 2 ^ Z.of_nat i else 0) (2 ^ Z.of_nat (S i) * Z.div2 v)).
    { rewrite Nat2Z.inj_succ, Z.pow_succ_r by lia. replace (2 * 2 ^ Z.of_nat i * Z.div2 v) with (Z.shiftl (2 * Z.div2 v) (Z.of_nat i)) by (rewrite Z.shiftl_mul_pow2 by lia; ring).
      replace (if Z.odd v then 2 ^ Z.of_nat i else 0) with (Z.shiftl (Z.b2z (Z.odd v)) (Z.of_nat i)) by (rewrite Z.shiftl_mul_pow2 by lia; destruct (Z.odd v); cbn [Z.b2z]; lia).
      rewrite <- Z.shiftl_lxor. replace (Z.lxor (Z.b2z (Z.odd v)) (2 * Z.div2 v)) with v; [rewrite Z.shiftl_mul_pow2 by lia; ring|].
      rewrite E at 1. rewrite Z.add_comm. apply Z.add_nocarry_lxor. apply Z.bits_inj'. intros k Hk. rewrite Z.land_spec, Z.bits_0.
      destruct (Z.eq_dec k 0) as [->|]; [rewrite Z.testbit_even_0; apply andb_false_r|].
      replace (Z.testbit (Z.b2z (Z.odd v)) k) with false; [reflexivity|]. symmetry. destruct (Z.odd v); cbn [Z.b2z]; [|apply Z.bits_0].
      apply Z.bits_above_log2; [lia|]. change (Z.log2 1) with 0. lia. }
    rewrite D, Lin. f_equal. destruct (Z.odd v); [reflexivity|symmetry; exact F0].
Qed.
Lemma app_cols_spec f v : (forall a b, f (Z.lxor a b) = Z.lxor (f a) (f b)) -> f 0 = 0 ->
  0 <= v < 2 ^ 32 -> app_cols (map f (basis 1 32)) v = f v.
Proof.
  intros Lin F0 Hv. pose proof (app_cols_linear f 32 Lin F0 0 v Hv) as X. change (2 ^ Z.of_nat 0) with 1 in X. rewrite Z.mul_1_l in X. exact X.
Qed.
Lemma basis32 : Forall (fun y => 0 <= y < 2 ^ 32) (basis 1 32).
Proof.
  apply Forall_forall. intros y Hy. assert (F : forallb (fun y => (0 <=? y) && (y <? 2 ^ 32)) (basis 1 32) = true) by (vm_compute; reflexivity).
  rewrite forallb_forall in F. apply F in Hy. lia.
Qed.
Lemma cols_pow_spec p : cols_pow p = map (iter (Pos.to_nat p)) (basis 1 32).
Proof.
  induction p as [q IH|q IH|]; cbn [cols_pow]; cbv zeta.
  - rewrite IH, !map_map. apply map_ext_in. intros y Hy. assert (Ry : 0 <= y < 2 ^ 32) by (pose proof basis32 as B; rewrite Forall_forall in B; apply B; exact Hy).
    rewrite app_cols_spec; [|intros; apply iter_lxor|apply iter_zero|apply iter_range; exact Ry]. rewrite Pos2Nat.inj_xI, <- iter_add, <- iter_S. f_equal. lia.
  - rewrite IH, !map_map. apply map_ext_in. intros y Hy. assert (Ry : 0 <= y < 2 ^ 32) by (pose proof basis32 as B; rewrite Forall_forall in B; apply B; exact Hy).
    rewrite app_cols_spec; [|intros; apply iter_lxor|apply iter_zero|apply iter_range; exact Ry]. rewrite Pos2Nat.inj_xO, <- iter_add. f_equal. lia.
  - reflexivity.
Qed.
Lemma iter_cols p : iter (Pos.to_nat p) 1 = app_cols (cols_pow p) 1.
Proof. rewrite cols_pow_spec, app_cols_spec; [reflexivity|intros; apply iter_lxor|apply iter_zero|lia]. Qed.

(** small primes *)
Fixpoint coprime_upto (n : nat) (k p : Z) : bool :=
  match n with O => true | S n' => (Z.gcd k p =? 1) && coprime_upto n' (k + 1) p end.
Lemma coprime_upto_spec n : forall k p, coprime_upto n k p = true -> forall j, k <= j < k + Z.of_nat n -> rel_prime j p.
Proof.
  induction n as [|n IH]; intros k p E j Hj; [lia|]. cbn [coprime_upto] in E. apply andb_prop in E. destruct E as [E1 E2].
  destruct (Z.eq_dec j k) as [->|]; [apply Zgcd_1_rel_prime; apply Z.eqb_eq; exact E1|]. apply (IH (k + 1) p E2). lia.
Qed.
Lemma prime_check p : 1 < p -> coprime_upto (Z.to_nat (p - 1)) 1 p = true -> prime p.
Proof. intros H E. constructor; [exact H|]. intros n Hn. apply (coprime_upto_spec _ _ _ E). rewrite Z2Nat.id by lia. lia. Qed.
Lemma prime_5 : prime 5. Proof. apply prime_check; [lia|vm_compute; reflexivity]. Qed.
Lemma prime_17 : prime 17. Proof. apply prime_check; [lia|vm_compute; reflexivity]. Qed.
Lemma prime_257 : prime 257. Proof. apply prime_check; [lia|vm_compute; reflexivity]. Qed.
Lemma prime_65537 : prime 65537. Proof. apply prime_check; [lia|vm_compute; reflexivity]. Qed.

Definition ORDER : positive := 4294967295.
Lemma order_all : iter (Pos.to_nat ORDER) 1 = 1.
Proof. rewrite iter_cols. vm_compute. reflexivity. Qed.
Lemma not_1431655765 : iter (Pos.to_nat 1431655765) 1 <> 1.
Proof. rewrite iter_cols. vm_compute. discriminate. Qed.
Lemma not_858993459 : iter (Pos.to_nat 858993459) 1 <> 1.
Proof. rewrite iter_cols. vm_compute. discriminate. Qed.
Lemma not_252645135 : iter (Pos.to_nat 252645135) 1 <> 1.
Proof. rewrite iter_cols. vm_compute. discriminate. Qed.
Lemma not_16711935 : iter (Pos.to_nat 16711935) 1 <> 1.
Proof. rewrite iter_cols. vm_compute. discriminate. Qed.
Lemma not_65535 : iter (Pos.to_nat 65535) 1 <> 1.
Proof. rewrite iter_cols. vm_compute. discriminate. Qed.

Lemma iter_mult d k : iter d 1 = 1 -> iter (k * d) 1 = 1.
Proof. intro E. induction k as [|k IH]; [reflexivity|]. cbn [Nat.mul]. rewrite iter_add, IH. exact E. Qed.
Lemma iter_gcd d n : (0 < d)%nat -> iter d 1 = 1 -> iter n 1 = 1 -> iter (Nat.gcd d n) 1 = 1.
Proof.
  intros Hd Ed En. destruct (Nat.gcd_bezout_pos d n Hd) as (a & b & E).
  assert (X : iter (a * d) 1 = 1) by (apply iter_mult; exact Ed).
  rewrite E, iter_add, (iter_mult n b En) in X. exact X.
Qed.
Lemma factor_case (q c : positive) (g m : nat) : Z.pos q * Z.pos c = Z.of_nat (m * g) -> (0 < g)%nat -> prime (Z.pos q) ->
  iter g 1 = 1 -> iter (Pos.to_nat c) 1 <> 1 -> rel_prime (Z.of_nat m) (Z.pos q).
Proof.
  intros E Hg Pq Eg N. apply rel_prime_sym. apply prime_rel_prime; [exact Pq|]. intros [k K]. apply N.
  assert (Hk : 0 <= k) by nia. replace (Pos.to_nat c) with (Z.to_nat k * g)%nat; [apply iter_mult; exact Eg|].
  rewrite Nat2Z.inj_mul, K in E. assert (Z.pos c = k * Z.of_nat g) by nia.
  apply Nat2Z.inj. rewrite Nat2Z.inj_mul, Z2Nat.id by exact Hk. rewrite positive_nat_Z. lia.
Qed.
Lemma order_min d : (0 < d)%nat -> Z.of_nat d < 2 ^ 32 - 1 -> iter d 1 <> 1.
Proof.
  intros Hd B Ed. pose proof (iter_gcd d (Pos.to_nat ORDER) Hd Ed order_all) as Eg.
  set (g := Nat.gcd d (Pos.to_nat ORDER)) in *.
  assert (Dg : Nat.divide g (Pos.to_nat ORDER)) by apply Nat.gcd_divide_r.
  assert (Lg : (g <= d)%nat) by (apply Nat.divide_pos_le; [exact Hd|apply Nat.gcd_divide_l]).
  destruct Dg as [m Em]. assert (Ez : Z.of_nat (m * g) = 4294967295).
  { rewrite <- Em. rewrite positive_nat_Z. reflexivity. }
  clearbody g. assert (Hg : (0 < g)%nat) by nia.
  assert (R3 : rel_prime (Z.of_nat m) 3) by (apply (factor_case 3 1431655765 g m); [rewrite Ez; reflexivity|exact Hg|apply prime_3|exact Eg|apply not_1431655765]).
  assert (R5 : rel_prime (Z.of_nat m) 5) by (apply (factor_case 5 858993459 g m); [rewrite Ez; reflexivity|exact Hg|apply prime_5|exact Eg|apply not_858993459]).
  assert (R17 : rel_prime (Z.of_nat m) 17) by (apply (factor_case 17 252645135 g m); [rewrite Ez; reflexivity|exact Hg|apply prime_17|exact Eg|apply not_252645135]).
  assert (R257 : rel_prime (Z.of_nat m) 257) by (apply (factor_case 257 16711935 g m); [rewrite Ez; reflexivity|exact Hg|apply prime_257|exact Eg|apply not_16711935]).
  assert (R65537 : rel_prime (Z.of_nat m) 65537) by (apply (factor_case 65537 65535 g m); [rewrite Ez; reflexivity|exact Hg|apply prime_65537|exact Eg|apply not_65535]).
  assert (R : rel_prime (Z.of_nat m) (3 * (5 * (17 * (257 * 65537))))) by (repeat apply rel_prime_mult; assumption).
  change (3 * (5 * (17 * (257 * 65537)))) with 4294967295 in R. rewrite <- Ez in R.
  assert (M1 : Z.of_nat m = 1).
  { apply rel_prime_sym in R. destruct R as [_ _ R]. assert (D : (Z.of_nat m | 1)) by (apply R; [exists (Z.of_nat g); rewrite Nat2Z.inj_mul; ring|apply Z.divide_refl]).
    apply Z.divide_1_r_nonneg; [lia|exact D]. }
  rewrite Nat2Z.inj_mul, M1 in Ez. change (2 ^ 32 - 1) with 4294967295 in B. lia.
Qed.

Lemma two_detected d i j M : Z.of_nat M < 2 ^ 32 -> 0 < d ->
  (forall k, Z.testbit d (Z.of_nat k) = true -> (k = i \/ k = j) /\ (k < M)%nat) -> iter M d <> 0.
Proof.
  assert (W : forall i j, (i <= j)%nat -> Z.of_nat M < 2 ^ 32 -> 0 < d ->
    (forall k, Z.testbit d (Z.of_nat k) = true -> (k = i \/ k = j) /\ (k < M)%nat) -> iter M d <> 0).
  2:{ intros HM Hd B. destruct (Nat.le_ge_cases i j) as [G|G]; [exact (W i j G HM Hd B)|]. apply (W j i G HM Hd). intros k K. apply B in K. tauto. }
  clear i j. intros i j G HM Hd B.
  destruct (Z.testbit d (Z.of_nat i)) eqn:Ti; [destruct (Z.testbit d (Z.of_nat j)) eqn:Tj|].
  2:{ apply (burst_detected d i M Hd). intros k K. pose proof (B k K) as [[->| ->] ?]; [lia|congruence]. }
  2:{ apply (burst_detected d j M Hd). intros k K. pose proof (B k K) as [[->| ->] ?]; [congruence|lia]. }
  destruct (Nat.eq_dec i j) as [<-|NE].
  { apply (burst_detected d i M Hd). intros k K. pose proof (B k K) as [[->| ->] ?]; lia. }
  pose proof (B _ Ti) as [_ Bi]. pose proof (B _ Tj) as [_ Bj].
  assert (D : d = 2 ^ Z.of_nat i * Z.lxor 1 (2 ^ Z.of_nat (j - i) * 1)).
  { rewrite Z.mul_comm, <- Z.shiftl_mul_pow2 by lia. rewrite Z.mul_1_r. apply Z.bits_inj'. intros k Hk. rewrite Z.shiftl_spec by exact Hk. rewrite Z.lxor_spec.
    replace (2 ^ Z.of_nat (j - i)) with (Z.shiftl 1 (Z.of_nat (j - i))) by (rewrite Z.shiftl_mul_pow2 by lia; lia).
    rewrite <- (Z2Nat.id k) in * by exact Hk. set (n := Z.to_nat k) in *. clearbody n. clear k Hk.
    assert (One : forall x, Z.testbit 1 x = Z.eqb x 0).
    { intro x. destruct (Z.eqb_spec x 0) as [->|]; [reflexivity|]. destruct (Z_lt_le_dec x 0); [apply Z.testbit_neg_r; assumption|]. apply Z.bits_above_log2; [lia|]. change (Z.log2 1) with 0. lia. }
    rewrite One. destruct (Nat.ltb_spec n i) as [K|K].
    - rewrite (Z.testbit_neg_r (Z.shiftl _ _)) by lia. replace (Z.of_nat n - Z.of_nat i =? 0) with false by (symmetry; apply Z.eqb_neq; lia). cbn [xorb].
      destruct (Z.testbit d (Z.of_nat n)) eqn:E; [|reflexivity]. apply B in E. lia.
    - rewrite Z.shiftl_spec, One by lia. destruct (Z.eqb_spec (Z.of_nat n - Z.of_nat i) 0) as [Z0|Z0].
      + replace n with i by lia. replace (Z.of_nat i - Z.of_nat i - Z.of_nat (j - i) =? 0) with false by (symmetry; apply Z.eqb_neq; lia). exact Ti.
      + rewrite xorb_false_l. destruct (Z.eqb_spec (Z.of_nat n - Z.of_nat i - Z.of_nat (j - i)) 0) as [Z1|Z1].
        * replace n with j by lia. exact Tj.
        * destruct (Z.testbit d (Z.of_nat n)) eqn:E; [|reflexivity]. apply B in E. lia. }
  rewrite D. replace M with (M - j + (j - i) + i)%nat by lia. rewrite iter_add, iter_pow, iter_add, iter_lxor, iter_pow.
  pose proof (iter_range (j - i) 1 ltac:(lia)) as R1.
  pose proof (lxor_lt (iter (j - i) 1) 1 32 ltac:(lia) R1 ltac:(lia)) as R.
  assert (NZ : Z.lxor (iter (j - i) 1) 1 <> 0).
  { intro C. apply Z.lxor_eq in C. revert C. apply order_min; [lia|]. lia. }
  pose proof (iter_nonzero (M - j) (Z.lxor (iter (j - i) 1) 1) ltac:(lia)). lia.
Qed.

(** ** A wrong frame is never taken for a good one *)
Lemma undetected p c p' c' : all_bytes p -> all_bytes c' -> all_bytes p' -> length c' = 4%nat ->
  c = le32 (zlib_crc32 p) -> length (p' ++ c') = length (p ++ c) ->
  c' = le32 (zlib_crc32 p') <-> iter (8 * length (p ++ c)) (diff (p ++ c) (p' ++ c')) = 0.
Proof.
  intros Hp Hc' Hp' L4 Ec E. assert (Hc : all_bytes c) by (rewrite Ec, <- le32_z_to_le; apply z_to_le_bytes).
  assert (Lc : length c = 4%nat) by (rewrite Ec; reflexivity).
  rewrite (valid_total p' c' Hp' Hc' L4). rewrite <- total_diff by (try apply all_bytes_app; auto).
  pose proof (proj1 (valid_total p c Hp Hc Lc) Ec) as V. rewrite V. split; [intros ->; apply Z.lxor_nilpotent|].
  intro X. symmetry. apply Z.lxor_eq. exact X.
Qed.
Definition detectable (m m' : bytes) : Prop :=
  burst 32 m m' \/ (two_bits m m' /\ Z.of_nat (length m) < 2 ^ 29).
Lemma flips_inside m m' k : length m = length m' -> flips m m' k -> (k < 8 * length m)%nat.
Proof.
  intros E F. destruct (Nat.ltb_spec k (8 * length m)) as [|G]; [assumption|]. exfalso. apply F. unfold wire_bit.
  assert ((length m <= k / 8)%nat) by (apply Nat.div_le_lower_bound; lia).
  rewrite !nth_overflow by lia. reflexivity.
Qed.
Lemma detectable_nonzero m m' : all_bytes m -> all_bytes m' -> length m = length m' -> detectable m m' ->
  iter (8 * length m) (diff m m') <> 0.
Proof.
  intros H H' E [[N [a B]]|[[N (i & j & B)] S]]; pose proof (diff_range m m' H H' E N) as R.
  - apply (burst_detected _ a); [lia|]. intros k K. apply diff_bit in K; try assumption. split; [apply B; exact K|apply (flips_inside m m'); assumption].
  - apply (two_detected _ i j); [change (2 ^ 29) with 536870912 in S; change (2 ^ 32) with 4294967296; lia|lia|].
    intros k K. apply diff_bit in K; try assumption. split; [apply B; exact K|apply (flips_inside m m'); assumption].
Qed.
Lemma flips_tail pre m m' k : flips m m' k -> flips (pre ++ m) (pre ++ m') (8 * length pre + k).
Proof.
  unfold flips, wire_bit. replace (8 * length pre + k)%nat with (k + length pre * 8)%nat by lia.
  rewrite Nat.div_add, Nat.mod_add by lia. rewrite !app_nth2 by lia.
  replace (k / 8 + length pre - length pre)%nat with (k / 8)%nat by lia. auto.
Qed.
Lemma detectable_tail pre m m' : detectable (pre ++ m) (pre ++ m') -> detectable m m'.
Proof.
  assert (T : pre ++ m <> pre ++ m' -> m <> m') by congruence.
  intros [[N [a B]]|[[N (i & j & B)] S]]; [left|right]; (split; [|try (rewrite app_length in S; lia)]).
  - auto.
  - destruct (Nat.le_gt_cases (8 * length pre) a) as [G|G].
    + exists (a - 8 * length pre)%nat. intros k K. apply (flips_tail pre) in K. apply B in K. lia.
    + exists 0%nat. intros k K. apply (flips_tail pre) in K. apply B in K. lia.
  - split; [auto|]. exists (i - 8 * length pre)%nat, (j - 8 * length pre)%nat. intros k K. apply (flips_tail pre) in K. apply B in K. lia.
Qed.
Lemma wrong_frame p f' es : let f := [85; 85; 85; 85; 85; 85; 213] ++ p ++ le32 (zlib_crc32 p) in
  p <> [] -> all_bytes p -> all_bytes f' -> length f' = length f -> detectable f f' ->
  report zlib_crc32 (f', 253) es -> In LogPreamble es \/ In LogCrc es.
Proof.
  cbn zeta. intros Np Hp Hf' E D R. assert (Lp : (0 < length p)%nat) by (destruct p; [congruence|cbn; lia]).
  assert (Lf : (12 <= length f')%nat) by (rewrite E, !app_length; change (length (le32 (zlib_crc32 p))) with 4%nat; cbn [length]; lia).
  inversion R as [X|X Y|X Y|e X Y Z0 W1 W2|e e' payload crc W E1 E2 E3 E4]; cbn [fst snd] in *; try congruence; try (subst; cbn in Lf; lia).
  - left. apply in_or_app. right. left. reflexivity.
  - right. apply in_or_app. right. apply in_or_app. left. destruct W as (_ & Ef & Lc & _). cbn [fst] in Ef. rewrite E4; [left; reflexivity|].
    subst f'. apply detectable_tail in D.
    apply Forall_app in Hf'. destruct Hf' as [_ Hf']. apply Forall_app in Hf'. destruct Hf' as [Ha Hc].
    assert (El : length (payload ++ crc) = length (p ++ le32 (zlib_crc32 p))).
    { rewrite (app_length _ (payload ++ crc)), (app_length _ (p ++ _)) in E. lia. }
    intro C. pose proof (undetected p _ payload crc Hp Hc Ha Lc eq_refl El) as U. apply U in C. revert C.
    apply detectable_nonzero; [|apply all_bytes_app; assumption|auto|exact D]. apply all_bytes_app; [exact Hp|]. rewrite <- le32_z_to_le. apply z_to_le_bytes.
Qed.

(** ** 33 bits can be missed *)
Lemma diff_cons b b' m m' : is_byte b -> is_byte b' -> all_bytes m -> all_bytes m' ->
  diff (b :: m) (b' :: m') = Z.lxor (Z.lxor b b') (256 * diff m m').
Proof.
  intros Hb Hb' Hm Hm'. unfold diff. cbn [from_le]. pose proof (from_le_bound m Hm). pose proof (from_le_bound m' Hm').
  rewrite <- !lxor_low by (try assumption; lia).
  replace (256 * from_le m) with (Z.shiftl (from_le m) 8) by (rewrite Z.shiftl_mul_pow2 by lia; change (2 ^ 8) with 256; ring).
  replace (256 * from_le m') with (Z.shiftl (from_le m') 8) by (rewrite Z.shiftl_mul_pow2 by lia; change (2 ^ 8) with 256; ring).
  replace (256 * Z.lxor (from_le m) (from_le m')) with (Z.shiftl (Z.lxor (from_le m) (from_le m')) 8) by (rewrite Z.shiftl_mul_pow2 by lia; change (2 ^ 8) with 256; ring).
  rewrite Z.shiftl_lxor. apply Z.bits_inj'. intros k _. rewrite !Z.lxor_spec.
  destruct (Z.testbit b k), (Z.testbit b' k), (Z.testbit (Z.shiftl (from_le m) 8) k), (Z.testbit (Z.shiftl (from_le m') 8) k); reflexivity.
Qed.
Lemma lxor_byte a x : is_byte a -> is_byte x -> is_byte (Z.lxor a x).
Proof. intros Ha Hx. apply (lxor_lt a x 8); [lia|exact Ha|exact Hx]. Qed.
Lemma lxor_self a x : Z.lxor a (Z.lxor a x) = x.
Proof. rewrite <- Z.lxor_assoc, Z.lxor_nilpotent. apply Z.lxor_0_l. Qed.
Lemma missed p : all_bytes p -> (5 <= length p)%nat ->
  exists p', length p' = length p /\ all_bytes p' /\ burst 33 p p' /\ zlib_crc32 p' = zlib_crc32 p.
Proof.
  intros H Lp. destruct p as [|a [|b [|c [|d [|e r]]]]]; cbn [length] in Lp; try lia.
  apply Forall_cons_iff in H. destruct H as [Ha H]. apply Forall_cons_iff in H. destruct H as [Hb H]. apply Forall_cons_iff in H. destruct H as [Hc H].
  apply Forall_cons_iff in H. destruct H as [Hd H]. apply Forall_cons_iff in H. destruct H as [He H].
  set (p := a :: b :: c :: d :: e :: r). set (p' := Z.lxor a 0x41 :: Z.lxor b 0x06 :: Z.lxor c 0x71 :: Z.lxor d 0xDB :: Z.lxor e 0x01 :: r).
  assert (Hp : all_bytes p) by (unfold p; repeat (apply Forall_cons; [assumption|]); exact H).
  assert (Hp' : all_bytes p') by (unfold p'; repeat (apply Forall_cons; [apply lxor_byte; [assumption|unfold is_byte; lia]|]); exact H).
  assert (D : diff p p' = 2 * POLY + 1).
  { unfold p, p'. unfold p in Hp. unfold p' in Hp'.
    unfold all_bytes in Hp, Hp'. repeat match goal with K : Forall is_byte (_ :: _) |- _ => apply Forall_cons_iff in K; destruct K end.
    rewrite !diff_cons by (unfold all_bytes; repeat apply Forall_cons; assumption). rewrite !lxor_self. unfold diff. rewrite Z.lxor_nilpotent. reflexivity. }
  exists p'. split; [reflexivity|]. split; [exact Hp'|]. split.
  - split.
    + intro C. unfold diff in D. rewrite <- C, Z.lxor_nilpotent in D. discriminate.
    + exists 0%nat. intros k K. apply (diff_bit p p' k Hp Hp') in K. rewrite D in K. destruct (Nat.ltb_spec k 33); [lia|]. exfalso.
      rewrite Z.bits_above_log2 in K; [discriminate|unfold POLY; lia|]. change (Z.log2 (2 * POLY + 1)) with 32. lia.
  - unfold zlib_crc32. f_equal. symmetry. apply Z.lxor_eq. change (Z.lxor (total p) (total p') = 0). rewrite total_diff by (try assumption; reflexivity).
    rewrite D. replace (8 * length p)%nat with (8 * length p - 1 + 1)%nat by (unfold p; cbn [length]; lia). rewrite iter_add.
    change (iter 1 (2 * POLY + 1)) with (L (2 * POLY + 1)). replace (L (2 * POLY + 1)) with 0 by reflexivity. apply iter_zero.
Qed.

(** ** Only the pattern of wrong bits matters *)
Lemma pattern_only p q p' c' q' d' : all_bytes p -> all_bytes q -> all_bytes p' -> all_bytes c' -> all_bytes q' -> all_bytes d' ->
  length p' = length p -> length q = length p -> length q' = length p -> length c' = 4%nat -> length d' = 4%nat ->
  (forall k, flips (p ++ le32 (zlib_crc32 p)) (p' ++ c') k <-> flips (q ++ le32 (zlib_crc32 q)) (q' ++ d') k) ->
  (c' = le32 (zlib_crc32 p') <-> d' = le32 (zlib_crc32 q')).
Proof.
  intros Hp Hq Hp' Hc' Hq' Hd' E1 E2 E3 L1 L2 F.
  assert (Lc : forall x, length (le32 (zlib_crc32 x)) = 4%nat) by (intro; reflexivity).
  assert (Bc : forall x, all_bytes (le32 (zlib_crc32 x))) by (intro; rewrite <- le32_z_to_le; apply z_to_le_bytes).
  rewrite (undetected p _ p' c' Hp Hc' Hp' L1 eq_refl) by (rewrite !app_length, Lc; lia).
  rewrite (undetected q _ q' d' Hq Hd' Hq' L2 eq_refl) by (rewrite !app_length, Lc; lia).
  rewrite !app_length, !Lc, E2. replace (diff (q ++ le32 (zlib_crc32 q)) (q' ++ d')) with (diff (p ++ le32 (zlib_crc32 p)) (p' ++ c')); [tauto|].
  apply Z.bits_inj'. intros k Hk. rewrite <- (Z2Nat.id k) by exact Hk. specialize (F (Z.to_nat k)).
  rewrite <- !diff_bit in F by (apply all_bytes_app; auto).
  destruct (Z.testbit (diff (p ++ _) _) _), (Z.testbit (diff (q ++ _) _) _); try reflexivity; [symmetry; apply F; reflexivity|apply F; reflexivity].
Qed.
