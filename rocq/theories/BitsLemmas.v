(** BitsLemmas.v -- facts about logic vectors and byte strings. *)
From Verif Require Import Base CompatModel CompatSpec.
Local Open Scope Z_scope.

Lemma pow2_S n : 2 ^ Z.of_nat (S n) = 2 * 2 ^ Z.of_nat n.
Proof. rewrite Nat2Z.inj_succ, Z.pow_succ_r by lia. reflexivity. Qed.

Lemma pow2_pos n : 0 < 2 ^ Z.of_nat n.
Proof. apply Z.pow_pos_nonneg; lia. Qed.

Lemma pow2_add a b : 2 ^ Z.of_nat (a + b) = 2 ^ Z.of_nat a * 2 ^ Z.of_nat b.
Proof. rewrite Nat2Z.inj_add, Z.pow_add_r by lia. reflexivity. Qed.

Lemma zbits_length n z : length (zbits n z) = n.
Proof. induction n as [|n IH]; simpl; congruence. Qed.

Lemma mod_pow2_S z n :
  z mod 2 ^ Z.of_nat (S n) = (if Z.testbit z (Z.of_nat n) then 2 ^ Z.of_nat n else 0) + z mod 2 ^ Z.of_nat n.
Proof.
  rewrite pow2_S, (Z.mul_comm 2), Z.rem_mul_r by (pose proof (pow2_pos n); lia).
  rewrite <- Z.testbit_spec' by lia.
  destruct (Z.testbit z (Z.of_nat n)); simpl Z.b2z; lia.
Qed.

Lemma bval_zbits n z : bval (zbits n z) = Some (z mod 2 ^ Z.of_nat n).
Proof.
  induction n as [|n IH]; [simpl; now rewrite Z.mod_1_r|].
  rewrite mod_pow2_S. cbn [zbits bval]. rewrite IH, zbits_length.
  destruct (Z.testbit z (Z.of_nat n)); cbn [bit_of_bool]; f_equal.
Qed.

Lemma bval_bound l z : bval l = Some z -> 0 <= z < 2 ^ Z.of_nat (length l).
Proof.
  revert z; induction l as [|b l IH]; intros z; cbn [bval].
  - intros [= <-]. simpl; lia.
  - cbn [length]. rewrite pow2_S.
    destruct b, (bval l) as [v|]; intros [= <-]; specialize (IH v eq_refl); lia.
Qed.

Lemma bval_app a b :
  bval (a ++ b) = match bval a, bval b with
                  | Some x, Some y => Some (x * 2 ^ Z.of_nat (length b) + y)
                  | _, _ => None end.
Proof.
  induction a as [|c a IH]; cbn [app bval].
  - destruct (bval b); f_equal; lia.
  - rewrite IH, app_length, pow2_add.
    destruct c, (bval a), (bval b); try reflexivity; f_equal; lia.
Qed.

Lemma bval_zeros n : bval (zeros n) = Some 0.
Proof. unfold zeros. induction n as [|n IH]; simpl; [reflexivity|]. now rewrite IH. Qed.

Lemma zeros_length n : length (zeros n) = n.
Proof. apply repeat_length. Qed.

Lemma bval_resolvable l : resolvable l = true <-> exists z, bval l = Some z.
Proof.
  induction l as [|b l IH]; cbn [bval].
  - split; [intros _; eauto | reflexivity].
  - unfold resolvable in *; cbn [forallb].
    rewrite andb_true_iff, IH. split.
    + intros [H [z ->]]. destruct b; try discriminate; eauto.
    + intros [z H]. destruct b, (bval l); try discriminate; eauto.
Qed.

Lemma bval_unresolvable l : resolvable l = false <-> bval l = None.
Proof.
  pose proof (bval_resolvable l) as H. destruct (resolvable l), (bval l); try tauto; try (split; discriminate).
  - destruct H as [H _]. destruct (H eq_refl); discriminate.
  - destruct H as [_ H]. split; [|discriminate]. intros _. discriminate H. eauto.
Qed.

Lemma testbit_high z n : 0 <= z < 2 ^ Z.of_nat n -> Z.testbit z (Z.of_nat n) = false.
Proof.
  intros H. destruct (Z.eq_dec z 0) as [->|]; [apply Z.testbit_0_l|].
  apply Z.bits_above_log2; [lia|]. apply Z.log2_lt_pow2; lia.
Qed.

Lemma zbits_ext n z z' :
  (forall i, (i < n)%nat -> Z.testbit z (Z.of_nat i) = Z.testbit z' (Z.of_nat i)) ->
  zbits n z = zbits n z'.
Proof.
  induction n as [|n IH]; intros H; [reflexivity|]. cbn [zbits].
  rewrite H by lia. f_equal. apply IH; intros; apply H; lia.
Qed.

Lemma zbits_mod n z : zbits n (z mod 2 ^ Z.of_nat n) = zbits n z.
Proof. apply zbits_ext; intros i Hi. apply Z.mod_pow2_bits_low. lia. Qed.

Lemma zbits_add_pow n z m : (n <= m)%nat -> zbits n (2 ^ Z.of_nat m + z) = zbits n z.
Proof.
  intros H. rewrite <- (zbits_mod n (_ + _)), <- (zbits_mod n z). f_equal.
  replace m with (n + (m - n))%nat by lia. rewrite pow2_add.
  rewrite Z.mul_comm, Z.add_comm, Z.mod_add; [reflexivity|]. pose proof (pow2_pos n); lia.
Qed.

Lemma zbits_bval l z : bval l = Some z -> zbits (length l) z = l.
Proof.
  revert z; induction l as [|b l IH]; intros z; cbn [bval]; [reflexivity|].
  destruct (bval l) as [v|] eqn:E; [|destruct b; discriminate].
  pose proof (bval_bound _ _ E) as Hb.
  cbn [length zbits].
  destruct b; try discriminate; intros [= <-].
  - rewrite (testbit_high v) by assumption. cbn. now rewrite IH.
  - rewrite zbits_add_pow by lia. rewrite (IH v eq_refl). f_equal.
    replace (Z.testbit _ _) with true; [reflexivity|]. symmetry.
    rewrite <- (Z.mul_1_l (2 ^ _)).
    rewrite Z.add_comm, Z.testbit_true by lia.
    rewrite Z.div_add by (pose proof (pow2_pos (length l)); lia).
    rewrite Z.div_small by assumption. reflexivity.
Qed.

Lemma bval_inj l l' z : length l = length l' -> bval l = Some z -> bval l' = Some z -> l = l'.
Proof. intros H A B. rewrite <- (zbits_bval _ _ A), <- (zbits_bval _ _ B). congruence. Qed.

(** ** bytes *)
Lemma bytes_bits_length b : length (bytes_bits b) = (8 * length b)%nat.
Proof.
  unfold bytes_bits. induction b as [|x b IH]; [reflexivity|].
  cbn [flat_map length]. rewrite app_length, IH, zbits_length. lia.
Qed.

Lemma bytes_bits_app a b : bytes_bits (a ++ b) = bytes_bits a ++ bytes_bits b.
Proof. unfold bytes_bits. now rewrite flat_map_app. Qed.

Lemma bytes_bits_zeros n : bytes_bits (repeat 0 n) = zeros (8 * n).
Proof.
  unfold bytes_bits, zeros. induction n as [|n IH]; [reflexivity|].
  cbn [repeat flat_map]. rewrite IH. replace (8 * S n)%nat with (8 + 8 * n)%nat by lia.
  rewrite repeat_app. reflexivity.
Qed.

Lemma from_le_bound b : all_bytes b -> 0 <= from_le b < 256 ^ Z.of_nat (length b).
Proof.
  intros H. induction H as [|x b Hx Hb IH]; [simpl; lia|].
  cbn [from_le length]. rewrite Nat2Z.inj_succ, Z.pow_succ_r by lia. unfold is_byte in Hx. lia.
Qed.

Lemma from_le_app a b : from_le (a ++ b) = from_le a + 256 ^ Z.of_nat (length a) * from_le b.
Proof.
  induction a as [|x a IH]; [cbn [app from_le length]; change (256 ^ Z.of_nat 0) with 1; lia|].
  cbn [app from_le length]. rewrite IH, Nat2Z.inj_succ, Z.pow_succ_r by lia. ring.
Qed.

Lemma from_le_zeros n : from_le (repeat 0 n) = 0.
Proof. induction n as [|n IH]; simpl; lia. Qed.

Lemma bval_bytes_bits b : all_bytes b -> bval (bytes_bits b) = Some (from_be b).
Proof.
  unfold from_be. intros H. induction H as [|x b Hx Hb IH]; [reflexivity|].
  change (bytes_bits (x :: b)) with (zbits 8 x ++ bytes_bits b).
  rewrite bval_app, bval_zbits, IH, bytes_bits_length.
  cbn [rev]. rewrite from_le_app, rev_length. cbn [from_le].
  change (2 ^ Z.of_nat 8) with 256. rewrite Z.mod_small by exact Hx.
  f_equal. rewrite Nat2Z.inj_mul. change (Z.of_nat 8) with 8. rewrite Z.pow_mul_r by lia.
  change (2 ^ 8) with 256. lia.
Qed.

Lemma z_to_le_length n z : length (z_to_le n z) = n.
Proof. revert z; induction n as [|n IH]; intros z; simpl; congruence. Qed.

Lemma z_to_le_bytes n z : all_bytes (z_to_le n z).
Proof.
  revert z; induction n as [|n IH]; intros z; simpl; constructor; [|apply IH].
  unfold is_byte. apply Z.mod_pos_bound. lia.
Qed.

Lemma from_le_z_to_le n z : from_le (z_to_le n z) = z mod 256 ^ Z.of_nat n.
Proof.
  revert z; induction n as [|n IH]; intros z; [simpl; now rewrite Z.mod_1_r|].
  cbn [z_to_le from_le]. rewrite IH, Nat2Z.inj_succ, Z.pow_succ_r by lia.
  rewrite Z.rem_mul_r by (try (pose proof (Z.pow_pos_nonneg 256 (Z.of_nat n))); lia). lia.
Qed.

Lemma z_to_le_from_le b : all_bytes b -> z_to_le (length b) (from_le b) = b.
Proof.
  intros H. induction H as [|x b Hx Hb IH]; [reflexivity|].
  unfold is_byte in Hx. cbn [length z_to_le from_le].
  rewrite (Z.mul_comm 256), Z.mod_add, Z.div_add by lia.
  rewrite Z.mod_small, Z.div_small by lia. now rewrite Z.add_0_l, IH.
Qed.

Lemma from_le_inj a b : all_bytes a -> all_bytes b -> length a = length b -> from_le a = from_le b -> a = b.
Proof. intros Ha Hb Hl H. rewrite <- (z_to_le_from_le a Ha), <- (z_to_le_from_le b Hb). congruence. Qed.

Lemma all_bytes_rev b : all_bytes b -> all_bytes (rev b).
Proof. apply Forall_rev. Qed.

Lemma all_bytes_app a b : all_bytes a -> all_bytes b -> all_bytes (a ++ b).
Proof. intros; apply Forall_app; split; assumption. Qed.

Lemma all_bytes_zeros n : all_bytes (repeat 0 n).
Proof. apply Forall_forall. intros x Hx. apply repeat_spec in Hx. subst. unfold is_byte; lia. Qed.

Lemma nbytes_mul8 n : nbytes (8 * n) = n.
Proof.
  unfold nbytes. rewrite Nat.mul_comm, Nat.add_comm, Nat.div_add by lia. reflexivity.
Qed.

(** Converting back the bits of a byte string gives the byte string. *)
Lemma convert_bytes_bits_big b : all_bytes b -> convert_binary_to_bytes (bytes_bits b) true = Ok b.
Proof.
  intros H. unfold convert_binary_to_bytes. rewrite bval_bytes_bits by assumption.
  rewrite bytes_bits_length, nbytes_mul8. unfold from_be.
  replace (length b) with (length (rev b)) by apply rev_length.
  rewrite z_to_le_from_le by now apply all_bytes_rev. now rewrite rev_involutive.
Qed.

Lemma convert_bytes_bits_little b : all_bytes b -> convert_binary_to_bytes (bytes_bits (rev b)) false = Ok b.
Proof.
  intros H. unfold convert_binary_to_bytes. rewrite bval_bytes_bits by now apply all_bytes_rev.
  rewrite bytes_bits_length, nbytes_mul8. unfold from_be. rewrite rev_involutive, rev_length.
  now rewrite z_to_le_from_le.
Qed.

Lemma skipn_skipn {A} (l : list A) m n : skipn n (skipn m l) = skipn (m + n) l.
Proof.
  revert l; induction m as [|m IH]; intros l; [reflexivity|].
  destruct l as [|x l]; [now rewrite !skipn_nil|]. apply IH.
Qed.

Lemma firstn_skipn_slice {A} (l : list A) i j :
  (i <= j <= length l)%nat -> l = firstn i l ++ slice l i j ++ skipn j l.
Proof.
  intros H. unfold slice.
  rewrite <- (firstn_skipn i l) at 1. f_equal.
  rewrite <- (firstn_skipn (j - i) (skipn i l)) at 1. f_equal.
  rewrite skipn_skipn. f_equal. lia.
Qed.

Lemma slice_length {A} (l : list A) i j : (i <= j <= length l)%nat -> length (slice l i j) = (j - i)%nat.
Proof. intros H. unfold slice. rewrite firstn_length, skipn_length. lia. Qed.

Lemma rev_repeat {A} (x : A) n : rev (repeat x n) = repeat x n.
Proof.
  induction n as [|n IH]; [reflexivity|]. cbn [repeat rev]. rewrite IH.
  change [x] with (repeat x 1). rewrite <- repeat_app. now rewrite Nat.add_comm.
Qed.
