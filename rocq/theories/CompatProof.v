(** CompatProof.v -- lemmas for C01-C03. *)
From Verif Require Import Base CompatModel CompatSpec BitsLemmas.
Local Open Scope Z_scope.

Lemma create_bytes_big b k :
  (length b <= k)%nat ->
  create_binary (BBytes b) (8 * k) true = Ok (bytes_bits (b ++ repeat 0 (k - length b))).
Proof.
  intros H. unfold create_binary.
  destruct (Nat.eqb_spec (8 * k) 1); [lia|].
  rewrite bytes_bits_app, bytes_bits_zeros, bytes_bits_length.
  unfold logicarray_of_str.
  rewrite app_length, bytes_bits_length, zeros_length.
  replace (8 * k - 8 * length b)%nat with (8 * (k - length b))%nat by lia.
  destruct (Nat.eqb_spec (8 * length b + 8 * (k - length b)) (8 * k)); [reflexivity|lia].
Qed.

Lemma create_bytes_little b k :
  (length b <= k)%nat ->
  create_binary (BBytes b) (8 * k) false = Ok (bytes_bits (rev (b ++ repeat 0 (k - length b)))).
Proof.
  intros H. unfold create_binary.
  destruct (Nat.eqb_spec (8 * k) 1); [lia|].
  rewrite rev_app_distr, bytes_bits_app, rev_repeat, bytes_bits_zeros, bytes_bits_length, rev_length.
  unfold logicarray_of_str.
  rewrite app_length, bytes_bits_length, zeros_length, rev_length.
  replace (8 * k - 8 * length b)%nat with (8 * (k - length b))%nat by lia.
  destruct (Nat.eqb_spec (8 * (k - length b) + 8 * length b) (8 * k)); [reflexivity|lia].
Qed.

Lemma create_bytes_roundtrip b k big :
  all_bytes b -> (length b <= k)%nat ->
  exists w, create_binary (BBytes b) (8 * k) big = Ok w
         /\ length w = (8 * k)%nat
         /\ convert_binary_to_bytes w big = Ok (b ++ repeat 0 (k - length b)).
Proof.
  intros Hb Hk.
  assert (Ha : all_bytes (b ++ repeat 0 (k - length b)))
    by (apply all_bytes_app; [assumption | apply all_bytes_zeros]).
  assert (Hl : length (b ++ repeat 0 (k - length b)) = k)
    by (rewrite app_length, repeat_length; lia).
  destruct big.
  - eexists. split; [now apply create_bytes_big|]. split.
    + rewrite bytes_bits_length. lia.
    + now apply convert_bytes_bits_big.
  - eexists. split; [now apply create_bytes_little|]. split.
    + rewrite bytes_bits_length, rev_length. lia.
    + now apply convert_bytes_bits_little.
Qed.

Lemma create_bytes_too_long b n big :
  n <> 1%nat -> (n < 8 * length b)%nat -> create_binary (BBytes b) n big = Err EValue.
Proof.
  intros H1 H. unfold create_binary. destruct (Nat.eqb_spec n 1); [contradiction|].
  unfold logicarray_of_str.
  destruct big; rewrite app_length, bytes_bits_length, zeros_length, ?rev_length;
    match goal with |- context [Nat.eqb ?a ?b] => destruct (Nat.eqb_spec a b) end; (reflexivity || lia).
Qed.

Lemma nbytes_spec n : (8 * nbytes n < n + 8)%nat /\ (n <= 8 * nbytes n)%nat.
Proof.
  unfold nbytes. pose proof (Nat.div_mod (n + 7) 8 ltac:(lia)).
  pose proof (Nat.mod_upper_bound (n + 7) 8 ltac:(lia)). lia.
Qed.

Lemma convert_unresolvable w big : resolvable w = false -> convert_binary_to_bytes w big = Err EValue.
Proof. intros H. apply bval_unresolvable in H. unfold convert_binary_to_bytes. now rewrite H. Qed.

Lemma pow256 n : 256 ^ Z.of_nat n = 2 ^ Z.of_nat (8 * n).
Proof. rewrite Nat2Z.inj_mul, Z.pow_mul_r by lia. reflexivity. Qed.

Lemma convert_resolvable w big :
  resolvable w = true ->
  exists bs z, convert_binary_to_bytes w big = Ok bs /\ bval w = Some z
    /\ all_bytes bs
    /\ (length w <= 8 * length bs)%nat /\ (8 * length bs < length w + 8)%nat
    /\ (if big then from_be bs else from_le bs) = z.
Proof.
  intros H. apply bval_resolvable in H. destruct H as [z Hz].
  unfold convert_binary_to_bytes. rewrite Hz.
  pose proof (nbytes_spec (length w)) as [H1 H2].
  pose proof (bval_bound _ _ Hz) as Hb.
  eexists; exists z; split; [reflexivity|]. split; [reflexivity|].
  assert (Hv : from_le (z_to_le (nbytes (length w)) z) = z).
  { rewrite from_le_z_to_le. apply Z.mod_small. rewrite pow256. split; [lia|].
    apply Z.lt_le_trans with (2 ^ Z.of_nat (length w)); [lia|]. apply Z.pow_le_mono_r; lia. }
  split; [destruct big; [apply all_bytes_rev|]; apply z_to_le_bytes|].
  destruct big; cbv iota; rewrite ?rev_length, z_to_le_length.
  - repeat split; try lia. unfold from_be. now rewrite rev_involutive.
  - repeat split; try lia.
Qed.

Lemma binary_slice_in w s e : 0 <= s <= e -> e < Z.of_nat (length w) ->
  binary_slice w s e = Ok (slice w (Z.to_nat s) (Z.to_nat e + 1)).
Proof.
  intros H1 H2. unfold binary_slice, position.
  destruct (Z.leb_spec 0 s); [|lia]. destruct (Z.ltb_spec s (Z.of_nat (length w))); [|lia].
  destruct (Z.leb_spec 0 e); [|lia]. destruct (Z.ltb_spec e (Z.of_nat (length w))); [|lia].
  cbn [andb]. destruct (Z.leb_spec s e); [reflexivity|lia].
Qed.
Lemma binary_slice_spec w s e :
  (0 <= s <= e /\ e < Z.of_nat (length w)) ->
  exists pre r post, binary_slice w s e = Ok r /\ w = pre ++ r ++ post
    /\ Z.of_nat (length pre) = s /\ Z.of_nat (length r) = e - s + 1
    /\ (forall z, bval w = Some z ->
        bval r = Some ((z / 2 ^ (Z.of_nat (length w) - 1 - e)) mod 2 ^ (e - s + 1))).
Proof.
  intros [H1 H2]. rewrite (binary_slice_in w s e H1 H2).
  set (i := Z.to_nat s). set (j := (Z.to_nat e + 1)%nat).
  assert (Hij : (i <= j <= length w)%nat) by lia.
  pose proof (firstn_skipn_slice w i j Hij) as Hw.
  pose proof (slice_length w i j Hij) as Hl.
  exists (firstn i w), (slice w i j), (skipn j w).
  split; [reflexivity|]. split; [exact Hw|].
  split; [rewrite firstn_length; lia|]. split; [lia|].
  intros z Hz. rewrite Hw in Hz. rewrite !bval_app in Hz.
  destruct (bval (firstn i w)) as [x|]; [|discriminate].
  destruct (bval (slice w i j)) as [y|] eqn:Ey; [|discriminate].
  destruct (bval (skipn j w)) as [t|] eqn:Et; [|discriminate].
  injection Hz as <-. f_equal.
  pose proof (bval_bound _ _ Ey) as By. pose proof (bval_bound _ _ Et) as Bt.
  rewrite skipn_length in *.
  replace (Z.of_nat (length w) - 1 - e) with (Z.of_nat (length w - j)) by lia.
  replace (e - s + 1) with (Z.of_nat (length (slice w i j))) by lia.
  rewrite app_length, skipn_length, pow2_add.
  set (P := 2 ^ Z.of_nat (length (slice w i j))) in *.
  set (Q := 2 ^ Z.of_nat (length w - j)) in *.
  assert (HP : 0 < P) by apply pow2_pos. assert (HQ : 0 < Q) by apply pow2_pos.
  replace (x * (P * Q) + (y * Q + t)) with (t + (x * P + y) * Q) by ring.
  rewrite Z.div_add by lia. rewrite (Z.div_small t) by lia.
  rewrite Z.add_0_l, Z.add_comm, Z.mod_add by lia. now rewrite Z.mod_small by lia.
Qed.

(** a negative position counts from the right *)
Lemma binary_slice_left w s e : let n := Z.of_nat (length w) in - n <= s < 0 -> binary_slice w s e = binary_slice w (n + s) e.
Proof.
  intros n H. unfold binary_slice, position. fold n.
  destruct (Z.leb_spec 0 s); [lia|]. destruct (Z.leb_spec (- n) s); [|lia]. destruct (Z.ltb_spec s 0); [|lia].
  destruct (Z.leb_spec 0 (n + s)); [|lia]. destruct (Z.ltb_spec (n + s) n); [|lia]. reflexivity.
Qed.
Lemma binary_slice_right w s e : let n := Z.of_nat (length w) in - n <= e < 0 -> binary_slice w s e = binary_slice w s (n + e).
Proof.
  intros n H. unfold binary_slice, position. fold n.
  destruct (Z.leb_spec 0 e); [lia|]. destruct (Z.leb_spec (- n) e); [|lia]. destruct (Z.ltb_spec e 0); [|lia].
  destruct (Z.leb_spec 0 (n + e)); [|lia]. destruct (Z.ltb_spec (n + e) n); [|lia]. reflexivity.
Qed.
Lemma binary_slice_out w s e : let n := Z.of_nat (length w) in
  ~ (- n <= s < n) \/ ~ (- n <= e < n) \/ (0 <= s /\ 0 <= e /\ e < s) -> binary_slice w s e = Err EIndex.
Proof.
  intros n H. unfold binary_slice, position. fold n.
  destruct (Z.leb_spec 0 s), (Z.ltb_spec s n), (Z.leb_spec (- n) s), (Z.ltb_spec s 0); cbn [andb]; try lia; try reflexivity;
  destruct (Z.leb_spec 0 e), (Z.ltb_spec e n), (Z.leb_spec (- n) e), (Z.ltb_spec e 0); cbn [andb]; try lia; try reflexivity;
  match goal with |- (if ?a <=? ?b then _ else _) = _ => destruct (Z.leb_spec a b) end; lia || reflexivity.
Qed.

(** ** the two cocotb branches agree *)
Lemma fold_big b acc :
  fold_left (fun acc c => acc ++ zbits 8 c) b acc = acc ++ bytes_bits b.
Proof.
  revert acc; induction b as [|x b IH]; intros acc; cbn [fold_left]; [symmetry; apply app_nil_r|].
  rewrite IH, <- app_assoc. reflexivity.
Qed.

Lemma fold_little b acc :
  fold_left (fun acc c => zbits 8 c ++ acc) b acc = bytes_bits (rev b) ++ acc.
Proof.
  revert acc; induction b as [|x b IH]; intros acc; cbn [fold_left rev]; [reflexivity|].
  rewrite IH, bytes_bits_app, <- app_assoc. f_equal.
Qed.

Lemma adjust_fit s n big : (length s <= n)%nat ->
  adjust_1x s n big = if big then s ++ zeros (n - length s) else zeros (n - length s) ++ s.
Proof.
  intros H. unfold adjust_1x. destruct (Nat.ltb_spec (length s) n); [reflexivity|].
  replace (n - length s)%nat with 0%nat by lia. replace (length s - n)%nat with 0%nat by lia.
  cbn. rewrite app_nil_r. now destruct big.
Qed.

Lemma create_1x_agrees b n big : n <> 1%nat -> (8 * length b <= n)%nat ->
  exists w, create_binary (BBytes b) n big = Ok w /\ create_binary_1x (BBytes b) n big = Some w.
Proof.
  intros H1 H. unfold create_binary, create_binary_1x.
  destruct (Nat.eqb_spec n 1); [contradiction|].
  destruct big.
  - rewrite fold_big, app_nil_l, adjust_fit by (rewrite bytes_bits_length; lia).
    unfold logicarray_of_str. rewrite app_length, zeros_length, bytes_bits_length.
    match goal with |- context [Nat.eqb ?a ?b] => destruct (Nat.eqb_spec a b) end; [eauto|lia].
  - rewrite fold_little, app_nil_r, adjust_fit by (rewrite bytes_bits_length, rev_length; lia).
    unfold logicarray_of_str. rewrite app_length, zeros_length, bytes_bits_length, rev_length.
    match goal with |- context [Nat.eqb ?a ?b] => destruct (Nat.eqb_spec a b) end; [eauto|lia].
Qed.

Lemma z_to_le_app n m z : z_to_le (n + m) z = z_to_le n z ++ z_to_le m (z / 256 ^ Z.of_nat n).
Proof.
  revert z; induction n as [|n IH]; intros z.
  - cbn. change (256 ^ Z.of_nat 0) with 1. now rewrite Z.div_1_r.
  - cbn [Nat.add z_to_le app]. rewrite IH. f_equal. f_equal. f_equal.
    rewrite Nat2Z.inj_succ, Z.pow_succ_r by lia. rewrite Z.div_div by (try (pose proof (Z.pow_pos_nonneg 256 (Z.of_nat n))); lia).
    reflexivity.
Qed.

Lemma z_to_le_mod n z : z_to_le n (z mod 256 ^ Z.of_nat n) = z_to_le n z.
Proof.
  apply from_le_inj; try apply z_to_le_bytes; rewrite ?z_to_le_length; [reflexivity|].
  rewrite !from_le_z_to_le. apply Z.mod_mod. pose proof (Z.pow_pos_nonneg 256 (Z.of_nat n)); lia.
Qed.

Lemma buff_1x_step f s big acc : s <> [] ->
  buff_1x (S f) s big acc =
  match bval (firstn 8 s) with
  | None => Err EValue
  | Some v => buff_1x f (skipn 8 s) big (if big then acc ++ [v] else v :: acc)
  end.
Proof. destruct s; [congruence|reflexivity]. Qed.

Lemma buff_1x_spec k : forall fuel s big acc,
  length s = (8 * k)%nat -> (k < fuel)%nat ->
  buff_1x fuel s big acc =
  match bval s with
  | None => Err EValue
  | Some z => Ok (if big then acc ++ rev (z_to_le k z) else z_to_le k z ++ acc)
  end.
Proof.
  induction k as [|k IH]; intros fuel s big acc Hl Hf.
  - destruct s; [|discriminate]. destruct fuel; cbn; destruct big; rewrite ?app_nil_r; reflexivity.
  - destruct fuel as [|fuel]; [lia|].
    assert (Hs : s <> []) by (intros ->; cbn in Hl; lia).
    rewrite buff_1x_step by assumption.
    assert (Hl1 : length (firstn 8 s) = 8%nat) by (rewrite firstn_length; lia).
    assert (Hl2 : length (skipn 8 s) = (8 * k)%nat) by (rewrite skipn_length; lia).
    replace (bval s) with (bval (firstn 8 s ++ skipn 8 s)) by now rewrite firstn_skipn.
    rewrite bval_app.
    destruct (bval (firstn 8 s)) as [v|] eqn:Ev; [|reflexivity].
    rewrite IH by lia.
    destruct (bval (skipn 8 s)) as [z|] eqn:Ez; [|reflexivity].
    pose proof (bval_bound _ _ Ev) as Bv. pose proof (bval_bound _ _ Ez) as Bz.
    rewrite Hl1 in Bv. change (2 ^ Z.of_nat 8) with 256 in Bv. rewrite Hl2 in *.
    replace (S k) with (k + 1)%nat by lia. rewrite z_to_le_app.
    rewrite <- pow256 in *.
    assert (HP : 0 < 256 ^ Z.of_nat k) by (apply Z.pow_pos_nonneg; lia).
    rewrite <- (z_to_le_mod k (v * _ + z)).
    replace (v * 256 ^ Z.of_nat k + z) with (z + v * 256 ^ Z.of_nat k) by ring.
    rewrite Z.mod_add, Z.div_add by lia. rewrite Z.mod_small, (Z.div_small z) by lia.
    rewrite Z.add_0_l. cbn [z_to_le]. rewrite (Z.mod_small v) by lia.
    destruct big; rewrite ?rev_app_distr; cbn; rewrite <- ?app_assoc; reflexivity.
Qed.

Lemma convert_1x_agrees w big : convert_binary_to_bytes_1x w big = convert_binary_to_bytes w big.
Proof.
  unfold convert_binary_to_bytes_1x, convert_binary_to_bytes.
  set (pad := Nat.modulo (8 - Nat.modulo (length w) 8) 8).
  assert (Hp : (pad + length w = 8 * nbytes (length w))%nat).
  { unfold pad, nbytes.
    pose proof (Nat.div_mod (length w) 8 ltac:(lia)) as D.
    pose proof (Nat.mod_upper_bound (length w) 8 ltac:(lia)) as B.
    set (q := Nat.div (length w) 8) in *. set (r := Nat.modulo (length w) 8) in *.
    destruct (Nat.eq_dec r 0) as [Hr|Hr].
    - rewrite Hr. change ((8 - 0) mod 8)%nat with 0%nat.
      replace (length w + 7)%nat with (7 + q * 8)%nat by lia. rewrite Nat.div_add by lia.
      change (7 / 8)%nat with 0%nat. lia.
    - rewrite Nat.mod_small by lia.
      replace (length w + 7)%nat with ((r - 1) + (q + 1) * 8)%nat by lia. rewrite Nat.div_add by lia.
      rewrite Nat.div_small by lia. lia. }
  rewrite (buff_1x_spec (nbytes (length w))); [|rewrite app_length, zeros_length; lia |rewrite app_length, zeros_length; lia].
  rewrite bval_app, bval_zeros. rewrite Z.mul_0_l.
  destruct (bval w); [|reflexivity]. rewrite Z.add_0_l, app_nil_l, app_nil_r. reflexivity.
Qed.

Lemma binary_slice_agree (w : bits) (s e : Z) :
  (0 <= s -> 0 <= e -> binary_slice_1x w s e = binary_slice w s e)
  /\ (s < 0 \/ e < 0 -> binary_slice_1x w s e = Err EIndex).
Proof.
  unfold binary_slice_1x, binary_slice, position. split.
  - intros S E. destruct (Z.ltb_spec s 0), (Z.ltb_spec e 0); try lia. cbn [orb].
    destruct (Z.leb_spec 0 s), (Z.leb_spec 0 e); try lia. cbn [andb]. rewrite !andb_false_r.
    destruct (Z.ltb_spec (Z.of_nat (length w) - 1) e), (Z.ltb_spec e (Z.of_nat (length w))), (Z.ltb_spec s (Z.of_nat (length w))),
      (Z.ltb_spec e s), (Z.leb_spec s e); try lia; reflexivity.
  - intros H. destruct (Z.ltb_spec s 0), (Z.ltb_spec e 0); try lia; reflexivity.
Qed.
