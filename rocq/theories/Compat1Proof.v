(** Compat1Proof.v -- lemmas for C145. *)
From Verif Require Import Base CompatSpec BitsLemmas CompatProof Compat1Model Compat1Spec.
Local Open Scope Z_scope.

Lemma adjust1_length s n e : length (adjust_1x s n e) = n.
Proof.
  unfold adjust_1x. destruct (Nat.ltb_spec (length s) n) as [H|H].
  - destruct e; rewrite app_length; unfold zeros; rewrite repeat_length; lia.
  - rewrite skipn_length. lia.
Qed.

Lemma adjust1_same s e : adjust_1x s (length s) e = s.
Proof. unfold adjust_1x. now rewrite Nat.ltb_irrefl, Nat.sub_diag. Qed.

Lemma skipn_zbits k : forall n z, skipn k (zbits (k + n) z) = zbits n z.
Proof. induction k as [|k IH]; intros n z; [reflexivity|]. cbn [Nat.add zbits skipn]. apply IH. Qed.

Lemma adjust1_cut m n z e : (n <= m)%nat -> adjust_1x (zbits m z) n e = zbits n z.
Proof.
  intros H. unfold adjust_1x. rewrite zbits_length. destruct (Nat.ltb_spec m n); [lia|].
  rewrite <- (skipn_zbits (m - n) n z). now replace (m - n + n)%nat with m by lia.
Qed.

Lemma zbits_pad m n z : (m <= n)%nat -> 0 <= z < 2 ^ Z.of_nat m -> zbits n z = zeros (n - m) ++ zbits m z.
Proof.
  intros H Hz.
  assert (Hn : 2 ^ Z.of_nat m <= 2 ^ Z.of_nat n) by (apply Z.pow_le_mono_r; lia).
  apply (bval_inj _ _ z).
  - rewrite app_length, zeros_length, !zbits_length. lia.
  - rewrite bval_zbits, Z.mod_small by lia. reflexivity.
  - rewrite bval_app, bval_zeros, bval_zbits, Z.mod_small by lia. reflexivity.
Qed.

Definition width (z : Z) : nat := if z =? 0 then 1 else Z.to_nat (Z.log2 z + 1).

Lemma width_pos z : 0 < z -> Z.of_nat (width z) = Z.log2 z + 1.
Proof.
  intros H. unfold width. destruct (Z.eqb_spec z 0); [lia|].
  pose proof (Z.log2_nonneg z). lia.
Qed.

Lemma width_upper z : 0 <= z -> z < 2 ^ Z.of_nat (width z).
Proof.
  intros H. destruct (Z.eq_dec z 0) as [->|N]; [reflexivity|].
  rewrite width_pos by lia. pose proof (Z.log2_spec z ltac:(lia)). 
  replace (Z.log2 z + 1) with (Z.succ (Z.log2 z)) by lia. lia.
Qed.

Lemma width_le z n : (1 <= n)%nat -> 0 <= z < 2 ^ Z.of_nat n -> (width z <= n)%nat.
Proof.
  intros H1 H. destruct (Z.eq_dec z 0) as [->|N]; [exact H1|].
  assert (Z.of_nat (width z) = Z.log2 z + 1) by (apply width_pos; lia).
  assert (Z.log2 z < Z.of_nat n) by (apply Z.log2_lt_pow2; lia). lia.
Qed.

Lemma width_ge z n : 2 ^ Z.of_nat n <= z -> (n < width z)%nat.
Proof.
  intros H. pose proof (pow2_pos n).
  assert (Z.of_nat (width z) = Z.log2 z + 1) by (apply width_pos; lia).
  assert (Z.of_nat n <= Z.log2 z) by (apply Z.log2_le_pow2; lia). lia.
Qed.

Lemma int_2x z n big : create_binary (BInt z) n big
  = if (0 <=? z) && (z <? 2 ^ Z.of_nat n) then Ok (zbits n z) else Err EValue.
Proof.
  unfold create_binary. destruct (Nat.eqb_spec n 1) as [->|]; [|reflexivity].
  change (2 ^ Z.of_nat 1) with 2. unfold logic_of.
  destruct z as [|p|p]; [reflexivity| |reflexivity].
  destruct p; [| |reflexivity];
    match goal with |- context [?a <? 2] => destruct (Z.ltb_spec a 2); [lia|] end;
    now rewrite andb_false_r.
Qed.

Lemma int_1x_little z n : (1 <= n)%nat -> 0 <= z -> create_1x (BInt z) n false = Ok (zbits n z).
Proof.
  intros H1 H. unfold create_1x. destruct (Z.ltb_spec z 0); [lia|]. f_equal.
  change (bin z) with (zbits (width z) z).
  destruct (Nat.le_gt_cases n (width z)) as [L|L]; [now apply adjust1_cut|].
  unfold adjust_1x. rewrite zbits_length. destruct (Nat.ltb_spec (width z) n); [|lia].
  symmetry. apply zbits_pad; [lia|]. split; [lia|now apply width_upper].
Qed.

Lemma int_1x_wide z n big : (1 <= n)%nat -> 2 ^ Z.of_nat n <= z -> create_1x (BInt z) n big = Ok (zbits n z).
Proof.
  intros H1 H. pose proof (pow2_pos n). unfold create_1x. destruct (Z.ltb_spec z 0); [lia|]. f_equal.
  change (bin z) with (zbits (width z) z). apply adjust1_cut. pose proof (width_ge z n H). lia.
Qed.

Lemma int_1x_big z n : (1 <= n)%nat -> 0 <= z < 2 ^ Z.of_nat n ->
  create_1x (BInt z) n true = Ok (zbits n (z * 2 ^ Z.of_nat (n - width z)))
  /\ z * 2 ^ Z.of_nat (n - width z) < 2 ^ Z.of_nat n.
Proof.
  intros H1 H. pose proof (width_le z n H1 H) as L. pose proof (width_upper z ltac:(lia)) as U.
  pose proof (pow2_pos (n - width z)) as P.
  assert (B : z * 2 ^ Z.of_nat (n - width z) < 2 ^ Z.of_nat n).
  { replace n with (width z + (n - width z))%nat at 2 by lia. rewrite pow2_add. nia. }
  split; [|exact B].
  unfold create_1x. destruct (Z.ltb_spec z 0); [lia|]. f_equal.
  change (bin z) with (zbits (width z) z).
  apply (bval_inj _ _ (z * 2 ^ Z.of_nat (n - width z))).
  - now rewrite adjust1_length, zbits_length.
  - rewrite adjust_fit by (rewrite zbits_length; lia).
    rewrite bval_app, bval_zeros, bval_zbits, zeros_length, zbits_length, Z.mod_small by lia. f_equal. lia.
  - rewrite bval_zbits, Z.mod_small by nia. reflexivity.
Qed.

Lemma shifted z n : (1 <= n)%nat -> 0 < z < 2 ^ (Z.of_nat n - 1) ->
  (0 < n - width z)%nat /\ 2 ^ (Z.of_nat n - 1) <= z * 2 ^ Z.of_nat (n - width z).
Proof.
  intros H1 H.
  assert (W : Z.of_nat (width z) = Z.log2 z + 1) by (apply width_pos; lia).
  assert (L : Z.log2 z < Z.of_nat n - 1) by (apply Z.log2_lt_pow2; lia).
  pose proof (Z.log2_nonneg z).
  split; [lia|]. pose proof (Z.log2_spec z ltac:(lia)) as [S1 _].
  replace (Z.of_nat n - 1) with (Z.log2 z + Z.of_nat (n - width z)) by lia.
  rewrite Z.pow_add_r by lia. pose proof (pow2_pos (n - width z)). nia.
Qed.

Lemma str_1x s n big : create_1x (BStr s) n big = Ok (adjust_1x s n big).
Proof. reflexivity. Qed.

Lemma str_2x s n big : (1 <= n)%nat ->
  create_binary (BStr s) n big = if Nat.eqb (length s) n then Ok s else Err EValue.
Proof.
  intros H. unfold create_binary. destruct (Nat.eqb_spec n 1) as [->|]; [|reflexivity].
  unfold logic_of. destruct s as [|x [|y s]]; reflexivity.
Qed.

Lemma bytes_1x_ok b n big : exists w, create_1x (BBytes b) n big = Ok w /\ length w = n.
Proof. unfold create_1x, create_binary_1x. eexists. split; [reflexivity|apply adjust1_length]. Qed.

Lemma bytes_2x_bad b n big : ~ (n <> 1%nat /\ (8 * length b <= n)%nat) -> create_binary (BBytes b) n big = Err EValue.
Proof.
  intros H. destruct (Nat.eq_dec n 1) as [->|N]; [reflexivity|].
  apply create_bytes_too_long; lia.
Qed.

Lemma agree_iff src n big : (1 <= n)%nat ->
  (create_binary src n big = create_1x src n big <-> portable src n big).
Proof.
  intros H1. destruct src as [z|s|b]; cbn [portable].
  - rewrite int_2x. destruct (Z.leb_spec 0 z) as [Z0|Z0].
    2:{ cbn [andb]. unfold create_1x. destruct (Z.ltb_spec z 0); [|lia]. split; [now left|reflexivity]. }
    cbn [andb]. destruct (Z.ltb_spec z (2 ^ Z.of_nat n)) as [L|L].
    2:{ rewrite int_1x_wide by assumption. split; [discriminate|lia]. }
    destruct big.
    + destruct (int_1x_big z n H1 ltac:(lia)) as [E B]. rewrite E. split.
      * intros Q. right. split; [assumption|]. intros _.
        destruct (Z.eq_dec z 0); [now left|right].
        destruct (Z.le_gt_cases (2 ^ (Z.of_nat n - 1)) z); [assumption|exfalso].
        destruct (shifted z n H1 ltac:(lia)) as [_ S2].
        assert (Q' : zbits n z = zbits n (z * 2 ^ Z.of_nat (n - width z))) by congruence.
        apply (f_equal bval) in Q'. rewrite !bval_zbits in Q'.
        pose proof (pow2_pos (n - width z)).
        rewrite !Z.mod_small in Q' by nia. injection Q' as Q'. lia.
      * intros [|[_ C]]; [lia|]. destruct (C eq_refl) as [->|C']; [reflexivity|].
        assert (W : (n - width z)%nat = 0%nat).
        { assert (n - 1 < width z)%nat; [|lia]. apply width_ge.
          now replace (Z.of_nat (n - 1)) with (Z.of_nat n - 1) by lia. }
        rewrite W. change (2 ^ Z.of_nat 0) with 1. now rewrite Z.mul_1_r.
    + rewrite int_1x_little by assumption. split; [|reflexivity].
      intros _. right. split; [assumption|discriminate].
  - rewrite str_2x, str_1x by assumption. destruct (Nat.eqb_spec (length s) n) as [<-|N].
    + rewrite adjust1_same. split; reflexivity.
    + split; [discriminate|contradiction].
  - split.
    + intros E. destruct (Nat.eq_dec n 1) as [->|N].
      { destruct (bytes_1x_ok b 1 big) as (w & W & _). rewrite W in E. discriminate E. }
      split; [assumption|]. destruct (Nat.le_gt_cases (8 * length b) n); [assumption|exfalso].
      rewrite create_bytes_too_long in E by assumption.
      destruct (bytes_1x_ok b n big) as (w & W & _). rewrite W in E. discriminate E.
    + intros [N L]. destruct (create_1x_agrees b n big N L) as (w & A & B).
      unfold create_1x. now rewrite A, B.
Qed.
