(** Compat1Prop.v -- C145: a bus value built with create_binary is the same on both versions of
    cocotb. *)
From Verif Require Import Base CompatSpec BitsLemmas CompatProof Compat1Model Compat1Spec Compat1Proof.
Local Open Scope Z_scope.

(** The two versions agree (the same word, or an exception from both) for these arguments and no
    others. *)
Theorem C145_exactly_partial :
  forall (src : binsrc) (n : nat) (big : bool),
    (1 <= n)%nat -> (create_binary src n big = create_1x src n big <-> portable src n big).
Proof. exact agree_iff. Qed.
Print Assumptions C145_exactly_partial.

(** What cocotb 2.x accepts, 1.x accepts too, in a word of the same length. *)
Theorem C145_accepted_partial :
  forall (src : binsrc) (n : nat) (big : bool) (w : bits),
    (1 <= n)%nat -> create_binary src n big = Ok w ->
    exists w', create_1x src n big = Ok w' /\ length w' = n /\ length w = n.
Proof.
  intros src n big w H1 E. destruct src as [z|s|b].
  - rewrite int_2x in E. destruct (Z.leb_spec 0 z); [|discriminate E].
    destruct (Z.ltb_spec z (2 ^ Z.of_nat n)); [|discriminate E].
    assert (W : w = zbits n z) by (cbn [andb] in E; congruence). subst w.
    unfold create_1x. destruct (Z.ltb_spec z 0); [lia|].
    eexists. split; [reflexivity|]. split; [apply adjust1_length|apply zbits_length].
  - rewrite str_2x in E by assumption. destruct (Nat.eqb_spec (length s) n) as [L|]; [|discriminate E].
    assert (W : w = s) by congruence. subst w.
    exists (adjust_1x s n big). split; [reflexivity|]. split; [apply adjust1_length|exact L].
  - destruct (bytes_1x_ok b n big) as (w' & W & L). exists w'. split; [exact W|]. split; [exact L|].
    assert (P : portable (BBytes b) n big).
    { cbn [portable]. destruct (Nat.eq_dec n 1) as [->|N]; [discriminate E|].
      destruct (Nat.le_gt_cases (8 * length b) n) as [Q|Q]; [now split|].
      rewrite create_bytes_too_long in E by assumption. discriminate E. }
    apply (agree_iff _ n big H1) in P. congruence.
Qed.
Print Assumptions C145_accepted_partial.

(** An int too large for the word: cocotb 2.x raises, 1.x sends its low bits. *)
Theorem C145_large_int_refuted :
  forall (z : Z) (n : nat) (big : bool),
    (1 <= n)%nat -> 2 ^ Z.of_nat n <= z ->
    create_binary (BInt z) n big = Err EValue
    /\ exists w, create_1x (BInt z) n big = Ok w /\ length w = n /\ bval w = Some (z mod 2 ^ Z.of_nat n).
Proof.
  intros z n big H1 H. split.
  - rewrite int_2x. destruct (Z.ltb_spec z (2 ^ Z.of_nat n)); [lia|]. now rewrite andb_false_r.
  - exists (zbits n z). split; [now apply int_1x_wide|]. split; [apply zbits_length|apply bval_zbits].
Qed.
Print Assumptions C145_large_int_refuted.

(** A positive int with its top bit clear, with big_endian: 2.x sends the value, 1.x a larger one
    (multiplied by the power of two that sets the top bit). *)
Theorem C145_big_endian_int_refuted :
  forall (z : Z) (n : nat),
    (1 <= n)%nat -> 0 < z < 2 ^ (Z.of_nat n - 1) ->
    exists w w' k,
      create_binary (BInt z) n true = Ok w /\ bval w = Some z
      /\ create_1x (BInt z) n true = Ok w' /\ bval w' = Some (z * 2 ^ k)
      /\ 0 < k /\ 2 ^ (Z.of_nat n - 1) <= z * 2 ^ k < 2 ^ Z.of_nat n.
Proof.
  intros z n H1 H.
  assert (T : 2 ^ Z.of_nat n = 2 * 2 ^ (Z.of_nat n - 1)).
  { rewrite <- Z.pow_succ_r by lia. f_equal. lia. }
  destruct (int_1x_big z n H1 ltac:(lia)) as [E B]. destruct (shifted z n H1 H) as [K S2].
  exists (zbits n z), (zbits n (z * 2 ^ Z.of_nat (n - width z))), (Z.of_nat (n - width z)).
  split. { rewrite int_2x. destruct (Z.leb_spec 0 z); [|lia].
           destruct (Z.ltb_spec z (2 ^ Z.of_nat n)); [reflexivity|lia]. }
  split. { rewrite bval_zbits, Z.mod_small by lia. reflexivity. }
  split; [exact E|].
  split. { rewrite bval_zbits, Z.mod_small by lia. reflexivity. }
  split; [lia|]. split; assumption.
Qed.
Print Assumptions C145_big_endian_int_refuted.

(** A str of another length: 2.x raises; 1.x drops the leftmost characters, or adds zeros. *)
Theorem C145_str_refuted :
  forall (s : bits) (n : nat) (big : bool),
    (1 <= n)%nat -> length s <> n ->
    create_binary (BStr s) n big = Err EValue
    /\ exists w, create_1x (BStr s) n big = Ok w /\ length w = n
         /\ ((n < length s)%nat -> exists dropped, s = dropped ++ w)
         /\ ((length s < n)%nat ->
             w = if big then s ++ repeat L0 (n - length s) else repeat L0 (n - length s) ++ s).
Proof.
  intros s n big H1 H. split.
  - rewrite str_2x by assumption. destruct (Nat.eqb_spec (length s) n); [contradiction|reflexivity].
  - exists (adjust_1x s n big). split; [reflexivity|]. split; [apply adjust1_length|]. unfold adjust_1x. split; intros L.
    + destruct (Nat.ltb_spec (length s) n); [lia|].
      exists (firstn (length s - n) s). now rewrite firstn_skipn.
    + destruct (Nat.ltb_spec (length s) n); [reflexivity|lia].
Qed.
Print Assumptions C145_str_refuted.

(** Bytes that do not fit, and any bytes for a single bit: 2.x raises, 1.x does not. *)
Theorem C145_bytes_refuted :
  forall (b : bytes) (n : nat) (big : bool),
    (1 <= n)%nat -> n = 1%nat \/ (n < 8 * length b)%nat ->
    create_binary (BBytes b) n big = Err EValue
    /\ exists w, create_1x (BBytes b) n big = Ok w /\ length w = n.
Proof.
  intros b n big H1 H. split; [|apply bytes_1x_ok].
  apply bytes_2x_bad. lia.
Qed.
Print Assumptions C145_bytes_refuted.

Example C145_nonvacuous :
  portable (BInt 5) 8 false /\ ~ portable (BInt 5) 8 true /\ portable (BInt 0) 2 true
  /\ portable (BBytes [1; 2]) 24 true /\ portable (BStr [L1; LX]) 2 true
  /\ create_binary (BInt 5) 8 true = Ok (zbits 8 5) /\ create_1x (BInt 5) 8 true = Ok (zbits 8 160)
  /\ create_1x (BInt 5) 8 false = Ok (zbits 8 5) /\ create_1x (BInt 300) 8 false = Ok (zbits 8 44)
  /\ create_1x (BInt 0) 2 true = Ok [L0; L0] /\ create_1x (BInt (-1)) 8 true = Err EValue
  /\ create_1x (BStr [L1; LX]) 4 true = Ok [L1; LX; L0; L0].
Proof.
  unfold portable. cbn [length].
  repeat match goal with |- _ /\ _ => split end; try reflexivity; try lia; try (right; split; [reflexivity|intros; auto; discriminate]).
Qed.
