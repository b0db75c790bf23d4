(** XgProof.v -- proofs about the XGMII bus word, driver and monitor *)
From Verif Require Import Base CompatModel BitsLemmas Async XgModel XgSpec.
Local Open Scope nat_scope.

(** ** Bits of a word *)
Lemma zbits_nth n z : forall k, k < n -> nth k (zbits n z) LX = bit_of_bool (Z.testbit z (Z.of_nat (n - 1 - k))).
Proof.
  induction n as [|n IH]; intros k H; [lia|]. cbn [zbits]. destruct k as [|k].
  - cbn [nth]. replace (S n - 1 - 0) with n by lia. reflexivity.
  - cbn [nth]. rewrite IH by lia. do 3 f_equal. lia.
Qed.
Lemma bit_at_zbits n z p : p < n -> bit_at (zbits n z) p = bit_of_bool (Z.testbit z (Z.of_nat p)).
Proof.
  intro H. unfold bit_at. rewrite zbits_length, zbits_nth by lia. do 3 f_equal. lia.
Qed.
Lemma bit_of_bool_inj a b : bit_of_bool a = bit_of_bool b -> a = b.
Proof. destruct a, b; cbn; congruence. Qed.

(** positions *)
Lemma data_pos_lt inter n i j : i < n -> j < 8 -> data_pos inter i j < 9 * n.
Proof. unfold data_pos. destruct inter; lia. Qed.
Lemma ctrl_pos_lt inter n i : i < n -> ctrl_pos inter n i < 9 * n.
Proof. unfold ctrl_pos. destruct inter; lia. Qed.
Lemma pos_cover inter n p : p < 9 * n ->
  (exists i j, i < n /\ j < 8 /\ p = data_pos inter i j) \/ (exists i, i < n /\ p = ctrl_pos inter n i).
Proof.
  intro H. unfold data_pos, ctrl_pos. destruct inter.
  - pose proof (Nat.div_mod p 9 ltac:(lia)) as E. pose proof (Nat.mod_upper_bound p 9 ltac:(lia)) as B.
    set (q := p / 9) in *. set (r := p mod 9) in *. clearbody q r.
    destruct (Nat.eq_dec r 8); [right; exists q|left; exists q, r]; lia.
  - destruct (le_lt_dec (8 * n) p); [right; exists (p - 8 * n); lia|].
    left. pose proof (Nat.div_mod p 8 ltac:(lia)) as E. pose proof (Nat.mod_upper_bound p 8 ltac:(lia)) as B.
    set (q := p / 8) in *. set (r := p mod 8) in *. clearbody q r. exists q, r. lia.
Qed.

(** ** Decoding *)
Lemma carries_nth inter w ls i : carries inter w ls -> i < length ls ->
  exists byte ctrl, nth_error ls i = Some (byte, ctrl) /\ is_byte byte /\
    (forall j, j < 8 -> bit_at w (data_pos inter i j) = bit_of_bool (Z.testbit byte (Z.of_nat j))) /\
    bit_at w (ctrl_pos inter (length ls) i) = bit_of_bool ctrl.
Proof.
  intros [_ H] L. destruct (nth_error ls i) as [[b c]|] eqn:E.
  - exists b, c. split; [reflexivity|]. apply H. exact E.
  - apply nth_error_None in E. lia.
Qed.
Lemma carries_resolvable inter w ls : carries inter w ls -> exists v, bval w = Some v.
Proof.
  intro C. pose proof C as [L _]. apply bval_resolvable. unfold resolvable. apply forallb_forall.
  intros b Hb. apply In_nth with (d := LX) in Hb. destruct Hb as [k [Hk <-]].
  assert (E : nth k w LX = bit_at w (length w - 1 - k)).
  { unfold bit_at. f_equal. lia. }
  rewrite E. destruct (pos_cover inter (length ls) (length w - 1 - k)) as [[i [j (Hi & Hj & ->)]]|[i [Hi ->]]]; [lia| |];
  destruct (carries_nth _ _ _ _ C Hi) as (b & c & _ & _ & D & K).
  - rewrite D by exact Hj. destruct (Z.testbit _ _); reflexivity.
  - rewrite K. destruct c; reflexivity.
Qed.
Lemma bit_at_bval w v p : bval w = Some v -> p < length w -> bit_at w p = bit_of_bool (Z.testbit v (Z.of_nat p)).
Proof. intros H L. rewrite <- (zbits_bval _ _ H) at 1. apply bit_at_zbits. exact L. Qed.

Lemma land_255 z : Z.land z 255 = (z mod 256)%Z.
Proof. change 255%Z with (Z.ones 8). rewrite Z.land_ones by lia. reflexivity. Qed.
Lemma byte_high b k : is_byte b -> (8 <= k)%Z -> Z.testbit b k = false.
Proof.
  intros B K. unfold is_byte in B. destruct (Z.eq_dec b 0) as [->|N]; [apply Z.bits_0|].
  apply Z.bits_above_log2; [lia|]. apply Z.log2_lt_pow2; [lia|].
  assert (2 ^ 8 <= 2 ^ k)%Z by (apply Z.pow_le_mono_r; lia). change (2 ^ 8)%Z with 256%Z in *. lia.
Qed.
Lemma land_bit v k : (0 <= k)%Z -> negb (Z.land v (Z.shiftl 1 k) =? 0)%Z = Z.testbit v k.
Proof.
  intro H. destruct (Z.testbit v k) eqn:E.
  - apply negb_true_iff, Z.eqb_neq. intro C. assert (F : Z.testbit (Z.land v (Z.shiftl 1 k)) k = true).
    { rewrite Z.land_spec, E, Z.shiftl_spec by lia. rewrite Z.sub_diag. reflexivity. }
    rewrite C, Z.bits_0 in F. discriminate.
  - apply negb_false_iff, Z.eqb_eq. apply Z.bits_inj'. intros m Hm. rewrite Z.bits_0, Z.land_spec, Z.shiftl_spec by lia.
    destruct (Z.eq_dec m k) as [->|N]; [rewrite E; reflexivity|].
    destruct (Z_lt_le_dec m k); [rewrite (Z.testbit_neg_r 1) by lia; apply andb_false_r|].
    change (Z.testbit 1 (m - k)) with (Z.testbit (2 ^ 0) (m - k)). rewrite Z.pow2_bits_false by lia. apply andb_false_r.
Qed.
Lemma nth_ext_error {A} : forall (l l' : list A), (forall i, nth_error l i = nth_error l' i) -> l = l'.
Proof.
  induction l as [|a l IH]; intros [|b l'] H; [reflexivity|specialize (H 0); discriminate H|specialize (H 0); discriminate H|].
  f_equal; [specialize (H 0); cbn in H; congruence|]. apply IH. intro i. exact (H (S i)).
Qed.
Lemma nth_error_Some_lt {A} (l : list A) i x : nth_error l i = Some x -> i < length l.
Proof. intro H. apply nth_error_Some. congruence. Qed.
Lemma map_seq_nth {A} (f : nat -> A) (l : list A) : (forall i, i < length l -> nth_error l i = Some (f i)) ->
  map f (seq 0 (length l)) = l.
Proof.
  intro H. apply nth_ext_error. intro i. destruct (le_lt_dec (length l) i) as [G|G].
  - rewrite (proj2 (nth_error_None l i) G). apply nth_error_None. rewrite map_length, seq_length. exact G.
  - rewrite (H i G). rewrite nth_error_map, (nth_error_nth' _ 0) by (rewrite seq_length; exact G). cbn. rewrite seq_nth by exact G. reflexivity.
Qed.

Lemma get_bytes_ok inter w ls : carries inter w ls -> get_bytes (length ls) inter w = Ok ls.
Proof.
  intro C. pose proof C as [L _]. destruct (carries_resolvable _ _ _ C) as [v V]. unfold get_bytes. rewrite V. cbn zeta. apply f_equal.
  apply map_seq_nth. intros i Hi. destruct (carries_nth _ _ _ _ C Hi) as (b & c & E & B & D & K). refine (eq_trans E _). apply f_equal. symmetry. apply f_equal2.
  - rewrite land_255. apply Z.bits_inj'. intros k Hk. change 256%Z with (2 ^ 8)%Z.
    destruct (Z_lt_le_dec k 8) as [G|G].
    + rewrite Z.mod_pow2_bits_low by lia. rewrite Z.shiftr_spec by lia.
      specialize (D (Z.to_nat k) ltac:(lia)). rewrite (bit_at_bval _ _ _ V) in D by (rewrite L; apply data_pos_lt; [exact Hi|lia]).
      apply bit_of_bool_inj in D. rewrite Z2Nat.id in D by lia. rewrite <- D. f_equal. unfold data_pos. destruct inter; lia.
    + rewrite Z.mod_pow2_bits_high by lia. symmetry. apply byte_high; [exact B|lia].
  - rewrite (bit_at_bval _ _ _ V) in K by (rewrite L; apply ctrl_pos_lt; exact Hi). apply bit_of_bool_inj in K.
    rewrite land_bit by (destruct inter; lia). rewrite <- K. f_equal. unfold ctrl_pos. destruct inter; lia.
Qed.
Lemma get_bytes_bad n inter w : resolvable w = false -> get_bytes n inter w = Err EValue.
Proof. intro H. apply bval_unresolvable in H. unfold get_bytes. rewrite H. reflexivity. Qed.

(** ** Encoding *)
Fixpoint sets (n : nat) (inter : bool) (I : Z) (asg : list assignment) : res Z :=
  match asg with
  | [] => Ok I
  | (i, v) :: r => rbind (bus_set n inter I i v) (fun I' => sets n inter I' r)
  end.
Definition ok_asg (n : nat) (asg : list assignment) : Prop :=
  Forall (fun a => fst a < n /\ is_byte (fst (snd a))) asg.

Definition dposZ (inter : bool) (i : nat) : Z := Z.of_nat (data_pos inter i 0).
Definition hits (inter : bool) (n : nat) (a : assignment) (p : Z) : bool :=
  (Z.testbit (fst (snd a)) (p - dposZ inter (fst a))) ||
  (snd (snd a) && (p =? Z.of_nat (ctrl_pos inter n (fst a)))%Z).
Lemma b2z_shift c k p : (0 <= p)%Z -> Z.testbit (Z.shiftl (Z.b2z c) k) p = c && (p =? k)%Z.
Proof.
  intro H. rewrite Z.shiftl_spec by exact H. destruct c; cbn [andb Z.b2z]; [|apply Z.bits_0].
  destruct (Z.eqb_spec p k) as [->|N]; [rewrite Z.sub_diag; reflexivity|].
  destruct (Z_lt_le_dec p k); [apply Z.testbit_neg_r; lia|].
  change (Z.testbit (2 ^ 0) (p - k) = false). apply Z.pow2_bits_false. lia.
Qed.
Lemma bus_set_bits n inter I i v : i < n -> is_byte (fst v) -> (0 <= I)%Z ->
  exists I', bus_set n inter I i v = Ok I' /\ (0 <= I')%Z /\
    forall p, (0 <= p)%Z -> Z.testbit I' p = Z.testbit I p || hits inter n (i, v) p.
Proof.
  intros Hi B HI. destruct v as [b c]. unfold bus_set. destruct (Nat.leb_spec n i); [lia|]. cbn zeta in *. cbn [fst] in B.
  unfold hits, dposZ, ctrl_pos, data_pos. cbn [fst snd].
  destruct inter; (eexists; split; [reflexivity|split]);
    [rewrite !Z.lor_nonneg, !Z.shiftl_nonneg; unfold is_byte in B; destruct c; cbn; lia| |
     rewrite !Z.lor_nonneg, !Z.shiftl_nonneg; unfold is_byte in B; destruct c; cbn; lia|];
    intros p Hp; rewrite !Z.lor_spec, b2z_shift, Z.shiftl_spec by exact Hp; rewrite <- orb_assoc; do 2 f_equal;
    try (f_equal; lia); f_equal; f_equal; lia.
Qed.
Lemma sets_bits n inter asg : forall I, ok_asg n asg -> (0 <= I)%Z ->
  exists I', sets n inter I asg = Ok I' /\ (0 <= I')%Z /\
    forall p, (0 <= p)%Z -> Z.testbit I' p = Z.testbit I p || existsb (fun a => hits inter n a p) asg.
Proof.
  induction asg as [|[i v] asg IH]; intros I H HI; cbn [sets].
  - exists I. split; [reflexivity|]. split; [exact HI|]. intros. cbn. rewrite orb_false_r. reflexivity.
  - inversion H as [|? ? [H1 H2] H3]; subst. cbn [fst snd] in *.
    destruct (bus_set_bits n inter I i v H1 H2 HI) as (I1 & E & P & T). rewrite E. cbn [rbind].
    destruct (IH I1 H3 P) as (I2 & E2 & P2 & T2). exists I2. split; [exact E2|]. split; [exact P2|].
    intros p Hp. rewrite T2, T by exact Hp. cbn [existsb]. rewrite orb_assoc. reflexivity.
Qed.
(** a lane only touches its own positions *)
Lemma hits_data inter n a i j : fst a < n -> is_byte (fst (snd a)) -> i < n -> j < 8 ->
  hits inter n a (Z.of_nat (data_pos inter i j)) = Nat.eqb (fst a) i && Z.testbit (fst (snd a)) (Z.of_nat j).
Proof.
  intros H1 B H2 H3. unfold hits. destruct a as [i' [b c]]. cbn [fst snd] in *.
  assert (N : (Z.of_nat (data_pos inter i j) =? Z.of_nat (ctrl_pos inter n i'))%Z = false).
  { apply Z.eqb_neq. unfold data_pos, ctrl_pos. destruct inter; lia. }
  rewrite N, andb_false_r, orb_false_r. unfold dposZ. destruct (Nat.eqb_spec i' i) as [->|D].
  - cbn [andb]. f_equal. unfold data_pos. destruct inter; lia.
  - cbn [andb]. destruct (Nat.lt_ge_cases i i').
    + apply Z.testbit_neg_r. unfold data_pos. destruct inter; lia.
    + apply byte_high; [exact B|]. unfold data_pos. destruct inter; lia.
Qed.
Lemma hits_ctrl inter n a i : fst a < n -> is_byte (fst (snd a)) -> i < n ->
  hits inter n a (Z.of_nat (ctrl_pos inter n i)) = Nat.eqb (fst a) i && snd (snd a).
Proof.
  intros H1 B H2. unfold hits. destruct a as [i' [b c]]. cbn [fst snd] in *.
  assert (N : Z.testbit b (Z.of_nat (ctrl_pos inter n i) - dposZ inter i') = false).
  { unfold dposZ, data_pos, ctrl_pos. destruct inter.
    - destruct (Nat.lt_ge_cases i i'); [apply Z.testbit_neg_r|apply byte_high; [exact B|]]; lia.
    - apply byte_high; [exact B|lia]. }
  rewrite N, orb_false_l. rewrite (andb_comm (Nat.eqb i' i)). f_equal.
  destruct (Nat.eqb_spec i' i) as [->|D]; [apply Z.eqb_refl|]. apply Z.eqb_neq. unfold ctrl_pos. destruct inter; lia.
Qed.
Lemma existsb_assigned (f : lane -> bool) asg i : f (0%Z, false) = false -> NoDup (map fst asg) ->
  existsb (fun a => Nat.eqb (fst a) i && f (snd a)) asg = f (assigned asg i).
Proof.
  intros F. unfold assigned. induction asg as [|[k v] asg IH]; intro N; cbn [existsb find fst snd]; [symmetry; exact F|].
  inversion N as [|? ? N1 N2]; subst. destruct (Nat.eqb_spec k i) as [->|D]; cbn [andb snd].
  - enough (existsb (fun a => Nat.eqb (fst a) i && f (snd a)) asg = false) as -> by apply orb_false_r.
    clear - N1. induction asg as [|[k v'] asg IH]; [reflexivity|]. cbn [existsb fst snd map] in *.
    destruct (Nat.eqb_spec k i) as [->|D]; [exfalso; apply N1; left; reflexivity|]. cbn [andb orb]. apply IH. intro C. apply N1. right. exact C.
  - cbn [orb]. apply IH. exact N2.
Qed.
Lemma assigned_byte asg i : (forall a, In a asg -> is_byte (fst (snd a))) -> is_byte (fst (assigned asg i)).
Proof.
  intro H. unfold assigned. induction asg as [|[k v] asg IH]; cbn [find fst]; [cbn; unfold is_byte; lia|].
  destruct (Nat.eqb k i); [apply (H (k, v)); left; reflexivity|]. apply IH. intros a Ia. apply H. right. exact Ia.
Qed.
Lemma existsb_ext_in {A} (f g : A -> bool) l : (forall a, In a l -> f a = g a) -> existsb f l = existsb g l.
Proof. induction l as [|a l IH]; intro H; [reflexivity|]. cbn. rewrite H by (left; reflexivity). f_equal. apply IH. intros. apply H. right. assumption. Qed.
Lemma bound_of_bits z k : (0 <= z)%Z -> (forall p, (Z.of_nat k <= p)%Z -> Z.testbit z p = false) -> (0 <= z < 2 ^ Z.of_nat k)%Z.
Proof.
  intros P H. assert (E : z = (z mod 2 ^ Z.of_nat k)%Z).
  { apply Z.bits_inj'. intros m Hm. destruct (Z_lt_le_dec m (Z.of_nat k)).
    - rewrite Z.mod_pow2_bits_low by lia. reflexivity.
    - rewrite Z.mod_pow2_bits_high by lia. apply H. lia. }
  rewrite E. apply Z.mod_pos_bound. apply Z.pow_pos_nonneg; lia.
Qed.
Lemma encode_ok n inter asg : ok_asg n asg -> NoDup (map fst asg) ->
  exists I, sets n inter 0 asg = Ok I /\ (0 <= I < 2 ^ Z.of_nat (9 * n))%Z /\
    carries inter (zbits (9 * n) I) (map (assigned asg) (seq 0 n)).
Proof.
  intros H N. destruct (sets_bits n inter asg 0 H ltac:(lia)) as (I & E & P & T). exists I. split; [exact E|].
  split; [apply bound_of_bits; [exact P|]|split].
  - intros p Hp. rewrite T by lia. rewrite Z.bits_0. cbn [orb].
    destruct (existsb _ asg) eqn:X; [|reflexivity]. apply existsb_exists in X. destruct X as ([ia [ba ca]] & Ia & Xa). exfalso.
    unfold ok_asg in H. rewrite Forall_forall in H. destruct (H _ Ia) as [H1 H2]. unfold hits in Xa. cbn [fst snd] in *.
    rewrite byte_high in Xa by (try exact H2; unfold dposZ, data_pos; destruct inter; lia). cbn [orb] in Xa.
    apply andb_prop in Xa. destruct Xa as [_ Xa]. apply Z.eqb_eq in Xa. pose proof (ctrl_pos_lt inter n ia H1). lia.
  - rewrite map_length, seq_length. apply zbits_length.
  - rewrite map_length, seq_length. intros i b c E2. assert (Hi : i < n).
    { apply nth_error_Some_lt in E2. rewrite map_length, seq_length in E2. exact E2. }
    rewrite nth_error_map, (nth_error_nth' _ 0) in E2 by (rewrite seq_length; exact Hi). rewrite seq_nth in E2 by exact Hi. cbn [option_map Nat.add] in E2.
    inversion E2 as [E3]. clear E2.
    assert (H' : forall a, In a asg -> fst a < n /\ is_byte (fst (snd a))).
    { unfold ok_asg in H. rewrite Forall_forall in H. exact H. }
    split; [|split].
    + assert (is_byte (fst (assigned asg i))) as K; [|rewrite E3 in K; exact K].
      apply assigned_byte. intros a Ia. apply H'. exact Ia.
    + intros j Hj. rewrite bit_at_zbits by (apply data_pos_lt; assumption). f_equal. rewrite T by lia. rewrite Z.bits_0. cbn [orb].
      rewrite (existsb_ext_in (fun a => hits inter n a (Z.of_nat (data_pos inter i j))) (fun a => Nat.eqb (fst a) i && Z.testbit (fst (snd a)) (Z.of_nat j))).
      * rewrite (existsb_assigned (fun l => Z.testbit (fst l) (Z.of_nat j))) by (try exact N; apply Z.bits_0). rewrite E3. reflexivity.
      * intros a Ia. apply hits_data; try assumption; apply H'; exact Ia.
    + rewrite bit_at_zbits by (apply ctrl_pos_lt; assumption). f_equal. rewrite T by lia. rewrite Z.bits_0. cbn [orb].
      rewrite (existsb_ext_in (fun a => hits inter n a (Z.of_nat (ctrl_pos inter n i))) (fun a => Nat.eqb (fst a) i && snd (snd a))).
      * rewrite (existsb_assigned snd) by (try exact N; reflexivity). rewrite E3. reflexivity.
      * intros a Ia. apply hits_ctrl; try assumption; apply H'; exact Ia.
Qed.
