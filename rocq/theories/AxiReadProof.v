(** AxiReadProof.v -- reassembling read data. *)
From Verif Require Import Base BitsLemmas CompatModel CompatProof AxiModel AxiSpec AxiDataProof.
Local Open Scope Z_scope.

(** bit p of a word, counted from the right *)
Definition bitat (w : bits) (p : Z) : logic := nth (Z.to_nat p) (rev w) LX.
Lemma bits_ext (w w' : bits) : length w = length w' ->
  (forall p, 0 <= p < Z.of_nat (length w) -> bitat w p = bitat w' p) -> w = w'.
Proof.
  intros L H. rewrite <- (rev_involutive w), <- (rev_involutive w'). f_equal.
  apply (nth_ext _ _ LX LX); [rewrite !rev_length; exact L|]. intros n Hn. rewrite rev_length in Hn.
  specialize (H (Z.of_nat n) ltac:(lia)). unfold bitat in H. rewrite Nat2Z.id in H. exact H.
Qed.
Lemma slice_nth {A} (l : list A) i j k d : (i + k < j)%nat -> nth k (slice l i j) d = nth (i + k) l d.
Proof.
  intro H. unfold slice.
  transitivity (nth k (skipn i l) d).
  - rewrite <- (firstn_skipn (j - i) (skipn i l)) at 2. destruct (Nat.lt_ge_cases k (length (firstn (j - i) (skipn i l)))) as [L|L].
    + rewrite app_nth1 by exact L. reflexivity.
    + rewrite firstn_length in L. rewrite nth_overflow by (rewrite firstn_length; lia).
      rewrite firstn_skipn, nth_overflow by lia. reflexivity.
  - rewrite <- (firstn_skipn i l) at 2. destruct (Nat.le_gt_cases i (length l)) as [L|L].
    + rewrite app_nth2 by (rewrite firstn_length; lia). rewrite firstn_length. f_equal. lia.
    + rewrite (skipn_all2 l) by lia. rewrite app_nil_r, firstn_all2 by lia. rewrite !nth_overflow; [reflexivity|lia|cbn [length]; lia].
Qed.
Lemma bitat_slice w s e p : 0 <= s <= e -> e < Z.of_nat (length w) -> 0 <= p <= e - s ->
  bitat (slice w (Z.to_nat s) (Z.to_nat e + 1)) p = bitat w (Z.of_nat (length w) - 1 - e + p).
Proof.
  intros H1 H2 H3. unfold bitat.
  assert (Ls : length (slice w (Z.to_nat s) (Z.to_nat e + 1)) = (Z.to_nat e + 1 - Z.to_nat s)%nat) by (apply slice_length; lia).
  rewrite rev_nth by (rewrite Ls; lia). rewrite (rev_nth w) by lia. rewrite Ls. rewrite slice_nth by lia. f_equal. lia.
Qed.

(** shift_and_mask cuts [n] bytes from byte [off] on *)
Lemma shift_and_mask_spec w n off : 0 < n -> 0 <= off -> 8 * (off + n) <= Z.of_nat (length w) ->
  exists r, shift_and_mask w n off = Ok r /\ Z.of_nat (length r) = 8 * n /\
    forall p, 0 <= p < 8 * n -> bitat r p = bitat w (8 * off + p).
Proof.
  intros Hn Ho Hw. unfold shift_and_mask. set (L := Z.of_nat (length w)) in *.
  rewrite binary_slice_in by (fold L; lia). eexists. split; [reflexivity|].
  split; [rewrite slice_length; lia|]. intros p Hp. rewrite bitat_slice by lia. f_equal. unfold L. lia.
Qed.

(** ** the memory as a sequence of bits *)
Definition membit (mem : Z -> bits) (t : Z) : logic := bitat (mem (t / 8)) (t mod 8).
Definition byte_mem (mem : Z -> bits) : Prop := forall x, length (mem x) = 8%nat.

Lemma cells_S mem a n : cells mem a (S n) = mem (a + Z.of_nat n) ++ cells mem a n.
Proof. unfold cells. rewrite seq_S, rev_app_distr. reflexivity. Qed.
Lemma cells_length mem a n : byte_mem mem -> length (cells mem a n) = (8 * n)%nat.
Proof. intro B. induction n as [|n IH]; [reflexivity|]. rewrite cells_S, app_length, IH, B. lia. Qed.
Lemma bitat_app w w' p : 0 <= p -> bitat (w ++ w') p =
  if p <? Z.of_nat (length w') then bitat w' p else bitat w (p - Z.of_nat (length w')).
Proof.
  intro Hp. unfold bitat. rewrite rev_app_distr. destruct (Z.ltb_spec p (Z.of_nat (length w'))).
  - apply app_nth1. rewrite rev_length. lia.
  - rewrite app_nth2 by (rewrite rev_length; lia). rewrite rev_length. f_equal. lia.
Qed.
Lemma bitat_cells mem a n p : byte_mem mem -> 0 <= p < 8 * Z.of_nat n -> bitat (cells mem a n) p = membit mem (8 * a + p).
Proof.
  intros B. revert p. induction n as [|n IH]; intros p Hp; [lia|]. rewrite cells_S, bitat_app by lia. rewrite cells_length by exact B.
  destruct (Z.ltb_spec p (Z.of_nat (8 * n))); [apply IH; lia|].
  unfold membit. assert (E : 8 * a + p = (p - Z.of_nat (8 * n)) + (a + Z.of_nat n) * 8) by lia. rewrite E.
  rewrite Z.div_add, Z.mod_add by lia. rewrite (Z.div_small (p - Z.of_nat (8 * n))), (Z.mod_small (p - Z.of_nat (8 * n))) by lia.
  rewrite Z.add_0_l. reflexivity.
Qed.
Lemma cells_ext mem a n w : byte_mem mem -> length w = (8 * n)%nat ->
  (forall p, 0 <= p < 8 * Z.of_nat n -> bitat w p = membit mem (8 * a + p)) -> w = cells mem a n.
Proof.
  intros B L H. apply bits_ext; [rewrite cells_length by exact B; exact L|]. intros p Hp. rewrite H by lia. symmetry. apply bitat_cells; [exact B|lia].
Qed.
Lemma lane_bitat k w p : 0 <= k -> 8 * k + 8 <= Z.of_nat (length w) -> 0 <= p < 8 -> bitat (lane_bits k w) p = bitat w (8 * k + p).
Proof.
  intros Hk Hw Hp. unfold bitat, lane_bits. rewrite rev_involutive.
  replace (firstn 8 (skipn (Z.to_nat (8 * k)) (rev w))) with (slice (rev w) (Z.to_nat (8 * k)) (Z.to_nat (8 * k) + 8))
    by (unfold slice; f_equal; lia).
  rewrite slice_nth by lia. f_equal. lia.
Qed.

(** ** the offsets of the beats *)
Definition next_off (bus : Z) (b : burst) (size off : Z) : Z :=
  match b with FIXED => off | _ => (off + size) mod bus end.
(** what read extracts from the RDATA of the beats *)
Fixpoint extract (bus : Z) (b : burst) (size off : Z) (l : list bits) : res (list bits) :=
  match l with
  | [] => Ok []
  | w :: r => rbind (shift_and_mask w size off) (fun v =>
              rbind (extract bus b size (next_off bus b size off) r) (fun vs => Ok (v :: vs)))
  end.

Section Read.
Context (bus size q a : Z).
Hypothesis (Hs : 0 < size) (Hq : 0 < q) (Hb : bus = q * size).
Let sh := a mod size.
Let al := aligned a size.
Let blk := a mod bus / size.

Lemma next_block b i : next_off bus b size (block bus size q a b i * size) = block bus size q a b (i + 1) * size.
Proof.
  unfold next_off, block. fold blk. destruct b; [reflexivity| |];
  (rewrite <- Z.mul_succ_l, Hb, Z.mul_mod_distr_r by lia; f_equal; unfold Z.succ; rewrite Zplus_mod_idemp_l; f_equal; lia).
Qed.

(** extraction, beat by beat *)
Lemma extract_spec b (l : list bits) : Forall (fun w : bits => Z.of_nat (length w) = 8 * bus) l -> forall i,
  exists ws, extract bus b size (block bus size q a b i * size) l = Ok ws /\ length ws = length l /\
  forall j, (j < length l)%nat -> Z.of_nat (length (nth j ws [])) = 8 * size /\
    forall p, 0 <= p < 8 * size ->
      bitat (nth j ws []) p = bitat (nth j l []) (8 * (block bus size q a b (i + Z.of_nat j) * size) + p).
Proof.
  induction 1 as [|w l Hw _ IH]; intro i.
  - exists []. split; [reflexivity|]. split; [reflexivity|]. cbn [length]. intros j Hj. lia.
  - cbn [extract]. pose proof (block_range bus size q a Hs Hq Hb b i) as R.
    destruct (shift_and_mask_spec w size (block bus size q a b i * size) Hs ltac:(nia) ltac:(nia)) as (v & Ev & Lv & Hv).
    rewrite Ev, next_block. cbn [rbind]. destruct (IH (i + 1)) as (ws & Ew & Lw & Hws). rewrite Ew. cbn [rbind].
    exists (v :: ws). split; [reflexivity|]. split; [cbn [length]; lia|]. intros [|j] Hj; cbn [nth].
    + rewrite Z.add_0_r. split; [exact Lv|exact Hv].
    + cbn [length] in Hj. destruct (Hws j ltac:(lia)) as [H1 H2]. split; [exact H1|]. intros p Hp. rewrite H2 by exact Hp.
      replace (i + 1 + Z.of_nat j) with (i + Z.of_nat (S j)) by lia. reflexivity.
Qed.

(** a beat of a conforming memory, as bits *)
Lemma beat_bits mem addr A k rdata p : byte_mem mem -> A = aligned addr size -> A mod bus = k * size -> 0 <= k < q ->
  Z.of_nat (length rdata) = 8 * bus -> (forall k, lanes bus size addr k -> lane_bits k rdata = mem (addr / bus * bus + k)) ->
  8 * (addr - A) <= p < 8 * size -> 0 <= p ->
  bitat rdata (8 * (k * size) + p) = membit mem (8 * A + p).
Proof.
  intros B EA Ek Hk L H Hp Hp0. assert (Hbus : 0 < bus) by nia.
  assert (Ead : addr / bus = A / bus).
  { subst A. unfold aligned. rewrite Hb, (Z.mul_comm q), <- !Z.div_div by lia. rewrite Z.div_mul by lia. reflexivity. }
  pose proof (Z.div_mod A bus ltac:(lia)) as DA. pose proof (Z.div_mod addr bus ltac:(lia)) as Dad.
  pose proof (Z.div_mod p 8 ltac:(lia)) as Dp. pose proof (Z.mod_pos_bound p 8 ltac:(lia)) as Mp. set (c := p / 8) in *. set (r := p mod 8) in *.
  assert (Hc : addr - A <= c < size) by lia. assert (Hc0 : 0 <= c) by lia.
  assert (Kb : k * size + size <= bus) by nia.
  assert (Hl : lanes bus size addr (k * size + c)).
  { unfold lanes. rewrite <- EA, Ek. rewrite Ead in Dad. nia. }
  specialize (H _ Hl). transitivity (bitat (lane_bits (k * size + c) rdata) r).
  - rewrite lane_bitat by nia. f_equal. lia.
  - rewrite H. unfold membit. rewrite Ead. replace (8 * A + p) with (r + (A + c) * 8) by lia.
    rewrite Z.div_add, Z.mod_add by lia. rewrite (Z.div_small r), (Z.mod_small r) by exact Mp. rewrite Z.add_0_l. f_equal. f_equal. lia.
Qed.
End Read.

(** ** realign_data *)
Lemma concat_nth (data : list bits) sb t : (0 < sb)%nat -> Forall (fun w : bits => length w = sb) data -> (t < length data * sb)%nat ->
  nth t (concat (map (@rev logic) data)) LX = bitat (nth (t / sb) data []) (Z.of_nat (t mod sb)).
Proof.
  intros Hs H. revert t. induction H as [|w data Hw _ IH]; intros t Ht; [cbn [length] in Ht; lia|]. cbn [map concat].
  destruct (Nat.lt_ge_cases t sb) as [L|L].
  - rewrite app_nth1 by (rewrite rev_length; lia). rewrite Nat.div_small, Nat.mod_small by exact L. unfold bitat. cbn [nth]. rewrite Nat2Z.id. reflexivity.
  - rewrite app_nth2 by (rewrite rev_length; lia). rewrite rev_length, Hw. rewrite IH by (cbn [length] in Ht; lia).
    replace t with (t - sb + 1 * sb)%nat at 3 4 by lia. rewrite Nat.div_add, Nat.mod_add by lia. rewrite Nat.add_1_r. reflexivity.
Qed.
Lemma concat_len (data : list bits) sb : Forall (fun w : bits => length w = sb) data -> length (concat (map (@rev logic) data)) = (length data * sb)%nat.
Proof. induction 1 as [|w data Hw _ IH]; [reflexivity|]. cbn [map concat length]. rewrite app_length, rev_length, IH, Hw. lia. Qed.

Lemma create_str s : length s <> 1%nat -> create_binary (BStr s) (length s) true = Ok s.
Proof. intro H. unfold create_binary. destruct (Nat.eqb_spec (length s) 1); [contradiction|]. unfold logicarray_of_str. rewrite Nat.eqb_refl. reflexivity. Qed.

Lemma realign_spec (data : list bits) sb shift : (8 <= sb)%nat -> (shift + 8 <= sb)%nat -> Forall (fun w : bits => length w = sb) data ->
  realign_data data sb shift =
  Ok (map (fun i => rev (slice (skipn shift (concat (map (@rev logic) data))) (i * sb) ((i + 1) * sb))) (seq 0 (length data))).
Proof.
  intros Hsb Hsh H. unfold realign_data. set (join := skipn shift (concat (map (@rev logic) data))).
  assert (Lj : length join = (length data * sb - shift)%nat) by (unfold join; rewrite skipn_length, (concat_len data sb H); reflexivity).
  assert (G : forall l, (forall i, In i l -> (i < length data)%nat) ->
    fold_right (fun i acc => let s := rev (slice join (i * sb) ((i + 1) * sb)) in
      rbind (create_binary (BStr s) (length s) true) (fun w => rbind acc (fun r => Ok (w :: r)))) (Ok []) l =
    Ok (map (fun i => rev (slice join (i * sb) ((i + 1) * sb))) l)).
  { induction l as [|i l IH]; intro Hl; [reflexivity|]. cbn [fold_right map]. cbn zeta in IH |- *. rewrite create_str.
    - cbn [rbind]. rewrite IH by (intros k Hk; apply Hl; right; exact Hk). reflexivity.
    - rewrite rev_length. unfold slice. rewrite firstn_length, skipn_length, Lj.
      assert (i < length data)%nat by (apply Hl; left; reflexivity). nia. }
  apply G. intros i Hi. apply in_seq in Hi. lia.
Qed.
Lemma skipn_nth {A} (l : list A) n t d : nth t (skipn n l) d = nth (n + t) l d.
Proof.
  rewrite <- (firstn_skipn n l) at 2. destruct (Nat.le_gt_cases n (length l)) as [L|L].
  - rewrite app_nth2 by (rewrite firstn_length; lia). rewrite firstn_length. f_equal. lia.
  - rewrite (skipn_all2 l) by lia. rewrite app_nil_r, firstn_all2 by lia. rewrite !nth_overflow; [reflexivity|lia|cbn [length]; lia].
Qed.

(** ** INCR reads *)
Section Incr.
Context (bus size q a : Z) (mem : Z -> bits).
Hypothesis (Hs : 0 < size) (Hq : 0 < q) (Hb : bus = q * size) (Bm : byte_mem mem).

Lemma incr_read n (rdatas : list bits) : n = length rdatas ->
  (forall i, (i < n)%nat -> read_beat_ok bus INCR size (Z.of_nat n) a mem (Z.of_nat i) (nth i rdatas [])) ->
  exists ws, extract bus INCR size (a mod bus / size * size) rdatas = Ok ws /\ length ws = n /\
    realigned a INCR size ws = Ok (incr_words mem a size n).
Proof.
  intros En H. pose proof (sh_range size a Hs) as R. pose proof (al_eq bus size q a Hs Hq Hb) as Ea.
  assert (FL : Forall (fun w : bits => Z.of_nat (length w) = 8 * bus) rdatas).
  { apply Forall_nth. intros i d Hi. rewrite (nth_indep rdatas d []) by exact Hi. apply (H i). rewrite En. exact Hi. }
  destruct (extract_spec bus size q a Hs Hq Hb INCR rdatas FL 0) as (ws & Ew & Lw & Hws).
  rewrite block_0 in Ew by assumption. exists ws. split; [exact Ew|]. split; [congruence|].
  set (sh := a mod size) in *. set (al := aligned a size) in *.
  (* the extracted words are the memory from al on, except the bytes before a *)
  assert (Hm : forall i p, (i < n)%nat -> 0 <= p < 8 * size -> (i = 0%nat -> 8 * sh <= p) ->
               bitat (nth i ws []) p = membit mem (8 * (al + Z.of_nat i * size) + p)).
  { intros i p Hi Hp Hp'. destruct (Hws i ltac:(lia)) as [_ Hb']. rewrite Hb' by exact Hp. rewrite Z.add_0_l.
    destruct (H i Hi) as [L1 L2].
    apply (beat_bits bus size q a Hs Hq Hb mem (beat_address INCR size (Z.of_nat n) a (Z.of_nat i))); try assumption.
    - symmetry. apply (incr_aligned bus size a Hs). lia.
    - apply (block_lane bus size q a); assumption.
    - apply (block_range bus size q a); assumption.
    - cbn [beat_address]. destruct (Z.eqb_spec (Z.of_nat i) 0) as [E|E].
      + assert (i = 0%nat) by lia. specialize (Hp' H0). lia.
      + fold al. lia.
    - lia. }
  assert (Wl : Forall (fun w : bits => length w = Z.to_nat (size * 8)) ws).
  { apply Forall_nth. intros i d Hi. rewrite (nth_indep ws d []) by exact Hi. rewrite Lw in Hi. destruct (Hws i Hi) as [L _]. lia. }
  unfold realigned, incr_words. fold sh. destruct (Z.eqb_spec sh 0) as [E0|E0].
  - f_equal. apply (nth_ext _ _ [] []); [rewrite map_length, seq_length; rewrite En; exact Lw|]. intros i Hi.
    assert (Hi' : (i < n)%nat) by (rewrite En, <- Lw; exact Hi).
    rewrite (nth_indep (map _ _) [] ((fun j => cells mem (a + Z.of_nat j * size)
                  (Z.to_nat (if Nat.eqb (S j) n then size - sh else size))) 0%nat)) by (rewrite map_length, seq_length; exact Hi').
    rewrite (map_nth (fun j => cells mem (a + Z.of_nat j * size) (Z.to_nat (if Nat.eqb (S j) n then size - sh else size)))).
    rewrite seq_nth by exact Hi'. cbn [Nat.add]. rewrite E0, Z.sub_0_r. destruct (Nat.eqb (S i) n).
    all: destruct (Hws i ltac:(rewrite <- En; exact Hi')) as [L _].
    all: apply cells_ext; [exact Bm|apply Nat2Z.inj; rewrite Nat2Z.inj_mul, Z2Nat.id by lia; exact L|].
    all: intros p Hp; rewrite Hm by (try exact Hi'; lia); f_equal; lia.
  - cbn [realigned]. pose proof (realign_spec ws (Z.to_nat (size * 8)) (Z.to_nat (sh * 8)) ltac:(lia) ltac:(lia) Wl) as RS.
    rewrite RS. f_equal. rewrite Lw, <- En.
    apply map_ext_in. intros j Hj. apply in_seq in Hj.
    set (sb := Z.to_nat (size * 8)) in *. set (s8 := Z.to_nat (sh * 8)) in *. set (join := skipn s8 (concat (map (@rev logic) ws))).
    assert (Lj : length join = (n * sb - s8)%nat) by (unfold join; rewrite skipn_length, (concat_len ws sb Wl); congruence).
    set (cnt := Z.to_nat (if Nat.eqb (S j) n then size - sh else size)).
    assert (Lsl : length (slice join (j * sb) ((j + 1) * sb)) = (8 * cnt)%nat).
    { unfold slice. rewrite firstn_length, skipn_length, Lj. unfold cnt. destruct (Nat.eqb_spec (S j) n) as [E|E].
      - rewrite <- E. replace ((j + 1) * sb)%nat with (j * sb + sb)%nat by lia. replace (S j * sb)%nat with (j * sb + sb)%nat by lia. unfold sb, s8 in *. lia.
      - assert ((j + 2) * sb <= n * sb)%nat by (apply Nat.mul_le_mono_r; lia). replace ((j + 1) * sb)%nat with (j * sb + sb)%nat by lia.
        replace ((j + 2) * sb)%nat with (j * sb + 2 * sb)%nat in H0 by lia. unfold sb, s8 in *. lia. }
    apply cells_ext; [exact Bm|rewrite rev_length; exact Lsl|].
    assert (Cn : (8 * cnt + (if Nat.eqb (S j) n then s8 else 0) = sb)%nat) by (unfold cnt, s8, sb; clear - R Hs; destruct (Nat.eqb (S j) n); lia).
    intros p Hp. assert (Pb : (Z.to_nat p < 8 * cnt)%nat) by (clear - Hp; lia).
    assert (Jb : ((j + 1) * sb = j * sb + sb)%nat) by (clear; lia).
    unfold bitat at 1. rewrite rev_involutive. rewrite slice_nth by (rewrite Jb; clear - Cn Pb; lia).
    unfold join. rewrite skipn_nth.
    assert (B1 : (s8 + (j * sb + Z.to_nat p) < length ws * sb)%nat).
    { rewrite Lw, <- En. assert (S8 : (s8 <= sb)%nat) by (unfold s8, sb; clear - R; lia).
      assert (Nb : ((if Nat.eqb (S j) n then j + 1 else j + 2) * sb <= n * sb)%nat)
        by (apply Nat.mul_le_mono_r; destruct (Nat.eqb_spec (S j) n) as [X|X]; clear - Hj X; lia).
      destruct (Nat.eqb (S j) n); [rewrite Jb in Nb|replace ((j + 2) * sb)%nat with (j * sb + sb + sb)%nat in Nb by (clear; lia)]; clear - Nb Cn Pb S8; lia. }
    rewrite (concat_nth ws sb _ ltac:(lia) Wl B1).
    set (t := (s8 + (j * sb + Z.to_nat p))%nat) in *.
    assert (Sb : (sb <> 0)%nat) by (unfold sb; clear - Hs; lia).
    assert (Hdm : (t = sb * (t / sb) + t mod sb)%nat) by (apply Nat.div_mod; exact Sb).
    assert (Hmb : (t mod sb < sb)%nat) by (apply Nat.mod_upper_bound; exact Sb).
    assert (Hti : (t / sb < n)%nat) by (apply Nat.div_lt_upper_bound; [exact Sb|rewrite Lw, <- En in B1; rewrite Nat.mul_comm; exact B1]).
    rewrite Hm; [|exact Hti|set (v := (t mod sb)%nat) in *; clearbody v; unfold sb in Hmb; clear - Hmb; lia|].
    + f_equal. unfold t at 1 in Hdm. set (u := (t / sb)%nat) in *. set (v := (t mod sb)%nat) in *. clearbody u v.
      assert (Hz : Z.of_nat s8 + (Z.of_nat j * Z.of_nat sb + p) = Z.of_nat sb * Z.of_nat u + Z.of_nat v) by (clear - Hdm Hp; lia).
      unfold sb, s8 in Hz. rewrite !Z2Nat.id in Hz by (clear - R Hs; lia). clear - Hz Ea. lia.
    + intro E. rewrite E in Hdm. unfold t at 1 in Hdm. set (v := (t mod sb)%nat) in *. clearbody v. unfold s8 in Hdm. clear - Hdm R. lia.
Qed.
End Incr.

Lemma map_seq_ext {A} (l : list A) (f : nat -> A) d : (forall i, (i < length l)%nat -> nth i l d = f i) -> l = map f (seq 0 (length l)).
Proof.
  revert f. induction l as [|x l IH]; intros f H; [reflexivity|]. cbn [length seq map]. f_equal.
  - apply (H 0%nat). cbn [length]. lia.
  - rewrite <- seq_shift, map_map. apply IH. intros i Hi. apply (H (S i)). cbn [length]. lia.
Qed.

(** ** FIXED and WRAP reads *)
Section Others.
Context (bus size q a : Z).
Hypothesis (Hs : 0 < size) (Hq : 0 < q) (Hb : bus = q * size).

Lemma sequence_ok {A} (l : list (res A)) (r : list A) : l = map Ok r -> sequence l = Ok r.
Proof. intros ->. unfold sequence. induction r as [|x r IH]; [reflexivity|]. cbn [map fold_right rbind]. rewrite IH. reflexivity. Qed.

Lemma fixed_read (mems : nat -> Z -> bits) n (rdatas : list bits) : n = length rdatas -> (forall j, byte_mem (mems j)) ->
  (forall i, (i < n)%nat -> read_beat_ok bus FIXED size (Z.of_nat n) a (mems i) (Z.of_nat i) (nth i rdatas [])) ->
  exists ws, extract bus FIXED size (a mod bus / size * size) rdatas = Ok ws /\ length ws = n /\
    realigned a FIXED size ws = Ok (fixed_words mems a size n).
Proof.
  intros En Bm H. pose proof (sh_range size a Hs) as R. pose proof (al_eq bus size q a Hs Hq Hb) as Ea.
  assert (FL : Forall (fun w : bits => Z.of_nat (length w) = 8 * bus) rdatas).
  { apply Forall_nth. intros i d Hi. rewrite (nth_indep rdatas d []) by exact Hi. apply (H i). rewrite En. exact Hi. }
  destruct (extract_spec bus size q a Hs Hq Hb FIXED rdatas FL 0) as (ws & Ew & Lw & Hws).
  exists ws. split; [exact Ew|]. split; [congruence|].
  set (sh := a mod size) in *. set (al := aligned a size) in *.
  assert (Hm : forall i p, (i < n)%nat -> 8 * sh <= p < 8 * size -> bitat (nth i ws []) p = membit (mems i) (8 * al + p)).
  { intros i p Hi Hp. destruct (Hws i ltac:(rewrite <- En; exact Hi)) as [_ Hb']. rewrite Hb' by lia.
    destruct (H i Hi) as [L1 L2]. cbn [beat_address] in L2.
    apply (beat_bits bus size q a Hs Hq Hb (mems i) a); try assumption; try reflexivity.
    - apply Bm.
    - apply (al_mod bus size q a Hs Hq Hb).
    - apply (blk_range bus size q a Hs Hq Hb).
    - fold al. lia.
    - lia. }
  assert (Ll : forall i, (i < n)%nat -> Z.of_nat (@length logic (nth i ws [])) = 8 * size).
  { intros i Hi. apply Hws. rewrite <- En. exact Hi. }
  unfold realigned, fixed_words. fold sh. destruct (Z.eqb_spec sh 0) as [E0|E0].
  - f_equal. rewrite En, <- Lw. apply (map_seq_ext ws _ []). intros i Hi. assert (Hi' : (i < n)%nat) by (rewrite En, <- Lw; exact Hi).
    apply cells_ext; [apply Bm|pose proof (Ll i Hi') as L; clear - L E0 Hs; lia|]. intros p Hp. rewrite Hm by (try exact Hi'; lia). f_equal. lia.
  - cbn [realigned]. apply sequence_ok. rewrite map_map.
    assert (Lm : length (map (fun w => binary_slice w 0 (size * 8 - sh * 8 - 1)) ws) = n) by (rewrite map_length; congruence).
    rewrite (map_seq_ext (map (fun w => binary_slice w 0 (size * 8 - sh * 8 - 1)) ws)
               (fun j => Ok (cells (mems j) a (Z.to_nat (size - sh)))) (binary_slice [] 0 (size * 8 - sh * 8 - 1))); [rewrite Lm; reflexivity|].
    rewrite Lm. intros i Hi. rewrite (map_nth (fun w => binary_slice w 0 (size * 8 - sh * 8 - 1))). pose proof (Ll i Hi) as L.
    set (w := nth i ws []) in *. rewrite binary_slice_in by (rewrite ?L; lia). f_equal.
    apply cells_ext; [apply Bm|rewrite slice_length by lia; lia|]. intros p Hp. rewrite bitat_slice by (clear - R L Hp; lia). rewrite L.
    unfold w. rewrite Hm by (try exact Hi; lia). f_equal. lia.
Qed.

Lemma wrap_read (mem : Z -> bits) n (rdatas : list bits) : n = length rdatas -> byte_mem mem -> (0 < n)%nat -> a mod size = 0 ->
  (bus | size * Z.of_nat n) \/ (size * Z.of_nat n | a) ->
  (forall i, (i < n)%nat -> read_beat_ok bus WRAP size (Z.of_nat n) a mem (Z.of_nat i) (nth i rdatas [])) ->
  exists ws, extract bus WRAP size (a mod bus / size * size) rdatas = Ok ws /\ length ws = n /\
    realigned a WRAP size ws = Ok (wrap_words mem a size n).
Proof.
  intros En Bm Hn Hal RL H.
  assert (FL : Forall (fun w : bits => Z.of_nat (length w) = 8 * bus) rdatas).
  { apply Forall_nth. intros i d Hi. rewrite (nth_indep rdatas d []) by exact Hi. apply (H i). rewrite En. exact Hi. }
  destruct (extract_spec bus size q a Hs Hq Hb WRAP rdatas FL 0) as (ws & Ew & Lw & Hws).
  rewrite block_0 in Ew by assumption. exists ws. split; [exact Ew|]. split; [congruence|].
  unfold realigned, wrap_words. rewrite Hal. cbn [Z.eqb]. f_equal. replace (seq 0 n) with (seq 0 (length ws)) by (f_equal; rewrite En; exact Lw). apply (map_seq_ext ws _ []).
  intros i Hi. assert (Hi' : (i < n)%nat) by (rewrite En, <- Lw; exact Hi). rewrite Lw in Hi. destruct (Hws i Hi) as [L HB].
  destruct (H i Hi') as [L1 L2].
  assert (Al : aligned (beat_address WRAP size (Z.of_nat n) a (Z.of_nat i)) size = beat_address WRAP size (Z.of_nat n) a (Z.of_nat i))
    by (apply (addr_aligned bus size q a Hs Hq Hb (Z.of_nat n) Hal); lia).
  apply cells_ext; [exact Bm|apply Nat2Z.inj; rewrite Nat2Z.inj_mul, Z2Nat.id by lia; exact L|]. intros p Hp. rewrite HB by lia. rewrite Z.add_0_l.
  apply (beat_bits bus size q a Hs Hq Hb mem (beat_address WRAP size (Z.of_nat n) a (Z.of_nat i))); try assumption.
  - symmetry. exact Al.
  - apply (addr_lane bus size q a Hs Hq Hb (Z.of_nat n) Hal); [lia|exact RL|lia].
  - apply (block_range bus size q a Hs Hq Hb WRAP).
  - lia.
  - lia.
Qed.
End Others.

(** ** write, then read *)
Lemma bitat_zbits n z p : 0 <= p < Z.of_nat n -> bitat (zbits n z) p = bit_of_bool (Z.testbit z p).
Proof.
  intro Hp. induction n as [|n IH]; [lia|]. cbn [zbits]. change (bit_of_bool (Z.testbit z (Z.of_nat n)) :: zbits n z) with ([bit_of_bool (Z.testbit z (Z.of_nat n))] ++ zbits n z).
  rewrite bitat_app by lia. rewrite zbits_length. destruct (Z.ltb_spec p (Z.of_nat n)); [apply IH; lia|].
  replace (p - Z.of_nat n) with 0 by lia. replace p with (Z.of_nat n) by lia. reflexivity.
Qed.
Lemma write_read a size data m : 0 < size ->
  incr_words (fun x => zbits 8 (incr_written a size data [None] m x)) a size (length data) =
  map (fun j => zbits (8 * Z.to_nat (if Nat.eqb (S j) (length data) then size - a mod size else size)) (nth j data 0))
      (seq 0 (length data)).
Proof.
  intro Hs. pose proof (sh_range size a Hs) as R. pose proof (al_eq size size 1 a Hs ltac:(lia) ltac:(lia)) as Ea.
  unfold incr_words. apply map_ext_in. intros j Hj. apply in_seq in Hj. symmetry.
  set (mem := fun x => zbits 8 (incr_written a size data [None] m x)).
  set (cnt := Z.to_nat (if Nat.eqb (S j) (length data) then size - a mod size else size)).
  assert (Bm : byte_mem mem) by (intro x; apply zbits_length).
  apply cells_ext; [exact Bm|apply zbits_length|]. intros p Hp. rewrite bitat_zbits by lia.
  pose proof (Z.div_mod p 8 ltac:(lia)) as Dp. pose proof (Z.mod_pos_bound p 8 ltac:(lia)) as Mp.
  unfold membit. replace (8 * (a + Z.of_nat j * size) + p) with (p + (a + Z.of_nat j * size) * 8) by lia.
  rewrite Z.div_add, Z.mod_add by lia. set (c := p / 8) in *. set (r := p mod 8) in *. clearbody c r.
  assert (Hc : 0 <= c < Z.of_nat cnt) by (clear - Dp Mp Hp; lia).
  assert (Cl : Z.of_nat cnt <= size /\ (S j = length data -> Z.of_nat cnt <= size - a mod size))
    by (unfold cnt; clear - R; destruct (Nat.eqb_spec (S j) (length data)); lia).
  unfold mem. rewrite bitat_zbits by (clear - Mp; lia). f_equal.
  set (x := c + (a + Z.of_nat j * size)).
  assert (Ex : x - a = size * Z.of_nat j + c) by (unfold x; lia).
  assert (E1 : (x - a) / size = Z.of_nat j) by (symmetry; apply (Z.div_unique_pos _ _ _ c); [lia|exact Ex]).
  assert (E2 : (x - a) mod size = c) by (symmetry; apply (Z.mod_unique_pos _ _ (Z.of_nat j) c); [lia|exact Ex]).
  unfold incr_written. rewrite E1, E2, Nat2Z.id.
  assert (X1 : a <= x) by (unfold x; clear - Hc Hs; nia).
  assert (X2 : x < aligned a size + Z.of_nat (length data) * size).
  { unfold x. rewrite Ea. destruct Cl as [C1 C2]. destruct (Nat.eq_dec (S j) (length data)) as [E|E].
    - specialize (C2 E). rewrite <- E. clear - C2 Hc. lia.
    - assert (Hz : (Z.of_nat j + 2) * size <= Z.of_nat (length data) * size) by (apply Z.mul_le_mono_nonneg_r; [lia|clear - Hj E; lia]).
      clear - Hz Hc C1 R. lia. }
  rewrite (proj2 (Z.leb_le _ _) X1), (proj2 (Z.ltb_lt _ _) X2). cbn [andb].
  replace (enabled [None] j c) with true by (unfold enabled; destruct j as [|[|j]]; reflexivity).
  rewrite byte_bits by (clear - Hc Mp; lia). destruct (Z.ltb_spec r 8); [|lia]. cbn [andb]. f_equal. lia.
Qed.
