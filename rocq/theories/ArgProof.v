(** ArgProof.v -- operands that do not fit the signals they are put on. *)
From Verif Require Import Base Async BitsLemmas CompatModel PktModel MMModel OpbModel AxiModel AxiSpec AxiDataProof AxLegProof.
Local Open Scope Z_scope.
Local Open Scope list_scope.

(** ** assigning integers *)
Lemma assign_in n z : - 2 ^ (Z.of_nat n - 1) <= z < 2 ^ Z.of_nat n -> assign_int n z = Ok (zbits n z).
Proof. intro H. unfold assign_int. destruct (Z.leb_spec (- 2 ^ (Z.of_nat n - 1)) z); [|lia]. destruct (Z.ltb_spec z (2 ^ Z.of_nat n)); [reflexivity|lia]. Qed.
Lemma assign_out n z : 2 ^ Z.of_nat n <= z \/ z < - 2 ^ (Z.of_nat n - 1) -> assign_int n z = Err EValue.
Proof.
  intro H. unfold assign_int. destruct (Z.leb_spec (- 2 ^ (Z.of_nat n - 1)) z), (Z.ltb_spec z (2 ^ Z.of_nat n)); try reflexivity. lia.
Qed.
Lemma half_pow n : 2 ^ (Z.of_nat n - 1) <= 2 ^ Z.of_nat n.
Proof.
  destruct n as [|n]; [cbn; lia|]. apply Z.pow_le_mono_r; lia.
Qed.
Lemma assign_negative n z : - 2 ^ (Z.of_nat n - 1) <= z < 0 -> assign_int n z = assign_int n (z + 2 ^ Z.of_nat n).
Proof.
  intro H. pose proof (half_pow n). assert (0 < 2 ^ Z.of_nat n) by (apply Z.pow_pos_nonneg; lia).
  rewrite !assign_in by lia. f_equal. rewrite Z.add_comm. symmetry. apply zbits_add_pow. lia.
Qed.

(** ** the values of a write *)
Definition low (k z : Z) : Z := z mod 2 ^ k.
Lemma land_mask v k : 0 <= k -> Z.land v (2 ^ k - 1) = low k v.
Proof. intro H. unfold low. rewrite <- Z.land_ones by exact H. rewrite Z.ones_equiv. reflexivity. Qed.
Lemma land_low v m k : 0 <= k -> 0 <= m < 2 ^ k -> Z.land (low k v) m = Z.land v m.
Proof.
  intros Hk Hm. rewrite <- land_mask by exact Hk. rewrite <- Z.land_assoc. f_equal. rewrite Z.land_comm, land_mask by exact Hk.
  apply Z.mod_small, Hm.
Qed.
Lemma low_low k v : low k (low k v) = low k v.
Proof. unfold low. destruct (Z.eq_dec (2 ^ k) 0) as [E|E]; [rewrite E, !Zmod_0_r; reflexivity|apply Z.mod_mod, E]. Qed.
Lemma ones_low s : 0 < s -> low s (2 ^ s - 1) = 2 ^ s - 1.
Proof. intro H. apply Z.mod_small. assert (0 < 2 ^ s) by (apply Z.pow_pos_nonneg; lia). lia. Qed.
Definition same (s : Z) (x y : Z * Z) : Prop := low (s * 8) (fst x) = low (s * 8) (fst y) /\ low s (snd x) = low s (snd y).
Lemma beats_same bus b s l : 0 < s -> forall l' block, Forall2 (same s) l l' -> beats_from bus b s block l = beats_from bus b s block l'.
Proof.
  intros Hs l' block F. revert block. induction F as [|[w t] [w' t'] l l' [H1 H2] F IH]; intro block; [reflexivity|].
  cbn [beats_from fst snd] in *. unfold mask_and_shift. rewrite !land_mask by lia. rewrite H1, H2. f_equal. apply IH.
Qed.
Lemma unalign_low k sh data : 0 <= sh <= k -> unalign_data (map (low k) data) k sh = unalign_data data k sh.
Proof.
  intro H. unfold unalign_data.
  assert (W : forall x y, unalign_word k sh (low k x) (low k y) = unalign_word k sh x y).
  { intros x y. unfold unalign_word. assert (0 < 2 ^ sh) by (apply Z.pow_pos_nonneg; lia). assert (0 < 2 ^ (k - sh)) by (apply Z.pow_pos_nonneg; lia).
    assert (E : 2 ^ k = 2 ^ sh * 2 ^ (k - sh)) by (rewrite <- Z.pow_add_r by lia; f_equal; lia).
    rewrite !land_low; try reflexivity; try lia.
    - split; [lia|]. rewrite E. nia.
    - rewrite Z.shiftl_mul_pow2 by lia. split; [nia|]. rewrite E. nia. }
  change (0 :: map (low k) data) with ([0] ++ map (low k) data).
  assert (G : forall p p' l, low k p = low k p' ->
    map (fun x => unalign_word k sh (fst x) (snd x)) (combine (p :: map (low k) l) (map (low k) l)) =
    map (fun x => unalign_word k sh (fst x) (snd x)) (combine (p' :: l) l)).
  { intros p p' l E. revert p p' E. induction l as [|x l IH]; intros p p' E; [reflexivity|]. cbn [map combine fst snd]. f_equal.
    - rewrite <- (W p (low k x)), <- (W p' x), E, low_low. reflexivity.
    - apply IH. apply low_low. }
  apply G. reflexivity.
Qed.
Lemma strobe_low s be : 0 < s -> strobe_of s (option_map (low s) be) = low s (strobe_of s be).
Proof. intro H. destruct be as [v|]; cbn [option_map strobe_of]; [reflexivity|rewrite ones_low by exact H; reflexivity]. Qed.
Lemma rep_map {A B} (f : A -> B) x n : map f (repeat x n) = repeat (f x) n.
Proof. induction n as [|n IH]; [reflexivity|]. cbn [repeat map]. f_equal. exact IH. Qed.
Lemma strobes_low n s be : 0 < s -> strobes n s (map (option_map (low s)) be) = rbind (strobes n s be) (fun l => Ok (map (low s) l)).
Proof.
  intro Hs. unfold strobes. rewrite map_length, firstn_map, map_map.
  rewrite (map_ext _ (fun x => low s (strobe_of s x)) (fun x => strobe_low s x Hs)), <- (map_map (strobe_of s) (low s)).
  set (t := map (strobe_of s) (firstn n be)). destruct (Nat.leb n (length be)); [reflexivity|]. rewrite <- map_rev.
  destruct (rev t) as [|x r]; [reflexivity|]. cbn [map rbind]. rewrite map_app, map_length, rep_map. reflexivity.
Qed.
Lemma low_shift v sh k : 0 <= k -> 0 <= sh -> Z.land (Z.shiftl (low k v) sh) (2 ^ k - 1) = Z.land (Z.shiftl v sh) (2 ^ k - 1).
Proof.
  intros Hk Hs. rewrite !land_mask by exact Hk. unfold low. rewrite !Z.shiftl_mul_pow2 by exact Hs. apply Zmult_mod_idemp_l.
Qed.
Lemma same_lists s : forall data strbs, Forall2 (same s) (combine data strbs) (combine (map (low (s * 8)) data) (map (low s) strbs)).
Proof.
  induction data as [|d data IH]; intros [|t strbs]; try constructor. { split; cbn [fst snd]; symmetry; apply low_low. } apply IH.
Qed.
Lemma same_refl s l : Forall2 (same s) l l.
Proof. induction l; constructor; [split; reflexivity|assumption]. Qed.
Lemma beats_low bus a b s data be : 0 < s ->
  write_beats bus a b s (map (low (s * 8)) data) (map (option_map (low s)) be) = write_beats bus a b s data be.
Proof.
  intro Hs. unfold write_beats. rewrite map_length, strobes_low by exact Hs. destruct (strobes (length data) s be) as [st|e]; [|reflexivity].
  cbn [rbind]. pose proof (Z.mod_pos_bound a s Hs) as B. unfold unaligned. destruct (Z.eqb_spec (a mod s) 0) as [E|E].
  - f_equal. symmetry. apply beats_same; [exact Hs|]. apply same_lists.
  - assert (D : unalign_data (map (low (s * 8)) data) (s * 8) (a mod s * 8) = unalign_data data (s * 8) (a mod s * 8)) by (apply unalign_low; lia).
    assert (S : unalign_data (map (low s) st) s (a mod s) = unalign_data st s (a mod s)) by (apply unalign_low; lia).
    destruct b; [|rewrite D, S; reflexivity|rewrite D, S; reflexivity].
    f_equal. rewrite !map_map. rewrite (map_ext _ _ (fun w => low_shift w (a mod s * 8) (s * 8) ltac:(lia) ltac:(lia))).
    rewrite (map_ext _ _ (fun t => low_shift t (a mod s * 8 / 8) s ltac:(lia) ltac:(rewrite Z.div_mul; lia))). reflexivity.
Qed.
Lemma checked bus a n size b z : power_of_two bus -> bus <= 128 -> check_params bus a n size b = Ok z -> z = size_or bus size /\ 0 < z.
Proof.
  intros P L E. assert (G : legal_access bus a n size b) by (apply legal_ok; [exact P|exact L|rewrite E; reflexivity]).
  destruct (check_params_spec bus a n size b P ltac:(lia)) as [K _]. cbn zeta in K. rewrite (K G) in E. inversion E. split; [reflexivity|].
  apply pow2_pos'. destruct G as [G _]. destruct size as [s|]; [apply (G s eq_refl)|exact P].
Qed.
Lemma axi_values c fuel a p oa ow l : axi_bus c -> let s := size_or (x_bytes c) (wa_size a) in
  axi_write c fuel (WAccess (wa_address a) (map (fun v => v mod 2 ^ (8 * s)) (wa_value a)) (wa_size a) (wa_burst a)
                            (map (option_map (fun e => e mod 2 ^ s)) (wa_be a)) (wa_alat a) (wa_dlat a) (wa_sync a)) p oa ow l
  = axi_write c fuel a p oa ow l.
Proof.
  intros (P & L & _) s. unfold axi_write. cbn [wa_address wa_value wa_size wa_burst wa_be wa_alat wa_dlat wa_sync]. rewrite map_length.
  destruct (check_params _ _ _ _ _) as [z|e] eqn:E; [|reflexivity]. apply checked in E; [|exact P|exact L]. destruct E as [-> Hs]. fold s in Hs |- *.
  unfold send_write_data. rewrite (Z.mul_comm 8 s).
  change (map (fun v => v mod 2 ^ (s * 8)) (wa_value a)) with (map (low (s * 8)) (wa_value a)).
  change (map (option_map (fun e => e mod 2 ^ s)) (wa_be a)) with (map (option_map (low s)) (wa_be a)).
  rewrite (beats_low (x_bytes c) (wa_address a) (wa_burst a) s (wa_value a) (wa_be a) Hs). reflexivity.
Qed.

(** ** negative addresses *)
Lemma mod_shift a s n k : 0 < s -> s = 2 ^ k -> 0 <= k <= n -> (a + 2 ^ n) mod s = a mod s.
Proof.
  intros Hs E H. replace (2 ^ n) with (2 ^ (n - k) * s) by (rewrite E, <- Z.pow_add_r by lia; f_equal; lia). apply Z.mod_add. lia.
Qed.
Lemma check_shift bus a n size b w : 12 <= w -> check_params bus (a + 2 ^ w) n size b = check_params bus a n size b.
Proof.
  intro Hw. unfold check_params. destruct (match size with Some s => _ | None => _ end) as [s|e]; [|reflexivity]. cbn [rbind].
  destruct (check_length n b) as [[]|e]; [|reflexivity]. cbn [rbind]. f_equal. destruct b; try reflexivity. cbn [check_4kB].
  rewrite !page_land. replace (a + 2 ^ w + s * (n - 1)) with (a + s * (n - 1) + 2 ^ w) by ring.
  assert (D : forall x, (x + 2 ^ w) / 4096 = x / 4096 + 2 ^ (w - 12)).
  { intro x. replace (2 ^ w) with (2 ^ (w - 12) * 4096) by (change 4096 with (2 ^ 12); rewrite <- Z.pow_add_r by lia; f_equal; lia). apply Z.div_add. lia. }
  rewrite !D. set (x := a / 4096). set (y := (a + s * (n - 1)) / 4096).
  destruct (Z.eqb_spec (4096 * x) (4096 * y)), (Z.eqb_spec (4096 * (x + 2 ^ (w - 12))) (4096 * (y + 2 ^ (w - 12)))); try reflexivity; lia.
Qed.
Lemma pow_small' s bus : power_of_two bus -> bus <= 128 -> (exists a n size b, check_params bus a n size b = Ok s) -> exists k, 0 <= k <= 7 /\ s = 2 ^ k.
Proof.
  intros P L (a & n & size & b & E). assert (G : legal_access bus a n size b) by (apply legal_ok; [exact P|exact L|rewrite E; reflexivity]).
  destruct (checked bus a n size b s P L E) as [-> _]. apply (pow_small _ bus); try assumption.
  - destruct G as [G _]. destruct size as [z|]; [apply (G z eq_refl)|exact P].
  - destruct G as [G _]. destruct size as [z|]; [apply (G z eq_refl)|cbn; lia].
Qed.
Lemma write_negative c fuel a p oa ow l : axi_bus c -> (12 <= x_awidth c)%nat -> - 2 ^ (Z.of_nat (x_awidth c) - 1) <= wa_address a < 0 ->
  axi_write c fuel (WAccess (wa_address a + 2 ^ Z.of_nat (x_awidth c)) (wa_value a) (wa_size a) (wa_burst a) (wa_be a) (wa_alat a) (wa_dlat a) (wa_sync a)) p oa ow l
  = axi_write c fuel a p oa ow l.
Proof.
  intros (P & L & _) Hn Ha. unfold axi_write. cbn [wa_address wa_value wa_size wa_burst wa_be wa_alat wa_dlat wa_sync].
  rewrite check_shift by lia. destruct (check_params _ _ _ _ _) as [s|e] eqn:E; [|reflexivity].
  destruct (pow_small' s (x_bytes c) P L) as (k & Hk & Es); [eauto|]. destruct (pow_small (x_bytes c) (x_bytes c) P P ltac:(lia) L) as (j & Hj & Eb).
  assert (Hs : 0 < s) by (rewrite Es; apply Z.pow_pos_nonneg; lia). assert (Hb : 0 < x_bytes c) by (rewrite Eb; apply Z.pow_pos_nonneg; lia).
  unfold send_write_address, send_write_data, assign, write_beats, unaligned. rewrite <- (assign_negative (x_awidth c) (wa_address a) Ha).
  rewrite (mod_shift (wa_address a) s (Z.of_nat (x_awidth c)) k Hs Es ltac:(lia)), (mod_shift (wa_address a) (x_bytes c) (Z.of_nat (x_awidth c)) j Hb Eb ltac:(lia)). reflexivity.
Qed.
Lemma bind_ext {TS TI TO A B} (m : M TS TI TO A) (f g : A -> M TS TI TO B) w : (forall a w, f a w = g a w) -> bind m f w = bind m g w.
Proof. intro H. unfold bind. destruct (m w) as [[a|e| |] w']; auto. Qed.
Lemma raw_negative c fuel a w : axi_bus c -> (12 <= x_awidth c)%nat -> - 2 ^ (Z.of_nat (x_awidth c) - 1) <= ra_address a < 0 ->
  axi_read_raw c fuel (RAccess (ra_address a + 2 ^ Z.of_nat (x_awidth c)) (ra_length a) (ra_size a) (ra_burst a) (ra_sync a)) w = axi_read_raw c fuel a w.
Proof.
  intros (P & L & _) Hn Ha. unfold axi_read_raw. cbn [ra_address ra_length ra_size ra_burst ra_sync].
  rewrite check_shift by lia. destruct (check_params _ _ _ _ _) as [s|e] eqn:E; [|reflexivity].
  destruct (pow_small' s (x_bytes c) P L) as (k & Hk & Es); [eauto|]. destruct (pow_small (x_bytes c) (x_bytes c) P P ltac:(lia) L) as (j & Hj & Eb).
  assert (Hs : 0 < s) by (rewrite Es; apply Z.pow_pos_nonneg; lia). assert (Hb : 0 < x_bytes c) by (rewrite Eb; apply Z.pow_pos_nonneg; lia).
  unfold bind at 1. unfold bind at 11. unfold of_res at 1 4. unfold ret.
  unfold assign at 1 5. rewrite <- (assign_negative (x_awidth c) (ra_address a) Ha).
  rewrite (mod_shift (ra_address a) (x_bytes c) (Z.of_nat (x_awidth c)) j Hb Eb ltac:(lia)).
  unfold realigned. rewrite (mod_shift (ra_address a) s (Z.of_nat (x_awidth c)) k Hs Es ltac:(lia)). reflexivity.
Qed.
Lemma read_negative c fuel a w : axi_bus c -> (12 <= x_awidth c)%nat -> - 2 ^ (Z.of_nat (x_awidth c) - 1) <= ra_address a < 0 ->
  let a' := RAccess (ra_address a + 2 ^ Z.of_nat (x_awidth c)) (ra_length a) (ra_size a) (ra_burst a) (ra_sync a) in
  axi_read c fuel a' w = axi_read c fuel a w /\ axi_read_rresp c fuel a' w = axi_read_rresp c fuel a w.
Proof.
  intros Hb Hn Ha a'. pose proof (raw_negative c fuel a w Hb Hn Ha) as E. unfold axi_read, axi_read_rresp, bind.
  change (axi_read_raw c fuel a' w = axi_read_raw c fuel a w) in E. rewrite E. split; reflexivity.
Qed.

(** ** Avalon-MM and OPB *)
Lemma mm_negative c fuel address value sync w :
  (- 2 ^ (Z.of_nat (a_width c) - 1) <= address < 0 ->
     mm_write c fuel address value w = mm_write c fuel (address + 2 ^ Z.of_nat (a_width c)) value w /\
     mm_read c fuel address sync w = mm_read c fuel (address + 2 ^ Z.of_nat (a_width c)) sync w) /\
  (- 2 ^ (Z.of_nat (d_width c) - 1) <= value < 0 ->
     mm_write c fuel address value w = mm_write c fuel address (value + 2 ^ Z.of_nat (d_width c)) w).
Proof.
  split; intro H.
  - unfold mm_write, mm_read. rewrite <- (assign_negative _ _ H). split; reflexivity.
  - unfold mm_write. rewrite <- (assign_negative _ _ H). reflexivity.
Qed.
Lemma opb_negative c before fuel address value sync w :
  (- 2 ^ (Z.of_nat (p_aw c) - 1) <= address < 0 ->
     opb_write c before fuel address value sync w = opb_write c before fuel (address + 2 ^ Z.of_nat (p_aw c)) value sync w /\
     opb_read c before fuel address sync w = opb_read c before fuel (address + 2 ^ Z.of_nat (p_aw c)) sync w) /\
  (- 2 ^ (Z.of_nat (p_dw c) - 1) <= value < 0 ->
     opb_write c before fuel address value sync w = opb_write c before fuel address (value + 2 ^ Z.of_nat (p_dw c)) sync w).
Proof.
  split; intro H.
  - unfold opb_write, opb_read. rewrite <- (assign_negative _ _ H). split; reflexivity.
  - unfold opb_write. rewrite <- (assign_negative _ _ H). reflexivity.
Qed.
