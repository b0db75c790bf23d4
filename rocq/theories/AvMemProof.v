(** AvMemProof.v -- byte lanes and word accesses. *)
From Verif Require Import Base Async BitsLemmas CompatModel CompatSpec AvMemModel AvMemSpec.
Local Open Scope list_scope.

(** ** lanes *)
Lemma lane_bits k z p : (0 <= p)%Z -> Z.testbit (lane k z) p = ((p <? 8) && Z.testbit z (p + 8 * Z.of_nat k))%Z.
Proof.
  intro Hp. unfold lane. change 256%Z with (2 ^ 8)%Z. destruct (Z.ltb_spec p 8) as [H|H]; cbn [andb].
  - rewrite Z.mod_pow2_bits_low by lia. rewrite <- Z.shiftr_div_pow2 by lia. apply Z.shiftr_spec, Hp.
  - apply Z.mod_pow2_bits_high. lia.
Qed.
Lemma lane_byte k z : is_byte (lane k z).
Proof. unfold is_byte, lane. apply Z.mod_pos_bound. lia. Qed.
Lemma lane_S k z : lane (S k) z = lane k (z / 256).
Proof.
  unfold lane. rewrite Z.div_div by (try apply Z.pow_nonzero; try apply Z.pow_pos_nonneg; lia).
  do 2 f_equal. change 256%Z with (2 ^ 8)%Z. rewrite <- Z.pow_add_r by lia. f_equal. lia.
Qed.
Lemma lane_0 z : lane 0 z = (z mod 256)%Z.
Proof. unfold lane. change (8 * Z.of_nat 0)%Z with 0%Z. rewrite Z.pow_0_r, Z.div_1_r. reflexivity. Qed.
Lemma z_to_le_lanes n : forall z, z_to_le n z = map (fun k => lane k z) (seq 0 n).
Proof.
  induction n as [|n IH]; intro z; [reflexivity|]. cbn [z_to_le seq map]. rewrite lane_0, IH, <- seq_shift, map_map.
  f_equal. apply map_ext. intro k. symmetry. apply lane_S.
Qed.
Lemma from_lanes n z : from_le (map (fun k => lane k z) (seq 0 n)) = (z mod 256 ^ Z.of_nat n)%Z.
Proof. rewrite <- z_to_le_lanes. apply from_le_z_to_le. Qed.
Lemma pow256 n : (256 ^ Z.of_nat n = 2 ^ (8 * Z.of_nat n))%Z.
Proof. change 256%Z with (2 ^ 8)%Z. rewrite <- Z.pow_mul_r by lia. reflexivity. Qed.

Section Word.
Context (c : am_cfg).

Definition mask_of (be : Z) (v : bool) (l : list nat) : Z :=
  fold_left (fun m i => if Bool.eqb (Z.testbit be (Z.of_nat i)) v then Z.lor m (Z.shiftl 255 (8 * Z.of_nat i)) else m) l 0%Z.
Lemma mask_bits be v n p : (0 <= p)%Z ->
  Z.testbit (mask_of be v (seq 0 n)) p = ((p <? 8 * Z.of_nat n)%Z && Bool.eqb (Z.testbit be (p / 8)) v).
Proof.
  intro Hp. unfold mask_of. induction n as [|n IH].
  - cbn [seq fold_left]. rewrite Z.testbit_0_l. destruct (Z.ltb_spec p (8 * Z.of_nat 0)); [lia|reflexivity].
  - rewrite seq_S, fold_left_app. cbn [fold_left Nat.add].
    assert (SB : Z.testbit (Z.shiftl 255 (8 * Z.of_nat n)) p = ((8 * Z.of_nat n <=? p) && (p <? 8 * Z.of_nat (S n)))%Z).
    { rewrite Z.shiftl_spec by exact Hp. change 255%Z with (Z.ones 8). rewrite Z.testbit_ones by lia.
      destruct (Z.leb_spec 0 (p - 8 * Z.of_nat n)), (Z.ltb_spec (p - 8 * Z.of_nat n) 8),
        (Z.leb_spec (8 * Z.of_nat n) p), (Z.ltb_spec p (8 * Z.of_nat (S n))); cbn [andb]; lia. }
    assert (D : (8 * Z.of_nat n <= p)%Z -> (p < 8 * Z.of_nat (S n))%Z -> (p / 8 = Z.of_nat n)%Z).
    { intros A B. symmetry. apply (Z.div_unique_pos p 8 (Z.of_nat n) (p - 8 * Z.of_nat n)); lia. }
    destruct (Bool.eqb (Z.testbit be (Z.of_nat n)) v) eqn:E.
    + rewrite Z.lor_spec, IH, SB.
      destruct (Z.ltb_spec p (8 * Z.of_nat n)), (Z.leb_spec (8 * Z.of_nat n) p), (Z.ltb_spec p (8 * Z.of_nat (S n)));
        cbn [andb orb]; try lia; try reflexivity.
      rewrite D, E by lia. reflexivity.
    + rewrite IH.
      destruct (Z.ltb_spec p (8 * Z.of_nat n)), (Z.ltb_spec p (8 * Z.of_nat (S n))); cbn [andb]; try lia; try reflexivity.
      rewrite D, E by lia. reflexivity.
Qed.
Lemma be_mask_of be : be_mask c be = mask_of be true (seq 0 (m_width c / 8)).
Proof.
  unfold be_mask, mask_of. generalize 0%Z. induction (seq 0 (m_width c / 8)) as [|i l IH]; intro z; [reflexivity|].
  cbn [fold_left]. destruct (Z.testbit be (Z.of_nat i)); apply IH.
Qed.
Lemma be_oldmask_of be : be_oldmask c be = mask_of be false (seq 0 (m_width c / 8)).
Proof.
  unfold be_oldmask, mask_of. generalize 0%Z. induction (seq 0 (m_width c / 8)) as [|i l IH]; intro z; [reflexivity|].
  cbn [fold_left]. destruct (Z.testbit be (Z.of_nat i)); apply IH.
Qed.

Lemma div8 p k : (0 <= p < 8)%Z -> ((p + 8 * Z.of_nat k) / 8 = Z.of_nat k)%Z.
Proof. intro H. rewrite Z.mul_comm, Z.div_add, Z.div_small by lia. lia. Qed.

Lemma merge_correct be data old :
  Z.lor (Z.land data (be_mask c be)) (Z.land old (be_oldmask c be)) = merged c be data old.
Proof.
  rewrite be_mask_of, be_oldmask_of. set (n := m_width c / 8).
  set (v := Z.lor _ _). unfold merged. fold n.
  transitivity (from_le (map (fun k => lane k v) (seq 0 n))).
  - rewrite from_lanes, pow256. symmetry. apply Z.bits_inj'. intros p Hp.
    destruct (Z.ltb_spec p (8 * Z.of_nat n)) as [H|H].
    + apply Z.mod_pow2_bits_low. exact H.
    + rewrite Z.mod_pow2_bits_high by lia. unfold v. rewrite Z.lor_spec, !Z.land_spec, !mask_bits by exact Hp.
      destruct (Z.ltb_spec p (8 * Z.of_nat n)); [lia|]. cbn [andb]. rewrite !andb_false_r. reflexivity.
  - f_equal. apply map_ext_in. intros k Hk. apply in_seq in Hk. apply Z.bits_inj'. intros p Hp.
    rewrite !lane_bits by exact Hp. destruct (Z.ltb_spec p 8) as [H|H]; [|reflexivity]. cbn [andb].
    unfold v. rewrite Z.lor_spec, !Z.land_spec, !mask_bits by lia. rewrite div8 by lia.
    destruct (Z.ltb_spec (p + 8 * Z.of_nat k) (8 * Z.of_nat n)); [|lia]. cbn [andb].
    destruct (Z.testbit be (Z.of_nat k)); cbn [Bool.eqb]; rewrite ?andb_true_r, ?andb_false_r, ?orb_false_r; reflexivity.
Qed.

Lemma merged_lane be data old k : k < m_width c / 8 ->
  lane k (merged c be data old) = lane k (if Z.testbit be (Z.of_nat k) then data else old).
Proof.
  intro Hk. rewrite <- merge_correct, be_mask_of, be_oldmask_of. apply Z.bits_inj'. intros p Hp.
  rewrite !lane_bits by exact Hp. destruct (Z.ltb_spec p 8) as [H|H]; [|reflexivity]. cbn [andb].
  rewrite Z.lor_spec, !Z.land_spec, !mask_bits by lia. rewrite div8 by lia.
  destruct (Z.ltb_spec (p + 8 * Z.of_nat k) (8 * Z.of_nat (m_width c / 8))); [|lia]. cbn [andb].
  destruct (Z.testbit be (Z.of_nat k)); cbn [Bool.eqb]; rewrite ?andb_true_r, ?andb_false_r, ?orb_false_r; reflexivity.
Qed.
Lemma merged_bound be data old : (0 <= merged c be data old < 2 ^ Z.of_nat (m_width c))%Z.
Proof.
  unfold merged. assert (A : all_bytes (map (fun k => lane k (if Z.testbit be (Z.of_nat k) then data else old)) (seq 0 (m_width c / 8)))).
  { apply Forall_map, Forall_forall. intros k _. apply lane_byte. }
  pose proof (from_le_bound _ A) as B. rewrite map_length, seq_length, pow256 in B. split; [apply B|].
  eapply Z.lt_le_trans; [apply B|]. apply Z.pow_le_mono_r; [lia|].
  pose proof (Nat.mul_div_le (m_width c) 8). lia.
Qed.

(** ** a pure version of the non-burst memory *)
Notation world := (world am_state am_in am_out).
Definition answer_out (o : am_out) (r : resp) : am_out :=
  match r with
  | RNone => if m_rdv c then w_set_valid L0 o else o
  | RX => let o := w_set_data (xs (m_width c)) o in if m_rdv c then w_set_valid L1 o else o
  | RVal v => let o := w_set_data (zbits (m_width c) v) o in if m_rdv c then w_set_valid L1 o else o
  end.
Definition enqueue (q : list resp) (m : memory) (i : am_in) (l : nat) : list resp :=
  pad q l ++ [mem_resp m (num (v_addr i))].

Definition fit_resp (r : resp) : Prop :=
  match r with RVal v => (0 <= v < 2 ^ Z.of_nat (m_width c))%Z | _ => True end.
Lemma create_int v : (0 <= v < 2 ^ Z.of_nat (m_width c))%Z ->
  create_binary (BInt v) (m_width c) false = Ok (zbits (m_width c) v).
Proof.
  intros [A B]. unfold create_binary, logicarray_of_int. destruct (Nat.eqb_spec (m_width c) 1) as [E|E].
  - rewrite E in *. change (2 ^ Z.of_nat 1)%Z with 2%Z in B. cbn [logic_of].
    assert (v = 0 \/ v = 1)%Z as [->| ->] by lia; reflexivity.
  - replace ((0 <=? v) && (v <? 2 ^ Z.of_nat (m_width c)))%Z with true; [reflexivity|].
    symmetry. apply andb_true_iff. split; [apply Z.leb_le|apply Z.ltb_lt]; assumption.
Qed.
Lemma do_response_spec s o tr l : Forall fit_resp (a_resp s) ->
  do_response c (World s PActive o tr l : world) =
  (Done tt, World (set_resp (tl (a_resp s)) s) PActive (answer_out o (hd RNone (a_resp s))) tr l).
Proof.
  intro F. unfold do_response, bind at 1, get. cbn [st]. destruct (a_resp s) as [|[| |v] r] eqn:E.
  - unfold modify, bind, get, put, drive, answer_out. cbn [st ph out trace ins tl hd]. destruct (m_rdv c); reflexivity.
  - unfold modify, bind, get, put, drive, answer_out. cbn [st ph out trace ins tl hd]. destruct (m_rdv c); reflexivity.
  - unfold modify, bind, get, put, drive, answer_out. cbn [st ph out trace ins tl hd]. destruct (m_rdv c); reflexivity.
  - inversion_clear F as [|? ? Fv _]. cbn [fit_resp] in Fv. rewrite create_int by exact Fv.
    unfold modify, bind, get, put, drive, answer_out, of_res, ret. cbn [st ph out trace ins tl hd]. destruct (m_rdv c); reflexivity.
Qed.

(** the state after sampling a cycle *)
Definition after_read_req (s : am_state) (i : am_in) : am_state :=
  if reads c i
  then AmState (a_mem s) (enqueue (a_resp s) (a_mem s) i (latency c s 0)) (a_rnd s) (S (a_pos s)) else s.
Definition after_cycle (s : am_state) (i : am_in) : am_state :=
  let s' := after_read_req s i in set_mem (mem_after c (a_mem s') i) s'.

Lemma num_of b : resolvable b = true -> bval b = Some (num b).
Proof. intro H. apply bval_resolvable in H. destruct H as [z E]. unfold num. rewrite E. reflexivity. Qed.

Lemma set_mem_same s : set_mem (a_mem s) s = s.
Proof. destruct s; reflexivity. Qed.

Lemma body_spec s p o tr i0 i l : m_bc c = false -> m_latmin c <= m_latmax c ->
  Forall fit_resp (a_resp s) -> well_formed c i ->
  respond_body c (World s p o tr (i0 :: i :: l) : world) =
  let s1 := set_resp (tl (a_resp s)) s in
  (Done tt, World (after_cycle s1 i) PReadOnly (answer_out o (hd RNone (a_resp s))) (tr ++ [(i0, o)]) (i :: l)).
Proof.
  intros Hbc Hlat F [W1 W2]. unfold respond_body. unfold bind at 1. cbn [edge ins st out trace].
  rewrite (bind_done _ _ _ _ _ (do_response_spec s o _ _ F)). cbn zeta.
  set (s1 := set_resp (tl (a_resp s)) s). set (o1 := answer_out o _).
  unfold bind at 1. cbn [readonly ph ins st out trace]. unfold bind at 1. cbn [sample ph input ins].
  unfold burstread, burstwrite. rewrite Hbc, andb_false_r. cbn [andb].
  assert (R : (if m_readable c && is_one (v_read i) then simple_read c else ret tt)
              (World s1 PReadOnly o1 (tr ++ [(i0, o)]) (i :: l) : world)
              = (Done tt, World (after_read_req s1 i) PReadOnly o1 (tr ++ [(i0, o)]) (i :: l))).
  { unfold after_read_req, is_one. fold (reads c i). destruct (reads c i) eqn:E; [|reflexivity].
    unfold simple_read, randint. replace (m_latmin c <=? m_latmax c) with true by (symmetry; apply Nat.leb_le, Hlat).
    unfold bind, draw, bind, get, put, ret, modify, bind, get, put, sample, toint, ret.
    cbn [st ph out trace ins input a_mem a_resp a_rnd a_pos set_resp]. rewrite (num_of _ (W1 (or_introl eq_refl))).
    cbn [st ph out trace ins input a_mem a_resp a_rnd a_pos set_resp]. unfold latency. rewrite Nat.add_0_r. reflexivity. }
  rewrite (bind_done _ _ _ _ _ R). unfold bind at 1. cbn [sample ph input ins].
  unfold after_cycle, is_one. fold (writes c i). cbn zeta. set (s2 := after_read_req s1 i). unfold mem_after.
  destruct (writes c i) eqn:E; [|rewrite set_mem_same; reflexivity].
  destruct (W2 eq_refl) as (Wd & _ & Wb). unfold simple_write, bind, sample, toint, ret, modify, bind, get, put.
  cbn [st ph out trace ins input]. rewrite (num_of _ (W1 (or_intror eq_refl))), (num_of _ Wd).
  destruct (m_be c) eqn:B.
  - rewrite (num_of _ (Wb eq_refl)). cbn [st ph out trace ins input]. unfold store_word. rewrite merge_correct. reflexivity.
  - reflexivity.
Qed.

(** the cycles of a run: outputs in the cycles after the sampled ones *)
Fixpoint cycles (s : am_state) (o : am_out) (l : list am_in) : list am_out * am_state :=
  let o1 := answer_out o (hd RNone (a_resp s)) in
  let s1 := set_resp (tl (a_resp s)) s in
  match l with
  | [] => ([], s1)
  | i :: r => let '(os, s') := cycles (after_cycle s1 i) o1 r in (o1 :: os, s')
  end.

Lemma fit_enqueue q m i n : Forall fit_resp q -> fitting c m -> Forall fit_resp (enqueue q m i n).
Proof.
  intros Fq Fm. unfold enqueue, pad. apply Forall_app. split; [apply Forall_app; split; [exact Fq|]|].
  - apply Forall_forall. intros r H. apply repeat_spec in H. subst r. exact Logic.I.
  - constructor; [|constructor]. unfold mem_resp. destruct (m _) eqn:E; [|exact Logic.I]. apply (Fm _ _ E).
Qed.
Lemma fitting_after m i : well_formed c i -> fitting c m -> fitting c (mem_after c m i).
Proof.
  intros [_ W] F. unfold mem_after. destruct (writes c i); [|exact F]. destruct (W eq_refl) as (Wd & Wl & _).
  intros a v. unfold mupd. destruct (a =? _)%Z; [|apply F]. intro E. inversion E as [E']. destruct (m_be c).
  - apply merged_bound.
  - pose proof (bval_bound _ _ (num_of _ Wd)) as B. rewrite Wl in B. exact B.
Qed.
Lemma inv_after s i : well_formed c i -> Forall fit_resp (a_resp s) -> fitting c (a_mem s) ->
  let s1 := set_resp (tl (a_resp s)) s in
  Forall fit_resp (a_resp (after_cycle s1 i)) /\ fitting c (a_mem (after_cycle s1 i)).
Proof.
  intros W Fq Fm s1.
  assert (Ft : Forall fit_resp (tl (a_resp s))) by (destruct Fq; [constructor|assumption]).
  unfold after_cycle, after_read_req. cbn zeta. destruct (reads c i); cbn [a_mem a_resp set_mem set_resp s1]; split;
    try (apply fitting_after; assumption); try exact Ft. apply fit_enqueue; assumption.
Qed.

Lemma run_cycles l : m_bc c = false -> m_latmin c <= m_latmax c -> Forall (well_formed c) l ->
  forall fuel s p o tr i0, length l < fuel -> Forall fit_resp (a_resp s) -> fitting c (a_mem s) ->
  exists p' o', respond c fuel (World s p o tr (i0 :: l) : world) =
    (Susp, World (snd (cycles s o l)) p' o' (tr ++ combine (i0 :: l) (o :: fst (cycles s o l))) []).
Proof.
  intros Hbc Hlat W. induction W as [|i l Wi W IH]; intros fuel s p o tr i0 Hf Fq Fm.
  - destruct fuel as [|fuel]; [cbn in Hf; lia|]. exists PActive, (answer_out o (hd RNone (a_resp s))).
    unfold respond. apply loop_susp. unfold respond_body. rewrite bind_assoc. unfold bind at 1. cbn [edge ins st out trace].
    rewrite bind_assoc, (bind_done _ _ _ _ _ (do_response_spec s o _ _ Fq)). reflexivity.
  - destruct fuel as [|fuel]; [cbn in Hf; lia|]. cbn [length] in Hf.
    pose proof (body_spec s p o tr i0 i l Hbc Hlat Fq Wi) as B. cbn zeta in B.
    assert (B' : (respond_body c ;; ret (inl tt)) (World s p o tr (i0 :: i :: l) : world) =
      (Done (inl tt : unit + unit), World (after_cycle (set_resp (tl (a_resp s)) s) i) PReadOnly
                 (answer_out o (hd RNone (a_resp s))) (tr ++ [(i0, o)]) (i :: l))).
    { rewrite (bind_done _ _ _ _ _ B). reflexivity. }
    destruct (inv_after s i Wi Fq Fm) as [Fq' Fm'].
    destruct (IH fuel (after_cycle (set_resp (tl (a_resp s)) s) i) PReadOnly (answer_out o (hd RNone (a_resp s)))
                 (tr ++ [(i0, o)]) i ltac:(lia) Fq' Fm') as (p' & o' & E).
    exists p', o'. unfold respond in *. rewrite (loop_step _ _ _ _ _ _ B'), E. cbn [cycles].
    destruct (cycles (after_cycle _ i) _ l) as [os s']. cbn [fst snd combine]. rewrite <- app_assoc. reflexivity.
Qed.

(** ** outputs against the scheduled answers *)
Definition resp_word (r : resp) : option bits :=
  match r with RNone => None | RX => Some (xs (m_width c)) | RVal v => Some (zbits (m_width c) v) end.
(** the queue as answers, from cycle k on *)
Fixpoint queued (k : nat) (q : list resp) : list (nat * bits) :=
  match q with
  | [] => []
  | r :: q => match resp_word r with Some w => [(k, w)] | None => [] end ++ queued (S k) q
  end.
Lemma queued_app k q q' : queued k (q ++ q') = queued k q ++ queued (k + length q) q'.
Proof.
  revert k. induction q as [|r q IH]; intro k; cbn [app queued length]; [rewrite Nat.add_0_r; reflexivity|].
  rewrite IH, app_assoc. replace (S k + length q) with (k + S (length q)) by lia. reflexivity.
Qed.
Lemma queued_pad k q n : queued k (pad q n) = queued k q.
Proof.
  unfold pad. rewrite queued_app. assert (forall j a, queued a (repeat RNone j) = []) as ->.
  { induction j as [|j IH]; intro a; [reflexivity|]. apply IH. }
  apply app_nil_r.
Qed.
Lemma queued_ge k q t v : In (t, v) (queued k q) -> k <= t < k + length q.
Proof.
  revert k. induction q as [|r q IH]; intros k H; [contradiction|]. cbn [queued length] in *.
  apply in_app_or in H. destruct H as [H|H].
  - destruct (resp_word r); [|contradiction]. destruct H as [H|[]]. inversion H; subst. lia.
  - apply IH in H. lia.
Qed.
Lemma answers_ge l : forall k free m d t v, In (t, v) (answers c k free m d l) -> k < t /\ free <= t.
Proof.
  induction l as [|i l IH]; intros k free m d t v H; [contradiction|]. cbn [answers] in H. destruct (reads c i).
  - destruct H as [H|H]; [inversion H; subst; lia|]. apply IH in H. lia.
  - apply IH in H. lia.
Qed.
Lemma answers_free l : forall k free free' m d, Nat.max (k + 1) free = Nat.max (k + 1) free' ->
  answers c k free m d l = answers c k free' m d l.
Proof.
  induction l as [|i l IH]; intros k free free' m d H; [reflexivity|]. cbn [answers]. destruct (reads c i).
  - replace (Nat.max (k + 1 + d 0) free') with (Nat.max (k + 1 + d 0) free) by lia. reflexivity.
  - apply IH. lia.
Qed.
Lemma answers_ext l : forall k free m m' d d', (forall a, m a = m' a) -> (forall j, d j = d' j) ->
  answers c k free m d l = answers c k free m' d' l.
Proof.
  induction l as [|i l IH]; intros k free m m' d d' Hm Hd; [reflexivity|]. cbn [answers].
  assert (A : forall a, mem_after c m i a = mem_after c m' i a).
  { intro a. unfold mem_after. destruct (writes c i); [|apply Hm]. unfold mupd. rewrite (Hm (num (v_addr i))), (Hm a). reflexivity. }
  destruct (reads c i); [|apply IH; assumption]. rewrite (Hd 0). f_equal.
  - unfold word. rewrite Hm. reflexivity.
  - apply IH; [exact A|]. intro j. apply Hd.
Qed.

Lemma mem_resp_word m a : resp_word (mem_resp m a) = Some (word c m a).
Proof. unfold mem_resp, word. destruct (m a); reflexivity. Qed.
Lemma pad_length q n : length (pad q n) = Nat.max (length q) n.
Proof. unfold pad. rewrite app_length, repeat_length. lia. Qed.

Lemma due_head o r rest t : (forall v, ~ In (t, v) rest) ->
  due c (match resp_word r with Some w => [(t, w)] | None => [] end ++ rest) t o (answer_out o r).
Proof.
  intro N. unfold due. destruct r as [| |v]; cbn [resp_word app].
  - split; [intros v H; exfalso; exact (N v H)|]. intros _. unfold answer_out. destruct (m_rdv c); split; auto; discriminate.
  - split.
    + intros v [H|H]; [|exfalso; exact (N v H)]. inversion H. unfold answer_out. destruct (m_rdv c); split; auto; discriminate.
    + intro H. exfalso. exact (H _ (or_introl eq_refl)).
  - split.
    + intros v' [H|H]; [|exfalso; exact (N v' H)]. inversion H. unfold answer_out. destruct (m_rdv c); split; auto; discriminate.
    + intro H. exfalso. exact (H _ (or_introl eq_refl)).
Qed.

(** cycle k+1 is the first one of [l]; the queue answers cycles k+1, k+2, ... *)
Lemma cycles_due l : forall s o k j prev cur,
  nth_error (o :: fst (cycles s o l)) j = Some prev ->
  nth_error (fst (cycles s o l)) j = Some cur ->
  due c (queued (S k) (a_resp s) ++ answers c (S k) (S k + length (a_resp s)) (a_mem s) (latency c s) l)
      (S k + j) prev cur.
Proof.
  induction l as [|i l IH]; intros s o k j prev cur Hp Hc; [destruct j; discriminate|].
  cbn [cycles] in *. set (o1 := answer_out o (hd RNone (a_resp s))) in *. set (s1 := set_resp (tl (a_resp s)) s) in *.
  destruct (cycles (after_cycle s1 i) o1 l) as [os s'] eqn:E. cbn [fst] in *.
  destruct j as [|j].
  - cbn [nth_error] in *. inversion Hp; subst prev. inversion Hc; subst cur. rewrite Nat.add_0_r.
    assert (NA : forall v, ~ In (S k, v) (answers c (S k) (S k + length (a_resp s)) (a_mem s) (latency c s) (i :: l))).
    { intros v H. apply answers_ge in H. lia. }
    unfold o1. destruct (a_resp s) as [|r q]; cbn [hd queued].
    + exact (due_head o RNone _ (S k) NA).
    + rewrite <- app_assoc. apply due_head. intros v H. apply in_app_or in H. destruct H as [H|H]; [|exact (NA v H)].
      apply queued_ge in H. lia.
  - cbn [nth_error] in Hp, Hc.
    assert (Hc' : nth_error (fst (cycles (after_cycle s1 i) o1 l)) j = Some cur) by (rewrite E; exact Hc).
    assert (Hp' : nth_error (o1 :: fst (cycles (after_cycle s1 i) o1 l)) j = Some prev) by (rewrite E; exact Hp).
    specialize (IH (after_cycle s1 i) o1 (S k) j prev cur Hp' Hc').
    replace (S (S k) + j) with (S k + S j) in IH by lia.
    (* membership in the two schedules agrees for cycles after k+1 *)
    assert (Q : forall v, In (S k + S j, v) (queued (S k) (a_resp s)) <-> In (S k + S j, v) (queued (S (S k)) (tl (a_resp s)))).
    { intro v. destruct (a_resp s) as [|r q]; [reflexivity|]. cbn [queued tl]. rewrite in_app_iff.
      split; [intros [H|H]; [|exact H]|intro H; right; exact H]. destruct (resp_word r); [|contradiction].
      destruct H as [H|[]]. inversion H. lia. }
    assert (A : forall v, In (S k + S j, v) (queued (S k) (a_resp s) ++ answers c (S k) (S k + length (a_resp s)) (a_mem s) (latency c s) (i :: l))
              <-> In (S k + S j, v) (queued (S (S k)) (a_resp (after_cycle s1 i)) ++
                     answers c (S (S k)) (S (S k) + length (a_resp (after_cycle s1 i))) (a_mem (after_cycle s1 i)) (latency c (after_cycle s1 i)) l)).
    { intro v. rewrite !in_app_iff. rewrite Q. unfold after_cycle, after_read_req. cbn zeta. cbn [answers].
      assert (L : S k + length (a_resp s) = S (S k) + length (tl (a_resp s)) \/ a_resp s = []).
      { destruct (a_resp s); [right; reflexivity|left; cbn [length tl]; lia]. }
      assert (Fr : Nat.max (S k + 1 + latency c s 0) (S k + length (a_resp s)) = S (S k) + Nat.max (length (tl (a_resp s))) (latency c s 0)).
      { destruct L as [L|L]; [lia|]. rewrite L. cbn [tl length]. lia. }
      destruct (reads c i).
      - cbn [a_resp a_mem set_mem]. unfold enqueue. rewrite queued_app, queued_pad, pad_length. cbn [queued]. rewrite mem_resp_word, app_nil_r.
        rewrite in_app_iff. rewrite Fr. cbn [a_resp a_mem s1 set_resp].
        rewrite (answers_ext l (S (S k)) _ (mem_after c (a_mem s) i) (mem_after c (a_mem s) i)
                   (fun j => latency c s (S j))
                   (latency c (set_mem (mem_after c (a_mem s) i) (AmState (a_mem s) (pad (tl (a_resp s)) (latency c s1 0) ++ [mem_resp (a_mem s) (num (v_addr i))]) (a_rnd s1) (S (a_pos s1)))))).
        2: reflexivity.
        2:{ intro n. unfold latency. cbn [a_rnd a_pos set_mem s1 set_resp]. rewrite Nat.add_succ_r. reflexivity. }
        change (latency c s1 0) with (latency c s 0).
        replace (S (S k) + length (pad (tl (a_resp s)) (latency c s 0) ++ [mem_resp (a_mem s) (num (v_addr i))]))
          with (S (S (S k) + Nat.max (length (tl (a_resp s))) (latency c s 0)))
          by (rewrite app_length, pad_length; cbn [length]; lia).
        cbn [In]. tauto.
      - cbn [a_resp a_mem set_mem s1 set_resp].
        rewrite (answers_free l (S (S k)) (S k + length (a_resp s)) (S (S k) + length (tl (a_resp s)))).
        2:{ destruct L as [L|L]; [lia|]. rewrite L. cbn [tl length]. lia. }
        reflexivity. }
    destruct IH as [IH1 IH2]. split.
    + intros v H. apply IH1, A, H.
    + intro H. apply IH2. intros v H'. apply (H v), A, H'.
Qed.

Lemma cycles_mem l : forall s o, a_mem (snd (cycles s o l)) = fold_left (mem_after c) l (a_mem s).
Proof.
  induction l as [|i l IH]; intros s o; [reflexivity|]. cbn [cycles fold_left].
  destruct (cycles _ _ l) as [os s'] eqn:E. cbn [snd].
  change s' with (snd (os, s')). rewrite <- E, IH. f_equal. unfold after_cycle, after_read_req. cbn zeta.
  destruct (reads c i); reflexivity.
Qed.
Lemma cycles_length l : forall s o, length (fst (cycles s o l)) = length l.
Proof.
  induction l as [|i l IH]; intros s o; [reflexivity|]. cbn [cycles].
  destruct (cycles _ _ l) as [os s'] eqn:E. cbn [fst length]. f_equal.
  change os with (fst (os, s')). rewrite <- E. apply IH.
Qed.
End Word.
