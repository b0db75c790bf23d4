(** AvBurstProof.v -- address division and bursts of AvalonMemory. *)
From Verif Require Import Base Async BitsLemmas CompatModel CompatSpec AvMemModel AvMemSpec AvMemProof.
Local Open Scope list_scope.

(** ** float division *)
Section Div.
Local Open Scope Z_scope.
Lemma half_even_exact q d : 0 < d -> half_even (q * d) d = q.
Proof.
  intro H. unfold half_even. rewrite Z.div_mul, Z.mod_mul by lia.
  replace (2 * 0 <? d) with true by (symmetry; apply Z.ltb_lt; lia). reflexivity.
Qed.
Lemma half_even_ge n d : 0 < d -> n / d <= half_even n d.
Proof.
  intro H. unfold half_even. destruct (2 * (n mod d) <? d), (d <? 2 * (n mod d)), (Z.even (n / d)); lia.
Qed.
Lemma half_even_le n d N : 0 < d -> n <= N * d -> half_even n d <= N.
Proof.
  intros H L. unfold half_even. pose proof (Z.div_mod n d ltac:(lia)) as E. pose proof (Z.mod_pos_bound n d H) as B.
  assert (n / d <= N) by (apply Z.div_le_upper_bound; lia).
  destruct (Z.eq_dec (n / d) N) as [Q|Q].
  - assert (n mod d = 0) as -> by nia.
    replace (2 * 0 <? d) with true by (symmetry; apply Z.ltb_lt; lia). lia.
  - destruct (2 * (n mod d) <? d), (d <? 2 * (n mod d)), (Z.even (n / d)); lia.
Qed.
Lemma float_div_aligned a b : 0 <= a -> 0 < b -> a mod b = 0 -> a / b < 2 ^ 53 -> float_div a b = a / b.
Proof.
  intros Ha Hb Hm Hq. unfold float_div. set (q := a / b) in *.
  assert (Ea : a = q * b) by (pose proof (Z.div_mod a b ltac:(lia)); lia).
  assert (0 <= q) by (apply Z.div_pos; lia).
  set (s := if q =? 0 then 53 else 52 - Z.log2 q).
  assert (Hs : 0 <= s).
  { unfold s. destruct (Z.eqb_spec q 0); [lia|]. assert (Z.log2 q < 53) by (apply Z.log2_lt_pow2; lia). lia. }
  destruct (Z.leb_spec 0 s); [|lia]. rewrite Ea.
  replace (q * b * 2 ^ s) with (q * 2 ^ s * b) by ring. rewrite half_even_exact by exact Hb.
  apply Z.div_mul. apply Z.pow_nonzero; lia.
Qed.
Lemma float_div_small a b : 0 <= a <= 2 ^ 52 -> 0 < b <= 2 ^ 53 -> float_div a b = a / b.
Proof.
  intros Ha Hb. unfold float_div. set (q := a / b) in *.
  assert (0 <= q) by (apply Z.div_pos; lia).
  pose proof (Z.div_mod a b ltac:(lia)) as E. pose proof (Z.mod_pos_bound a b ltac:(lia)) as B. fold q in E.
  set (s := if q =? 0 then 53 else 52 - Z.log2 q).
  assert (Hs : 0 <= s /\ b <= 2 ^ s).
  { unfold s. destruct (Z.eqb_spec q 0); [lia|].
    pose proof (Z.log2_spec q ltac:(lia)) as [L1 L2].
    assert (Z.log2 q <= 52).
    { assert (q * 1 <= q * b) by nia. assert (Z.log2 q < 53); [apply Z.log2_lt_pow2; lia|lia]. }
    split; [lia|]. assert (b * 2 ^ Z.log2 q <= 2 ^ 52) by nia.
    replace 52 with (Z.log2 q + (52 - Z.log2 q)) in H1 by lia. rewrite Z.pow_add_r in H1 by (try apply Z.log2_nonneg; lia).
    assert (0 < 2 ^ Z.log2 q) by (apply Z.pow_pos_nonneg; [lia|apply Z.log2_nonneg]). nia. }
  destruct Hs as [Hs1 Hs2]. destruct (Z.leb_spec 0 s); [|lia].
  assert (P : 0 < 2 ^ s) by (apply Z.pow_pos_nonneg; lia).
  assert (L : q * 2 ^ s <= half_even (a * 2 ^ s) b).
  { etransitivity; [|apply half_even_ge; lia]. apply Z.div_le_lower_bound; [lia|]. nia. }
  assert (U : half_even (a * 2 ^ s) b <= (q + 1) * 2 ^ s - 1).
  { apply half_even_le; [lia|]. nia. }
  symmetry. apply (Z.div_unique_pos _ _ _ (half_even (a * 2 ^ s) b - q * 2 ^ s)); nia.
Qed.
Lemma float_div_wrong : float_div (2 ^ 55 + 4) 4 <> (2 ^ 55 + 4) / 4.
Proof. vm_compute. discriminate. Qed.
End Div.

(** ** stored words *)
Section Burst.
Context (c : am_cfg).
Notation world := (world am_state am_in am_out).
Notation M := (M am_state am_in am_out).
Hypothesis BB : burst_bus c.

Lemma dsize_pos : 0 < dsize c.
Proof. destruct BB as (_ & _ & _ & _ & _ & _ & H). unfold dsize. apply Nat.div_str_pos. lia. Qed.
Lemma dsize_width : 8 * dsize c <= m_width c.
Proof. unfold dsize. apply Nat.mul_div_le. lia. Qed.

Lemma store_bytes_spec n : forall m a d x,
  store_bytes m a d n x =
  if ((a <=? x) && (x <? a + Z.of_nat n))%Z then Some (lane (Z.to_nat (x - a)) d) else m x.
Proof.
  induction n as [|n IH]; intros m a d x.
  - cbn [store_bytes]. destruct (Z.leb_spec a x), (Z.ltb_spec x (a + Z.of_nat 0)); cbn [andb]; try reflexivity; lia.
  - cbn [store_bytes]. rewrite IH. unfold mupd.
    destruct (Z.leb_spec (a + 1) x), (Z.ltb_spec x (a + 1 + Z.of_nat n)), (Z.leb_spec a x), (Z.ltb_spec x (a + Z.of_nat (S n)));
      cbn [andb]; try lia; destruct (Z.eqb_spec x a); try lia; try reflexivity.
    + f_equal. replace (Z.to_nat (x - a)) with (S (Z.to_nat (x - (a + 1)))) by lia. rewrite lane_S.
      f_equal. rewrite Z.shiftr_div_pow2 by lia. reflexivity.
    + subst x. rewrite Z.sub_diag. change (Z.to_nat 0) with 0. rewrite lane_0. f_equal.
      change 255%Z with (Z.ones 8). rewrite Z.land_ones by lia. reflexivity.
Qed.

Lemma stored_cons m a d ds x :
  stored c m a (d :: ds) x = stored c (store_bytes m a d (dsize c)) (a + Z.of_nat (dsize c)) ds x.
Proof.
  pose proof dsize_pos as P. unfold stored. rewrite store_bytes_spec. cbn [length]. 
  destruct (Z.leb_spec a x); cbn [andb].
  2:{ destruct (Z.leb_spec (a + Z.of_nat (dsize c)) x); [lia|]. reflexivity. }
  destruct (Z.leb_spec (a + Z.of_nat (dsize c)) x); cbn [andb].
  - replace (x <? a + Z.of_nat (dsize c))%Z with false by (symmetry; apply Z.ltb_ge; lia).
    replace (x <? a + Z.of_nat (S (length ds) * dsize c))%Z with (x <? a + Z.of_nat (dsize c) + Z.of_nat (length ds * dsize c))%Z.
    2:{ f_equal. lia. }
    destruct (x <? _)%Z; [|reflexivity]. f_equal.
    replace (Z.to_nat (x - a)) with (Z.to_nat (x - (a + Z.of_nat (dsize c))) + 1 * dsize c) by lia.
    rewrite Nat.mod_add, Nat.div_add by lia. rewrite Nat.add_1_r. reflexivity.
  - replace (x <? a + Z.of_nat (dsize c))%Z with true by (symmetry; apply Z.ltb_lt; lia).
    replace (x <? a + Z.of_nat (S (length ds) * dsize c))%Z with true by (symmetry; apply Z.ltb_lt; lia).
    assert (Z.to_nat (x - a) < dsize c) by lia. rewrite Nat.mod_small, Nat.div_small by assumption. reflexivity.
Qed.
Lemma stored_ext m m' a ds : (forall x, m x = m' x) -> forall x, stored c m a ds x = stored c m' a ds x.
Proof. intros H x. unfold stored. destruct (_ && _); [reflexivity|apply H]. Qed.

(** ** reading words *)
Lemma word_at_spec m n : forall a, (forall x, (a <= x < a + Z.of_nat n)%Z -> exists v, m x = Some v /\ is_byte v) ->
  word_at m a n = Ok (from_le (map (fun k => opt (m (a + Z.of_nat k)%Z) 0%Z) (seq 0 n))).
Proof.
  induction n as [|n IH]; intros a H; [reflexivity|]. cbn [word_at seq map from_le].
  destruct (H a ltac:(lia)) as (v & E & B). rewrite E, IH by (intros x Hx; apply H; lia). cbn [rbind].
  rewrite Z.add_0_r, E. cbn [opt]. rewrite Z.shiftl_mul_pow2 by lia. rewrite <- seq_shift, map_map.
  f_equal. f_equal. rewrite Z.mul_comm. change (2 ^ 8)%Z with 256%Z. f_equal. f_equal. apply map_ext. intro k.
  do 2 f_equal. lia.
Qed.
Definition word_j (m : memory) (a : Z) (j : nat) : Z :=
  from_le (map (fun k => opt (m (a + Z.of_nat (j * dsize c + k))%Z) 0%Z) (seq 0 (dsize c))).
Lemma word_j_bound m a n j : initialised c m a n -> j < n -> (0 <= word_j m a j < 2 ^ Z.of_nat (m_width c))%Z.
Proof.
  intros I Hj. assert (A : all_bytes (map (fun k => opt (m (a + Z.of_nat (j * dsize c + k))%Z) 0%Z) (seq 0 (dsize c)))).
  { apply Forall_map, Forall_forall. intros k Hk. apply in_seq in Hk. destruct (I (a + Z.of_nat (j * dsize c + k))%Z) as (v & E & B); [nia|].
    rewrite E. exact B. }
  pose proof (from_le_bound _ A) as B. rewrite map_length, seq_length, pow256 in B. unfold word_j. split; [apply B|].
  eapply Z.lt_le_trans; [apply B|]. apply Z.pow_le_mono_r; [lia|]. pose proof dsize_width. lia.
Qed.

Lemma is_one_not l : l <> L1 -> is_one l = false.
Proof. destruct l; intro H; try reflexivity. contradiction. Qed.

Definition pend (o : am_out) : list bits := if logic_eqb (w_valid o) L1 then [w_data o] else [].
Lemma delivered_app t t' : delivered (t ++ t') = delivered t ++ delivered t'.
Proof. apply flat_map_app. Qed.
Lemma accepted_app t t' : beats_accepted (t ++ t') = beats_accepted t ++ beats_accepted t'.
Proof. apply flat_map_app. Qed.
Lemma delivered_one i o : delivered [(i, o)] = pend o.
Proof. unfold delivered, pend. cbn [flat_map snd]. apply app_nil_r. Qed.
Lemma delivered_held o l : w_valid o = L0 -> delivered (held o l) = [].
Proof. intro H. unfold delivered. induction l as [|i l IH]; [reflexivity|]. cbn [held map flat_map snd]. rewrite H. exact IH. Qed.
Lemma accepted_idle t : Forall (fun x : am_in * am_out => v_write (fst x) <> L1 \/ w_wait (snd x) = L1) t -> beats_accepted t = [].
Proof.
  induction 1 as [|[i o] t H _ IH]; [reflexivity|]. unfold beats_accepted in *. cbn [flat_map fst snd] in *. rewrite IH, app_nil_r.
  destruct H as [H|H].
  - destruct (v_write i); try reflexivity. contradiction.
  - rewrite H. rewrite andb_false_r. reflexivity.
Qed.
Lemma held_idle o l : Forall (fun i => v_write i <> L1) l -> Forall (fun x : am_in * am_out => v_write (fst x) <> L1 \/ w_wait (snd x) = L1) (held o l).
Proof. induction 1; constructor; auto. Qed.
Lemma held_waiting o l : w_wait o = L1 -> Forall (fun x : am_in * am_out => v_write (fst x) <> L1 \/ w_wait (snd x) = L1) (held o l).
Proof. intro H. induction l; constructor; auto. Qed.

(** one beat of a read *)
Definition queue_one (s : am_state) (r : resp) : am_state := set_resp [r] s.
Lemma burst_beat_spec s o tr m a b n j x y l : (0 <= a)%Z -> a = (b * Z.of_nat (dsize c))%Z ->
  (forall z, a_mem s z = m z) -> initialised c m a n -> j < n -> a_resp s = [] ->
  burst_beat c b j (World s PActive o tr (x :: y :: l) : world) =
  (Done tt, World s PActive (AmOut (w_wait o) (zbits (m_width c) (word_j m a j)) L1) (tr ++ [(x, o)]) (y :: l)).
Proof.
  intros Ha Eb Hm I Hj Hr. unfold burst_beat. unfold bind at 1. cbn [get st].
  assert (E : ((b + Z.of_nat j) * Z.of_nat (dsize c) = a + Z.of_nat (j * dsize c))%Z) by (rewrite Eb; nia). rewrite E.
  pose proof dsize_pos as P.
  destruct (I (a + Z.of_nat (j * dsize c))%Z ltac:(nia)) as (v & Ev & _). rewrite Hm, Ev.
  rewrite word_at_spec.
  2:{ intros z Hz. rewrite Hm. apply I. nia. }
  replace (from_le (map (fun k => opt (a_mem s (a + Z.of_nat (j * dsize c) + Z.of_nat k)%Z) 0%Z) (seq 0 (dsize c)))) with (word_j m a j).
  2:{ unfold word_j. f_equal. apply map_ext. intro k. rewrite Hm. do 2 f_equal. lia. }
  unfold modify, bind, of_res, ret, get, put, edge. cbn [st ph out trace ins set_resp a_resp]. rewrite Hr. cbn [app].
  rewrite do_response_spec.
  - cbn [a_resp tl hd set_resp]. unfold answer_out, w_set_data, w_set_valid.
    destruct BB as (_ & _ & R & _). rewrite R. destruct s as [sm sr srn sp]. cbn in Hr |- *. subst sr. reflexivity.
  - constructor; [|constructor]. apply (word_j_bound m a n); assumption.
Qed.

Lemma read_beats_spec m a b N : (0 <= a)%Z -> a = (b * Z.of_nat (dsize c))%Z -> initialised c m a N ->
  forall n k x bs s o tr l, length bs = n -> k + n <= N -> (forall z, a_mem s z = m z) -> a_resp s = [] ->
  Forall (fun i => v_write i <> L1) (x :: bs) -> exists o' tr' x',
  for_each (burst_beat c b) (seq k n) (World s PActive o tr (x :: bs ++ l) : world) =
  (Done tt, World s PActive o' (tr ++ tr') (x' :: l))
  /\ delivered tr' ++ pend o' = pend o ++ map (fun j => zbits (m_width c) (word_j m a j)) (seq k n)
  /\ Forall (fun y : am_in * am_out => v_write (fst y) <> L1) tr' /\ map fst tr' ++ [x'] = x :: bs
  /\ w_wait o' = w_wait o /\ Forall (fun y : am_in * am_out => w_wait (snd y) = w_wait o) tr'.
Proof.
  intros Ha Eb I n. induction n as [|n IH]; intros k x bs s o tr l L K Hm Hr F.
  - destruct bs; [|discriminate]. exists o, [], x. cbn [seq for_each app map]. rewrite !app_nil_r.
    repeat split; constructor.
  - destruct bs as [|y bs]; [discriminate|]. injection L as L. inversion_clear F as [|? ? Fx F'].
    destruct (IH (S k) y bs s (AmOut (w_wait o) (zbits (m_width c) (word_j m a k)) L1) (tr ++ [(x, o)]) l L ltac:(lia) Hm Hr F')
      as (o' & tr' & x' & E & D & W & X & Wt & Wf).
    exists o', ((x, o) :: tr'), x'. cbn [seq for_each app]. split; [|split; [|split; [|split; [|split]]]].
    + erewrite bind_done by (apply (burst_beat_spec s o tr m a b N k x y (bs ++ l)); try assumption; lia).
      rewrite E, <- app_assoc. reflexivity.
    + change ((x, o) :: tr') with ([(x, o)] ++ tr'). rewrite delivered_app, delivered_one, <- app_assoc, D. reflexivity.
    + constructor; assumption.
    + cbn [map fst]. rewrite <- X. reflexivity.
    + exact Wt.
    + constructor; [reflexivity|exact Wf].
Qed.

Lemma sample_stale s o tr tr' l (P : am_in -> Prop) : tr' <> [] -> Forall (fun y : am_in * am_out => P (fst y)) tr' ->
  exists i, sample (World s PActive o (tr ++ tr') l : world) = (Done i, World s PActive o (tr ++ tr') l) /\ P i.
Proof.
  intros N F. destruct (exists_last N) as (t & [i oo] & ->). exists i. apply Forall_app in F. destruct F as [_ F].
  inversion_clear F. split; [|assumption]. unfold sample. cbn [ph trace]. rewrite app_assoc, rev_app_distr. reflexivity.
Qed.

Definition idle_resp (o : am_out) : am_out := AmOut (w_wait o) (w_data o) L0.
Lemma edge_resp s p o tr cur l : a_resp s = [] ->
  (edge ;; do_response c) (World s p o tr (cur :: l) : world) =
  (Done tt, World s PActive (idle_resp o) (tr ++ [(cur, o)]) l).
Proof.
  intro Hr. unfold bind. cbn [edge ins st out trace]. rewrite do_response_spec by (rewrite Hr; constructor).
  rewrite Hr. cbn [tl hd answer_out]. destruct BB as (_ & _ & R & _). unfold answer_out. rewrite R.
  destruct s as [sm sr srn sp]. cbn in Hr |- *. subst sr. reflexivity.
Qed.

Lemma body_split s p o tr cur i l : a_resp s = [] ->
  respond_body c (World s p o tr (cur :: i :: l) : world) =
  ((if m_readable c && is_one (v_read i) then burst_read c else ret tt) ;;
   i <- sample ;;
   (if m_writeable c && is_one (v_write i) then burst_write c else ret tt))
  (World s PReadOnly (idle_resp o) (tr ++ [(cur, o)]) (i :: l)).
Proof.
  intro Hr. unfold respond_body. rewrite <- bind_assoc, (bind_done _ _ _ _ _ (edge_resp s p o tr cur (i :: l) Hr)).
  unfold bind at 1. cbn [readonly ph ins st out trace]. unfold bind at 1. cbn [sample ph input ins].
  unfold burstread, burstwrite. destruct BB as (R & W & V & _ & B & _). rewrite R, V, B. reflexivity.
Qed.

(** an idle cycle *)
Lemma body_idle s p o tr cur i l : a_resp s = [] -> v_read i <> L1 -> v_write i <> L1 ->
  respond_body c (World s p o tr (cur :: i :: l) : world) =
  (Done tt, World s PReadOnly (idle_resp o) (tr ++ [(cur, o)]) (i :: l)).
Proof.
  intros Hr R W. rewrite body_split by exact Hr. rewrite (is_one_not _ R), andb_false_r.
  unfold bind at 1. cbn [ret]. unfold bind at 1. cbn [sample ph input ins]. rewrite (is_one_not _ W), andb_false_r. reflexivity.
Qed.

(** a read burst; [b]: the word address the memory computes *)
Lemma body_read_at s p o tr m cur a b n q q1 q2 lat bs x l : a_resp s = [] -> (forall z, a_mem s z = m z) ->
  v_read q = L1 -> Forall (fun i => v_write i <> L1) (q :: q1 :: q2 :: lat ++ bs ++ [x]) ->
  bval (v_addr q) = Some a -> float_div a (Z.of_nat (dsize c)) = b -> (0 <= b)%Z ->
  bval (v_bcount q) = Some (Z.of_nat (S n)) -> initialised c m (b * Z.of_nat (dsize c)) (S n) ->
  length lat = p_latency (m_props c) -> length bs = n -> exists o' tr',
  respond_body c (World s p o tr (cur :: q :: q1 :: q2 :: lat ++ bs ++ x :: l) : world) =
  (Done tt, World s PActive o' (tr ++ (cur, o) :: tr') (x :: l))
  /\ delivered tr' ++ pend o' = map (zbits (m_width c)) (range_words c m (b * Z.of_nat (dsize c)) (S n))
  /\ beats_accepted tr' = [] /\ map fst tr' = q :: q1 :: q2 :: lat ++ bs /\ w_wait o' = L0
  /\ Forall (fun y : am_in * am_out => w_wait (snd y) = L0) (skipn 2 tr').
Proof.
  intros Hr Hm Rq F Ea Efd Hb Ebc I Ll Lb. rewrite body_split by exact Hr.
  pose proof dsize_pos as P. destruct BB as (R & W & V & Wt & B & BE & _).
  rewrite R, Rq. cbn [andb is_one logic_eqb].
  set (a' := (b * Z.of_nat (dsize c))%Z) in *.
  assert (Ha : (0 <= a')%Z) by (unfold a'; lia).
  assert (Eb : a' = (b * Z.of_nat (dsize c))%Z) by reflexivity.
  set (o1 := idle_resp o). set (o2 := w_set_wait L1 o1). set (o3 := w_set_wait L0 o2).
  (* the cycle in which the first word is queued *)
  assert (exists pre y, q2 :: lat = pre ++ [y]) as (pre & y & Epre).
  { destruct (@exists_last _ (q2 :: lat) ltac:(discriminate)) as (pre & y & E). exists pre, y. exact E. }
  assert (Lpre : length pre = p_latency (m_props c)).
  { assert (H : length (q2 :: lat) = length (pre ++ [y])) by (rewrite Epre; reflexivity). rewrite app_length in H. cbn [length] in H. lia. }
  assert (El : q2 :: lat ++ bs ++ x :: l = pre ++ y :: bs ++ x :: l).
  { change (q2 :: lat ++ bs ++ x :: l) with ((q2 :: lat) ++ bs ++ x :: l). rewrite Epre, <- app_assoc. reflexivity. }
  assert (Fy : Forall (fun i => v_write i <> L1) (y :: bs ++ [x]) /\ Forall (fun i => v_write i <> L1) pre).
  { change (q :: q1 :: q2 :: lat ++ bs ++ [x]) with ([q; q1] ++ (q2 :: lat) ++ bs ++ [x]) in F.
    apply Forall_app in F. destruct F as [_ F]. rewrite Epre, <- app_assoc in F. apply Forall_app in F. split; apply F. }
  destruct Fy as [Fy Fpre].
  destruct (read_beats_spec m a' b (S n) Ha Eb I (S n) 0 y (bs ++ [x]) s o3
              ((tr ++ [(cur, o)]) ++ [(q, o2); (q1, o2)] ++ held o3 pre) l
              ltac:(rewrite app_length; cbn [length]; lia) ltac:(lia) Hm Hr Fy) as (o' & tr' & x' & E & D & W' & X & Wo & Wf).
  assert (tr' <> []).
  { intro N. subst tr'. cbn [map app] in X. inversion X as [X1]. destruct bs; discriminate. }
  assert (x' = x /\ map fst tr' = y :: bs) as [-> X'].
  { change (y :: bs ++ [x]) with ((y :: bs) ++ [x]) in X. apply app_inj_tail in X. destruct X. split; assumption. }
  exists o', ([(q, o2); (q1, o2)] ++ held o3 pre ++ tr'). split; [|split; [|split; [|split; [|split]]]].
  - assert (BR : burst_read c (World s PReadOnly o1 (tr ++ [(cur, o)]) (q :: q1 :: q2 :: lat ++ bs ++ x :: l) : world)
                 = (Done tt, World s PActive o' (tr ++ (cur, o) :: [(q, o2); (q1, o2)] ++ held o3 pre ++ tr') (x :: l))).
    { unfold burst_read. unfold bind at 1. cbn [sample ph input ins].
      unfold bind at 1, toint at 1. rewrite Ea. cbn [ret]. destruct (Nat.eqb_spec (dsize c) 0); [lia|].
      unfold bind at 1. cbn [ret]. rewrite Efd.
      unfold bind at 1, toint at 1. rewrite Ebc. cbn [ret]. unfold need. rewrite BE, Wt.
      rewrite El. unfold bind at 1. cbn [midstep ins st ph out trace].
      unfold bind at 1. cbn [drive ph st out trace ins]. unfold bind at 1. cbn [edge ins st out trace].
      unfold bind at 1. cbn [edge ins st out trace]. unfold bind at 1. cbn [drive ph st out trace ins].
      unfold bind at 1. rewrite edges_spec. cbn [ins st ph out trace].
      replace (p_latency (m_props c) <=? length (pre ++ y :: bs ++ x :: l)) with true
        by (symmetry; apply Nat.leb_le; rewrite app_length; lia).
      rewrite <- Lpre, firstn_app, skipn_app, Nat.sub_diag, firstn_all, skipn_all. cbn [firstn skipn app]. rewrite app_nil_r.
      replace (match length pre with 0 => PActive | S _ => PActive end) with PActive by (destruct (length pre); reflexivity).
      fold o2. fold o3. rewrite Nat2Z.id.
      rewrite <- !app_assoc in E. cbn [app] in E. rewrite <- !app_assoc. cbn [app].
      rewrite E. rewrite <- ?app_assoc. cbn [app]. rewrite <- ?app_assoc. reflexivity. }
    rewrite (bind_done _ _ _ _ _ BR).
    destruct (sample_stale s o' (tr ++ (cur, o) :: [(q, o2); (q1, o2)] ++ held o3 pre) tr' (x :: l) (fun i => v_write i <> L1) H W') as (i & Si & Wi).
    rewrite <- app_assoc in Si. cbn [app] in Si. cbn [app].
    rewrite (bind_done _ _ _ _ _ Si). rewrite (is_one_not _ Wi), andb_false_r. reflexivity.
  - rewrite !delivered_app. change (delivered [(q, o2); (q1, o2)]) with (@nil bits). rewrite delivered_held by reflexivity.
    cbn [app]. rewrite D. change (pend o3) with (@nil bits). cbn [app]. unfold range_words. rewrite map_map. reflexivity.
  - apply accepted_idle. apply Forall_app. split.
    + repeat constructor; right; reflexivity.
    + apply Forall_app. split; [apply held_idle, Fpre|]. apply Forall_impl with (2 := W'). intros. left. assumption.
  - rewrite !map_app, held_fst, X'. cbn [map fst app].
    f_equal. f_equal. change (q2 :: lat ++ bs) with ((q2 :: lat) ++ bs). rewrite Epre, <- app_assoc. reflexivity.
  - rewrite Wo. reflexivity.
  - cbn [app skipn]. apply Forall_app. split; [|exact Wf]. unfold held. apply Forall_map, Forall_forall. reflexivity.
Qed.

Lemma body_read s p o tr m cur a n q q1 q2 lat bs x l : a_resp s = [] -> (forall z, a_mem s z = m z) ->
  v_read q = L1 -> Forall (fun i => v_write i <> L1) (q :: q1 :: q2 :: lat ++ bs ++ [x]) ->
  bval (v_addr q) = Some a -> (a mod Z.of_nat (dsize c) = 0)%Z -> (a / Z.of_nat (dsize c) < 2 ^ 53)%Z ->
  bval (v_bcount q) = Some (Z.of_nat (S n)) -> initialised c m a (S n) ->
  length lat = p_latency (m_props c) -> length bs = n -> exists o' tr',
  respond_body c (World s p o tr (cur :: q :: q1 :: q2 :: lat ++ bs ++ x :: l) : world) =
  (Done tt, World s PActive o' (tr ++ (cur, o) :: tr') (x :: l))
  /\ delivered tr' ++ pend o' = map (zbits (m_width c)) (range_words c m a (S n))
  /\ beats_accepted tr' = [] /\ map fst tr' = q :: q1 :: q2 :: lat ++ bs /\ w_wait o' = L0
  /\ Forall (fun y : am_in * am_out => w_wait (snd y) = L0) (skipn 2 tr').
Proof.
  intros Hr Hm Rq F Ea Eal Esz Ebc I Ll Lb. pose proof dsize_pos as P.
  assert (Ha : (0 <= a)%Z) by (apply (bval_bound _ _ Ea)).
  set (b := (a / Z.of_nat (dsize c))%Z).
  assert (Eb : (b * Z.of_nat (dsize c))%Z = a) by (pose proof (Z.div_mod a (Z.of_nat (dsize c)) ltac:(lia)); unfold b; lia).
  pose proof (body_read_at s p o tr m cur a b n q q1 q2 lat bs x l Hr Hm Rq F Ea) as H. rewrite Eb in H.
  apply H; try assumption; [apply float_div_aligned; assumption || lia|apply Z.div_pos; lia].
Qed.

(** ** write bursts *)
Definition at_pos (s : am_state) (m : memory) (pos : nat) : am_state := AmState m (a_resp s) (a_rnd s) pos.

(** wait cycles *)
Lemma wait_cycles ws : forall s k o tr x l,
  for_each (fun _ : nat => drive (w_set_wait L1) ;; edge) (seq k (length ws)) (World s PActive o tr (ws ++ x :: l) : world) =
  (Done tt, World s PActive (match ws with [] => o | _ => w_set_wait L1 o end) (tr ++ held (w_set_wait L1 o) ws) (x :: l)).
Proof.
  induction ws as [|w ws IH]; intros s k o tr x l; cbn [length seq for_each app].
  - cbn [held map]. rewrite app_nil_r. reflexivity.
  - unfold bind at 1, bind at 1. cbn [drive ph st out trace ins edge]. rewrite IH. cbn [held map]. rewrite <- app_assoc.
    destruct ws; reflexivity.
Qed.
(** _waitrequest right after an edge *)
Lemma waitrequest_spec s o tr ws x l : length ws = fst (wait_len c (a_rnd s) (a_pos s)) -> exists p,
  p <> PReadOnly /\
  waitrequest c (World s PActive o tr (ws ++ x :: l) : world) =
  (Done tt, World (at_pos s (a_mem s) (snd (wait_len c (a_rnd s) (a_pos s)))) p
                  (if p_wait (m_props c) then w_set_wait L0 o else o) (tr ++ held (w_set_wait L1 o) ws) (x :: l)).
Proof.
  destruct BB as (_ & _ & _ & Wt & _). unfold waitrequest, wait_len. destruct (p_wait (m_props c)).
  - unfold bind at 1, coin, bind at 1, draw, bind at 1, get, bind at 1, put. cbn [st ph out trace ins ret a_rnd a_pos a_mem a_resp].
    destruct (a_rnd s (a_pos s) mod 4 =? 0); cbn [fst snd]; intro L.
    + exists PActive. split; [discriminate|]. unfold randint. cbn [Nat.leb Nat.add]. rewrite Nat.sub_0_r, bind_assoc.
      unfold bind at 1, bind at 1, draw, bind at 1, get, bind at 1, put. cbn [st ph out trace ins ret a_rnd a_pos a_mem a_resp].
      rewrite <- L. unfold bind at 1. rewrite wait_cycles. unfold need. rewrite Wt. cbn [drive ph st out trace ins].
      destruct ws; reflexivity.
    + exists PMid. split; [discriminate|]. destruct ws; [|discriminate]. cbn [app held map]. rewrite app_nil_r.
      unfold bind at 1. cbn [midstep ins st out trace]. unfold need. rewrite Wt. reflexivity.
  - cbn [fst snd]. intro L. destruct ws; [|discriminate]. exists PActive. split; [discriminate|]. cbn [app held map ret].
    rewrite app_nil_r. destruct s; reflexivity.
Qed.

(** waiting for the beat, at the start of a beat *)
Lemma wait_write_spec s p o tr b l : v_write b = L1 -> tr <> [] ->
  (wait_write ;; midstep) (World s p o tr (b :: l) : world) = (Done tt, World s PMid o tr (b :: l)).
Proof.
  intros Wb N.
  assert (S : exists i, sample (World s p o tr (b :: l) : world) = (Done i, World s p o tr (b :: l)) /\ (p <> PActive -> i = b)).
  { unfold sample. cbn [ph trace]. destruct p; try (exists b; split; [reflexivity|auto]).
    destruct (exists_last N) as (t & [i oo] & ->). rewrite rev_app_distr. exists i. split; [reflexivity|]. intro H. contradiction. }
  destruct S as (i & S & _). unfold wait_write. rewrite bind_assoc, (bind_done _ _ _ _ _ S).
  destruct (nzero i); [reflexivity|]. unfold bind at 1, bind at 1. cbn [midstep ins st out trace ph]. cbn [span].
  unfold nzero at 1. rewrite Wb. cbn [logic_eqb negb held map]. rewrite app_nil_r. reflexivity.
Qed.

Definition beat_out (o : am_out) : am_out := if p_wait (m_props c) then w_set_wait L0 o else o.
Lemma write_beat_spec s p o tr a k b d ws x l : v_write b = L1 -> bval (v_wdata b) = Some d -> tr <> [] ->
  length ws = fst (wait_len c (a_rnd s) (a_pos s)) -> exists p',
  p' <> PReadOnly /\
  write_beat c a k (World s p o tr (b :: ws ++ x :: l) : world) =
  (Done tt, World (at_pos s (store_bytes (a_mem s) (a + Z.of_nat (k * dsize c)) d (dsize c)) (snd (wait_len c (a_rnd s) (a_pos s)))) p'
                  (beat_out o) (tr ++ (b, o) :: held (w_set_wait L1 o) ws) (x :: l)).
Proof.
  intros Wb Ed N L. unfold write_beat. pose proof dsize_pos as P.
  destruct (waitrequest_spec (set_mem (store_bytes (a_mem s) (a + Z.of_nat (k * dsize c)) d (dsize c)) s) o (tr ++ [(b, o)]) ws x l L)
    as (p' & Hp & E).
  exists p'. split; [exact Hp|]. rewrite <- bind_assoc, (bind_done _ _ _ _ _ (wait_write_spec s p o tr b (ws ++ x :: l) Wb N)).
  unfold bind at 1. cbn [sample ph input ins]. destruct (Nat.eqb_spec (dsize c) 0); [lia|].
  unfold bind at 1, bind at 1, toint at 1. rewrite Ed. cbn [ret]. unfold modify, bind at 1, get, put. cbn [st ph out trace ins].
  unfold bind at 1, toint at 1. rewrite Ed. cbn [ret]. unfold bind at 1. cbn [edge ins st out trace]. rewrite E, <- app_assoc. reflexivity.
Qed.

(** accepted beats: the beat is on the bus with waitrequest low *)
Lemma accepted_beat b o d : v_write b = L1 -> w_wait o = L0 -> bval (v_wdata b) = Some d -> beats_accepted [(b, o)] = [v_wdata b].
Proof. intros W O _. unfold beats_accepted. cbn [flat_map fst snd]. rewrite W, O. reflexivity. Qed.

Lemma write_beats_spec ds : forall s p o tr a k b d l pos' e l', tr <> [] -> v_write b = L1 -> bval (v_wdata b) = Some d ->
  w_wait o = L0 -> w_valid o = L0 -> beats c (a_rnd s) (a_pos s) ds l pos' (e :: l') -> exists p' o' tr' m' ws,
  p' <> PReadOnly /\
  for_each (write_beat c a) (seq k (S (length ds))) (World s p o tr (b :: l) : world) =
  (Done tt, World (at_pos s m' pos') p' o' (tr ++ tr') (e :: l'))
  /\ (forall x, m' x = stored c (a_mem s) (a + Z.of_nat (k * dsize c)) (d :: ds) x)
  /\ delivered tr' = [] /\ beats_accepted tr' = ws /\ map bval ws = map Some (d :: ds)
  /\ map fst tr' ++ e :: l' = b :: l /\ w_wait o' = L0 /\ w_valid o' = L0.
Proof.
  induction ds as [|d2 ds IH]; intros s p o tr a k b d l pos' e l' N Wb Ed Wo Vo B.
  - inversion B as [pos ws e0 l0 L|]; subst.
    destruct (write_beat_spec s p o tr a k b d ws e l' Wb Ed N L) as (p' & Hp & E).
    exists p', (beat_out o), ((b, o) :: held (w_set_wait L1 o) ws), (store_bytes (a_mem s) (a + Z.of_nat (k * dsize c)) d (dsize c)), [v_wdata b].
    split; [exact Hp|]. cbn [length seq for_each]. split; [rewrite (bind_done _ _ _ _ _ E); reflexivity|].
    split; [intro x; rewrite stored_cons; unfold stored; cbn [length Nat.mul]; rewrite Z.add_0_r;
            destruct (Z.leb_spec (a + Z.of_nat (k * dsize c) + Z.of_nat (dsize c)) x), (Z.ltb_spec x (a + Z.of_nat (k * dsize c) + Z.of_nat (dsize c)));
            cbn [andb]; try reflexivity; lia|].
    change ((b, o) :: held (w_set_wait L1 o) ws) with ([(b, o)] ++ held (w_set_wait L1 o) ws).
    rewrite delivered_app, delivered_one, delivered_held by exact Vo. unfold pend. rewrite Vo.
    rewrite accepted_app, (accepted_beat b o d) by assumption. rewrite accepted_idle by (apply held_waiting; reflexivity).
    cbn [map]. rewrite Ed. repeat split; try reflexivity.
    + rewrite map_app, held_fst. reflexivity.
    + unfold beat_out. destruct (p_wait (m_props c)); [reflexivity|exact Wo].
    + unfold beat_out. destruct (p_wait (m_props c)); exact Vo.
  - inversion B as [|pos ws b2 d0 ds0 l0 pos2 l2 L W2 E2 B2]; subst.
    destruct (write_beat_spec s p o tr a k b d ws b2 l0 Wb Ed N L) as (p1 & Hp & E).
    set (s1 := at_pos s (store_bytes (a_mem s) (a + Z.of_nat (k * dsize c)) d (dsize c)) (snd (wait_len c (a_rnd s) (a_pos s)))) in *.
    assert (Wo1 : w_wait (beat_out o) = L0) by (unfold beat_out; destruct (p_wait (m_props c)); [reflexivity|exact Wo]).
    assert (Vo1 : w_valid (beat_out o) = L0) by (unfold beat_out; destruct (p_wait (m_props c)); exact Vo).
    destruct (IH s1 p1 (beat_out o) (tr ++ (b, o) :: held (w_set_wait L1 o) ws) a (S k) b2 d2 l0 pos' e l'
                ltac:(destruct tr; discriminate) W2 E2 Wo1 Vo1 B2) as (p' & o' & tr' & m' & us & Hp' & E' & Hm & D & A & U & X & Wo' & Vo').
    exists p', o', (((b, o) :: held (w_set_wait L1 o) ws) ++ tr'), m', (v_wdata b :: us).
    split; [exact Hp'|]. split; [|split; [|split; [|split; [|split; [|split; [|split]]]]]]; try assumption.
    + change (seq k (S (length (d2 :: ds)))) with (k :: seq (S k) (S (length ds))). cbn [for_each].
      rewrite (bind_done _ _ _ _ _ E), E', <- app_assoc. reflexivity.
    + intro x. rewrite Hm. unfold s1, at_pos. cbn [a_mem]. rewrite (stored_cons (a_mem s)).
      replace (a + Z.of_nat (S k * dsize c))%Z with (a + Z.of_nat (k * dsize c) + Z.of_nat (dsize c))%Z by lia. reflexivity.
    + change ((b, o) :: held (w_set_wait L1 o) ws) with ([(b, o)] ++ held (w_set_wait L1 o) ws).
      rewrite !delivered_app, delivered_one, delivered_held, D by exact Vo. unfold pend. rewrite Vo. reflexivity.
    + change ((b, o) :: held (w_set_wait L1 o) ws) with ([(b, o)] ++ held (w_set_wait L1 o) ws).
      rewrite !accepted_app, (accepted_beat b o d), A by assumption. rewrite accepted_idle by (apply held_waiting; reflexivity). reflexivity.
    + cbn [map] in *. rewrite Ed, U. reflexivity.
    + rewrite map_app, <- app_assoc, X. cbn [map fst app]. rewrite held_fst. reflexivity.
Qed.

Lemma body_write s p o tr m cur a d ds b l pos' e l' : a_resp s = [] -> (forall z, a_mem s z = m z) ->
  (p_wait (m_props c) = false -> w_wait o = L0) ->
  v_read b <> L1 -> v_write b = L1 ->
  bval (v_addr b) = Some a -> bval (v_bcount b) = Some (Z.of_nat (S (length ds))) ->
  bval (v_wdata b) = Some d ->
  (p_wait (m_props c) = true -> a_rnd s (a_pos s) mod 4 <> 0) ->
  beats c (a_rnd s) (if p_wait (m_props c) then S (a_pos s) else a_pos s) ds l pos' (e :: l') -> exists p' o' tr' m' ws,
  respond_body c (World s p o tr (cur :: b :: l) : world) =
  (Done tt, World (at_pos s m' pos') p' o' (tr ++ (cur, o) :: tr') (e :: l'))
  /\ (forall x, m' x = stored c m a (d :: ds) x)
  /\ delivered tr' = [] /\ beats_accepted tr' = ws /\ map bval ws = map Some (d :: ds)
  /\ map fst tr' ++ e :: l' = b :: l
  /\ w_wait o' = (if p_wait (m_props c) then L1 else L0) /\ w_valid o' = L0.
Proof.
  intros Hr Hm Hw Rb Wb Ea Ebc Ed Hd B. rewrite body_split by exact Hr.
  pose proof dsize_pos as P. destruct BB as (R & W & V & Wt & Bc & BE & _).
  rewrite (is_one_not _ Rb), andb_false_r, W. unfold bind at 1. cbn [ret]. unfold bind at 1. cbn [sample ph input ins].
  rewrite Wb. cbn [is_one logic_eqb andb].
  set (s1 := at_pos s (a_mem s) (if p_wait (m_props c) then S (a_pos s) else a_pos s)).
  assert (Wr : exists p1, p1 <> PActive /\ waitrequest c (World s PReadOnly (idle_resp o) (tr ++ [(cur, o)]) (b :: l) : world)
               = (Done tt, World s1 p1 (AmOut L0 (w_data o) L0) (tr ++ [(cur, o)]) (b :: l))).
  { unfold waitrequest, s1, at_pos. destruct (p_wait (m_props c)).
    - exists PMid. split; [discriminate|].
      unfold bind at 1, coin, bind at 1, draw, bind at 1, get, bind at 1, put. cbn [st ph out trace ins ret a_rnd a_pos a_mem a_resp].
      destruct (Nat.eqb_spec (a_rnd s (a_pos s) mod 4) 0) as [H|H]; [exfalso; exact (Hd eq_refl H)|].
      unfold bind at 1. cbn [midstep ins st out trace]. unfold need. rewrite Wt. reflexivity.
    - exists PReadOnly. split; [discriminate|]. unfold idle_resp. rewrite (Hw eq_refl). destruct s; reflexivity. }
  destruct Wr as (p1 & Np & Wr).
  destruct (write_beats_spec ds s1 p1 (AmOut L0 (w_data o) L0) (tr ++ [(cur, o)]) a 0 b d l pos' e l'
              ltac:(destruct tr; discriminate) Wb Ed eq_refl eq_refl B) as (p' & o' & tr' & m' & ws & Hp' & E & Em & D & A & U & X & Wo & Vo).
  exists p', (if p_wait (m_props c) then w_set_wait L1 o' else o'), tr', m', ws.
  split; [|split; [|split; [|split; [|split; [|split; [|split]]]]]]; try assumption.
  - unfold burst_write. rewrite (bind_done _ _ _ _ _ Wr). 
    assert (Sm : sample (World s1 p1 (AmOut L0 (w_data o) L0) (tr ++ [(cur, o)]) (b :: l) : world)
                 = (Done b, World s1 p1 (AmOut L0 (w_data o) L0) (tr ++ [(cur, o)]) (b :: l))).
    { unfold sample. cbn [ph]. destruct p1; try contradiction; reflexivity. }
    rewrite (bind_done _ _ _ _ _ Sm). unfold bind at 1, toint at 1. rewrite Ea. cbn [ret].
    destruct (Nat.eqb_spec (dsize c) 0); [lia|]. unfold bind at 1. cbn [ret]. unfold need. rewrite BE.
    unfold bind at 1, toint at 1. rewrite Ebc. cbn [ret]. rewrite Nat2Z.id.
    rewrite (bind_done _ _ _ _ _ E). rewrite <- app_assoc. cbn [app].
    destruct (p_wait (m_props c)); [|reflexivity]. rewrite drive_ok by exact Hp'. reflexivity.
  - intro x. rewrite Em. cbn [Nat.mul]. rewrite Z.add_0_r. unfold s1, at_pos. cbn [a_mem]. apply stored_ext. exact Hm.
  - destruct (p_wait (m_props c)); [reflexivity|exact Wo].
  - destruct (p_wait (m_props c)); exact Vo.
Qed.

(** ** sessions *)
Lemma initialised_ext m m' a n : (forall x, m x = m' x) -> initialised c m a n -> initialised c m' a n.
Proof. intros H I x Hx. destruct (I x Hx) as (v & E & B). exists v. rewrite <- H. split; assumption. Qed.

Lemma session_spec rnd pos m l0 ds acc m' : session c rnd pos m l0 ds acc m' ->
  forall fuel s p o tr cur l, l0 = cur :: l -> length l0 <= fuel ->
  a_resp s = [] -> a_rnd s = rnd -> a_pos s = pos -> (forall x, a_mem s x = m x) ->
  (p_wait (m_props c) = false -> w_wait o = L0) -> v_write cur <> L1 \/ w_wait o = L1 ->
  exists p' o' tr' s' ws,
  respond c fuel (World s p o tr l0 : world) = (Susp, World s' p' o' (tr ++ tr') [])
  /\ (forall x, a_mem s' x = m' x) /\ delivered tr' = pend o ++ map (zbits (m_width c)) ds
  /\ beats_accepted tr' = ws /\ map bval ws = map Some acc /\ map fst tr' = l0.
Proof.
  induction 1 as [pos m cur0|pos m cur0 i l0 ds acc m' R W S IH
                 |pos m cur0 a d ds b l0 pos' e l' rs acc m' Rb Wb Ea Ebc Ed Hd B He S IH
                 |pos m cur0 a n q q1 q2 lat bs x l0 rs acc m' Rq F Ea Eal Esz Ebc I Ll Lb S IH];
    intros fuel s p o tr cur l El Hf Hr Hrnd Hpos Hm Hw Hc; injection El as <- <-;
    (destruct fuel as [|fuel]; [cbn [length] in Hf; lia|]); unfold respond in *.
  - exists PActive, (idle_resp o), [(cur0, o)], s, []. split; [|split; [|split; [|split; [|split]]]].
    + apply loop_susp. apply bind_susp. unfold respond_body. rewrite <- bind_assoc, (bind_done _ _ _ _ _ (edge_resp s p o tr cur0 [] Hr)). reflexivity.
    + exact Hm.
    + rewrite delivered_one, app_nil_r. reflexivity.
    + apply accepted_idle. constructor; [exact Hc|constructor].
    + reflexivity.
    + reflexivity.
  - pose proof (body_idle s p o tr cur0 i l0 Hr R W) as E.
    destruct (IH fuel s PReadOnly (idle_resp o) (tr ++ [(cur0, o)]) i l0 eq_refl ltac:(cbn [length] in *; lia) Hr Hrnd Hpos Hm Hw (or_introl W))
      as (p' & o' & tr' & s' & ws & E' & Em & D & A & U & X).
    exists p', o', ((cur0, o) :: tr'), s', ws. split; [|split; [|split; [|split; [|split]]]]; try assumption.
    + rewrite (loop_step _ _ _ _ (inl tt) (World s PReadOnly (idle_resp o) (tr ++ [(cur0, o)]) (i :: l0))).
      * rewrite E', <- app_assoc. reflexivity.
      * rewrite (bind_done _ _ _ _ _ E). reflexivity.
    + change ((cur0, o) :: tr') with ([(cur0, o)] ++ tr'). rewrite delivered_app, delivered_one, D. reflexivity.
    + change ((cur0, o) :: tr') with ([(cur0, o)] ++ tr'). rewrite accepted_app, A, accepted_idle; [reflexivity|].
      constructor; [exact Hc|constructor].
    + cbn [map fst]. rewrite X. reflexivity.
  - subst rnd pos.
    destruct (body_write s p o tr m cur0 a d ds b l0 pos' e l' Hr Hm Hw Rb Wb Ea Ebc Ed Hd B)
      as (p1 & o1 & tr1 & m1 & ws1 & E & Em & D & A & U & X & Wo & Vo).
    assert (Hlen : length (e :: l') <= fuel).
    { assert (HL : length (map fst tr1 ++ e :: l') = length (b :: l0)) by (rewrite X; reflexivity).
      rewrite app_length in HL. cbn [length] in *. lia. }
    destruct (IH fuel (at_pos s m1 pos') p1 o1 (tr ++ (cur0, o) :: tr1) e l' eq_refl Hlen Hr eq_refl eq_refl Em)
      as (p' & o' & tr' & s' & ws & E' & Em' & D' & A' & U' & X').
    { intro H. rewrite H in Wo. exact Wo. }
    { destruct (p_wait (m_props c)) eqn:PW; [right; exact Wo|left; apply He; reflexivity]. }
    exists p', o', (((cur0, o) :: tr1) ++ tr'), s', (ws1 ++ ws). split; [|split; [|split; [|split; [|split]]]]; try assumption.
    + rewrite (loop_step _ _ _ _ (inl tt) (World (at_pos s m1 pos') p1 o1 (tr ++ (cur0, o) :: tr1) (e :: l'))).
      * rewrite E', <- app_assoc. reflexivity.
      * rewrite (bind_done _ _ _ _ _ E). reflexivity.
    + change ((cur0, o) :: tr1) with ([(cur0, o)] ++ tr1). rewrite !delivered_app, delivered_one, D, D'.
      unfold pend at 2. rewrite Vo. rewrite app_nil_r. reflexivity.
    + change ((cur0, o) :: tr1) with ([(cur0, o)] ++ tr1). rewrite !accepted_app, A, A', (accepted_idle [(cur0, o)]); [reflexivity|].
      constructor; [exact Hc|constructor].
    + rewrite map_app, U, U'. cbn [map app]. rewrite map_app. reflexivity.
    + rewrite map_app, X', <- X. reflexivity.
  - subst rnd pos.
    destruct (body_read s p o tr m cur0 a n q q1 q2 lat bs x l0 Hr Hm Rq F Ea Eal Esz Ebc I Ll Lb)
      as (o1 & tr1 & E & D & A & X & Wo & _).
    assert (Hlen : length (x :: l0) <= fuel).
    { cbn [length] in *. rewrite !app_length in Hf. cbn [length] in Hf. lia. }
    destruct (IH fuel s PActive o1 (tr ++ (cur0, o) :: tr1) x l0 eq_refl Hlen Hr eq_refl eq_refl Hm)
      as (p' & o' & tr' & s' & ws & E' & Em' & D' & A' & U' & X').
    { intro H. exact Wo. }
    { left. rewrite Forall_forall in F. apply F. do 3 right. apply in_or_app. right. apply in_or_app. right. left. reflexivity. }
    exists p', o', (((cur0, o) :: tr1) ++ tr'), s', ws. split; [|split; [|split; [|split; [|split]]]]; try assumption.
    + rewrite (loop_step _ _ _ _ (inl tt) (World s PActive o1 (tr ++ (cur0, o) :: tr1) (x :: l0))).
      * rewrite E', <- app_assoc. reflexivity.
      * rewrite (bind_done _ _ _ _ _ E). reflexivity.
    + change ((cur0, o) :: tr1) with ([(cur0, o)] ++ tr1). rewrite !delivered_app, delivered_one, D', map_app.
      rewrite <- !app_assoc. f_equal. rewrite app_assoc, D. reflexivity.
    + change ((cur0, o) :: tr1) with ([(cur0, o)] ++ tr1). rewrite !accepted_app, A, A', (accepted_idle [(cur0, o)]); [reflexivity|].
      constructor; [exact Hc|constructor].
    + rewrite map_app, X'. cbn [map fst]. rewrite X. cbn [app]. rewrite <- app_assoc. reflexivity.
Qed.

(** written words are read back *)
Lemma stored_words m a ds : (0 <= a)%Z -> Forall (fun d => 0 <= d < 256 ^ Z.of_nat (dsize c))%Z ds ->
  range_words c (stored c m a ds) a (length ds) = ds.
Proof.
  intros Ha F. pose proof dsize_pos as P. transitivity (map (fun j => nth j ds 0%Z) (seq 0 (length ds))).
  2:{ clear. induction ds as [|d ds IH]; [reflexivity|]. cbn [length seq map nth]. rewrite <- seq_shift, map_map. f_equal. exact IH. }
  unfold range_words. apply map_ext_in. intros j Hj. apply in_seq in Hj. cbn [Nat.add] in Hj.
  transitivity (from_le (map (fun k => lane k (nth j ds 0%Z)) (seq 0 (dsize c)))).
  - f_equal. apply map_ext_in. intros k Hk. apply in_seq in Hk. unfold stored.
    replace ((a <=? a + Z.of_nat (j * dsize c + k)) && (a + Z.of_nat (j * dsize c + k) <? a + Z.of_nat (length ds * dsize c)))%Z with true
      by (symmetry; apply andb_true_iff; split; [apply Z.leb_le|apply Z.ltb_lt]; nia).
    replace (Z.to_nat (a + Z.of_nat (j * dsize c + k) - a)) with (k + j * dsize c) by lia.
    rewrite Nat.mod_add, Nat.div_add, Nat.mod_small, Nat.div_small by lia. reflexivity.
  - rewrite from_lanes. apply Z.mod_small. rewrite Forall_forall in F. apply F, nth_In. lia.
Qed.
Lemma stored_initialised m a ds : initialised c (stored c m a ds) a (length ds).
Proof.
  intros x Hx. unfold stored.
  replace ((a <=? x) && (x <? a + Z.of_nat (length ds * dsize c)))%Z with true
    by (symmetry; apply andb_true_iff; split; [apply Z.leb_le|apply Z.ltb_lt]; lia).
  eexists. split; [reflexivity|]. apply lane_byte.
Qed.
End Burst.
