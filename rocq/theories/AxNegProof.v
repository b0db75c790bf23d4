(** AxNegProof.v -- AXI accesses with negative addresses are those with the addresses
    AWADDR and ARADDR then show. *)
From Verif Require Import Base Async BitsLemmas CompatModel PktModel AxiModel AxiSpec AxiDataProof AxcModel AxLegProof ArgSpec ArgProof.
Local Open Scope Z_scope.
Local Open Scope list_scope.

Notation norm := shown (only parsing).
Definition normw (n : nat) (a : waccess) : waccess :=
  WAccess (norm n (wa_address a)) (wa_value a) (wa_size a) (wa_burst a) (wa_be a) (wa_alat a) (wa_dlat a) (wa_sync a).
Definition normr (n : nat) (a : raccess) : raccess :=
  RAccess (norm n (ra_address a)) (ra_length a) (ra_size a) (ra_burst a) (ra_sync a).

Lemma norm_nonneg n a : 0 <= norm n a.
Proof.
  unfold shown, wrapped. assert (0 < 2 ^ Z.of_nat n) by (apply Z.pow_pos_nonneg; lia). pose proof (half_pow n). pose proof (Z.mod_pos_bound a (2 ^ Z.of_nat n) ltac:(lia)).
  destruct (Z.ltb_spec a 0); [|lia]. destruct (Z.leb_spec (- 2 ^ (Z.of_nat n - 1)) a); lia.
Qed.
Lemma norm_assign n a : assign_int n (norm n a) = assign_int n a.
Proof.
  unfold shown, wrapped. assert (0 < 2 ^ Z.of_nat n) by (apply Z.pow_pos_nonneg; lia). pose proof (Z.mod_pos_bound a (2 ^ Z.of_nat n) ltac:(lia)).
  destruct (Z.ltb_spec a 0); [|reflexivity]. destruct (Z.leb_spec (- 2 ^ (Z.of_nat n - 1)) a); [symmetry; apply assign_negative; lia|].
  rewrite !assign_out by lia. reflexivity.
Qed.
Lemma norm_eq n a : exists k, norm n a = a + k * 2 ^ Z.of_nat n.
Proof.
  unfold shown, wrapped. destruct (a <? 0); [|exists 0; lia]. destruct (_ <=? a); [exists 1; lia|].
  exists (1 - a / 2 ^ Z.of_nat n). pose proof (Z.div_mod a (2 ^ Z.of_nat n)) as E.
  assert (0 < 2 ^ Z.of_nat n) by (apply Z.pow_pos_nonneg; lia). specialize (E ltac:(lia)). lia.
Qed.
Lemma norm_mod n a s k : s = 2 ^ k -> 0 <= k <= Z.of_nat n -> norm n a mod s = a mod s.
Proof.
  intros E H. destruct (norm_eq n a) as [j ->]. assert (0 < s) by (rewrite E; apply Z.pow_pos_nonneg; lia).
  replace (2 ^ Z.of_nat n) with (2 ^ (Z.of_nat n - k) * s) by (rewrite E, <- Z.pow_add_r by lia; f_equal; lia).
  rewrite Z.mul_assoc. apply Z.mod_add. lia.
Qed.
Lemma norm_check bus n a len size b : (12 <= n)%nat -> check_params bus (norm n a) len size b = check_params bus a len size b.
Proof.
  intro Hn. destruct (norm_eq n a) as [j ->]. unfold check_params. destruct (match size with Some s => _ | None => _ end) as [s|e]; [|reflexivity]. cbn [rbind].
  destruct (check_length len b) as [[]|e]; [|reflexivity]. cbn [rbind]. f_equal. destruct b; try reflexivity. cbn [check_4kB].
  rewrite !page_land. set (w := Z.of_nat n). replace (a + j * 2 ^ w + s * (len - 1)) with (a + s * (len - 1) + j * 2 ^ w) by ring.
  assert (D : forall x, (x + j * 2 ^ w) / 4096 = x / 4096 + j * 2 ^ (w - 12)).
  { intro x. replace (j * 2 ^ w) with (j * 2 ^ (w - 12) * 4096) by (change 4096 with (2 ^ 12); rewrite <- Z.mul_assoc, <- Z.pow_add_r by lia; do 2 f_equal; lia). apply Z.div_add. lia. }
  rewrite !D. set (x := a / 4096). set (y := (a + s * (len - 1)) / 4096). set (z := j * 2 ^ (w - 12)).
  destruct (Z.eqb_spec (4096 * x) (4096 * y)), (Z.eqb_spec (4096 * (x + z)) (4096 * (y + z))); try reflexivity; lia.
Qed.

(** ** the channels *)
Lemma serve_map {TO A B R} (f : A -> B) (body : A -> M unit axi_in TO R) (body' : B -> M unit axi_in TO R) jobs :
  (forall t a, In (t, a) jobs -> forall w, body' (f a) w = body a w) ->
  forall w, serve body' (map (fun x => (fst x, f (snd x))) jobs) w =
    (map (fun x => (f (fst (fst x)), snd (fst x), snd x)) (fst (serve body jobs w)), snd (serve body jobs w)).
Proof.
  induction jobs as [|[t a] r IH]; intros H w; [reflexivity|]. cbn [map fst snd serve].
  assert (E : forall v, (edges (t - length (trace w)) ;; body' (f a)) v = (edges (t - length (trace w)) ;; body a) v).
  { intro v. apply bind_ext. intros _ w'. apply (H t a). left. reflexivity. }
  rewrite E. destruct (bind _ _ w) as [x w']. assert (IH' := IH (fun t' a' Hin => H t' a' (or_intror Hin)) w').
  destruct x; try reflexivity; rewrite IH'; destruct (serve body r w'); reflexivity.
Qed.
Lemma joined_map {A B} (f : A -> B) : forall ra rw i,
  joined i (map (fun x : A * nat * outcome unit => (f (fst (fst x)), snd (fst x), snd x)) ra) (map (fun x => (f (fst (fst x)), snd (fst x), snd x)) rw) = joined i ra rw.
Proof.
  induction ra as [|[[a n] x] ra IH]; intros [|[[b m] y] rw] i; try reflexivity; cbn [map fst snd joined]; destruct x; try apply IH; try reflexivity.
  destruct y; rewrite IH; reflexivity.
Qed.
Lemma raised_map {A B} (f : A -> B) (ra rw : list (A * nat * outcome unit)) :
  raised (map (fun x => (f (fst (fst x)), snd (fst x), snd x)) ra) (map (fun x => (f (fst (fst x)), snd (fst x), snd x)) rw) = raised ra rw.
Proof.
  unfold raised. rewrite !map_length. apply flat_map_ext. intro i. rewrite !nth_error_map.
  destruct (nth_error ra i) as [[[a n] [u|e| |]]|], (nth_error rw i) as [[[b m] [v|e'| |]]|]; reflexivity.
Qed.
Lemma admitted_map {A} (check check' : A -> res Z) (f : A -> A) calls : (forall a, check' (f a) = check a) ->
  admitted check' (map (fun x => (fst x, f (snd x))) calls) =
  map (fun x => (fst x, (fun y => (f (fst y), snd y)) (snd x))) (admitted check calls).
Proof.
  intro H. unfold admitted. induction calls as [|[t a] r IH]; [reflexivity|]. cbn [map flat_map fst snd]. rewrite H, IH, map_app. destruct (check a); reflexivity.
Qed.
Lemma admitted_in {A} (check : A -> res Z) calls t a s : In (t, (a, s)) (admitted check calls) -> check a = Ok s.
Proof.
  unfold admitted. rewrite in_flat_map. intros ([t' b] & _ & H). cbn [fst snd] in H. destruct (check b) eqn:E; [|destruct H].
  destruct H as [H|[]]. inversion H. subst. exact E.
Qed.

Section Bus.
Context (c : axi_cfg) (Hb : axi_bus c) (Hn : (12 <= x_awidth c)%nat).
Notation nw := (normw (x_awidth c)).
Notation nr := (normr (x_awidth c)).

Lemma size_mod a s : (exists b len size bu, check_params (x_bytes c) b len size bu = Ok s) -> norm (x_awidth c) a mod s = a mod s.
Proof. intro E. destruct Hb as (P & L & _). destruct (pow_small' s (x_bytes c) P L E) as (k & Hk & Es). apply (norm_mod _ _ _ k Es). lia. Qed.
Lemma bus_mod a : norm (x_awidth c) a mod x_bytes c = a mod x_bytes c.
Proof. destruct Hb as (P & L & _). destruct (pow_small (x_bytes c) (x_bytes c) P P ltac:(lia) L) as (k & Hk & Es). apply (norm_mod _ _ _ k Es). lia. Qed.

Lemma writes_norm fuel calls p oa ow l :
  concurrent_writes c fuel (map (fun x => (fst x, nw (snd x))) calls) p oa ow l = concurrent_writes c fuel calls p oa ow l.
Proof.
  unfold concurrent_writes.
  rewrite (admitted_map (write_check c) (write_check c) nw) by (intro a; apply norm_check, Hn).
  assert (A : forall t x, In (t, x) (admitted (write_check c) calls) -> forall w, aw_job c fuel (nw (fst x), snd x) w = aw_job c fuel x w).
  { intros t [a s] Hin w. cbn [fst snd aw_job normw wa_address wa_value wa_burst wa_alat wa_sync]. unfold send_write_address, assign. rewrite norm_assign. reflexivity. }
  assert (D : forall t x, In (t, x) (admitted (write_check c) calls) -> forall w, w_job c fuel (nw (fst x), snd x) w = w_job c fuel x w).
  { intros t [a s] Hin w. apply admitted_in in Hin. cbn [fst snd w_job normw wa_address wa_value wa_burst wa_dlat wa_be wa_sync]. unfold send_write_data, write_beats, unaligned.
    rewrite size_mod by (unfold write_check in Hin; eauto). rewrite bus_mod. reflexivity. }
  rewrite (serve_map (fun y : waccess * Z => (nw (fst y), snd y)) (aw_job c fuel) (aw_job c fuel) _ A).
  rewrite (serve_map (fun y : waccess * Z => (nw (fst y), snd y)) (w_job c fuel) (w_job c fuel) _ D).
  destruct (serve (aw_job c fuel) _ _) as [ra va]. destruct (serve (w_job c fuel) _ _) as [rw vw]. cbn [fst snd].
  pose proof (joined_map (fun y : waccess * Z => (nw (fst y), snd y)) ra rw 0) as J. cbn beta in J. rewrite J.
  pose proof (raised_map (fun y : waccess * Z => (nw (fst y), snd y)) ra rw) as R. cbn beta in R. rewrite R. reflexivity.
Qed.

Lemma reads_norm fuel calls p o l :
  let r := concurrent_reads c fuel calls p o l in
  concurrent_reads c fuel (map (fun x => (fst x, nr (snd x))) calls) p o l =
  ReadsRun (rs_ar r) (map (fun x => (nr (fst x), snd x)) (rs_results r)).
Proof.
  cbn zeta. unfold concurrent_reads.
  rewrite (admitted_map (read_check c) (read_check c) nr) by (intro a; apply norm_check, Hn).
  assert (A : forall t x, In (t, x) (admitted (read_check c) calls) -> forall w, ar_job c fuel (nr (fst x), snd x) w = ar_job c fuel x w).
  { intros t [a s] Hin w. cbn [fst snd ar_job normr ra_address ra_length ra_burst ra_sync]. unfold assign at 1 5. rewrite norm_assign. reflexivity. }
  rewrite (serve_map (fun y : raccess * Z => (nr (fst y), snd y)) (ar_job c fuel) (ar_job c fuel) _ A).
  assert (I : forall t x, In (t, x) (addressed (fst (serve (ar_job c fuel) (admitted (read_check c) calls) (World tt p o [] l)))) ->
                          exists t', In (t', x) (admitted (read_check c) calls)).
  { generalize (World tt p o [] l). generalize (admitted (read_check c) calls). clear. induction l as [|[t a] r IH]; intros w t0 x H; [destruct H|].
    cbn [serve] in H. destruct (bind _ _ w) as [y w'].
    assert (K : In (t0, x) (addressed (fst (let '(rs, v) := serve (ar_job c fuel) r w' in ((a, length (trace w'), y) :: rs, v)))) -> exists t', In (t', x) ((t, a) :: r)).
    { destruct (serve (ar_job c fuel) r w') as [rs v] eqn:E. cbn [fst]. unfold addressed. cbn [flat_map]. intro G. apply in_app_or in G. destruct G as [G|G].
      - destruct y; try (destruct G; fail). destruct G as [G|[]]. inversion G. exists t. left. subst. reflexivity.
      - specialize (IH w' t0 x). rewrite E in IH. destruct (IH G) as [t' G']. exists t'. right. exact G'. }
    destruct y; try (apply K; exact H). destruct H. }
  destruct (serve (ar_job c fuel) _ _) as [ra va]. cbn [fst snd] in I |- *.
  assert (E : addressed (map (fun x : raccess * Z * nat * outcome unit => ((nr (fst (fst (fst x))), snd (fst (fst x))), snd (fst x), snd x)) ra) =
              map (fun x => (fst x, (nr (fst (snd x)), snd (snd x)))) (addressed ra)).
  { unfold addressed. clear. induction ra as [|[[[a s] n] x] r IH]; [reflexivity|]. cbn [map flat_map fst snd]. rewrite map_app, IH. destruct x; reflexivity. }
  rewrite E. clear E.
  rewrite (serve_map (fun y : raccess * Z => (nr (fst y), snd y)) (r_job c fuel) (r_job c fuel)).
  2: { intros t [a s] Hin w. apply I in Hin. destruct Hin as [t' Hin]. apply admitted_in in Hin.
       cbn [fst snd r_job normr ra_address ra_length ra_burst]. unfold realigned. rewrite bus_mod, size_mod by (unfold read_check in Hin; eauto). reflexivity. }
  destruct (serve (r_job c fuel) _ _) as [rr vr]. cbn [fst snd rs_ar rs_results]. rewrite !map_map. reflexivity.
Qed.
End Bus.
