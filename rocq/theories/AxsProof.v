(** AxsProof.v *)
From Verif Require Import Base Async BitsLemmas CompatModel CompatProof AxsModel AxsSpec.
Local Open Scope list_scope.

Section Slave.
Context (big : bool) (width : nat) (before : axs_in).
Notation world := (world bytes axs_in axs_out).

(** ** the address phases *)
Definition no_aw (i : axs_in) : Prop := s_awvalid i <> L1.
Definition no_ar (i : axs_in) : Prop := s_arvalid i <> L1.
Lemma is_one_true b : is_one b = true <-> b = L1.
Proof. destruct b; cbn; split; congruence. Qed.
Lemma is_one_false b : is_one b = false <-> b <> L1.
Proof. destruct b; cbn; split; congruence. Qed.

Lemma aw_loop fuel : forall l m p o tr, length l < fuel -> p <> PReadOnly ->
  let o' := s_set_wready L0 o in
  (forall w i r, l = w ++ i :: r -> Forall no_aw w -> s_awvalid i = L1 ->
     loop fuel aw_body tt (World m p o tr l) = (Exn ERuntime, World m PReadOnly o' (tr ++ held o' w) (i :: r))) /\
  (Forall no_aw l -> exists p', loop fuel aw_body tt (World m p o tr l) = (Susp, World m p' o' (tr ++ held o' l) [])).
Proof.
  induction fuel as [|f IH]; intros l m p o tr Hf Hp o'; [lia|].
  assert (D : forall X (k : unit -> M bytes axs_in axs_out X), bind (drive (s_set_wready L0)) k (World m p o tr l) = k tt (World m p o' tr l)).
  { intros X k. rewrite (bind_done _ _ _ tt (World m p o' tr l)); [reflexivity|]. apply drive_ok, Hp. }
  split.
  - intros w i r E F A. destruct w as [|j w].
    + subst l. cbn [app] in *. cbn [held map]. rewrite app_nil_r.
      apply (loop_exn f aw_body tt). unfold aw_body. rewrite D. unfold bind, readonly, input. cbn [ph ins].
      destruct p; try contradiction; cbn; rewrite A; reflexivity.
    + subst l. cbn [app] in *. inversion F as [|? ? Fj Fw]; subst.
      assert (B : aw_body tt (World m p o tr (j :: w ++ i :: r)) = (Done (inl tt), World m PActive o' (tr ++ [(j, o')]) (w ++ i :: r))).
      { unfold aw_body. rewrite D. unfold bind, readonly, input, edge. cbn [ph ins].
        apply is_one_false in Fj. destruct p; try contradiction; cbn; rewrite Fj; reflexivity. }
      rewrite (loop_step f aw_body tt _ _ _ B).
      destruct (IH (w ++ i :: r) m PActive o' (tr ++ [(j, o')])) as [I1 _]; [cbn in Hf; lia|discriminate|].
      rewrite (I1 w i r eq_refl Fw A). cbn [held map]. rewrite <- app_assoc. reflexivity.
  - intro F. destruct l as [|j l].
    + exists p. cbn [held map]. rewrite app_nil_r. apply (loop_susp f aw_body tt). unfold aw_body. rewrite D.
      destruct p; try contradiction; reflexivity.
    + inversion F as [|? ? Fj Fw]; subst.
      assert (B : aw_body tt (World m p o tr (j :: l)) = (Done (inl tt), World m PActive o' (tr ++ [(j, o')]) l)).
      { unfold aw_body. rewrite D. unfold bind, readonly, input, edge. cbn [ph ins].
        apply is_one_false in Fj. destruct p; try contradiction; cbn; rewrite Fj; reflexivity. }
      destruct (IH l m PActive o' (tr ++ [(j, o')])) as [_ I2]; [cbn in Hf; lia|discriminate|].
      destruct (I2 Fw) as [p' E]. exists p'. rewrite (loop_step f aw_body tt _ _ _ B). rewrite E.
      cbn [held map]. rewrite <- app_assoc. reflexivity.
Qed.
Lemma write_dies fuel m p o tr w i r : length (w ++ i :: r) < fuel -> p <> PReadOnly ->
  Forall no_aw w -> s_awvalid i = L1 ->
  let o' := s_set_wready L0 o in
  write_data big before fuel (World m p o tr (w ++ i :: r)) = (Exn ERuntime, World m PReadOnly o' (tr ++ held o' w) (i :: r)).
Proof.
  intros Hf Hp F A o'. destruct (aw_loop fuel (w ++ i :: r) m p o tr Hf Hp) as [L _].
  specialize (L w i r eq_refl F A). unfold write_data. destruct fuel as [|f]; [lia|].
  apply (loop_exn f (write_turn big before (S f)) tt). unfold write_turn. exact (bind_exn _ _ _ _ _ L).
Qed.
Lemma write_waits fuel m p o tr l : length l < fuel -> p <> PReadOnly -> Forall no_aw l ->
  let o' := s_set_wready L0 o in
  exists p', write_data big before fuel (World m p o tr l) = (Susp, World m p' o' (tr ++ held o' l) []).
Proof.
  intros Hf Hp F o'. destruct (aw_loop fuel l m p o tr Hf Hp) as [_ L].
  destruct (L F) as [p' E]. exists p'. unfold write_data. destruct fuel as [|f]; [lia|].
  apply (loop_susp f (write_turn big before (S f)) tt). unfold write_turn. exact (bind_susp _ _ _ _ E).
Qed.

Lemma ar_loop fuel : forall l m p o tr, length l < fuel -> p <> PReadOnly ->
  (forall w i r, l = w ++ i :: r -> Forall no_ar w -> s_arvalid i = L1 ->
     loop fuel ar_body tt (World m p o tr l) = (Done tt, World m PReadOnly o (tr ++ held o w) (i :: r))) /\
  (Forall no_ar l -> exists p', loop fuel ar_body tt (World m p o tr l) = (Susp, World m p' o (tr ++ held o l) [])).
Proof.
  induction fuel as [|f IH]; intros l m p o tr Hf Hp; [lia|].
  assert (B : forall j l', s_arvalid j <> L1 -> ar_body tt (World m p o tr (j :: l')) = (Done (inl tt), World m PActive o (tr ++ [(j, o)]) l')).
  { intros j l' Fj. unfold ar_body, bind, readonly, input, edge. cbn [ph ins].
    apply is_one_false in Fj. destruct p; try contradiction; cbn; rewrite Fj; reflexivity. }
  split.
  - intros w i r E F A. destruct w as [|j w].
    + subst l. cbn [app] in *. cbn [held map]. rewrite app_nil_r.
      assert (C : ar_body tt (World m p o tr (i :: r)) = (Done (inr tt), World m PReadOnly o tr (i :: r))).
      { unfold ar_body, bind, readonly, input. cbn [ph ins]. destruct p; try contradiction; cbn; rewrite A; reflexivity. }
      exact (loop_step f ar_body tt _ _ _ C).
    + subst l. cbn [app] in *. inversion F as [|? ? Fj Fw]; subst.
      rewrite (loop_step f ar_body tt _ _ _ (B j (w ++ i :: r) Fj)).
      destruct (IH (w ++ i :: r) m PActive o (tr ++ [(j, o)])) as [I1 _]; [cbn in Hf; lia|discriminate|].
      rewrite (I1 w i r eq_refl Fw A). cbn [held map]. rewrite <- app_assoc. reflexivity.
  - intro F. destruct l as [|j l].
    + exists p. cbn [held map]. rewrite app_nil_r. apply (loop_susp f ar_body tt).
      destruct p; try contradiction; reflexivity.
    + inversion F as [|? ? Fj Fw]; subst.
      destruct (IH l m PActive o (tr ++ [(j, o)])) as [_ I2]; [cbn in Hf; lia|discriminate|].
      destruct (I2 Fw) as [p' E]. exists p'. rewrite (loop_step f ar_body tt _ _ _ (B j l Fj)). rewrite E.
      cbn [held map]. rewrite <- app_assoc. reflexivity.
Qed.
Lemma read_dies fuel m p o tr w i r : length (w ++ i :: r) < fuel -> p <> PReadOnly ->
  Forall no_ar w -> s_arvalid i = L1 ->
  read_data big width fuel (World m p o tr (w ++ i :: r)) = (Exn ERuntime, World m PReadOnly o (tr ++ held o w) (i :: r)).
Proof.
  intros Hf Hp F A. destruct (ar_loop fuel (w ++ i :: r) m p o tr Hf Hp) as [L _].
  specialize (L w i r eq_refl F A). unfold read_data. destruct fuel as [|f]; [lia|].
  apply (loop_exn f (read_turn big width (S f)) tt). unfold read_turn. rewrite (bind_done _ _ _ _ _ L). reflexivity.
Qed.
Lemma read_waits fuel m p o tr l : length l < fuel -> p <> PReadOnly -> Forall no_ar l ->
  exists p', read_data big width fuel (World m p o tr l) = (Susp, World m p' o (tr ++ held o l) []).
Proof.
  intros Hf Hp F. destruct (ar_loop fuel l m p o tr Hf Hp) as [_ L].
  destruct (L F) as [p' E]. exists p'. unfold read_data. destruct fuel as [|f]; [lia|].
  apply (loop_susp f (read_turn big width (S f)) tt). unfold read_turn. exact (bind_susp _ _ _ _ E).
Qed.

(** every input list either has a first valid or none *)
Lemma first_split (P : axs_in -> bool) l :
  (exists w i r, l = w ++ i :: r /\ Forall (fun i => P i = false) w /\ P i = true) \/ Forall (fun i => P i = false) l.
Proof.
  induction l as [|i l [(w & j & r & E & F & H)|F]]; [right; constructor| |].
  - destruct (P i) eqn:E'.
    + left. exists [], i, l. repeat split; [constructor|exact E'].
    + left. exists (i :: w), j, r. rewrite E. repeat split; [constructor; assumption|exact H].
  - destruct (P i) eqn:E'.
    + left. exists [], i, l. repeat split; [constructor|exact E'].
    + right. constructor; assumption.
Qed.
Lemma forall_aw w : Forall (fun i => is_one (s_awvalid i) = false) w -> Forall no_aw w.
Proof. apply Forall_impl. intros i H. apply is_one_false, H. Qed.
Lemma forall_ar w : Forall (fun i => is_one (s_arvalid i) = false) w -> Forall no_ar w.
Proof. apply Forall_impl. intros i H. apply is_one_false, H. Qed.
Lemma held_all {I O} (P : O -> Prop) (o : O) (l : list I) : P o -> Forall (fun x => P (snd x)) (held o l).
Proof. intro H. apply Forall_forall. intros x G. apply in_map_iff in G. destruct G as (i & <- & _). exact H. Qed.

Lemma write_never fuel m p o l : length l < fuel -> p <> PReadOnly ->
  let w' := snd (write_data big before fuel (World m p o [] l)) in
  st w' = m /\ Forall (fun x => s_wready (snd x) = L0) (trace w').
Proof.
  intros Hf Hp w'. destruct (first_split (fun i => is_one (s_awvalid i)) l) as [(w & i & r & E & F & A)|F].
  - subst l. apply is_one_true in A. unfold w'. rewrite (write_dies fuel m p o [] w i r Hf Hp (forall_aw _ F) A).
    split; [reflexivity|]. cbn [snd trace app]. apply (held_all (fun o => s_wready o = L0)). reflexivity.
  - destruct (write_waits fuel m p o [] l Hf Hp (forall_aw _ F)) as [p' E]. unfold w'. rewrite E.
    split; [reflexivity|]. cbn [snd trace app]. apply (held_all (fun o => s_wready o = L0)). reflexivity.
Qed.
Lemma read_never fuel m p o l : length l < fuel -> p <> PReadOnly ->
  let w' := snd (read_data big width fuel (World m p o [] l)) in
  st w' = m /\ Forall (fun x => snd x = o) (trace w') /\ out w' = o.
Proof.
  intros Hf Hp w'. destruct (first_split (fun i => is_one (s_arvalid i)) l) as [(w & i & r & E & F & A)|F].
  - subst l. apply is_one_true in A. unfold w'. rewrite (read_dies fuel m p o [] w i r Hf Hp (forall_ar _ F) A).
    split; [reflexivity|]. split; [|reflexivity]. cbn [snd trace app]. apply (held_all (fun x => x = o)). reflexivity.
  - destruct (read_waits fuel m p o [] l Hf Hp (forall_ar _ F)) as [p' E]. unfold w'. rewrite E.
    split; [reflexivity|]. split; [|reflexivity]. cbn [snd trace app]. apply (held_all (fun x => x = o)). reflexivity.
Qed.
End Slave.

(** ** the data path *)
Lemma encodes_convert big w b : encodes big w b -> convert_binary_to_bytes w big = Ok b.
Proof.
  intros (R & L & B & V). destruct big.
  - pose proof (convert_bytes_bits_big b B) as C. unfold convert_binary_to_bytes in *. rewrite <- V.
    rewrite bytes_bits_length in C. rewrite L. exact C.
  - pose proof (convert_bytes_bits_little b B) as C. unfold convert_binary_to_bytes in *. rewrite <- V.
    rewrite bytes_bits_length, rev_length in C. rewrite L. exact C.
Qed.
Lemma nth_skipn {A} (l : list A) : forall n k, nth_error (skipn n l) k = nth_error l (n + k).
Proof. induction l as [|x l IH]; intros [|n] k; try reflexivity; [destruct k; reflexivity|]. cbn. apply IH. Qed.
Lemma nth_firstn {A} (l : list A) : forall n k, k < n -> nth_error (firstn n l) k = nth_error l k.
Proof.
  induction l as [|x l IH]; intros [|n] [|k] H; try reflexivity; try lia. cbn. apply IH. lia.
Qed.
Lemma set_slice_updated m a d : a + length d <= length m -> updated m (set_slice m a (a + length d) d) a d.
Proof.
  intro H. unfold set_slice, updated. split.
  { rewrite !app_length, firstn_length, skipn_length. lia. }
  intro k. destruct (Nat.leb_spec a k) as [A|A]; cbn [andb].
  - rewrite nth_error_app2 by (rewrite firstn_length; lia). rewrite firstn_length, Nat.min_l by lia.
    destruct (Nat.ltb_spec k (a + length d)) as [K|K].
    + rewrite nth_error_app1 by lia. reflexivity.
    + rewrite nth_error_app2 by lia. rewrite nth_skipn. f_equal. lia.
  - rewrite nth_error_app1 by (rewrite firstn_length; lia). apply nth_firstn. exact A.
Qed.

Lemma updated_nil m a : updated m m a [].
Proof.
  split; [reflexivity|]. intro k. cbn [length]. rewrite Nat.add_0_r.
  destruct (Nat.leb_spec a k), (Nat.ltb_spec k a); cbn; try reflexivity; lia.
Qed.
Lemma updated_app m m1 m2 a d1 d2 : updated m m1 a d1 -> updated m1 m2 (a + length d1) d2 -> updated m m2 a (d1 ++ d2).
Proof.
  intros [L1 H1] [L2 H2]. split; [congruence|]. intro k. rewrite H2, app_length.
  destruct (Nat.leb_spec a k) as [A|A]; cbn [andb].
  - destruct (Nat.ltb_spec k (a + (length d1 + length d2))) as [K|K].
    + destruct (Nat.leb_spec (a + length d1) k) as [C|C]; cbn [andb].
      * destruct (Nat.ltb_spec k (a + length d1 + length d2)); [|lia]. rewrite nth_error_app2 by lia. f_equal. lia.
      * rewrite nth_error_app1 by lia. rewrite H1. destruct (Nat.leb_spec a k); [|lia].
        destruct (Nat.ltb_spec k (a + length d1)); [reflexivity|lia].
    + destruct (Nat.leb_spec (a + length d1) k) as [C|C]; [|lia].
      destruct (Nat.ltb_spec k (a + length d1 + length d2)); [lia|]. cbn [andb]. rewrite H1.
      destruct (Nat.ltb_spec k (a + length d1)); [lia|]. rewrite andb_false_r. reflexivity.
  - destruct (Nat.leb_spec (a + length d1) k) as [C|C]; [lia|]. cbn [andb]. rewrite H1.
    destruct (Nat.leb_spec a k); [lia|]. reflexivity.
Qed.

Lemma store_burst_ok big addr nb : forall words ds k m,
  Forall2 (encodes big) words ds -> Forall (fun d => length d = nb) ds ->
  addr + (k + length words) * nb <= length m ->
  exists m', store_burst big m addr nb k words = Ok m' /\ updated m m' (addr + k * nb) (concat ds).
Proof.
  induction words as [|w words IH]; intros ds k m F L H; inversion F as [|? d ? ds' E F']; subst.
  { exists m. split; [reflexivity|apply updated_nil]. }
  inversion L as [|? ? Ld Lds]; subst. cbn [store_burst]. unfold store_beat. rewrite (encodes_convert _ _ _ E). cbn [rbind].
  assert (U : updated m (set_slice m (addr + k * length d) (addr + (k + 1) * length d) d) (addr + k * length d) d).
  { replace (addr + (k + 1) * length d) with (addr + k * length d + length d) by lia. apply set_slice_updated.
    cbn [length] in H. nia. }
  set (m1 := set_slice m _ _ _) in *.
  destruct (IH ds' (k + 1) m1 F' Lds) as (m' & E' & U').
  { rewrite (proj1 U). cbn [length] in H. nia. }
  exists m'. split; [exact E'|]. cbn [concat]. apply (updated_app _ m1); [exact U|].
  replace (addr + k * length d + length d) with (addr + (k + 1) * length d) by lia. exact U'.
Qed.

Lemma create_encodes big d : all_bytes d -> exists w, create_binary (BBytes d) (length d * 8) big = Ok w /\ encodes big w d.
Proof.
  intro B. assert (N : Nat.eqb (length d * 8) 1 = false) by (apply Nat.eqb_neq; lia).
  assert (BR : all_bytes (rev d)) by (apply all_bytes_rev, B).
  unfold create_binary. rewrite N. destruct big.
  - rewrite bytes_bits_length. replace (length d * 8 - 8 * length d) with 0 by lia.
    cbn [zeros repeat]. unfold zeros. cbn [repeat]. rewrite app_nil_r. unfold logicarray_of_str.
    rewrite bytes_bits_length. replace (Nat.eqb (8 * length d) (length d * 8)) with true by (symmetry; apply Nat.eqb_eq; lia).
    eexists. split; [reflexivity|]. split.
    + apply bval_resolvable. rewrite bval_bytes_bits by exact B. eauto.
    + split; [apply bytes_bits_length|]. split; [exact B|reflexivity].
  - rewrite bytes_bits_length, rev_length. replace (length d * 8 - 8 * length d) with 0 by lia.
    unfold zeros. cbn [repeat app]. unfold logicarray_of_str.
    rewrite bytes_bits_length, rev_length. replace (Nat.eqb (8 * length d) (length d * 8)) with true by (symmetry; apply Nat.eqb_eq; lia).
    eexists. split; [reflexivity|]. split.
    + apply bval_resolvable. rewrite bval_bytes_bits by exact BR. eauto.
    + split; [rewrite bytes_bits_length, rev_length; reflexivity|]. split; [exact B|reflexivity].
Qed.
Lemma load_beat_ok big m addr nb k : all_bytes m -> addr + (k + 1) * nb <= length m ->
  exists w, load_beat big m addr nb k = Ok w /\ encodes big w (slice m (addr + k * nb) (addr + (k + 1) * nb)).
Proof.
  intros B H. unfold load_beat, get_slice.
  assert (L : length (slice m (addr + k * nb) (addr + (k + 1) * nb)) = nb) by (rewrite slice_length; lia).
  assert (BS : all_bytes (slice m (addr + k * nb) (addr + (k + 1) * nb))).
  { unfold slice. rewrite <- (firstn_skipn (addr + k * nb) m) in B. apply Forall_app in B. destruct B as [_ B].
    rewrite <- (firstn_skipn (addr + (k + 1) * nb - (addr + k * nb)) (skipn (addr + k * nb) m)) in B. apply Forall_app in B. apply B. }
  destruct (create_encodes big _ BS) as (w & E & C). rewrite L in E. eauto.
Qed.

(** a narrow beat changes the length of the memory *)
Lemma narrow big m addr nb k w d : encodes big w d -> nb < length d -> addr + (k + 1) * nb <= length m ->
  exists m', store_beat big m addr nb k w = Ok m' /\ length m' = length m + (length d - nb).
Proof.
  intros E N H. unfold store_beat. rewrite (encodes_convert _ _ _ E). cbn [rbind].
  eexists. split; [reflexivity|]. unfold set_slice. rewrite !app_length, firstn_length, skipn_length. lia.
Qed.

(** ** the beat loops *)
Section Beats.
Context (big : bool) (width : nat) (before : axs_in).
Notation world := (world bytes axs_in axs_out).

Lemma transferred_cons i l : transferred (i :: l) = (if is_one (s_wvalid i) then [s_wdata i] else []) ++ transferred l.
Proof. unfold transferred. cbn [filter]. destruct (is_one (s_wvalid i)); reflexivity. Qed.
Lemma transferred_app a b : transferred (a ++ b) = transferred a ++ transferred b.
Proof. unfold transferred. rewrite filter_app, map_app. reflexivity. Qed.

Lemma s_sample_active s o tr i0 (x : axs_out) l :
  s_sample before (World s PActive o (tr ++ [(i0, x)]) l) = (Done i0, World s PActive o (tr ++ [(i0, x)]) l).
Proof. unfold s_sample. cbn. rewrite map_app. cbn. rewrite last_last. reflexivity. Qed.

Lemma w_loop addr nb len : forall pre i post fuel m o tr x i0 l count m',
  i0 :: l = pre ++ i :: post -> length pre < fuel -> s_wvalid i = L1 ->
  count = length (transferred pre) + 1 -> count <= len ->
  store_burst big m addr nb (len - count) (transferred (pre ++ [i])) = Ok m' ->
  loop fuel (w_body big before addr len nb) count (World m PActive o (tr ++ [(i0, x)]) l)
  = (Done tt, World m' PActive o (tr ++ [(i0, x)] ++ held o (firstn (length pre) l)) post).
Proof.
  induction pre as [|j pre IH]; intros i post fuel m o tr x i0 l count m' E Hf V C Cl Sb.
  - cbn [app] in E. injection E as -> ->. destruct fuel as [|f]; [cbn in Hf; lia|].
    cbn [transferred filter map length] in C. unfold transferred in C. cbn in C. subst count.
    cbn [app] in Sb. rewrite transferred_cons, V in Sb. cbn [is_one app] in Sb. unfold transferred in Sb. cbn [filter map] in Sb.
    cbn [store_burst] in Sb.
    destruct (store_beat big m addr nb (len - 1) (s_wdata i)) as [m1|e] eqn:Eb; [|discriminate]. cbn in Sb. injection Sb as ->.
    assert (B : w_body big before addr len nb 1 (World m PActive o (tr ++ [(i, x)]) post) = (Done (inr tt), World m' PActive o (tr ++ [(i, x)]) post)).
    { unfold w_body. rewrite (bind_done _ _ _ _ _ (s_sample_active _ _ _ _ _ _)). rewrite V. cbn [is_one].
      unfold bind, get, put. cbn [st]. rewrite Eb. reflexivity. }
    rewrite (loop_step f _ _ _ _ _ B). cbn [length firstn held map]. rewrite app_nil_r. reflexivity.
  - cbn [app] in E. injection E as -> El. destruct fuel as [|f]; [cbn in Hf; lia|].
    assert (Hl : exists h l', l = h :: l' /\ h :: l' = pre ++ i :: post).
    { destruct l as [|h l']; [destruct pre; discriminate|]. eauto. }
    destruct Hl as (h & l' & -> & El'). clear El.
    rewrite transferred_cons in C. cbn [app] in Sb. rewrite transferred_cons in Sb.
    destruct (is_one (s_wvalid j)) eqn:J.
    + cbn [app length] in C. cbn [app store_burst] in Sb.
      destruct (store_beat big m addr nb (len - count) (s_wdata j)) as [m1|e] eqn:Eb; [|discriminate]. cbn [rbind] in Sb.
      assert (B : w_body big before addr len nb count (World m PActive o (tr ++ [(j, x)]) (h :: l')) =
                  (Done (inl (count - 1)), World m1 PActive o ((tr ++ [(j, x)]) ++ [(h, o)]) l')).
      { unfold w_body. rewrite (bind_done _ _ _ _ _ (s_sample_active _ _ _ _ _ _)). rewrite J.
        unfold bind, get, put. cbn [st]. rewrite Eb. unfold of_res, ret. cbn [ph out trace ins st].
        destruct (Nat.eqb_spec (count - 1) 0) as [Z|Z]; [lia|]. reflexivity. }
      rewrite (loop_step f _ _ _ _ _ B).
      rewrite (IH i post f m1 o (tr ++ [(j, x)]) o h l' (count - 1) m' El'); [|cbn in Hf; lia|exact V|lia|lia|].
      * cbn [length firstn held map]. rewrite <- !app_assoc. reflexivity.
      * replace (len - (count - 1)) with (len - count + 1) by lia. exact Sb.
    + cbn [app] in C, Sb.
      assert (B : w_body big before addr len nb count (World m PActive o (tr ++ [(j, x)]) (h :: l')) =
                  (Done (inl count), World m PActive o ((tr ++ [(j, x)]) ++ [(h, o)]) l')).
      { unfold w_body. rewrite (bind_done _ _ _ _ _ (s_sample_active _ _ _ _ _ _)). rewrite J. reflexivity. }
      rewrite (loop_step f _ _ _ _ _ B).
      rewrite (IH i post f m o (tr ++ [(j, x)]) o h l' count m' El'); [|cbn in Hf; lia|exact V|lia|lia|exact Sb].
      cbn [length firstn held map]. rewrite <- !app_assoc. reflexivity.
Qed.

(** the read loop dies with the first RREADY ... *)
Lemma r_loop_ready addr len nb fuel m p o tr i r count : 0 < fuel -> p <> PReadOnly -> s_rready i = L1 ->
  exists e, loop fuel (r_body big width addr len nb) count (World m p o tr (i :: r))
            = (Exn e, World m PReadOnly (s_set_rvalid L1 o) tr (i :: r)).
Proof.
  intros Hf Hp R. destruct fuel as [|f]; [lia|].
  assert (B : exists e, r_body big width addr len nb count (World m p o tr (i :: r)) = (Exn e, World m PReadOnly (s_set_rvalid L1 o) tr (i :: r))).
  { unfold r_body. rewrite (bind_done _ _ _ tt (World m p (s_set_rvalid L1 o) tr (i :: r))) by (apply drive_ok, Hp).
    rewrite (bind_done _ _ _ tt (World m PReadOnly (s_set_rvalid L1 o) tr (i :: r))) by (destruct p; try contradiction; reflexivity).
    unfold bind, input. cbn [ins]. rewrite R. cbn [is_one]. unfold get. cbn [st].
    destruct (load_beat big m addr nb (len - count)) as [v|e]; [|exists e; reflexivity]. cbn [of_res]. unfold ret.
    destruct (Nat.eqb (length v) width); [exists ERuntime; reflexivity|exists EValue; reflexivity]. }
  destruct B as [e B]. exists e. exact (loop_exn f _ _ _ _ _ B).
Qed.
(** ... and ends after as many cycles without RREADY as there are beats *)
Lemma r_loop_skip addr len nb : forall l fuel m p o tr r, length l <= fuel -> p <> PReadOnly -> l <> [] ->
  Forall (fun i => s_rready i <> L1) l -> s_rlast o = L0 ->
  exists o', loop fuel (r_body big width addr len nb) (length l) (World m p o tr (l ++ r))
    = (Done tt, World m PActive o' (tr ++ held o' l) r) /\ o' = s_set_rvalid L1 o.
Proof.
  induction l as [|i l IH]; intros fuel m p o tr r Hf Hp N F RL; [contradiction|].
  inversion F as [|? ? Fi Fl]; subst. destruct fuel as [|f]; [cbn in Hf; lia|].
  set (o' := s_set_rvalid L1 o).
  assert (O : s_set_rlast L0 o' = o') by (unfold o', s_set_rlast, s_set_rvalid; cbn; rewrite RL; reflexivity).
  assert (B : r_body big width addr len nb (length (i :: l)) (World m p o tr (i :: l ++ r)) =
              (Done (if Nat.eqb (length l) 0 then inr tt else inl (length l)), World m PActive o' (tr ++ [(i, o')]) (l ++ r))).
  { unfold r_body. rewrite (bind_done _ _ _ tt (World m p o' tr (i :: l ++ r))) by (apply drive_ok, Hp).
    rewrite (bind_done _ _ _ tt (World m PReadOnly o' tr (i :: l ++ r))) by (destruct p; try contradiction; reflexivity).
    apply is_one_false in Fi. unfold bind, input. cbn [ins]. rewrite Fi. unfold ret, edge, drive. cbn [ins ph out trace st].
    rewrite O. cbn [length Nat.sub]. rewrite Nat.sub_0_r. destruct (Nat.eqb (length l) 0); reflexivity. }
  exists o'. split; [|reflexivity]. cbn [app]. rewrite (loop_step f _ _ _ _ _ B).
  destruct l as [|j l].
  - cbn [length Nat.eqb app held map]. reflexivity.
  - cbn [length Nat.eqb]. destruct (IH f m PActive o' (tr ++ [(i, o')]) r) as (o2 & E & ->); [cbn in *; lia|discriminate|discriminate|exact Fl|exact RL|].
    change (S (length l)) with (length (j :: l)). rewrite E. unfold o'. cbn [s_set_rvalid s_arready s_rvalid s_rlast s_rdata s_awready s_wready].
    cbn [held map]. rewrite <- app_assoc. reflexivity.
Qed.
End Beats.

(** ** from the address on *)
Section Burst.
Context (big : bool) (width : nat) (before : axs_in).
Lemma int_of_ok b n (w : world bytes axs_in axs_out) : bval b = Some (Z.of_nat n) -> int_of b w = (Done n, w).
Proof. intro H. unfold int_of. rewrite H, Nat2Z.id. reflexivity. Qed.
Lemma int_of_some b (w : world bytes axs_in axs_out) : bval b <> None -> exists n, int_of b w = (Done n, w).
Proof. intro H. unfold int_of. destruct (bval b); [eexists; reflexivity|contradiction]. Qed.
Lemma int_of_resolvable b (w : world bytes axs_in axs_out) : resolvable b = true -> exists n, int_of b w = (Done n, w).
Proof. intro H. apply int_of_some. apply bval_resolvable in H. destruct H as [v ->]. discriminate. Qed.
Lemma beat_bytes_ok n (w : world bytes axs_in axs_out) : n < 7 -> beat_bytes n w = (Done (2 ^ n), w).
Proof.
  intro H. unfold beat_bytes, size_to_bytes_in_beat. destruct (Nat.ltb_spec n 7); [reflexivity|lia].
Qed.

Lemma write_burst_start fuel m o tr i l addr len size :
  bval (s_awaddr i) = Some (Z.of_nat addr) -> bval (s_awlen i) = Some (Z.of_nat len) ->
  bval (s_awsize i) = Some (Z.of_nat size) -> size < 7 ->
  resolvable (s_awburst i) = true -> resolvable (s_awprot i) = true ->
  write_burst big before fuel (World m PReadOnly o tr (i :: l))
  = loop fuel (w_body big before addr (len + 1) (2 ^ size)) (len + 1) (World m PActive o (tr ++ [(i, o)]) l).
Proof.
  intros Ha Hl Hs H7 Hb Hp. set (w := World m PReadOnly o tr (i :: l)).
  unfold write_burst. rewrite (bind_done _ _ _ i w) by reflexivity.
  rewrite (bind_done _ _ _ _ _ (int_of_ok _ _ w Ha)), (bind_done _ _ _ _ _ (int_of_ok _ _ w Hl)), (bind_done _ _ _ _ _ (int_of_ok _ _ w Hs)).
  destruct (int_of_resolvable _ w Hb) as [n E]. rewrite (bind_done _ _ _ _ _ E). clear n E.
  destruct (int_of_resolvable _ w Hp) as [n E]. rewrite (bind_done _ _ _ _ _ E). clear n E.
  rewrite (bind_done _ _ _ _ _ (beat_bytes_ok _ w H7)). reflexivity.
Qed.
Lemma read_burst_start fuel m o tr i l addr len size :
  bval (s_araddr i) = Some (Z.of_nat addr) -> bval (s_arlen i) = Some (Z.of_nat len) ->
  bval (s_arsize i) = Some (Z.of_nat size) -> size < 7 ->
  resolvable (s_arburst i) = true -> resolvable (s_arprot i) = true ->
  read_burst big width fuel (World m PReadOnly o tr (i :: l))
  = loop fuel (r_body big width addr (len + 1) (2 ^ size)) (len + 1) (World m PActive o (tr ++ [(i, o)]) l).
Proof.
  intros Ha Hl Hs H7 Hb Hp. set (w := World m PReadOnly o tr (i :: l)).
  unfold read_burst. rewrite (bind_done _ _ _ i w) by reflexivity.
  rewrite (bind_done _ _ _ _ _ (int_of_ok _ _ w Ha)), (bind_done _ _ _ _ _ (int_of_ok _ _ w Hl)), (bind_done _ _ _ _ _ (int_of_ok _ _ w Hs)).
  destruct (int_of_resolvable _ w Hb) as [n E]. rewrite (bind_done _ _ _ _ _ E). clear n E.
  destruct (int_of_resolvable _ w Hp) as [n E]. rewrite (bind_done _ _ _ _ _ E). clear n E.
  rewrite (bind_done _ _ _ _ _ (beat_bytes_ok _ w H7)). reflexivity.
Qed.
Lemma size7 fuel m o tr i l :
  (bval (s_awaddr i) <> None -> bval (s_awlen i) <> None -> bval (s_awburst i) <> None -> bval (s_awprot i) <> None ->
   bval (s_awsize i) = Some 7%Z ->
   fst (write_burst big before fuel (World m PReadOnly o tr (i :: l))) = Exn EType) /\
  (bval (s_araddr i) <> None -> bval (s_arlen i) <> None -> bval (s_arburst i) <> None -> bval (s_arprot i) <> None ->
   bval (s_arsize i) = Some 7%Z ->
   fst (read_burst big width fuel (World m PReadOnly o tr (i :: l))) = Exn EType).
Proof.
  set (w := World m PReadOnly o tr (i :: l)).
  split; intros Ha Hl Hb Hp Hs.
  - unfold write_burst. rewrite (bind_done _ _ _ i w) by reflexivity.
    destruct (int_of_some _ w Ha) as [n1 E1]. rewrite (bind_done _ _ _ _ _ E1).
    destruct (int_of_some _ w Hl) as [n2 E2]. rewrite (bind_done _ _ _ _ _ E2).
    rewrite (bind_done _ _ _ _ _ (int_of_ok _ 7 w Hs)).
    destruct (int_of_some _ w Hb) as [n3 E3]. rewrite (bind_done _ _ _ _ _ E3).
    destruct (int_of_some _ w Hp) as [n4 E4]. rewrite (bind_done _ _ _ _ _ E4). reflexivity.
  - unfold read_burst. rewrite (bind_done _ _ _ i w) by reflexivity.
    destruct (int_of_some _ w Ha) as [n1 E1]. rewrite (bind_done _ _ _ _ _ E1).
    destruct (int_of_some _ w Hl) as [n2 E2]. rewrite (bind_done _ _ _ _ _ E2).
    rewrite (bind_done _ _ _ _ _ (int_of_ok _ 7 w Hs)).
    destruct (int_of_some _ w Hb) as [n3 E3]. rewrite (bind_done _ _ _ _ _ E3).
    destruct (int_of_some _ w Hp) as [n4 E4]. rewrite (bind_done _ _ _ _ _ E4). reflexivity.
Qed.

Lemma write_outs fuel m p o l : length l < fuel -> p <> PReadOnly ->
  Forall (fun x => snd x = s_set_wready L0 o) (trace (snd (write_data big before fuel (World m p o [] l)))).
Proof.
  intros Hf Hp. destruct (first_split (fun i => is_one (s_awvalid i)) l) as [(w & i & r & E & F & A)|F].
  - subst l. apply is_one_true in A. rewrite (write_dies big before fuel m p o [] w i r Hf Hp (forall_aw _ F) A).
    cbn [snd trace app]. apply (held_all (fun x => x = _)). reflexivity.
  - destruct (write_waits big before fuel m p o [] l Hf Hp (forall_aw _ F)) as [p' E]. rewrite E.
    cbn [snd trace app]. apply (held_all (fun x => x = _)). reflexivity.
Qed.
Lemma constructed fuel m p o l : length l < fuel -> p <> PReadOnly ->
  let '(r, w0) := axs_init (World m p o [] l) in
  r = Done tt /\ ins w0 = l /\
  Forall (fun x => s_arready (snd x) = L1 /\ s_rvalid (snd x) = L0 /\ s_rlast (snd x) = L0)
    (trace (snd (read_data big width fuel w0))) /\
  Forall (fun x => s_awready (snd x) = L1 /\ s_wready (snd x) = L0)
    (trace (snd (write_data big before fuel w0))).
Proof.
  intros Hf Hp.
  set (o1 := s_set_awready L1 (s_set_rlast L0 (s_set_rvalid L0 (s_set_arready L1 o)))).
  assert (E : axs_init (World m p o [] l) = (Done tt, World m p o1 [] l)).
  { unfold axs_init. rewrite (bind_done _ _ _ _ _ (drive_ok _ _ _ _ _ _ Hp)), (bind_done _ _ _ _ _ (drive_ok _ _ _ _ _ _ Hp)), (bind_done _ _ _ _ _ (drive_ok _ _ _ _ _ _ Hp)).
    apply drive_ok, Hp. }
  rewrite E. split; [reflexivity|]. split; [reflexivity|]. split.
  - destruct (read_never big width fuel m p o1 l Hf Hp) as (_ & H & _). eapply Forall_impl; [|exact H]. intros x ->. repeat split.
  - eapply Forall_impl; [|exact (write_outs fuel m p o1 l Hf Hp)]. intros x ->. repeat split.
Qed.
End Burst.
