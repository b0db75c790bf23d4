(** GuProof.v -- proofs about calls that are given up. *)
From Verif Require Import Base Async CompatModel PktModel MMModel MMSpec MMProof OpbModel HandshakeSpec AxiModel AxiSpec AxiChanProof AxiReadProof AxiRunProof AxiTopProof GuModel.
Local Open Scope list_scope.

(** ** the lock *)
Section Keep.
Context {TI TO : Type}.
Notation M := (M bool TI TO).
(** the code does not touch the lock *)
Definition keeps {A} (m : M A) : Prop := forall w r w', m w = (r, w') -> st w' = st w.
(** with the lock taken, when waiting the lock is taken *)
Definition holding {A} (m : M A) : Prop := forall w w', st w = true -> m w = (Susp, w') -> st w' = true.

Lemma keeps_bind {A B} (m : M A) (f : A -> M B) : keeps m -> (forall a, keeps (f a)) -> keeps (bind m f).
Proof.
  intros K F w r w' H. unfold bind in H. destruct (m w) as [[a|e| |] w1] eqn:E.
  - rewrite (F a _ _ _ H). exact (K _ _ _ E).
  - injection H as _ <-. exact (K _ _ _ E).
  - injection H as _ <-. exact (K _ _ _ E).
  - injection H as _ <-. exact (K _ _ _ E).
Qed.
Lemma keeps_ret {A} (a : A) : keeps (ret a). Proof. intros w r w' H. injection H as _ <-. reflexivity. Qed.
Lemma keeps_raise {A} e : keeps (raise e : M A). Proof. intros w r w' H. injection H as _ <-. reflexivity. Qed.
Lemma keeps_of_res {A} (x : res A) : keeps (of_res x). Proof. destruct x; [apply keeps_ret|apply keeps_raise]. Qed.
Lemma keeps_drive f : keeps (drive f). Proof. intros w r w' H. unfold drive in H. destruct (ph w); injection H as _ <-; reflexivity. Qed.
Lemma keeps_edge : keeps edge. Proof. intros w r w' H. unfold edge in H. destruct (ins w); injection H as _ <-; reflexivity. Qed.
Lemma keeps_readonly : keeps readonly. Proof. intros w r w' H. unfold readonly in H. destruct (ph w), (ins w); injection H as _ <-; reflexivity. Qed.
Lemma keeps_midstep : keeps midstep. Proof. intros w r w' H. unfold midstep in H. destruct (ins w); injection H as _ <-; reflexivity. Qed.
Lemma keeps_input : keeps input. Proof. intros w r w' H. unfold input in H. destruct (ins w); injection H as _ <-; reflexivity. Qed.
Lemma keeps_edge_of {K} eqb (key : TI -> K) : keeps (edge_of eqb key).
Proof.
  intros w r w' H. unfold edge_of in H. destruct (ins w) as [|i l]; [injection H as _ <-; reflexivity|].
  destruct (edge_of_rest _ _ _ _ _ _) as [[tr l']|]; injection H as _ <-; reflexivity.
Qed.
Lemma keeps_loop {L A} fuel (body : L -> M (L + A)) : (forall x, keeps (body x)) -> forall x, keeps (loop fuel body x).
Proof.
  intro K. induction fuel as [|f IH]; intros x; [intros w r w' H; injection H as _ <-; reflexivity|].
  cbn [loop]. apply keeps_bind; [apply K|]. intros [y|a]; [apply IH|apply keeps_ret].
Qed.

Lemma holding_bind {A B} (m : M A) (f : A -> M B) : keeps m -> (forall a, holding (f a)) -> holding (bind m f).
Proof.
  intros K F w w' S H. unfold bind in H. destruct (m w) as [[a|e| |] w1] eqn:E; try discriminate.
  - apply (F a w1 w'); [rewrite (K _ _ _ E); exact S|exact H].
  - injection H as <-. rewrite (K _ _ _ E). exact S.
Qed.
Lemma holding_release {A} (m : M A) : (forall w, exists a, m w = (Done a, w)) -> holding (bind release_lock (fun _ => m)).
Proof. intros T w w' S H. unfold bind, release_lock, put in H. destruct (T (World false (ph w) (out w) (trace w) (ins w))) as [a E]. rewrite E in H. discriminate. Qed.
Lemma holding_release' : holding release_lock.
Proof. intros w w' S H. discriminate. Qed.
Lemma holding_acquire {A} (m : M A) : holding m -> forall w w', bind acquire_lock (fun _ => m) w = (Susp, w') -> st w' = true.
Proof.
  intros T w w' H. unfold bind, acquire_lock, bind, get, put in H. destruct (st w) eqn:S.
  - injection H as <-. exact S.
  - refine (T _ _ _ H). reflexivity.
Qed.
End Keep.

Ltac keep := repeat first
  [apply keeps_of_res|apply keeps_drive|apply keeps_edge|apply keeps_readonly|apply keeps_midstep|apply keeps_input
  |apply keeps_edge_of|apply keeps_ret|apply keeps_raise|apply keeps_bind|apply keeps_loop|match goal with |- forall _, _ => intro end].

Lemma keeps_wait {TI TO} (key : TI -> logic) fuel : keeps (TO := TO) (wait_for_nsignal key fuel).
Proof.
  unfold wait_for_nsignal. apply keeps_bind; [apply keeps_readonly|intro]. apply keeps_bind; [|intro; apply keeps_midstep].
  apply keeps_loop. intro x. unfold nsignal_body. apply keeps_bind; [apply keeps_input|]. intro i.
  destruct (key i); keep.
Qed.

Section Masters.
Context (c : mm_cfg).
Lemma keeps_when b (m : M bool mm_in mm_out unit) : keeps m -> keeps (mm_when b m).
Proof. intro K. destruct b; [exact K|apply keeps_ret]. Qed.
Lemma keeps_be_all : keeps (set_be_all c). Proof. unfold set_be_all. destruct (a_be c); keep. Qed.
Lemma keeps_be_none : keeps (set_be_none c). Proof. unfold set_be_none. destruct (a_be c); keep. Qed.
Lemma keeps_rdv fuel : keeps (if a_rdv c then loop fuel (rdv_body) tt else readonly).
Proof.
  destruct (a_rdv c); [|apply keeps_readonly]. apply keeps_loop. intros []. unfold rdv_body.
  apply keeps_bind; [apply keeps_readonly|intros []]. apply keeps_bind; [apply keeps_input|intro i]. destruct (i_rdv i); keep.
Qed.
Ltac hold := repeat (apply holding_bind; [first [apply keeps_of_res|apply keeps_drive|apply keeps_edge|apply keeps_input|apply keeps_be_all|apply keeps_be_none|apply keeps_rdv
   |apply keeps_when; first [apply keeps_edge|apply keeps_drive|apply keeps_wait]]|intro]).

Lemma mm_read_given_up fuel a sync w w' : a_read c = true -> mm_read c fuel a sync w = (Susp, w') -> st w' = true.
Proof.
  intros R. unfold mm_read. rewrite R.
  match goal with |- bind (ret tt) ?f w = _ -> _ => change (f tt w = (Susp, w') -> st w' = true) end. cbn beta.
  apply holding_acquire. hold. apply holding_release. intro v. eexists. reflexivity.
Qed.
Lemma mm_write_given_up fuel a v w w' : a_write c = true -> mm_write c fuel a v w = (Susp, w') -> st w' = true.
Proof.
  intros R. unfold mm_write. rewrite R.
  match goal with |- bind (ret tt) ?f w = _ -> _ => change (f tt w = (Susp, w') -> st w' = true) end. cbn beta.
  apply holding_acquire. hold. apply holding_release'.
Qed.
End Masters.

Section Opb.
Context (c : opb_cfg) (before : opb_in).
Lemma keeps_sample : keeps (sample before).
Proof. intros w r w' H. unfold sample in H. destruct (ph w); [injection H as _ <-; reflexivity| |]; exact (keeps_input _ _ _ H). Qed.
Lemma keeps_bit b : keeps (int_bit b : M bool opb_in opb_out bool).
Proof. destruct b; keep. Qed.
Lemma keeps_ack fuel : keeps (wait_ack before fuel).
Proof.
  unfold wait_ack. apply keeps_loop. intro n. unfold ack_body. apply keeps_bind; [apply keeps_sample|intro i].
  apply keeps_bind; [apply keeps_bit|intros []]; [apply keeps_ret|].
  apply keeps_bind; [apply keeps_edge|intro]. apply keeps_bind; [apply keeps_readonly|intro]. apply keeps_bind; [apply keeps_sample|intro j].
  apply keeps_bind; [apply keeps_bit|intro b]. destruct (max_cycles <=? _); keep.
Qed.
Ltac holdo := repeat (apply holding_bind; [first [apply keeps_of_res|apply keeps_drive|apply keeps_edge|apply keeps_ack|apply keeps_sample
   |match goal with |- keeps (if ?b then _ else _) => destruct b; [apply keeps_edge|apply keeps_ret] end]|intro]).
Lemma opb_read_given_up fuel a sync w w' : opb_read c before fuel a sync w = (Susp, w') -> st w' = true.
Proof. unfold opb_read. apply holding_acquire. holdo. apply holding_release. intro v. eexists. reflexivity. Qed.
Lemma opb_write_given_up fuel a v sync w w' : opb_write c before fuel a v sync w = (Susp, w') -> st w' = true.
Proof. unfold opb_write. apply holding_acquire. holdo. apply holding_release'. Qed.
End Opb.

(** ** AXI *)
Section Axi.
Context (c : axi_cfg).
Local Open Scope Z_scope.

Definition shifted (d : Z) (mem : Z -> bits) : Z -> bits := fun x => mem (x - d).

Lemma cells_shift d mem a n : cells (shifted d mem) (a + d) n = cells mem a n.
Proof.
  unfold cells. apply flat_map_ext. intro k. unfold shifted. f_equal. lia.
Qed.
Lemma incr_words_shift d mem a size n : 0 < size -> (d mod size = 0) -> incr_words (shifted d mem) (a + d) size n = incr_words mem a size n.
Proof.
  intros S D. unfold incr_words. apply map_ext. intro j.
  replace (a + d + Z.of_nat j * size) with (a + Z.of_nat j * size + d) by lia. rewrite cells_shift.
  replace ((a + d) mod size) with (a mod size); [reflexivity|].
  rewrite Z.add_mod, D, Z.add_0_r, Z.mod_mod by lia. reflexivity.
Qed.
Lemma beat_shift size n a i k q : 0 < size -> beat_address INCR size n (a + k * (q * size)) i = beat_address INCR size n a i + k * (q * size).
Proof.
  intro S. unfold beat_address, aligned. destruct (i =? 0); [reflexivity|].
  replace (a + k * (q * size)) with (a + (k * q) * size) by lia. rewrite Z.div_add by lia. lia.
Qed.
Lemma read_beat_shift q size n a mem i rdata k : 0 < size -> 0 < q ->
  read_beat_ok (q * size) INCR size n a mem i rdata ->
  read_beat_ok (q * size) INCR size n (a + k * (q * size)) (shifted (k * (q * size)) mem) i rdata.
Proof.
  intros S Q [L H]. split; [exact L|]. intros x X. rewrite (beat_shift size n a i k q S) in *.
  set (b := beat_address INCR size n a i) in *.
  assert (B : 0 < q * size) by nia.
  assert (X' : lanes (q * size) size b x).
  { unfold lanes in *. rewrite Z.mod_add in X by lia. unfold aligned in *.
    replace (b + k * (q * size)) with (b + (k * q) * size) in X by lia. rewrite Z.div_add in X by lia.
    replace ((b / size + k * q) * size) with (b / size * size + k * (q * size)) in X by lia. rewrite Z.mod_add in X by lia. exact X. }
  rewrite (H x X'). unfold shifted. f_equal. rewrite Z.div_add by lia. lia.
Qed.

(** the first read, waiting for data *)
Lemma axi_read_waiting fuel a s p o tr l pre w h seg : read_ok c fuel a p l ->
  l = pre ++ w ++ h :: seg -> length pre = (if ra_sync a then 1 else 0)%nat ->
  Forall (fun i => ar_accepts i = false) w -> ar_accepts h = true -> Forall (fun i => r_beat i = false) seg ->
  let req := ax_request c o (ra_address a) (ra_length a) (ra_burst a) (size_or (x_bytes c) (ra_size a)) in
  let o' := ax_set_valid L0 req in
  exists p', axi_read c fuel a (World s p o tr l) = (Susp, World s p' o' (tr ++ held o pre ++ held req (w ++ [h]) ++ held o' seg) []).
Proof.
  intros [Hb Hl Ha Hp Hf] E Lp F1 F2 F3 req o'.
  pose proof (read_run_spec c fuel a (size_or (x_bytes c) (ra_size a)) s p o tr l Hb Hl Ha eq_refl Hp Hf) as R. cbn zeta in R. fold req o' in R.
  assert (Ep : (if ra_sync a then firstn 1 l else []) = pre /\ (if ra_sync a then skipn 1 l else l) = w ++ h :: seg).
  { rewrite E. destruct (ra_sync a).
    - destruct pre as [|x [|]]; try discriminate. split; reflexivity.
    - destruct pre; [|discriminate]. split; reflexivity. }
  destruct Ep as [Ep1 Ep2]. rewrite Ep1, Ep2, (span_split ar_accepts w h seg F1 F2) in R.
  assert (F4 : Forall (fun i => r_final c i = false) seg).
  { eapply Forall_impl; [|exact F3]. intros i I. unfold r_final. rewrite I. reflexivity. }
  rewrite (span_none' (r_final c) seg F4) in R. destruct R as [p' R].
  { eapply Forall_impl; [|exact F3]. intros i I B. congruence. }
  exists p'. unfold axi_read. rewrite (bind_susp _ _ _ _ R). rewrite <- !app_assoc. reflexivity.
Qed.
End Axi.
