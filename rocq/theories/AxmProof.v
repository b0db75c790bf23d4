(** AxmProof.v -- accesses of several tasks end. *)
From Verif Require Import Base Async BitsLemmas CompatModel PktModel HandshakeSpec Handshake AxiModel AxiSpec AxiDataProof AxiReadProof AxiChanProof AxiRunProof AxiTopProof AxcModel AxcSpec AxcProof AxcTopProof AxcWriteProof AxcReadProof AxmSpec.
Local Open Scope list_scope.

Lemma accepts_part {TI TO} off acc D (a b e : list (TI * TO)) : accepts_within off acc D (a ++ b ++ e) -> accepts_within off acc D b.
Proof.
  intros H x w y E L. apply (H (a ++ x) w (y ++ e)); [|exact L]. rewrite E, <- !app_assoc. reflexivity.
Qed.

(** ** the time a run takes *)
Section Lv.
Context {TO : Type} (off : TO -> bool) (acc : axi_in -> bool) (D : nat).
Notation world := (world unit axi_in TO).
Notation M := (M unit axi_in TO).
Notation within := (accepts_within off acc D).

Definition lv {A} (K : nat) (m : M A) (w : world) : Prop := forall r w', m w = (r, w') -> (r = Susp \/ exists a, r = Done a) ->
  exists seg, trace w' = trace w ++ seg /\ map fst seg ++ ins w' = ins w /\ (r = Susp -> ins w' = []) /\
    (within seg -> length seg <= K /\ (r = Susp -> length seg < K)).

Lemma lv_bind {A B} K1 K2 (m : M A) (k : A -> M B) w :
  lv K1 m w -> (forall a w1, m w = (Done a, w1) -> lv K2 (k a) w1) -> lv (K1 + K2) (bind m k) w.
Proof.
  intros H1 H2 r w' E R. unfold bind in E. destruct (m w) as [[a|e| |] w1] eqn:Em.
  - destruct (H1 _ _ Em (or_intror (ex_intro _ a eq_refl))) as (s1 & T1 & I1 & _ & L1).
    destruct (H2 a w1 eq_refl r w' E R) as (s2 & T2 & I2 & Z2 & L2).
    exists (s1 ++ s2). split; [rewrite T2, T1, app_assoc; reflexivity|]. split; [rewrite map_app, <- app_assoc, I2; exact I1|].
    split; [exact Z2|]. intro W. rewrite app_length.
    assert (W1 : within s1) by (apply (accepts_part _ _ _ [] s1 s2); exact W).
    assert (W2 : within s2) by (apply (accepts_part _ _ _ s1 s2 []); rewrite app_nil_r; exact W).
    destruct (L1 W1) as [L1' _]. destruct (L2 W2) as [L2' L2'']. split; [lia|]. intro Er. specialize (L2'' Er). lia.
  - inversion E; subst. destruct R as [R|(x & R)]; discriminate.
  - inversion E; subst. destruct (H1 _ _ Em (or_introl eq_refl)) as (s1 & T1 & I1 & Z1 & L1).
    exists s1. split; [exact T1|]. split; [exact I1|]. split; [intros _; exact (Z1 eq_refl)|]. intro W. destruct (L1 W) as [L1' L1'']. specialize (L1'' eq_refl). split; [lia|intros _; lia].
  - inversion E; subst. destruct R as [R|(x & R)]; discriminate.
Qed.
Lemma lv_still {A} (m : M A) w : (forall w', m w <> (Susp, w')) -> (forall a w', m w = (Done a, w') -> trace w' = trace w /\ ins w' = ins w) -> lv 0 m w.
Proof.
  intros H1 H2 r w' E R. destruct R as [->|(a & ->)]; [destruct (H1 w' E)|]. destruct (H2 a w' E) as [T I]. exists [].
  rewrite app_nil_r. cbn [map app length]. split; [exact T|]. split; [exact I|]. split; [discriminate|]. intros _. split; [lia|discriminate].
Qed.
Lemma lv_drive f w : lv 0 (drive f) w.
Proof.
  apply lv_still.
  - intros w' E. unfold drive in E. destruct (ph w); discriminate.
  - intros [] w' E. destruct (drive_same _ _ _ _ E) as (_ & A & B & _). auto.
Qed.
Lemma lv_assign n z set w : lv 0 (assign n z set) w.
Proof.
  apply lv_still.
  - intros w' E. unfold assign, bind, of_res, drive in E. destruct (assign_int n z); cbn in E; try discriminate.
    unfold ret in E. destruct (ph w); discriminate.
  - intros [] w' E. destruct (assign_same _ _ _ _ _ _ E) as (_ & A & B & _). auto.
Qed.
Lemma lv_ret {A} (a : A) w : lv 0 (ret a) w.
Proof. apply lv_still; [discriminate|]. intros b w' E. inversion E. auto. Qed.
Lemma lv_when b m w : lv 0 m w -> lv 0 (x_when b m) w.
Proof. intro H. destruct b; [exact H|apply lv_ret]. Qed.
Lemma lv_edges n w : lv n (edges n) w.
Proof.
  intros r w' E R. rewrite edges_spec in E. destruct (n <=? length (ins w)) eqn:El; inversion E; subst; cbn [trace ins].
  - apply Nat.leb_le in El. exists (held (out w) (firstn n (ins w))). split; [reflexivity|].
    rewrite held_fst, firstn_skipn. split; [reflexivity|]. split; [discriminate|]. intros _. rewrite held_length, firstn_length. split; [lia|discriminate].
  - apply Nat.leb_gt in El. exists (held (out w) (ins w)). split; [reflexivity|]. rewrite held_fst, app_nil_r. split; [reflexivity|]. split; [reflexivity|].
    intros _. rewrite held_length. split; [lia|intros _; lia].
Qed.
Lemma lv_sync sync w : lv 1 (x_when sync edge) w.
Proof.
  destruct sync; cbn [x_when]; intros r w' E R.
  - unfold edge in E. destruct (ins w) as [|i l] eqn:Ei; inversion E; subst.
    + exists []. rewrite app_nil_r. cbn [map app length]. split; [reflexivity|]. split; [exact Ei|]. split; [intros _; exact Ei|]. intros _. split; [lia|intros _; lia].
    + exists [(i, out w)]. cbn [map app fst length ins trace]. split; [reflexivity|]. split; [reflexivity|]. split; [discriminate|]. intros _. split; [lia|discriminate].
  - inversion E; subst. exists []. rewrite app_nil_r. cbn [map app length]. split; [reflexivity|]. split; [reflexivity|]. split; [discriminate|]. intros _. split; [lia|discriminate].
Qed.
(** something is offered until it is accepted *)
Lemma wait_bound o nr e : off o = true -> Forall (fun i => acc i = false) nr -> within (held o (nr ++ e)) -> length nr < D.
Proof.
  intros Ho F W. destruct (le_lt_dec D (length nr)) as [L|L]; [|exact L]. exfalso.
  specialize (W [] (held o (firstn D nr)) (held o (skipn D nr ++ e))).
  assert (E : held o (nr ++ e) = [] ++ held o (firstn D nr) ++ held o (skipn D nr ++ e)).
  { cbn [app]. rewrite <- held_app, app_assoc, firstn_skipn. reflexivity. }
  specialize (W E). rewrite held_length, firstn_length in W. specialize (W ltac:(lia)).
  assert (F1 : Forall (fun i => acc i = false) (firstn D nr)).
  { rewrite <- (firstn_skipn D nr), Forall_app in F. apply F. }
  assert (A1 : forallb (fun y => off (snd y)) (held o (firstn D nr)) = true).
  { apply forallb_forall. intros y Hy. apply in_map_iff in Hy. destruct Hy as (i & <- & _). exact Ho. }
  specialize (W A1). apply existsb_exists in W. destruct W as (y & Hy & Ey). apply in_map_iff in Hy. destruct Hy as (i & <- & Hi).
  rewrite Forall_forall in F1. cbn [fst] in Ey. rewrite (F1 i Hi) in Ey. discriminate.
Qed.
Lemma lv_accepted (m : M unit) (w : world) p' : off (out w) = true ->
  m w = match span acc (ins w) with
        | (_, []) => (Susp, World (st w) p' (out w) (trace w ++ held (out w) (ins w)) [])
        | (nr, i :: r) => (Done tt, World (st w) PActive (out w) (trace w ++ held (out w) (nr ++ [i])) r)
        end -> lv D m w.
Proof.
  intros Ho Em r w' E _. rewrite Em in E. pose proof (span_fst acc (ins w)) as Sf. pose proof (span_app acc (ins w)) as Sp.
  destruct (span acc (ins w)) as [nr [|i rr]]; cbn [fst snd] in *; inversion E; subst; cbn [trace ins].
  - rewrite app_nil_r in Sp. subst nr. exists (held (out w) (ins w)). rewrite held_fst, app_nil_r. split; [reflexivity|]. split; [reflexivity|]. split; [reflexivity|].
    intro W. pose proof (wait_bound (out w) (ins w) [] Ho Sf) as B. rewrite app_nil_r in B. specialize (B W). rewrite held_length. split; [lia|intros _; lia].
  - exists (held (out w) (nr ++ [i])). rewrite held_fst. split; [reflexivity|]. split; [rewrite <- app_assoc; exact Sp|]. split; [discriminate|].
    intro W. pose proof (wait_bound (out w) nr [i] Ho Sf W) as B. rewrite held_length, app_length. cbn [length]. split; [lia|discriminate].
Qed.
Lemma lv_weaken {A} K K' (m : M A) w : K <= K' -> lv K m w -> lv K' m w.
Proof.
  intros HK H r w' E R. destruct (H r w' E R) as (s & T & I & Z & L). exists s. repeat (split; [assumption|]).
  intro W. destruct (L W) as [L1 L2]. split; [lia|]. intro Er. specialize (L2 Er). lia.
Qed.

(** ** one channel, many tasks *)
Context {A P : Type} (body : A -> M unit) (proj : TO -> P) (words : A -> list P) (cost K : A -> nat) (fuel : nat) (ok : A -> Prop).
Hypothesis HB : forall a (w : world), ok a -> ph w <> PReadOnly -> off (out w) = false -> free off acc (trace w) -> length (ins w) < fuel ->
  exists ds, map proj ds = words a /\ tx off acc (body a) w ds (cost a) (fun _ w' => off (out w') = false /\ at_handshake off acc (trace w')).
Hypothesis HP : forall a (w : world) r w', ok a -> ph w <> PReadOnly -> body a w = (Done r, w') -> ph w' <> PReadOnly.
Hypothesis HK : forall a (w : world), ok a -> ph w <> PReadOnly -> off (out w) = false -> length (ins w) < fuel -> lv (K a) (body a) w.

Lemma serve_lv T jobs : Forall (fun j => ok (snd j) /\ fst j <= T) jobs -> forall w : world,
  ph w <> PReadOnly -> off (out w) = false -> free off acc (trace w) -> stable off acc (trace w) -> length (ins w) < fuel ->
  let '(rs, v) := serve body jobs w in
  let B := Nat.max T (length (trace w)) + list_sum (map (fun j => K (snd j)) jobs) in
  (exists new, trace v = trace w ++ new) /\
  (accepts_within off acc D (trace v ++ held (out v) (ins v)) -> B <= length (trace w) + length (ins w) ->
   length rs = length jobs /\ length (trace v) <= B).
Proof.
  induction 1 as [|[t a] jobs [Oa Ht] _ IH]; intros w Hp Ho Hf St Hl.
  - cbn [serve map list_sum]. split; [exists []; rewrite app_nil_r; reflexivity|]. intros _ _. split; [reflexivity|]. cbn [fold_right]. lia.
  - cbn [serve]. cbn [snd fst] in *. set (d := t - length (trace w)).
    pose proof (tx_edges off acc d w
      (fun _ w' => ph w' <> PReadOnly /\ out w' = out w /\ free off acc (trace w')) Ho Hf Hp
      ltac:(intros p' tr' l' Hp' Hf'; cbn; auto)) as TE.
    specialize (TE St).
    pose proof (lv_edges d w) as LE. unfold lv in LE.
    assert (L0 : forall w0, edges d w = (Done tt, w0) -> length (trace w0) = length (trace w) + d).
    { intros w0 E0. rewrite edges_spec in E0. destruct (d <=? length (ins w)) eqn:Ed; [|discriminate].
      inversion E0; subst w0. cbn [trace]. rewrite app_length, held_length, firstn_length. apply Nat.leb_le in Ed. lia. }
    cbn [map list_sum fold_right snd]. fold (list_sum (map (fun j : nat * A => K (snd j)) jobs)).
    unfold bind at 1. destruct (edges d w) as [r0 w0] eqn:E0.
    destruct TE as (n0 & T0 & I0 & S0 & C0). destruct r0 as [[]|e| |]; try contradiction.
    + destruct C0 as (_ & _ & C3 & C4 & C5). specialize (L0 w0 eq_refl).
      assert (Hl0 : length (ins w0) < fuel) by (rewrite <- I0, app_length in Hl; lia).
      destruct (HB a w0 Oa C3 ltac:(rewrite C4; exact Ho) C5 Hl0) as (ds & _ & TX). specialize (TX S0).
      pose proof (HP a w0) as HP0. pose proof (HK a w0 Oa C3 ltac:(rewrite C4; exact Ho) Hl0) as KL. unfold lv in KL.
      destruct (body a w0) as [r1 w1] eqn:E1. destruct TX as (n1 & T1 & I1 & S1 & Dn).
      destruct r1 as [[]|e| |]; try contradiction.
      * destruct Dn as (_ & _ & D3 & D4).
        destruct (KL _ _ eq_refl (or_intror (ex_intro _ tt eq_refl))) as (s1 & U1 & J1 & _ & Lk).
        assert (Hl1 : length (ins w1) < fuel) by (rewrite <- I1, app_length in Hl0; lia).
        specialize (IH w1 (HP0 tt w1 Oa C3 eq_refl) D3 (handshake_free _ _ _ D4) S1 Hl1).
        destruct (serve body jobs w1) as [rs v]. destruct IH as [(s2 & SP) IH].
        split; [exists (n0 ++ s1 ++ s2); rewrite SP, U1, T0, <- !app_assoc; reflexivity|]. intros W HBd.
        assert (Wx : accepts_within off acc D s1).
        { apply (accepts_part _ _ _ (trace w0) s1 (s2 ++ held (out v) (ins v))).
          rewrite SP, U1, <- !app_assoc in W. exact W. }
        destruct (Lk Wx) as [Lk1 _].
        assert (Ll : length (trace w1) + length (ins w1) = length (trace w) + length (ins w)).
        { rewrite <- I0, <- I1, T1, T0, !app_length, !map_length. lia. }
        assert (L1 : length (trace w1) <= Nat.max T (length (trace w)) + K a) by (rewrite U1, app_length; unfold d in L0; lia).
        destruct (IH W ltac:(lia)) as [R1 R2].
        cbn [length]. split; [rewrite R1; reflexivity|lia].
      * destruct (KL _ _ eq_refl (or_introl eq_refl)) as (s1 & U1 & J1 & Z1 & Lk). specialize (Z1 eq_refl).
        split; [exists (n0 ++ s1); rewrite U1, T0, <- app_assoc; reflexivity|]. intros W HBd. exfalso.
        assert (Wx : accepts_within off acc D s1).
        { rewrite Z1 in W. cbn [held map] in W. rewrite app_nil_r, U1 in W. apply (accepts_part _ _ _ (trace w0) s1 []). rewrite app_nil_r. exact W. }
        destruct (Lk Wx) as [_ Lk1]. specialize (Lk1 eq_refl).
        assert (Ll : length (trace w0) + length (ins w0) = length (trace w) + length (ins w)).
        { rewrite <- I0, T0, !app_length, !map_length. lia. }
        rewrite Z1, app_nil_r in J1. rewrite <- J1, map_length in Ll. unfold d in L0. lia.
    + destruct (LE _ _ eq_refl (or_introl eq_refl)) as (s1 & U1 & J1 & Z1 & Lk). specialize (Z1 eq_refl).
      split; [exists s1; exact U1|]. intros W HBd. exfalso.
      assert (Wx : accepts_within off acc D s1).
      { rewrite Z1 in W. cbn [held map] in W. rewrite app_nil_r, U1 in W. apply (accepts_part _ _ _ (trace w) s1 []). rewrite app_nil_r. exact W. }
      destruct (Lk Wx) as [_ Lk1]. specialize (Lk1 eq_refl). rewrite Z1, app_nil_r in J1. rewrite <- J1, map_length in HBd. unfold d in Lk1. lia.
Qed.
End Lv.

(** ** the channels *)
Lemma when_assign_valid b n z set (w w' : world unit axi_in ax_out) r : 
  x_when b (assign n z set) w = (Done r, w') -> (forall v o, aw_offered (set v o) = aw_offered o) -> aw_offered (out w') = aw_offered (out w).
Proof.
  intros E H. destruct b; cbn [x_when] in E; [destruct (assign_same _ _ _ _ _ _ E) as (_ & _ & _ & v & ->); apply H|]. inversion E; subst. reflexivity.
Qed.
Lemma lv_ext {TO A} off acc D K (m m' : M unit axi_in TO A) w : m w = m' w -> lv off acc D K m' w -> lv off acc D K m w.
Proof. intros E H r w' Em R. rewrite E in Em. exact (H r w' Em R). Qed.
Lemma lv_offer {TO} (off : TO -> bool) D key fuel f (w : world unit axi_in TO) : ph w <> PReadOnly -> length (ins w) < fuel -> off (out w) = true ->
  lv off (fun i => is1 (key i)) D D (until1 key fuel ;; edge ;; drive f) w.
Proof.
  intros Hp Hl Ho. 
  apply (lv_ext _ _ _ _ _ _ _ (eq_sym (bind_assoc (until1 key fuel) (fun _ => edge) (fun _ => drive f) w))).
  apply (lv_weaken _ _ _ (D + 0)); [lia|]. apply lv_bind; [|intros [] w1 _; apply lv_drive].
  destruct w as [[] p o tr l]. destruct (until1_edge key l fuel tt p o tr Hp Hl) as [p' E].
  apply (lv_accepted _ _ _ _ _ p' Ho). exact E.
Qed.

Section Jobs.
Context (c : axi_cfg) (fuel D : nat).
Lemma ar_lv x (w : world unit axi_in ax_out) : ph w <> PReadOnly -> aw_offered (out w) = false -> length (ins w) < fuel ->
  lv aw_offered ar_accepts D (1 + D) (ar_job c fuel x) w.
Proof.
  destruct x as [a size]. intros Hp Ho Hl. cbn [ar_job].
  apply (lv_weaken _ _ _ (1 + (0 + (0 + (0 + (0 + (0 + D))))))); [lia|].
  apply lv_bind; [apply lv_sync|]. intros [] w2 E2.
  destruct (sync_same aw_offered ar_accepts _ _ _ _ Ho E2) as (B1 & B2 & B3 & _). specialize (B2 Hp).
  apply lv_bind; [apply lv_assign|]. intros [] w3 E3. destruct (assign_same _ _ _ _ _ _ E3) as (C1 & C2 & C3 & _).
  apply lv_bind; [apply lv_drive|]. intros [] w4 E4. destruct (drive_same _ _ _ _ E4) as (D1 & D2 & D3 & D4).
  apply lv_bind; [apply lv_when, lv_assign|]. intros [] w5 E5. destruct (when_assign_same _ _ _ _ _ _ _ E5) as (F1 & F2 & F3).
  apply lv_bind; [apply lv_when, lv_assign|]. intros [] w6 E6. destruct (when_assign_same _ _ _ _ _ _ _ E6) as (G1 & G2 & G3).
  apply lv_bind; [apply lv_when, lv_assign|]. intros [] w7 E7. destruct (when_assign_same _ _ _ _ _ _ _ E7) as (H1 & H2 & H3).
  apply lv_offer; [congruence|rewrite H3, G3, F3, D3, C3; lia|].
  rewrite (when_assign_valid _ _ _ _ _ _ _ E7 ltac:(reflexivity)), (when_assign_valid _ _ _ _ _ _ _ E6 ltac:(reflexivity)),
          (when_assign_valid _ _ _ _ _ _ _ E5 ltac:(reflexivity)), D4. reflexivity.
Qed.
Lemma aw_lv x (w : world unit axi_in ax_out) : ph w <> PReadOnly -> aw_offered (out w) = false -> length (ins w) < fuel ->
  lv aw_offered aw_accepts D (1 + wa_alat (fst x) + D) (aw_job c fuel x) w.
Proof.
  destruct x as [a size]. intros Hp Ho Hl. cbn [aw_job fst]. unfold send_write_address.
  apply (lv_weaken _ _ _ (1 + (wa_alat a + (0 + (0 + (0 + (0 + (0 + D)))))))); [lia|].
  apply lv_bind; [apply lv_sync|]. intros [] w1 E1.
  destruct (sync_same aw_offered aw_accepts _ _ _ _ Ho E1) as (A1 & A2 & A3 & _). specialize (A2 Hp). rewrite <- A1 in Ho.
  apply lv_bind; [apply lv_edges|]. intros [] w2 E2.
  destruct (edges_same aw_offered aw_accepts _ _ _ _ Ho E2) as (B1 & B2 & B3 & _). specialize (B2 A2).
  apply lv_bind; [apply lv_assign|]. intros [] w3 E3. destruct (assign_same _ _ _ _ _ _ E3) as (C1 & C2 & C3 & _).
  apply lv_bind; [apply lv_drive|]. intros [] w4 E4. destruct (drive_same _ _ _ _ E4) as (D1 & D2 & D3 & D4).
  apply lv_bind; [apply lv_when, lv_assign|]. intros [] w5 E5. destruct (when_assign_same _ _ _ _ _ _ _ E5) as (F1 & F2 & F3).
  apply lv_bind; [apply lv_when, lv_assign|]. intros [] w6 E6. destruct (when_assign_same _ _ _ _ _ _ _ E6) as (G1 & G2 & G3).
  apply lv_bind; [apply lv_when, lv_assign|]. intros [] w7 E7. destruct (when_assign_same _ _ _ _ _ _ _ E7) as (H1 & H2 & H3).
  apply lv_offer; [congruence|rewrite H3, G3, F3, D3, C3; lia|].
  rewrite (when_assign_valid _ _ _ _ _ _ _ E7 ltac:(reflexivity)), (when_assign_valid _ _ _ _ _ _ _ E6 ltac:(reflexivity)),
          (when_assign_valid _ _ _ _ _ _ _ E5 ltac:(reflexivity)), D4. reflexivity.
Qed.

Lemma beats_lv delay bs : forall w : world unit axi_in w_out, length (ins w) < fuel ->
  lv w_offered w_accepts D (length bs * (delay + D)) (send_beats c fuel delay bs) w.
Proof.
  induction bs as [|[word strobe] r IH]; intros w Hl; [apply lv_ret|]. cbn [send_beats length].
  apply (lv_weaken _ _ _ (delay + (0 + (0 + (0 + (0 + (D + (0 + length r * (delay + D))))))))); [lia|].
  apply lv_bind; [apply lv_edges|]. intros [] w1 E1.
  assert (B2 : length (ins w1) <= length (ins w)).
  { rewrite edges_spec in E1. destruct (_ <=? _); inversion E1; subst. cbn [ins]. rewrite skipn_length. lia. }
  apply lv_bind; [apply lv_drive|]. intros [] w2 E2. destruct (drive_same _ _ _ _ E2) as (C1 & C2 & C3 & C4).
  apply lv_bind; [apply lv_assign|]. intros [] w3 E3. destruct (assign_same _ _ _ _ _ _ E3) as (D1 & D2 & D3 & D4).
  apply lv_bind; [apply lv_assign|]. intros [] w4 E4. destruct (assign_same _ _ _ _ _ _ E4) as (F1 & F2 & F3 & F4).
  apply lv_bind; [apply lv_when, lv_drive|]. intros [] w5 E5.
  assert (G : ins w5 = ins w4 /\ x_wvalid (out w5) = x_wvalid (out w4)).
  { destruct (x_wlast c); cbn [x_when] in E5.
    - destruct (drive_same _ _ _ _ E5) as (G1 & G2 & G3 & G4). rewrite G4. auto.
    - inversion E5; subst; auto. }
  destruct G as (G3 & G4).
  assert (Hv : w_offered (out w5) = true).
  { unfold w_offered. rewrite G4. destruct F4 as [v4 ->]. destruct D4 as [v3 ->]. rewrite C4. reflexivity. }
  assert (Hl5 : length (ins w5) < fuel) by (rewrite G3, F3, D3, C3; lia).
  clear - IH Hv Hl5. destruct w5 as [s5 p5 o5 tr5 l5]. cbn [ins out] in *.
  destruct (sample_loop l5 fuel s5 p5 o5 tr5 Hl5) as [p' E]. apply lv_bind.
  - apply (lv_accepted w_offered w_accepts D _ (World s5 p5 o5 tr5 l5) p' Hv). exact E.
  - intros [] w6 E6.
    assert (L6 : length (ins w6) < fuel).
    { rewrite E in E6. pose proof (span_app w_accepts l5) as Sp. destruct (span w_accepts l5) as [nr [|i rr]]; inversion E6; subst. cbn [ins fst snd] in *.
      rewrite app_length in Hl5. cbn [length] in Hl5. lia. }
    apply lv_bind; [apply lv_when, lv_drive|]. intros [] w7 E7. apply IH.
    destruct r; cbn [x_when] in E7; [destruct (drive_same _ _ _ _ E7) as (_ & _ & -> & _); exact L6|inversion E7; subst; exact L6].
Qed.
Lemma w_lv (Hbus : axi_bus c) x (w : world unit axi_in w_out) : aw_ok c x -> length (ins w) < fuel ->
  lv w_offered w_accepts D (1 + length (wa_value (fst x)) * (wa_dlat (fst x) + D)) (w_job c fuel x) w.
Proof.
  intros H Hl. destruct (w_facts c Hbus x H) as (bs & E & L & F & P). destruct x as [a size]. cbn [fst snd w_job] in *.
  unfold send_write_data. rewrite E. rewrite <- L. apply (lv_weaken _ _ _ (0 + (1 + length bs * (wa_dlat a + D)))); [lia|].
  apply lv_bind; [apply lv_ret|]. intros bs' w1 E1. inversion E1; subst bs' w1.
  apply lv_bind; [apply lv_sync|]. intros [] w1 E2. apply beats_lv.
  destruct (wa_sync a); cbn [x_when] in E2; [|inversion E2; subst; exact Hl]. unfold edge in E2. destruct (ins w) as [|i l] eqn:Ei; inversion E2; subst. cbn [ins length] in *. lia.
Qed.
End Jobs.

(** ** all requests are taken *)
Lemma list_max_le t (l : list nat) : In t l -> t <= list_max l.
Proof. intro H. pose proof (proj1 (list_max_le l (list_max l)) (le_n _)) as F. rewrite Forall_forall in F. exact (F t H). Qed.

Lemma firstn_full {TI TO} (tr : list (TI * TO)) o l m : length tr <= m -> exists l', firstn m (tr ++ held o l) = tr ++ held o l'.
Proof.
  intro H. exists (firstn (m - length tr) l). rewrite firstn_app, firstn_all2 by lia. f_equal. unfold held. rewrite firstn_map. reflexivity.
Qed.

Section All.
Context {TO A P : Type} (off : TO -> bool) (acc : axi_in -> bool) (D : nat).
Context (body : A -> M unit axi_in TO unit) (proj : TO -> P) (words : A -> list P) (cost K : A -> nat) (fuel : nat) (ok : A -> Prop).
Hypothesis HB : forall a (w : world unit axi_in TO), ok a -> ph w <> PReadOnly -> off (out w) = false -> free off acc (trace w) -> length (ins w) < fuel ->
  exists ds, map proj ds = words a /\ tx off acc (body a) w ds (cost a) (fun _ w' => off (out w') = false /\ at_handshake off acc (trace w')).
Hypothesis HS : forall a (w : world unit axi_in TO), ok a -> ph w <> PReadOnly -> off (out w) = false -> length (ins w) < fuel ->
  sus off acc (body a) w (cnt off acc w + length (words a)).
Hypothesis HP : forall a (w : world unit axi_in TO) r w', ok a -> ph w <> PReadOnly -> body a w = (Done r, w') -> ph w' <> PReadOnly.
Hypothesis HN : forall a, ok a -> words a <> [].
Hypothesis HK : forall a (w : world unit axi_in TO), ok a -> ph w <> PReadOnly -> off (out w) = false -> length (ins w) < fuel -> lv off acc D (K a) (body a) w.

Lemma all_taken jobs p o l : Forall (fun j => ok (snd j)) jobs -> p <> PReadOnly -> off o = false -> length l < fuel ->
  let '(rs, v) := serve body jobs (World tt p o [] l) in
  let full := trace v ++ held (out v) (ins v) in
  let B := list_max (map fst jobs) + list_sum (map (fun j => K (snd j)) jobs) in
  accepts_within off acc D full -> B <= length l ->
  forall m, B <= m -> length (transfers off acc (firstn m full)) = total words (map snd jobs).
Proof.
  intros Fo Hp Ho Hl.
  assert (F : Forall (fun j => ok (snd j) /\ fst j <= list_max (map fst jobs)) jobs).
  { apply Forall_forall. intros j Hj. rewrite Forall_forall in Fo. split; [apply Fo, Hj|]. apply list_max_le, in_map, Hj. }
  assert (Fr : free off acc (@nil (axi_in * TO))) by (intro; exact I).
  pose proof (serve_tx off acc body proj words cost fuel ok HB HS HP HN _ jobs F (World tt p o [] l) Hp Ho Fr I Hl) as S1.
  pose proof (serve_lv off acc D body proj words cost K fuel ok HB HP HK _ jobs F (World tt p o [] l) Hp Ho Fr I Hl) as S2.
  destruct (serve body jobs (World tt p o [] l)) as [rs v]. cbn zeta in S1, S2. cbn [trace ins length] in *. rewrite Nat.max_0_r in S2. cbn [Nat.add] in S2.
  cbn zeta. intros W HBd m Hm. destruct S2 as [_ S2]. destruct (S2 W HBd) as [R1 R2].
  destruct S1 as (new & T1 & _ & _ & _ & _ & _ & C & _). cbn [app] in T1. destruct (C R1) as (C1 & C2 & _).
  destruct (firstn_full (trace v) (out v) (ins v) m ltac:(lia)) as (l' & ->). rewrite transfers_app, (transfers_idle off acc (out v) l' C2), app_nil_r.
  rewrite T1, <- (map_length proj), C1. reflexivity.
Qed.
End All.

(** ** counting the answers *)
Lemma grows (f : nat -> nat) A E N L : (forall m n, m <= n -> f m <= f n) ->
  (forall m, A <= m -> m + E <= L -> f m < N -> f m < f (m + E)) -> A + N * E <= L -> N <= f (A + N * E).
Proof.
  intros Hm Hg HL. assert (G : forall k, k <= N -> k <= f (A + k * E)); [|apply G; lia].
  induction k as [|k IH]; intro Hk; [lia|]. specialize (IH ltac:(lia)).
  assert (Ek : A + S k * E = A + k * E + E) by (cbn [Nat.mul]; lia). rewrite Ek.
  assert (L2 : S k * E <= N * E) by (apply Nat.mul_le_mono_r; exact Hk).
  destruct (le_lt_dec N (f (A + k * E))) as [H|H].
  - pose proof (Hm (A + k * E) (A + k * E + E) ltac:(lia)). lia.
  - specialize (Hg (A + k * E) ltac:(lia) ltac:(lia) H). lia.
Qed.
Lemma filter_firstn_mono {T} (q : T -> bool) l : forall m n, m <= n -> length (filter q (firstn m l)) <= length (filter q (firstn n l)).
Proof.
  induction l as [|x l IH]; intros m n H; [rewrite !firstn_nil; lia|]. destruct m as [|m]; [cbn; lia|]. destruct n as [|n]; [lia|].
  cbn [firstn filter]. specialize (IH m n ltac:(lia)). destruct (q x); cbn [length]; lia.
Qed.
Lemma filter_firstn_le {T} (q : T -> bool) l m : length (filter q (firstn m l)) <= length (filter q l).
Proof. rewrite <- (firstn_all l) at 2. destruct (le_lt_dec m (length l)) as [H|H]; [apply filter_firstn_mono, H|]. rewrite !firstn_all2 by lia. lia. Qed.
Lemma sum_const {T} (f : T -> nat) K l : (forall x, f x = K) -> list_sum (map f l) = length l * K.
Proof. intro H. induction l as [|x l IH]; [reflexivity|]. cbn [map list_sum fold_right length]. fold (list_sum (map f l)). rewrite IH, H. lia. Qed.
Lemma sum_le {T} (f g : T -> nat) l : (forall x, f x <= g x) -> list_sum (map f l) <= list_sum (map g l).
Proof. intro H. induction l as [|x l IH]; [cbn; lia|]. cbn [map list_sum fold_right]. fold (list_sum (map f l)) (list_sum (map g l)). specialize (H x). lia. Qed.
Lemma map_fst_combine {A B} (a : list A) (b : list B) : length b = length a -> map fst (combine a b) = a.
Proof. revert b. induction a as [|x a IH]; intros [|y b] H; try discriminate; [reflexivity|]. cbn [combine map fst]. f_equal. apply IH. cbn in H. lia. Qed.

(** ** reads *)
Lemma reads_ended c fuel calls p o l : reads_ok c fuel calls p o l ->
  let r := concurrent_reads c fuel calls p o l in
  answers_reads c r l -> Forall (fun i => r_beat i = true -> r_beat_ok c i) l -> Forall (fun x => ended (snd x)) (rs_results r).
Proof.
  intros Hok r HA HR. set (h := AxiIn L0 L0 L0 [] L1 L0 [] [] L0).
  destruct (reads_results c fuel calls p o l Hok h eq_refl HA HR) as [E1 _]. fold r in E1. rewrite E1. destruct Hok as (Hb & F & _).
  pose proof (burst_shape c l [] ltac:(constructor)) as Sh. pose proof (burst_ok c l HR [] ltac:(constructor)) as Bk.
  apply Forall_forall. intros y Hy. apply in_map_iff in Hy. destruct Hy as ([a bs] & <- & Hin). cbn [fst snd].
  pose proof (in_combine_l _ _ _ _ Hin) as H1. pose proof (in_combine_r _ _ _ _ Hin) as H2.
  apply in_map_iff in H1. destruct H1 as ([t a'] & <- & H1). cbn [snd]. rewrite Forall_forall in F, Sh, Bk.
  rewrite (alone_beats c a' h bs Hb (F _ H1) eq_refl (Sh _ H2) (Bk _ H2)). unfold beats_result.
  destruct (_ =? _)%Z; [|exact I]. destruct (rbind _ _); exact I.
Qed.
Lemma reads_end c fuel calls p o l D E : reads_ok c fuel calls p o l ->
  let r := concurrent_reads c fuel calls p o l in
  answers_reads c r l -> Forall (fun i => r_beat i = true -> r_beat_ok c i) l ->
  accepts_within aw_offered ar_accepts D (rs_ar r) -> completes_within c E (rs_ar r) l ->
  list_max (map fst calls) + length calls * (1 + D + E) <= length l ->
  map fst (rs_results r) = map snd calls /\ Forall (fun x => ended (snd x)) (rs_results r).
Proof.
  intros Hok r HA HR HW HC HL. split; [|exact (reads_ended c fuel calls p o l Hok HA HR)].
  set (h := AxiIn L0 L0 L0 [] L1 L0 [] [] L0).
  destruct (reads_results c fuel calls p o l Hok h eq_refl HA HR) as [E1 E2]. fold r in E1. rewrite E1, map_map. cbn [fst].
  apply map_fst_combine. rewrite map_length. rewrite r_bursts_length in *. 
  assert (G : length calls <= nf c l); [|lia].
  set (A := list_max (map fst calls) + length calls * (1 + D)).
  assert (T : forall m, A <= m -> length (transfers aw_offered ar_accepts (firstn m (rs_ar r))) = length calls).
  { clear HA HR HC E1 E2. unfold r, concurrent_reads in *. clear r. rewrite (radmitted_all c fuel calls p o l Hok) in *.
    pose proof (rjobs_ok c fuel calls p o l Hok) as Jk. destruct Hok as (Hb & F & Hp & Ho & Hl).
    pose proof (all_taken aw_offered ar_accepts D (ar_job c fuel) (decode c) (ar_words c) (fun _ => 2) (fun _ => 1 + D) fuel (ar_ok c)
      (ar_HB c fuel Hb) (fun a w => ar_HS c fuel a w) (fun a w r w' _ _ => ar_HP c fuel a w r w') (fun a _ => ltac:(discriminate))
      (fun a w _ => ar_lv c fuel D a w) (map (rsized c) calls) p o l Jk Hp Ho Hl) as G.
    destruct (serve (ar_job c fuel) (map (rsized c) calls) (World tt p o [] l)) as [rs v]. destruct (serve (r_job c fuel) _ _) as [rr vr].
    cbn [rs_ar] in *. cbn zeta in G. specialize (G HW).
    assert (J1 : map fst (map (rsized c) calls) = map fst calls) by (rewrite map_map; reflexivity).
    rewrite J1, (sum_const _ (1 + D)), map_length in G by reflexivity. fold A in G.
    assert (LA : A <= length l) by (unfold A; lia).
    intros m Hm. rewrite (G LA m Hm). clear. unfold total. induction calls as [|x cs IH]; [reflexivity|]. cbn [map flat_map ar_words app length]. f_equal. exact IH. }
  assert (N : length calls <= nf c (firstn (A + length calls * E) l)).
  { apply (grows (fun m => nf c (firstn m l)) A E (length calls) (length l)).
    - intros m n. apply filter_firstn_mono.
    - intros m Hm Hn Hlt. apply HC; [exact Hn|]. rewrite (T m Hm). exact Hlt.
    - unfold A. lia. }
  pose proof (filter_firstn_le (r_final c) l (A + length calls * E)) as X. unfold nf in *. lia.
Qed.

(** ** writes *)
Lemma writes_end c fuel calls p oa ow l D E : writes_ok c fuel calls p oa ow l ->
  let accesses := map snd calls in
  let r := concurrent_writes c fuel calls p oa ow l in
  answers_writes accesses r l -> Forall (fun i => b_valid i = true -> bval (g_bresp i) <> None) l ->
  accepts_within aw_offered aw_accepts D (ws_aw r) -> accepts_within w_offered w_accepts D (ws_w r) ->
  responds_within accesses E r l ->
  list_max (map fst calls) + list_sum (map (fun a => 1 + Nat.max (wa_alat a + D) (length (wa_value a) * (wa_dlat a + D))) accesses)
    + length calls * E <= length l ->
  map fst (ws_results r) = seq 0 (length calls) /\ Forall (fun x => ended (snd x)) (ws_results r).
Proof.
  intros Hok accesses r HA HR HW1 HW2 HC HL.
  destruct (writes_results c fuel calls p oa ow l Hok HA HR) as [E1 E2]. fold r in E1. rewrite E1. split.
  2: { apply Forall_forall. intros [k x] H. apply in_combine_r, in_map_iff in H. destruct H as (b & <- & _). cbn [snd].
       unfold response_outcome. destruct (bval b) as [v|]; [destruct (v =? 0)%Z|]; exact I. }
  apply map_fst_combine. rewrite seq_length, map_length.
  assert (G : length calls <= length (b_responses l)); [|lia]. unfold b_responses. rewrite map_length.
  set (A := list_max (map fst calls) + list_sum (map (fun a => 1 + Nat.max (wa_alat a + D) (length (wa_value a) * (wa_dlat a + D))) accesses)) in *.
  assert (T : forall m, A <= m -> length (transfers aw_offered aw_accepts (firstn m (ws_aw r))) = length calls /\
                                  length (transfers w_offered w_accepts (firstn m (ws_w r))) = beats_before accesses (length calls)).
  { clear HA HR HC E1 E2. unfold r, concurrent_writes in *. clear r. rewrite (admitted_all c fuel calls p oa ow l Hok) in *.
    pose proof (jobs_ok c fuel calls p oa ow l Hok) as Jk. pose proof (w_total c fuel calls p oa ow l Hok (length calls) (le_n _)) as WT.
    destruct Hok as (Hb & F & Hp & Ho1 & Ho2 & Hl).
    assert (HN : forall a, aw_ok c a -> w_expected c a <> []).
    { intros a Ha Ee. pose proof (w_expected_length c Hb a Ha) as L. destruct (w_facts c Hb a Ha) as (b & _ & L2 & _ & P). rewrite Ee in L. cbn [length] in L. lia. }
    pose proof (all_taken aw_offered aw_accepts D (aw_job c fuel) (decode c) (aw_words c) aw_cost (fun x => 1 + wa_alat (fst x) + D) fuel (aw_ok c)
      (aw_HB c fuel Hb) (fun a w => aw_HS c fuel Hb a w) (fun a w r w' _ _ => aw_HP c fuel Hb a w r w') (fun a _ => ltac:(discriminate))
      (fun a w _ => aw_lv c fuel D a w) (map (sized c) calls) p oa l Jk Hp Ho1 Hl) as G1.
    pose proof (all_taken w_offered w_accepts D (w_job c fuel) (w_proj c) (w_expected c) w_cost (fun x => 1 + length (wa_value (fst x)) * (wa_dlat (fst x) + D)) fuel (aw_ok c)
      (w_HB c fuel Hb) (w_HS c fuel Hb) (w_HP c fuel) HN
      (fun a w Ha _ _ => w_lv c fuel D Hb a w Ha) (map (sized c) calls) p ow l Jk Hp Ho2 Hl) as G2.
    destruct (serve (aw_job c fuel) (map (sized c) calls) (World tt p oa [] l)) as [ra va].
    destruct (serve (w_job c fuel) (map (sized c) calls) (World tt p ow [] l)) as [rw vw].
    destruct (serve _ (by_time _) _) as [rb vb].
    cbn [ws_aw ws_w] in *. cbn zeta in G1, G2. specialize (G1 HW1). specialize (G2 HW2).
    assert (J1 : map fst (map (sized c) calls) = map fst calls) by (rewrite map_map; reflexivity). rewrite J1 in G1, G2.
    assert (S1 : list_sum (map (fun j => 1 + wa_alat (fst (snd j)) + D) (map (sized c) calls)) <=
                 list_sum (map (fun a => 1 + Nat.max (wa_alat a + D) (length (wa_value a) * (wa_dlat a + D))) accesses)).
    { unfold accesses. rewrite !map_map. apply sum_le. intro x. cbn [sized fst snd]. lia. }
    assert (S2 : list_sum (map (fun j => 1 + length (wa_value (fst (snd j))) * (wa_dlat (fst (snd j)) + D)) (map (sized c) calls)) <=
                 list_sum (map (fun a => 1 + Nat.max (wa_alat a + D) (length (wa_value a) * (wa_dlat a + D))) accesses)).
    { unfold accesses. rewrite !map_map. apply sum_le. intro x. cbn [sized fst snd]. lia. }
    assert (LA : A <= length l) by lia. unfold A in LA.
    intros m Hm. unfold A in Hm. split.
    - rewrite (G1 ltac:(lia) m ltac:(lia)). clear. unfold total. induction calls as [|x cs IH]; [reflexivity|]. cbn [map flat_map aw_words app length]. f_equal. exact IH.
    - rewrite (G2 ltac:(lia) m ltac:(lia)). unfold accesses. rewrite <- WT, firstn_all2 by (rewrite !map_length; lia). reflexivity. }
  assert (N : length calls <= length (filter b_valid (firstn (A + length calls * E) l))).
  { apply (grows (fun m => length (filter b_valid (firstn m l))) A E (length calls) (length l)).
    - intros m n. apply filter_firstn_mono.
    - intros m Hm Hn Hlt. destruct (T m Hm) as [T1 T2]. apply HC; [exact Hn|rewrite T1; exact Hlt|]. rewrite T2.
      assert (Lf : forall k, S k <= length calls -> beats_before accesses (S k) <= beats_before accesses (length calls)).
      { intros k Hk. unfold beats_before. replace (length calls) with (S k + (length calls - S k)) by lia.
        rewrite <- (firstn_skipn (S k) (firstn (S k + (length calls - S k)) accesses)), firstn_firstn, Nat.min_l by lia. rewrite flat_map_app, app_length. lia. }
      apply Lf. lia.
    - lia. }
  pose proof (filter_firstn_le b_valid l (A + length calls * E)) as X. lia.
Qed.
