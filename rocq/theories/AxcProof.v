(** AxcProof.v -- channels of an AXI4Master used by several tasks. *)
From Verif Require Import Base Async BitsLemmas CompatModel PktModel HandshakeSpec Handshake AxiModel AxiSpec AxiDataProof AxiReadProof AxiChanProof AxiRunProof AxiTopProof AxcModel AxcSpec.
Local Open Scope list_scope.

(** ** runs that never come back with everything transferred *)
Section Sus.
Context {TS TI TO : Type} (off : TO -> bool) (acc : TI -> bool).
Definition cnt (w : world TS TI TO) : nat := length (transfers off acc (trace w)).
Definition sus {A} (m : M TS TI TO A) (w : world TS TI TO) (N : nat) : Prop := forall w', m w = (Susp, w') -> cnt w' < N.
Lemma sus_bind {A B} (m : M TS TI TO A) (k : A -> M TS TI TO B) w N :
  sus m w N -> (forall a w1, m w = (Done a, w1) -> sus (k a) w1 N) -> sus (bind m k) w N.
Proof.
  intros H1 H2 w' E. unfold bind in E. destruct (m w) as [[a|e| |] w1] eqn:Em; try discriminate.
  - exact (H2 a w1 eq_refl w' E).
  - inversion E; subst. exact (H1 w' Em).
Qed.
Lemma sus_done {A} (m : M TS TI TO A) w N : (forall w', m w <> (Susp, w')) -> sus m w N.
Proof. intros H w' E. destruct (H w' E). Qed.
Lemma cnt_held s p o tr (x : list TI) l : off o = false \/ Forall (fun i => acc i = false) x ->
  cnt (World s p o (tr ++ held o x) l) = length (transfers off acc tr).
Proof.
  intro H. unfold cnt. cbn [trace]. rewrite transfers_app, app_length.
  destruct H as [H|H]; [rewrite transfers_idle by exact H|rewrite transfers_wait by exact H]; cbn [length]; lia.
Qed.
End Sus.

Lemma readonly_last {TS TI TO A B} (m : M TS TI TO A) (k : A -> M TS TI TO B) w r w' :
  (forall a w1 r w', k a w1 = (Done r, w') -> ph w' <> PReadOnly) -> bind m k w = (Done r, w') -> ph w' <> PReadOnly.
Proof. intros H E. unfold bind in E. destruct (m w) as [[a|e| |] w1]; try discriminate. exact (H a w1 r w' E). Qed.
Lemma drive_phase {TS TI TO} (f : TO -> TO) (w w' : world TS TI TO) r : drive f w = (Done r, w') -> ph w' <> PReadOnly.
Proof. unfold drive. destruct w as [s p o tr l]. cbn [ph]. destruct p; intro E; inversion E; subst; discriminate. Qed.

(** ** one channel, many tasks *)
Lemma transfers_split {TI TO} off acc (tr : list (TI * TO)) m : transfers off acc tr = transfers off acc (firstn m tr) ++ transfers off acc (skipn m tr).
Proof. rewrite <- transfers_app, firstn_skipn. reflexivity. Qed.
Lemma transfers_mono {TI TO} off acc (tr : list (TI * TO)) m n : m <= n ->
  length (transfers off acc (firstn m tr)) <= length (transfers off acc (firstn n tr)).
Proof.
  intro H. replace (firstn m tr) with (firstn m (firstn n tr)) by (rewrite firstn_firstn; f_equal; lia). apply transfers_firstn.
Qed.
Lemma transfers_succ {TI TO} off acc (tr : list (TI * TO)) m :
  length (transfers off acc (firstn (S m) tr)) <= S (length (transfers off acc (firstn m tr))).
Proof.
  revert m. induction tr as [|x tr IH]; intro m; [destruct m; cbn; lia|].
  destruct m as [|m].
  - cbn [firstn]. unfold transfers. cbn [filter]. destruct (transferred off acc x); cbn; lia.
  - specialize (IH m). cbn [firstn] in *. unfold transfers in *. rewrite !map_length in *. cbn [filter].
    destruct (transferred off acc x); cbn [length] in *; lia.
Qed.

Section Serve.
Context {TO A P : Type} (off : TO -> bool) (acc : axi_in -> bool).
Context (body : A -> M unit axi_in TO unit) (proj : TO -> P) (words : A -> list P) (cost : A -> nat) (fuel : nat) (ok : A -> Prop).
Notation world := (world unit axi_in TO).
Hypothesis HB : forall a (w : world), ok a -> ph w <> PReadOnly -> off (out w) = false -> free off acc (trace w) -> length (ins w) < fuel ->
  exists ds, map proj ds = words a /\ tx off acc (body a) w ds (cost a) (fun _ w' => off (out w') = false /\ at_handshake off acc (trace w')).
Hypothesis HS : forall a (w : world), ok a -> ph w <> PReadOnly -> off (out w) = false -> length (ins w) < fuel ->
  sus off acc (body a) w (cnt off acc w + length (words a)).
Hypothesis HP : forall a (w : world) r w', ok a -> ph w <> PReadOnly -> body a w = (Done r, w') -> ph w' <> PReadOnly.
Hypothesis HN : forall a, ok a -> words a <> [].

Definition total (l : list A) : nat := length (flat_map words l).
Definition costs (l : list A) : nat := list_sum (map cost l).

Lemma costs_cons a l : costs (a :: l) = cost a + costs l.
Proof using. reflexivity. Qed.

Lemma serve_tx T jobs : Forall (fun j => ok (snd j) /\ fst j <= T) jobs -> forall w : world,
  ph w <> PReadOnly -> off (out w) = false -> free off acc (trace w) -> stable off acc (trace w) -> length (ins w) < fuel ->
  let '(rs, v) := serve body jobs w in
  let js := map snd jobs in
  exists new, trace v = trace w ++ new /\ map fst new ++ ins v = ins w /\ stable off acc (trace v) /\
    map (fun x => fst (fst x)) rs = firstn (length rs) js /\
    Forall (fun x => snd x = Done tt) rs /\
    (exists k, map proj (transfers off acc new) = firstn k (flat_map words js)) /\
    (length rs = length jobs -> map proj (transfers off acc new) = flat_map words js /\ off (out v) = false /\ free off acc (trace v)) /\
    (length rs < length jobs -> ins v = [] /\ settled off acc (trace v) (out v) /\
       length (transfers off acc new) < total (firstn (S (length rs)) js) /\
       ready_cycles acc (ins w) < (T - length (trace w)) + costs js) /\
    (forall j x, nth_error rs j = Some x ->
       length (trace w) <= snd (fst x) <= length (trace v) /\
       forall m, snd (fst x) <= m <-> length (transfers off acc (trace w)) + total (firstn (S j) js) <= length (transfers off acc (firstn m (trace v))) /\ length (trace w) <= m).
Proof.
  induction 1 as [|[t a] jobs [Oa Ht] _ IH]; intros w Hp Ho Hf St Hl.
  - cbn [serve]. exists []. rewrite app_nil_r. cbn [map app length]. repeat split; auto; try (exists 0; reflexivity); try lia.
    all: intros; try (destruct j; discriminate).
  - cbn [serve]. cbn [snd fst] in *. set (d := t - length (trace w)).
    destruct w as [s p o tr l]. cbn [ph out trace ins] in *.
    (* the idle time *)
    pose proof (tx_edges off acc d (World s p o tr l)
      (fun _ w' => ph w' <> PReadOnly /\ out w' = o /\ free off acc (trace w')) Ho Hf Hp
      ltac:(intros p' tr' l' Hp' Hf'; cbn; auto)) as TE.
    specialize (TE St). cbn [trace ins out] in TE.
    destruct (edges d (World s p o tr l)) as [r0 w0] eqn:E0.
    assert (L0 : r0 = Done tt -> length (trace w0) = length tr + d).
    { intros ->. rewrite edges_spec in E0. cbn [ins st ph out trace] in E0. destruct (d <=? length l) eqn:Ed; [|discriminate].
      inversion E0; subst w0. cbn [trace]. rewrite app_length, held_length, firstn_length. apply Nat.leb_le in Ed. lia. }
    destruct TE as (n0 & T0 & I0 & S0 & C0). destruct r0 as [[]|e| |]; try contradiction.
    + (* the idle time has passed *)
      destruct C0 as (C1 & C2 & C3 & C4 & C5). specialize (L0 eq_refl).
      rewrite (bind_done _ _ _ _ _ E0).
      assert (Hl0 : length (ins w0) < fuel) by (rewrite <- I0, app_length in Hl; lia).
      destruct (HB a w0 Oa C3 ltac:(rewrite C4; exact Ho) C5 Hl0) as (ds & Eds & TX). specialize (TX S0).
      pose proof (HS a w0 Oa C3 ltac:(rewrite C4; exact Ho) Hl0) as SU. pose proof (HP a w0) as HP0.
      destruct (body a w0) as [r1 w1] eqn:E1. destruct TX as (n1 & T1 & I1 & S1 & D).
      assert (Tr0 : transfers off acc n0 = []) by exact C1.
      destruct r1 as [[]|e| |]; try contradiction.
      * destruct D as (D1 & D2 & D3 & D4).
        assert (Hl1 : length (ins w1) < fuel) by (rewrite <- I1, app_length in Hl0; lia).
        specialize (IH w1 (HP0 tt w1 Oa C3 eq_refl) D3 (handshake_free _ _ _ D4) S1 Hl1).
        destruct (serve body jobs w1) as [rs v]. destruct IH as (nw & G1 & G2 & G3 & G4 & G5 & (k & G6) & G7 & G8 & G9).
        assert (Tv : trace v = tr ++ (n0 ++ n1 ++ nw)) by (rewrite G1, T1, T0, <- !app_assoc; reflexivity).
        assert (Tn : map proj (transfers off acc (n0 ++ n1 ++ nw)) = words a ++ map proj (transfers off acc nw)).
        { rewrite !transfers_app, Tr0, D1, map_app. cbn [app]. rewrite map_app, Eds. cbn [map app]. reflexivity. }
        assert (Tc : length (transfers off acc (n0 ++ n1 ++ nw)) = length (words a) + length (transfers off acc nw)).
        { apply (f_equal (@length P)) in Tn. rewrite map_length, app_length, map_length in Tn. exact Tn. }
        exists (n0 ++ n1 ++ nw). split; [exact Tv|].
        split; [rewrite !map_app, <- !app_assoc, G2, I1, I0; reflexivity|]. split; [exact G3|].
        split; [cbn [map length firstn fst snd]; rewrite G4; reflexivity|].
        split; [constructor; [reflexivity|exact G5]|].
        split. { exists (length (words a) + k). rewrite Tn, G6. cbn [map flat_map snd]. rewrite firstn_app_2. reflexivity. }
        split. { intro Hn. cbn [length] in Hn. destruct (G7 ltac:(lia)) as (A1 & A2 & A3). split; [|auto]. rewrite Tn, A1. reflexivity. }
        split.
        { intro Hn. cbn [length] in Hn. destruct (G8 ltac:(lia)) as (A1 & A2 & A3 & A4). split; [exact A1|]. split; [exact A2|]. split.
          - cbn [map snd length]. rewrite firstn_cons. unfold total in *. cbn [flat_map]. rewrite app_length, Tc. lia.
          - rewrite <- I0, <- I1, !rc_app. cbn [map snd]. rewrite costs_cons.
            assert (Lw : length tr + d <= length (trace w1)) by (rewrite T1, app_length; lia). unfold d in *. lia. }
        intros j x Hx. 
        assert (Lt : length tr <= length (trace w1)) by (rewrite T1, T0, !app_length; lia).
        assert (Lv : length (trace w1) <= length (trace v)) by (rewrite G1, app_length; lia).
        assert (C1' : length (transfers off acc (trace w1)) = length (transfers off acc tr) + length (words a)).
        { rewrite T1, T0, !transfers_app, Tr0, D1, !app_length, <- Eds, map_length. cbn [length]. lia. }
        destruct j as [|j].
        -- cbn [nth_error] in Hx. inversion Hx; subst x. cbn [fst snd]. split; [lia|]. intro m. cbn [map snd firstn flat_map]. unfold total. cbn [firstn flat_map]. rewrite app_nil_r, <- C1'.
           split.
           ++ intro Hm. split; [|lia]. replace (trace w1) with (firstn (length (trace w1)) (trace v)) at 1.
              ** apply transfers_mono. exact Hm.
              ** rewrite G1, firstn_app, firstn_all, Nat.sub_diag. cbn [firstn]. apply app_nil_r.
           ++ intros [Hm _]. destruct (le_lt_dec (length (trace w1)) m) as [L|L]; [exact L|]. exfalso.
              pose proof (handshake_last _ _ _ m D4 L) as X. rewrite G1, firstn_app in Hm. replace (m - length (trace w1)) with 0 in Hm by lia.
              cbn [firstn] in Hm. rewrite app_nil_r in Hm. lia.
        -- cbn [nth_error] in Hx. destruct (G9 j x Hx) as (B1 & B2). split; [lia|]. intro m. rewrite (B2 m), C1'.
           cbn [map snd]. rewrite (firstn_cons (S j)). unfold total. cbn [flat_map]. rewrite app_length. split; [intros []; split; lia|].
           intros [H1 H2]. split; [lia|]. destruct (le_lt_dec (length (trace w1)) m) as [L|L]; [exact L|]. exfalso.
           pose proof (handshake_last _ _ _ m D4 L) as X. rewrite G1, firstn_app in H1. replace (m - length (trace w1)) with 0 in H1 by lia.
           cbn [firstn] in H1. rewrite app_nil_r in H1. lia.
      * destruct D as (D1 & D2 & D3 & k & D4 & _). specialize (SU w1 E1). unfold cnt in SU.
        exists (n0 ++ n1). cbn [length map]. split; [rewrite T1, T0, <- app_assoc; reflexivity|].
        split; [rewrite map_app, <- app_assoc, I1, I0; reflexivity|]. split; [exact S1|].
        split; [reflexivity|]. split; [constructor|].
        assert (Tn : transfers off acc (n0 ++ n1) = firstn k ds) by (rewrite transfers_app, Tr0, D4; reflexivity).
        split. { exists (min k (length (words a))). rewrite Tn. cbn [flat_map snd]. rewrite firstn_app, <- firstn_map, Eds.
          replace (min k (length (words a)) - length (words a)) with 0 by lia. cbn [firstn]. rewrite app_nil_r.
          destruct (le_lt_dec k (length (words a))); [f_equal; lia|]. rewrite !firstn_all2 by lia. reflexivity. }
        split; [lia|]. split; [|intros j x Hx; destruct j; discriminate].
        intros _. split; [exact D1|]. split; [exact D2|]. cbn [map snd]. rewrite costs_cons. unfold total. cbn [firstn flat_map]. rewrite app_nil_r. split.
        -- rewrite T1, T0, !transfers_app, !app_length in SU. rewrite transfers_app, app_length, Tr0. cbn [length]. lia.
        -- rewrite <- I0, rc_app. unfold d in *. lia.
    + (* still waiting for the call *)
      rewrite (bind_susp _ _ _ _ E0). destruct C0 as (C1 & C2 & C3 & k & C4 & _).
      exists n0. cbn [length map]. split; [exact T0|]. split; [exact I0|]. split; [exact S0|].
      split; [reflexivity|]. split; [constructor|].
      assert (Tr0 : transfers off acc n0 = []) by (rewrite C4, firstn_nil; reflexivity).
      split; [exists 0; rewrite Tr0; reflexivity|]. split; [lia|]. split; [|intros j x Hx; destruct j; discriminate].
      intros _. split; [exact C1|]. split; [exact C2|]. split.
      * rewrite Tr0. unfold total. cbn [firstn map snd flat_map]. rewrite app_nil_r. cbn [length].
        pose proof (HN a Oa). destruct (words a); [contradiction|cbn [length]; lia].
      * cbn [map snd]. rewrite costs_cons. unfold d in *. lia.
Qed.
End Serve.

(** ** the address channel *)
Lemma sus_assign {TO} (off : TO -> bool) acc n z (set : bits -> TO -> TO) (w : world unit axi_in TO) N : sus off acc (assign n z set) w N.
Proof.
  apply sus_done. intros w' E. unfold assign, bind, of_res, drive in E. destruct (assign_int n z); cbn in E; try discriminate.
  unfold ret in E. destruct (ph w); discriminate.
Qed.
Lemma sus_drive {TO} (off : TO -> bool) (acc : axi_in -> bool) f (w : world unit axi_in TO) N : sus off acc (drive f) w N.
Proof. apply sus_done. intros w' E. unfold drive in E. destruct (ph w); discriminate. Qed.
Lemma assign_same {TO} n z (set : bits -> TO -> TO) (w w' : world unit axi_in TO) r : assign n z set w = (Done r, w') ->
  ph w' = ph w /\ trace w' = trace w /\ ins w' = ins w /\ exists v, out w' = set v (out w).
Proof.
  unfold assign, bind, of_res, drive. destruct (assign_int n z) as [v|e]; cbn; unfold ret, raise; [|discriminate].
  destruct w as [s p o tr l]; cbn [ph]. destruct p; intro E; inversion E; subst; cbn; eauto.
Qed.
Lemma when_assign_same {TO} b n z (set : bits -> TO -> TO) (w w' : world unit axi_in TO) r : x_when b (assign n z set) w = (Done r, w') ->
  ph w' = ph w /\ trace w' = trace w /\ ins w' = ins w.
Proof.
  destruct b; cbn [x_when]; intro E; [destruct (assign_same _ _ _ _ _ _ E) as (A1 & A2 & A3 & _); auto|]. inversion E; subst. auto.
Qed.
Lemma drive_same {TO} (f : TO -> TO) (w w' : world unit axi_in TO) r : drive f w = (Done r, w') ->
  ph w' = ph w /\ trace w' = trace w /\ ins w' = ins w /\ out w' = f (out w).
Proof. unfold drive. destruct w as [s p o tr l]; cbn [ph]. destruct p; intro E; inversion E; subst; cbn; auto. Qed.
Lemma sus_when {TO} (off : TO -> bool) acc b m (w : world unit axi_in TO) N : sus off acc m w N -> sus off acc (x_when b m) w N.
Proof. intro H. destruct b; [exact H|]. intros w' E. discriminate. Qed.

(** waiting for a ready signal, then the end of its cycle *)
Lemma sus_offer {TO} (off : TO -> bool) key fuel' (f : TO -> TO) (w : world unit axi_in TO) N :
  ph w <> PReadOnly -> length (ins w) < fuel' -> cnt off (fun i => is1 (key i)) w < N ->
  sus off (fun i => is1 (key i)) (until1 key fuel' ;; edge ;; drive f) w N.
Proof.
  intros Hp Hl Hc w' E. destruct w as [s p o tr l]. cbn [ph ins] in *. unfold cnt in Hc. cbn [trace] in Hc.
  destruct s. rewrite <- (bind_assoc (until1 key fuel') (fun _ => edge) (fun _ => drive f)) in E.
  destruct (until1_edge key l fuel' tt p o tr Hp Hl) as [p' E1]. unfold bind at 1 in E. rewrite E1 in E.
  pose proof (span_fst (k1 key) l) as Sf. pose proof (span_app (k1 key) l) as Sp.
  destruct (span (k1 key) l) as [nr [|i r]]; cbn [fst snd] in *.
  - rewrite app_nil_r in Sp. subst nr. inversion E; subst w'. rewrite cnt_held; [exact Hc|]. right. exact Sf.
  - unfold drive in E. cbn in E. discriminate.
Qed.
Lemma sus_edges {TO} (off : TO -> bool) acc n (w : world unit axi_in TO) N : off (out w) = false -> cnt off acc w < N -> sus off acc (edges n) w N.
Proof.
  intros Ho Hc w' E. rewrite edges_spec in E. destruct (n <=? length (ins w)); [discriminate|]. inversion E; subst w'.
  rewrite cnt_held; [exact Hc|left; exact Ho].
Qed.
Lemma edges_same {TO} (off : TO -> bool) acc n (w w' : world unit axi_in TO) r : off (out w) = false -> edges n w = (Done r, w') ->
  out w' = out w /\ (ph w <> PReadOnly -> ph w' <> PReadOnly) /\ length (ins w') <= length (ins w) /\ cnt off acc w' = cnt off acc w.
Proof.
  intros Ho E. rewrite edges_spec in E. destruct (n <=? length (ins w)); [|discriminate]. inversion E; subst w'. cbn [out ph ins trace].
  split; [reflexivity|]. split; [destruct n; [auto|discriminate]|]. split; [rewrite skipn_length; lia|].
  rewrite cnt_held; [reflexivity|left; exact Ho].
Qed.
Lemma sync_same {TO} (off : TO -> bool) acc sync (w w' : world unit axi_in TO) r : off (out w) = false -> x_when sync edge w = (Done r, w') ->
  out w' = out w /\ (ph w <> PReadOnly -> ph w' <> PReadOnly) /\ length (ins w') <= length (ins w) /\ cnt off acc w' = cnt off acc w.
Proof.
  intros Ho. destruct sync; cbn [x_when].
  - unfold edge. destruct (ins w) as [|i l] eqn:El; [discriminate|]. intro E; inversion E; subst w'. cbn [out ph ins trace].
    split; [reflexivity|]. split; [discriminate|]. split; [cbn [length]; lia|].
    change [(i, out w)] with (held (out w) [i]). rewrite cnt_held; [reflexivity|left; exact Ho].
  - intro E; inversion E; subst; auto.
Qed.
Lemma sus_sync {TO} (off : TO -> bool) acc sync (w : world unit axi_in TO) N : cnt off acc w < N -> sus off acc (x_when sync edge) w N.
Proof.
  intros Hc w' E. destruct sync; cbn [x_when] in E; [|discriminate]. unfold edge in E. destruct (ins w); [|discriminate].
  inversion E; subst. exact Hc.
Qed.

Lemma on_bus_size c n b size s : on_bus c n b size -> s = size_or (x_bytes c) size ->
  x_full c = true \/ (n = 1%Z /\ b = INCR /\ s = x_bytes c).
Proof. intros [H|(H1 & H2 & ->)] E; [left; exact H|right; auto]. Qed.

Section Aw.
Context (c : axi_cfg) (fuel : nat).
Hypothesis (Hbus : axi_bus c).
Notation W := (World (TS := unit) (TI := axi_in)).

Definition aw_ok (x : waccess * Z) : Prop := write_call_ok c (fst x) /\ snd x = size_or (x_bytes c) (wa_size (fst x)).

Lemma aw_HB x (w : world unit axi_in ax_out) : aw_ok x -> ph w <> PReadOnly -> aw_offered (out w) = false ->
  free aw_offered aw_accepts (trace w) -> length (ins w) < fuel ->
  exists ds, map (decode c) ds = [write_request c (fst x)] /\
    tx aw_offered aw_accepts (aw_job c fuel x) w ds (2 + wa_alat (fst x))
      (fun _ w' => aw_offered (out w') = false /\ at_handshake aw_offered aw_accepts (trace w')).
Proof using Hbus.
  destruct x as [a size]. intros [(Hl & Ha & Hb & Hd & Hu) Es] Hp Ho Hf Hfu. cbn [fst snd] in *.
  destruct (legal_facts c _ _ _ _ Hbus Hl) as (_ & Ps & Ls & Hn & _). rewrite <- Es in *. destruct w as [s p o tr l].
  exists [ax_request c o (wa_address a) (Z.of_nat (length (wa_value a))) (wa_burst a) size]. split.
  - cbn [map]. rewrite decode_request by (try assumption; exact (on_bus_size _ _ _ _ _ Hu Es)). unfold write_request. rewrite Es. reflexivity.
  - cbn [aw_job]. apply aw_tx; try assumption. intros _. exact Hp.
Qed.
Lemma aw_HS x (w : world unit axi_in ax_out) : aw_ok x -> ph w <> PReadOnly -> aw_offered (out w) = false -> length (ins w) < fuel ->
  sus aw_offered aw_accepts (aw_job c fuel x) w (cnt aw_offered aw_accepts w + 1).
Proof using Hbus.
  destruct x as [a size]. intros _ Hp Ho Hl. cbn [aw_job]. unfold send_write_address.
  set (N := cnt aw_offered aw_accepts w + 1).
  apply sus_bind; [apply sus_sync; unfold N; lia|]. intros [] w1 E1.
  destruct (sync_same aw_offered aw_accepts _ _ _ _ Ho E1) as (A1 & A2 & A3 & A4). specialize (A2 Hp). rewrite <- A1 in Ho.
  apply sus_bind; [apply sus_edges; [exact Ho|unfold N; lia]|]. intros [] w2 E2.
  destruct (edges_same aw_offered aw_accepts _ _ _ _ Ho E2) as (B1 & B2 & B3 & B4). specialize (B2 A2).
  apply sus_bind; [apply sus_assign|]. intros [] w3 E3. destruct (assign_same _ _ _ _ _ _ E3) as (C1 & C2 & C3 & _).
  apply sus_bind; [apply sus_drive|]. intros [] w4 E4. destruct (drive_same _ _ _ _ E4) as (D1 & D2 & D3 & _).
  apply sus_bind; [apply sus_when, sus_assign|]. intros [] w5 E5. destruct (when_assign_same _ _ _ _ _ _ _ E5) as (F1 & F2 & F3).
  apply sus_bind; [apply sus_when, sus_assign|]. intros [] w6 E6. destruct (when_assign_same _ _ _ _ _ _ _ E6) as (G1 & G2 & G3).
  apply sus_bind; [apply sus_when, sus_assign|]. intros [] w7 E7. destruct (when_assign_same _ _ _ _ _ _ _ E7) as (H1 & H2 & H3).
  apply sus_offer; [congruence|rewrite H3, G3, F3, D3, C3; lia|].
  assert (X : cnt aw_offered (fun i => is1 (g_awready i)) w7 = cnt aw_offered aw_accepts w2).
  { unfold cnt. rewrite H2, G2, F2, D2, C2. reflexivity. }
  unfold N. lia.
Qed.
Lemma aw_HP x (w : world unit axi_in ax_out) r w' : aw_job c fuel x w = (Done r, w') -> ph w' <> PReadOnly.
Proof using Hbus.
  destruct x as [a size]. cbn [aw_job]. unfold send_write_address.
  repeat (apply readonly_last; clear; intros [] w r w'). intro E. exact (drive_phase _ _ _ _ E).
Qed.
End Aw.

(** ** the data channel *)
Section Wch.
Context (c : axi_cfg) (fuel : nat).
Hypothesis (Hbus : axi_bus c).
Definition w_proj (w : w_out) : (Z * Z) * logic := (beat_of w, if x_wlast c then x_last w else L0).
Definition w_lasts (n : nat) : list logic := if x_wlast c then lasts n else repeat L0 n.
Definition w_expected (x : waccess * Z) : list ((Z * Z) * logic) :=
  match write_beats (x_bytes c) (wa_address (fst x)) (wa_burst (fst x)) (snd x) (wa_value (fst x)) (wa_be (fst x)) with
  | Ok bs => combine bs (w_lasts (length bs))
  | Err _ => []
  end.
Lemma w_lasts_length n : 0 < n -> length (w_lasts n) = n.
Proof. intro H. unfold w_lasts, lasts. destruct (x_wlast c); [rewrite app_length, repeat_length; cbn [length]; lia|apply repeat_length]. Qed.

Lemma w_words_proj o bs : Forall (beat_fits c) bs -> map w_proj (w_words c o bs) = combine bs (w_lasts (length bs)).
Proof.
  induction 1 as [|[word strobe] r [Hw Hs] _ IH]; [reflexivity|]. cbn [w_words map fst snd] in *.
  assert (B : forall x, beat_of (WOut L1 (zbits (x_width c) word) (zbits (Z.to_nat (x_bytes c)) strobe) x) = (word, strobe)).
  { intro x. unfold beat_of. cbn [x_wdata x_wstrb]. rewrite (value_zbits _ _ Hw), (value_zbits _ _ Hs). reflexivity. }
  unfold w_proj at 1. rewrite B, IH. unfold w_lasts, lasts. cbn [length x_last]. destruct (x_wlast c).
  - destruct r as [|b r]; [reflexivity|]. cbn [length]. replace (S (S (length r)) - 1) with (S (length r)) by lia.
    replace (S (length r) - 1) with (length r) by lia. reflexivity.
  - reflexivity.
Qed.

Lemma w_facts x : aw_ok c x -> exists bs, write_beats (x_bytes c) (wa_address (fst x)) (wa_burst (fst x)) (snd x) (wa_value (fst x)) (wa_be (fst x)) = Ok bs /\
  length bs = length (wa_value (fst x)) /\ Forall (beat_fits c) bs /\ 0 < length bs.
Proof.
  destruct x as [a size]. intros [(Hl & Ha & Hb & Hd & Hu) Es]. cbn [fst snd] in *.
  destruct (legal_facts c _ _ _ _ Hbus Hl) as (_ & Ps & Ls & Hn & _).
  destruct (beats_exist c _ _ _ _ (wa_value a) (wa_be a) Hbus Hl eq_refl Hb) as (bs & E & L & F). rewrite <- Es in E.
  exists bs. repeat split; auto. lia.
Qed.
Lemma w_expected_length x : aw_ok c x -> length (w_expected x) = length (wa_value (fst x)).
Proof.
  intro H. destruct (w_facts x H) as (bs & E & L & F & P). unfold w_expected. rewrite E, combine_length, w_lasts_length by exact P. lia.
Qed.
Lemma w_HB x (w : world unit axi_in w_out) : aw_ok c x -> ph w <> PReadOnly -> w_offered (out w) = false ->
  free w_offered w_accepts (trace w) -> length (ins w) < fuel ->
  exists ds, map w_proj ds = w_expected x /\
    tx w_offered w_accepts (w_job c fuel x) w ds (1 + wa_dlat (fst x) + length (wa_value (fst x)))
      (fun _ w' => w_offered (out w') = false /\ at_handshake w_offered w_accepts (trace w')).
Proof.
  intros H Hp Ho Hf Hfu. destruct (w_facts x H) as (bs & E & L & F & P). destruct x as [a size]. destruct w as [s p o tr l].
  destruct H as [(Hl & Ha & Hb & Hd & Hu) Es]. cbn [fst snd] in *. exists (w_words c o bs). split.
  - rewrite w_words_proj by exact F. unfold w_expected. cbn [fst snd]. rewrite E. reflexivity.
  - cbn [w_job]. rewrite <- L. rewrite <- Nat.add_assoc. apply w_tx; try assumption.
    + destruct bs; [cbn in P; lia|discriminate].
    + intros _. exact Hp.
    + rewrite L. exact Hd.
Qed.
Lemma w_HS_beats delay bs : forall (w : world unit axi_in w_out), (delay = 0 \/ w_offered (out w) = false /\ length bs <= 1) ->
  length (ins w) < fuel -> ph w <> PReadOnly -> sus w_offered w_accepts (send_beats c fuel delay bs) w (cnt w_offered w_accepts w + length bs).
Proof.
  induction bs as [|[word strobe] r IH]; intros w Hd Hl Hp.
  - intros w' E. discriminate.
  - cbn [send_beats length]. set (N := cnt w_offered w_accepts w + S (length r)).
    apply sus_bind.
    { destruct Hd as [->|[Ho _]]; [intros w' E; discriminate|apply sus_edges; [exact Ho|unfold N; lia]]. }
    intros [] w1 E1.
    assert (B : ph w1 <> PReadOnly /\ length (ins w1) <= length (ins w) /\ cnt w_offered w_accepts w1 = cnt w_offered w_accepts w).
    { destruct Hd as [->|[Ho _]]; [inversion E1; subst; auto|].
      destruct (edges_same w_offered w_accepts _ _ _ _ Ho E1) as (B1 & B2 & B3 & B4). auto. }
    clear E1. destruct B as (B1 & B2 & B3).
    apply sus_bind; [apply sus_drive|]. intros [] w2 E2. destruct (drive_same _ _ _ _ E2) as (C1 & C2 & C3 & C4).
    apply sus_bind; [apply sus_assign|]. intros [] w3 E3. destruct (assign_same _ _ _ _ _ _ E3) as (D1 & D2 & D3 & D4).
    apply sus_bind; [apply sus_assign|]. intros [] w4 E4. destruct (assign_same _ _ _ _ _ _ E4) as (F1 & F2 & F3 & F4).
    apply sus_bind; [apply sus_when, sus_drive|]. intros [] w5 E5.
    assert (G : ph w5 = ph w4 /\ trace w5 = trace w4 /\ ins w5 = ins w4 /\ x_wvalid (out w5) = x_wvalid (out w4)).
    { destruct (x_wlast c); cbn [x_when] in E5.
      - destruct (drive_same _ _ _ _ E5) as (G1 & G2 & G3 & G4). rewrite G4. auto.
      - inversion E5; subst; auto. }
    destruct G as (G1 & G2 & G3 & G4).
    assert (Hv : w_offered (out w5) = true).
    { unfold w_offered. rewrite G4. destruct F4 as [v4 ->]. destruct D4 as [v3 ->]. rewrite C4. reflexivity. }
    assert (Hc : cnt w_offered w_accepts w5 = cnt w_offered w_accepts w).
    { rewrite <- B3. unfold cnt. rewrite G2, F2, D2, C2. reflexivity. }
    assert (Hl5 : length (ins w5) < fuel) by (rewrite G3, F3, D3, C3; lia).
    clear E2 E3 E4 E5. clear - IH Hd Hl5 Hv Hc N. destruct w5 as [s5 p5 o5 tr5 l5]. cbn [ins out] in *.
    destruct (sample_loop l5 fuel s5 p5 o5 tr5 Hl5) as [p' E].
    pose proof (span_fst w_accepts l5) as Sf. pose proof (span_app w_accepts l5) as Sp. pose proof (fun i r => span_snd w_accepts l5 i r) as Ss.
    destruct (span w_accepts l5) as [nr [|i rr]]; cbn [fst snd] in *.
    + intros w' E'. rewrite (bind_susp _ _ _ _ E) in E'. inversion E'; subst w'. rewrite app_nil_r in Sp. subst nr.
      rewrite cnt_held by (right; exact Sf). unfold cnt in Hc at 1. cbn [trace] in Hc. unfold N. lia.
    + specialize (Ss i rr eq_refl).
      assert (Hc2 : forall o' l', cnt w_offered w_accepts (World s5 PActive o' (tr5 ++ held o5 (nr ++ [i])) l') = S (cnt w_offered w_accepts w)).
      { intros o' l'. rewrite <- Hc. unfold cnt. cbn [trace]. rewrite held_app, !transfers_app, (transfers_wait _ _ o5 nr) by exact Sf.
        cbn [held map app]. rewrite transfers_one by assumption. rewrite app_length. cbn [length]. lia. }
      assert (Hl2 : length rr < fuel) by (rewrite <- Sp, app_length in Hl5; cbn [length] in Hl5; lia).
      intros w' E'. rewrite (bind_done _ _ _ _ _ E) in E'. destruct r as [|b2 r].
      * cbn [x_when send_beats] in E'. unfold bind, drive, ret in E'. cbn in E'. discriminate.
      * cbn [x_when] in E'. rewrite (bind_done _ _ _ tt (World s5 PActive o5 (tr5 ++ held o5 (nr ++ [i])) rr)) in E' by reflexivity.
        apply IH in E'; [|destruct Hd as [Hd|[_ Hd]]; [left; exact Hd|cbn [length] in Hd; lia]|exact Hl2|discriminate].
        rewrite Hc2 in E'. unfold N. lia.
Qed.
Lemma w_HS x (w : world unit axi_in w_out) : aw_ok c x -> ph w <> PReadOnly -> w_offered (out w) = false -> length (ins w) < fuel ->
  sus w_offered w_accepts (w_job c fuel x) w (cnt w_offered w_accepts w + length (w_expected x)).
Proof.
  intros H Hp Ho Hl. rewrite w_expected_length by exact H. destruct (w_facts x H) as (bs & E & L & F & P). destruct x as [a size].
  destruct H as [(_ & _ & _ & Hd & _) _]. cbn [fst snd w_job] in *. unfold send_write_data. rewrite E. rewrite <- L in *.
  apply sus_bind; [intros w' X; discriminate|]. intros bs' w1 E1. inversion E1; subst bs' w1. clear E1.
  apply sus_bind; [apply sus_sync; lia|]. intros [] w1 E1.
  destruct (sync_same w_offered w_accepts _ _ _ _ Ho E1) as (A1 & A2 & A3 & A4). rewrite <- A4.
  apply w_HS_beats; [|lia|auto]. destruct Hd; [left; assumption|right; split; [congruence|assumption]].
Qed.
Lemma w_HP_beats delay bs : forall (w : world unit axi_in w_out) r w', ph w <> PReadOnly -> send_beats c fuel delay bs w = (Done r, w') -> ph w' <> PReadOnly.
Proof.
  induction bs as [|[word strobe] r IH]; intros w x w' Hp E; [inversion E; subst; exact Hp|]. cbn [send_beats] in E. revert E.
  clear Hp. do 5 (apply readonly_last; clear w x w'; intros [] w x w').
  intro E. unfold bind at 1 in E. destruct (loop fuel _ tt w) as [[[]|e| |] w1] eqn:El; try discriminate.
  assert (P1 : ph w1 <> PReadOnly).
  { clear - El. revert w El. induction fuel as [|f IHf]; intros w El; [discriminate|]. cbn [loop] in El. unfold bind, edge_sample in El.
    destruct (ins w) as [|i l]; [discriminate|]. destruct (is1 (g_wready i)); cbn in El.
    - inversion El; subst. discriminate.
    - apply IHf in El. exact El. }
  unfold bind in E. destruct r as [|b r]; cbn [x_when] in E.
  - destruct (drive (w_set_valid L0) w1) as [[[]|e| |] w2] eqn:Ed; try discriminate. inversion E; subst. exact (drive_phase _ _ _ _ Ed).
  - cbn in E. exact (IH w1 x w' P1 E).
Qed.
Lemma w_HP x (w : world unit axi_in w_out) r w' : aw_ok c x -> ph w <> PReadOnly -> w_job c fuel x w = (Done r, w') -> ph w' <> PReadOnly.
Proof.
  intros H Hp E. destruct x as [a size]. cbn [w_job] in E. unfold send_write_data in E. unfold bind in E.
  destruct (write_beats _ _ _ _ _ _) as [bs|e]; cbn in E; [|discriminate].
  destruct (x_when (wa_sync a) edge w) as [[[]|e| |] w1] eqn:Es; try discriminate.
  refine (w_HP_beats _ _ _ _ _ _ E). destruct (wa_sync a); cbn [x_when] in Es.
  - unfold edge in Es. destruct (ins w); inversion Es; subst; discriminate.
  - inversion Es; subst. exact Hp.
Qed.
End Wch.
