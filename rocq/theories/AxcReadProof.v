(** AxcReadProof.v -- concurrent reads. *)
From Verif Require Import Base Async BitsLemmas CompatModel PktModel HandshakeSpec Handshake AxiModel AxiSpec AxiDataProof AxiReadProof AxiChanProof AxiRunProof AxiTopProof AxcModel AxcSpec AxcProof AxcTopProof.
Local Open Scope list_scope.
Notation W := (World (TS := unit) (TI := axi_in) (TO := ax_out)).

(** a read is its address part and its data part *)
Lemma read_parts c fuel a w : axi_read_raw c fuel a w =
  match read_check c a with
  | Ok size => (ar_job c fuel (a, size) ;; r_job c fuel (a, size)) w
  | Err e => (Exn e, w)
  end.
Proof.
  unfold axi_read_raw, read_check. destruct (check_params _ _ _ _ _) as [size|e]; cbn [of_res]; [|reflexivity].
  match goal with |- bind (ret ?x) ?f ?w = _ => change (bind (ret x) f w) with (f x w) end. cbn beta. cbn [ar_job r_job].
  rewrite bind_assoc. unfold bind at 1. symmetry. unfold bind at 1. destruct (x_when (ra_sync a) edge w) as [[[]|e| |] w1]; try reflexivity. symmetry.
  rewrite bind_assoc. unfold bind at 1. symmetry. unfold bind at 1. destruct (assign _ _ ax_set_addr w1) as [[[]|e| |] w2]; try reflexivity. symmetry.
  rewrite bind_assoc. unfold bind at 1. symmetry. unfold bind at 1. destruct (drive _ w2) as [[[]|e| |] w3]; try reflexivity. symmetry.
  rewrite bind_assoc. unfold bind at 1. symmetry. unfold bind at 1. destruct (x_when _ _ w3) as [[[]|e| |] w4]; try reflexivity. symmetry.
  rewrite bind_assoc. unfold bind at 1. symmetry. unfold bind at 1. destruct (x_when _ _ w4) as [[[]|e| |] w5]; try reflexivity. symmetry.
  rewrite bind_assoc. unfold bind at 1. symmetry. unfold bind at 1. destruct (x_when _ _ w5) as [[[]|e| |] w6]; try reflexivity. symmetry.
  rewrite bind_assoc. unfold bind at 1. symmetry. unfold bind at 1. destruct (until1 _ _ w6) as [[[]|e| |] w7]; try reflexivity. symmetry.
  rewrite bind_assoc. unfold bind at 1. symmetry. unfold bind at 1. destruct (edge w7) as [[[]|e| |] w8]; reflexivity.
Qed.

Section Ar.
Context (c : axi_cfg) (fuel : nat).
Hypothesis (Hbus : axi_bus c).
Definition ar_ok (x : raccess * Z) : Prop := read_call_ok c (fst x) /\ snd x = size_or (x_bytes c) (ra_size (fst x)).

Lemma ar_HB x (w : world unit axi_in ax_out) : ar_ok x -> ph w <> PReadOnly -> aw_offered (out w) = false ->
  free aw_offered ar_accepts (trace w) -> length (ins w) < fuel ->
  exists ds, map (decode c) ds = [read_request c (fst x)] /\
    tx aw_offered ar_accepts (ar_job c fuel x) w ds 2
      (fun _ w' => aw_offered (out w') = false /\ at_handshake aw_offered ar_accepts (trace w')).
Proof.
  destruct x as [a size]. intros [(Hl & Ha & Hu) Es] Hp Ho Hf Hfu. cbn [fst snd] in *.
  destruct (legal_facts c _ _ _ _ Hbus Hl) as (_ & Ps & Ls & Hn & _). rewrite <- Es in *. destruct w as [s p o tr l]. cbn [ph out trace ins] in *.
  set (req := ax_request c o (ra_address a) (ra_length a) (ra_burst a) size).
  exists [req]. split.
  { cbn [map]. unfold req. rewrite decode_request by (try assumption; exact (on_bus_size _ _ _ _ _ Hu Es)). unfold read_request. rewrite Es. reflexivity. }
  cbn [ar_job].
  assert (G : forall p' tr' l', p' <> PReadOnly -> free aw_offered ar_accepts tr' -> length l' < fuel ->
    tx aw_offered ar_accepts
     (assign (x_awidth c) (ra_address a) ax_set_addr ;; drive (ax_set_valid L1) ;;
      x_when (x_full c) (assign 8 (ra_length a - 1) ax_set_len) ;;
      x_when (x_full c) (assign 3 (bit_length size - 1) ax_set_size) ;;
      x_when (x_full c) (assign 2 (burst_value (ra_burst a)) ax_set_burst) ;;
      until1 g_arready fuel ;; edge ;; drive (ax_set_valid L0)) (W s p' o tr' l') [req] 1
     (fun _ w => aw_offered (out w) = false /\ at_handshake aw_offered ar_accepts (trace w))).
  { intros p' tr' l' Hp' Hf' Hl'. rewrite bit_length_pow2 by exact Ps.
    unfold assign. eapply (tx_drop _ _ true _ _ s p' o tr' l'); [exact Hp'|apply assign_fits_ok; exact Ha|reflexivity|].
    apply tx_drive; [exact Hp'|].
    eapply tx_drop; [exact Hp'|apply (assign_fits_ok 8 (ra_length a - 1)); unfold fits_bits; change (2 ^ Z.of_nat 8)%Z with 256%Z; lia|reflexivity|].
    eapply tx_drop; [exact Hp'|apply (assign_fits_ok 3 (Z.log2 size))|reflexivity|].
    { unfold fits_bits. change (2 ^ Z.of_nat 3)%Z with 8%Z. split; [apply Z.log2_nonneg|]. pose proof (Z.log2_le_mono _ _ Ls) as L. change (Z.log2 128) with 7%Z in L. lia. }
    eapply tx_drop; [exact Hp'|apply (assign_fits_ok 2 (burst_value (ra_burst a))); destruct (ra_burst a); unfold fits_bits; cbn; lia|reflexivity|].
    apply tx_regroup. set (o' := if x_full c then _ else _).
    assert (Eo : o' = req).
    { unfold o', req, ax_request. destruct (x_full c), (ra_burst a); reflexivity. }
    change [req] with ([req] ++ []). change 1 with (1 + 0). apply tx_bind.
    rewrite <- Eo. apply tx_offer; cbn [out trace st ins].
    - apply until1_edge; assumption.
    - rewrite Eo. reflexivity.
    - apply Hf'.
    - intros tr2 i l2 Hi _. apply tx_drive_last; [discriminate|]. cbn [out trace]. split; [reflexivity|]. exists tr2, i, req. rewrite <- Eo. split; [reflexivity|]. split; [rewrite Eo; reflexivity|exact Hi]. }
  set (k := assign _ _ _ ;; _) in *. change [req] with ([] ++ [req]). change 2 with (1 + 1). apply tx_bind.
  destruct (ra_sync a); cbn [x_when].
  - apply tx_edge_any; cbn [out trace st]; try assumption. intros p' tr' l' Hp' Hf' Hle. cbn [ins] in Hle. apply G; [assumption|assumption|lia].
  - apply tx_ret. intros _. apply G; assumption.
Qed.
Lemma ar_HS x (w : world unit axi_in ax_out) : ar_ok x -> ph w <> PReadOnly -> aw_offered (out w) = false -> length (ins w) < fuel ->
  sus aw_offered ar_accepts (ar_job c fuel x) w (cnt aw_offered ar_accepts w + 1).
Proof.
  destruct x as [a size]. intros _ Hp Ho Hl. cbn [ar_job].
  set (N := cnt aw_offered ar_accepts w + 1).
  apply sus_bind; [apply sus_sync; unfold N; lia|]. intros [] w2 E2.
  destruct (sync_same aw_offered ar_accepts _ _ _ _ Ho E2) as (B1 & B2 & B3 & B4). specialize (B2 Hp).
  apply sus_bind; [apply sus_assign|]. intros [] w3 E3. destruct (assign_same _ _ _ _ _ _ E3) as (C1 & C2 & C3 & _).
  apply sus_bind; [apply sus_drive|]. intros [] w4 E4. destruct (drive_same _ _ _ _ E4) as (D1 & D2 & D3 & _).
  apply sus_bind; [apply sus_when, sus_assign|]. intros [] w5 E5. destruct (when_assign_same _ _ _ _ _ _ _ E5) as (F1 & F2 & F3).
  apply sus_bind; [apply sus_when, sus_assign|]. intros [] w6 E6. destruct (when_assign_same _ _ _ _ _ _ _ E6) as (G1 & G2 & G3).
  apply sus_bind; [apply sus_when, sus_assign|]. intros [] w7 E7. destruct (when_assign_same _ _ _ _ _ _ _ E7) as (H1 & H2 & H3).
  apply sus_offer; [congruence|rewrite H3, G3, F3, D3, C3; lia|].
  assert (X : cnt aw_offered (fun i => is1 (g_arready i)) w7 = cnt aw_offered ar_accepts w2).
  { unfold cnt. rewrite H2, G2, F2, D2, C2. reflexivity. }
  unfold N. lia.
Qed.
Lemma ar_HP x (w : world unit axi_in ax_out) r w' : ar_job c fuel x w = (Done r, w') -> ph w' <> PReadOnly.
Proof.
  destruct x as [a size]. cbn [ar_job].
  repeat (apply readonly_last; clear; intros [] w r w'). intro E. exact (drive_phase _ _ _ _ E).
Qed.
End Ar.

(** ** the data channel *)
Section R.
Context (c : axi_cfg) (fuel : nat).
Hypothesis (Hbus : axi_bus c).
Definition beats_result (x : raccess * Z) (bs : list axi_in) : outcome (list bits * list Z) :=
  let '(a, size) := x in
  if (Z.of_nat (length bs) =? ra_length a)%Z then
    match rbind (extract (x_bytes c) (ra_burst a) size (ra_address a mod x_bytes c / size * size) (map g_rdata bs)) (realigned (ra_address a) (ra_burst a) size) with
    | Ok words => Done (words, map rresp_of bs)
    | Err e => Exn e
    end
  else Exn EAXILength.

Lemma r_job_spec x s p o tr l : ar_ok c x -> p <> PReadOnly -> length l < fuel -> Forall (fun i => r_beat i = true -> r_beat_ok c i) l -> exists p',
  r_job c fuel x (W s p o tr l) =
  match span (r_final c) l with
  | (_, []) => (Susp, W s p' o (tr ++ held o l) [])
  | (seg, i :: tl) => (beats_result x (filter r_beat (seg ++ [i])), W s PActive o (tr ++ held o (seg ++ [i])) tl)
  end.
Proof.
  destruct x as [a size]. intros [(Hl & Ha & Hu) Es] Hp Hf Hall. cbn [fst snd] in *.
  destruct (legal_facts c _ _ _ _ Hbus Hl) as (_ & Ps & _ & _ & q & Hq & Eq). rewrite <- Es in *. pose proof (pow2_pos' _ Ps) as Hs.
  assert (G : good size q (ra_address a mod x_bytes c / size * size)).
  { eexists. split; [|reflexivity]. exact (blk_range _ _ _ (ra_address a) Hs Hq Eq). }
  destruct (beats_spec c size q Hs Hq Eq (proj2 (proj2 Hbus)) (ra_burst a) (length l) l fuel fuel [] [] _ s p o tr ltac:(lia) G Hp Hf Hf) as [p' E].
  change (loop fuel (rb_body c size fuel (ra_burst a)) ([], [], (ra_address a mod x_bytes c / size * size)%Z))
    with (read_beats c fuel (ra_burst a) size (ra_address a mod x_bytes c / size * size)) in E.
  exists p'. pose proof (span_app (r_final c) l) as Sp. cbn [r_job]. destruct (span (r_final c) l) as [seg [|i tl]]; cbn [fst snd] in Sp.
  - rewrite app_nil_r in Sp. subst seg. apply bind_susp. exact (E Hall).
  - assert (Ok : Forall (fun i => r_beat i = true -> r_beat_ok c i) (seg ++ [i])).
    { rewrite <- Sp in Hall. change (i :: tl) with ([i] ++ tl) in Hall. rewrite app_assoc, Forall_app in Hall. apply Hall. }
    destruct (E Ok) as (ws & E1 & E2 & E3). destruct (realigned_ok c size q Hs Hq Eq (proj2 (proj2 Hbus)) (ra_address a) (ra_burst a) ws E2) as (words & E4 & E5).
    set (bs := filter r_beat (seg ++ [i])) in *.
    assert (Lw : length ws = length bs).
    { clear - E1. rewrite <- (map_length g_rdata bs). revert E1. generalize (ra_address a mod x_bytes c / size * size)%Z as off. generalize (map g_rdata bs) as rs. intros rs.
      revert ws. induction rs as [|x rs IH]; intros ws off E; cbn [extract] in E.
      - inversion E. reflexivity.
      - destruct (shift_and_mask x size off) as [v|]; [|discriminate]. cbn [rbind] in E.
        destruct (extract _ _ _ _ rs) as [vs|] eqn:Ev; [|discriminate]. cbn [rbind] in E. inversion E. cbn [length]. f_equal. exact (IH _ _ Ev). }
    rewrite (bind_done _ _ _ _ _ E3). cbn [app].
    rewrite (bind_done _ _ _ tt (W s PActive o (tr ++ held o (seg ++ [i])) tl)).
    2: { unfold edge. cbn [ins st out trace]. rewrite held_app, app_assoc. reflexivity. }
    unfold beats_result. rewrite E1. cbn [rbind]. rewrite E4.
    replace (length ws) with (length bs) by (symmetry; exact Lw). destruct (Z.of_nat (length bs) =? ra_length a)%Z.
    + reflexivity.
    + reflexivity.
Qed.

(** the bursts *)
Lemma r_bursts_span l : forall acc, match span (r_final c) l with
  | (_, []) => r_bursts c acc l = []
  | (seg, i :: tl) => r_bursts c acc l = (acc ++ filter r_beat (seg ++ [i])) :: r_bursts c [] tl
  end.
Proof using.
  induction l as [|j l IH]; intro acc; [reflexivity|]. cbn [span r_bursts]. destruct (r_final c j) eqn:E.
  - cbn [app filter]. unfold r_final in E. apply andb_prop in E. destruct E as [-> _]. reflexivity.
  - specialize (IH (if r_beat j then acc ++ [j] else acc)). destruct (span (r_final c) l) as [seg [|i tl]]; [exact IH|].
    rewrite IH. cbn [app filter]. destruct (r_beat j); [rewrite <- app_assoc; reflexivity|reflexivity].
Qed.
Definition nf (x : list axi_in) : nat := length (filter (r_final c) x).
Lemma nf_app x y : nf (x ++ y) = nf x + nf y.
Proof using. unfold nf. rewrite filter_app, app_length. reflexivity. Qed.
Lemma r_bursts_length l : forall acc, length (r_bursts c acc l) = nf l.
Proof using.
  induction l as [|i l IH]; intro acc; [reflexivity|]. cbn [r_bursts]. unfold nf. cbn [filter]. destruct (r_final c i); cbn [length]; rewrite IH; reflexivity.
Qed.
Lemma r_bursts_skip x l acc : filter r_beat x = [] -> r_bursts c acc (x ++ l) = r_bursts c acc l.
Proof using.
  revert acc. induction x as [|i x IH]; intros acc H; [reflexivity|]. cbn [app r_bursts filter] in *. unfold r_final.
  destruct (r_beat i); [discriminate|]. cbn [andb]. apply IH. exact H.
Qed.
Lemma nf_skip x : filter r_beat x = [] -> nf x = 0.
Proof using.
  induction x as [|i x IH]; intro H; [reflexivity|]. cbn [filter] in H. unfold nf in *. cbn [filter]. unfold r_final at 1.
  destruct (r_beat i); [discriminate|]. cbn [andb]. apply IH. exact H.
Qed.

Context (l : list axi_in).
Hypothesis Hl : length l < fuel.
Hypothesis Hbeats : Forall (fun i => r_beat i = true -> r_beat_ok c i) l.

Lemma serve_r jobs : Forall (fun j => ar_ok c (snd j)) jobs -> forall (w : world unit axi_in ax_out), map fst (trace w) ++ ins w = l -> ph w <> PReadOnly ->
  (forall pre i post, l = pre ++ i :: post -> r_beat i = true -> length (trace w) <= length pre ->
     exists j, nth_error jobs (nf pre - nf (map fst (trace w))) = Some j /\ fst j <= length pre) ->
  map (fun x => (fst (fst x), snd x)) (fst (serve (r_job c fuel) jobs w)) =
  map (fun x => (fst x, beats_result (fst x) (snd x))) (combine (map snd jobs) (r_bursts c [] (ins w))).
Proof.
  induction 1 as [|[t a] jobs Ha Hjobs IH]; intros w Hw Hp Hj; [reflexivity|].
  destruct w as [s p o tr L]. cbn [trace ins ph snd] in *. cbn [serve]. cbn [trace]. set (d := t - length tr).
  assert (Hfirst : forall nr i r, L = nr ++ i :: r -> r_beat i = true -> filter r_beat nr = [] -> d <= length nr).
  { intros nr i r E Hi Fn. destruct (Hj (map fst tr ++ nr) i r) as (j & Ej & Hle).
    - rewrite <- Hw, E, <- app_assoc. reflexivity.
    - exact Hi.
    - rewrite app_length, map_length. lia.
    - rewrite nf_app, (nf_skip nr Fn) in Ej. replace (nf (map fst tr) + 0 - nf (map fst tr)) with 0 in Ej by lia.
      inversion Ej; subst j. cbn [fst] in Hle. rewrite app_length, map_length in Hle. unfold d. lia. }
  unfold bind at 1. rewrite edges_spec. cbn [ins st ph out trace]. destruct (d <=? length L) eqn:Ed.
  2: { apply Nat.leb_gt in Ed. cbn [fst map]. destruct (first_true r_beat L) as [F|(nr & i & r & E & Hi & Fn)].
       - pose proof (r_bursts_skip L [] [] F) as X. rewrite app_nil_r in X. rewrite X. reflexivity.
       - specialize (Hfirst nr i r E Hi Fn). rewrite E, app_length in Ed. cbn [length] in Ed. lia. }
  apply Nat.leb_le in Ed.
  assert (F0 : filter r_beat (firstn d L) = []).
  { destruct (first_true r_beat (firstn d L)) as [F|(nr & i & r & E & Hi & Fn)]; [exact F|]. exfalso.
    assert (E' : L = nr ++ i :: (r ++ skipn d L)) by (rewrite <- (firstn_skipn d L) at 1; rewrite E, <- app_assoc; reflexivity).
    specialize (Hfirst nr i _ E' Hi Fn). apply (f_equal (@length axi_in)) in E. rewrite firstn_length, app_length in E. cbn [length] in E. lia. }
  set (y := skipn d L). assert (EL : L = firstn d L ++ y) by (symmetry; apply firstn_skipn).
  set (p1 := match d with 0 => p | _ => PActive end).
  assert (Hp1 : p1 <> PReadOnly) by (unfold p1; destruct d; [exact Hp|discriminate]).
  set (x0 := firstn d L) in *. clearbody y. set (tr1 := tr ++ held o x0).
  assert (Hy : length y < fuel).
  { rewrite <- Hw, EL, !app_length in Hl. lia. }
  assert (By : Forall (fun i => r_beat i = true -> r_beat_ok c i) y).
  { rewrite <- Hw, EL, !Forall_app in Hbeats. apply Hbeats. }
  destruct (r_job_spec a s p1 o tr1 y Ha Hp1 Hy By) as [p' E]. rewrite E. clear E.
  pose proof (span_fst (r_final c) y) as Sf. pose proof (span_app (r_final c) y) as Sp. pose proof (fun i r => span_snd (r_final c) y i r) as Ss.
  pose proof (r_bursts_span y []) as RB.
  assert (EB : r_bursts c [] L = r_bursts c [] y) by (rewrite EL; apply r_bursts_skip; exact F0). rewrite EB.
  destruct (span (r_final c) y) as [seg [|i r]]; cbn [fst snd] in *.
  - rewrite RB. reflexivity.
  - specialize (Ss i r eq_refl). rewrite RB. cbn [app combine map fst snd].
    set (w2 := W s PActive o (tr1 ++ held o (seg ++ [i])) r).
    assert (Tw : map fst (trace w2) = map fst tr ++ x0 ++ seg ++ [i]).
    { unfold w2, tr1. cbn [trace]. rewrite !map_app, !held_fst, <- !app_assoc. reflexivity. }
    assert (Nw : nf (map fst (trace w2)) = S (nf (map fst tr))).
    { rewrite Tw, !nf_app, (nf_skip x0 F0). unfold nf at 2 3. rewrite (filter_none _ _ Sf). cbn [filter length]. rewrite Ss. cbn [length]. lia. }
    assert (G : map (fun x => (fst (fst x), snd x)) (fst (serve (r_job c fuel) jobs w2)) = map (fun x => (fst x, beats_result (fst x) (snd x))) (combine (map snd jobs) (r_bursts c [] r))).
    { apply (IH w2).
      - rewrite Tw. unfold w2. cbn [ins]. rewrite <- Hw, EL, <- Sp, <- !app_assoc. reflexivity.
      - discriminate.
      - intros pre i' post El Hi' Hn. rewrite Nw.
        assert (Hn2 : S (nf (map fst tr)) <= nf pre).
        { rewrite <- Nw. assert (Ep : exists z, pre = map fst (trace w2) ++ z).
          { assert (El2 : l = map fst (trace w2) ++ r) by (rewrite Tw, <- Hw, EL, <- Sp, <- !app_assoc; reflexivity).
            exists (skipn (length (map fst (trace w2))) pre). rewrite El in El2.
            apply (f_equal (firstn (length (map fst (trace w2))))) in El2. rewrite !firstn_app, Nat.sub_diag, firstn_all, firstn_O, app_nil_r in El2.
            rewrite map_length in El2 at 2. replace (length (trace w2) - length pre) with 0 in El2 by lia. rewrite firstn_O, app_nil_r in El2.
            rewrite <- El2 at 1. symmetry. apply firstn_skipn. }
          destruct Ep as [z ->]. rewrite nf_app. lia. }
        assert (Ltr : length tr <= length pre).
        { unfold w2, tr1 in Hn. cbn [trace] in Hn. rewrite !app_length in Hn. lia. }
        destruct (Hj pre i' post El Hi' Ltr) as (j & Ej & Hle). exists j. split; [|exact Hle].
        replace (nf pre - nf (map fst tr)) with (S (nf pre - S (nf (map fst tr)))) in Ej by lia. exact Ej. }
    fold w2. destruct (beats_result a (filter r_beat (seg ++ [i]))) eqn:BR; try (destruct (serve _ jobs w2) as [rs vv]; cbn [fst snd map] in *; rewrite G; reflexivity).
    exfalso. unfold beats_result in BR. destruct a as [aa sz]. destruct (_ =? _)%Z; [|discriminate]. destruct (rbind _ _); discriminate.
Qed.
End R.

(** the result of a read that is alone *)
Lemma alone_beats c a h bs : axi_bus c -> read_call_ok c a -> ar_accepts h = true ->
  (exists pre f, bs = pre ++ [f] /\ Forall (fun i => r_final c i = false) pre /\ r_final c f = true) ->
  Forall (fun i => r_beat i = true /\ r_beat_ok c i) bs ->
  alone c a h bs = beats_result c (a, size_or (x_bytes c) (ra_size a)) bs.
Proof.
  intros Hb (Hl & Ha & Hu) Hh (pre & f & -> & Hpre & Hf) Hall. unfold alone.
  set (a' := RAccess _ _ _ _ false).
  assert (RO : read_ok c (2 + length (pre ++ [f])) a' PActive (h :: pre ++ [f])).
  { constructor; [exact Hb|exact Hl|exact Ha|discriminate|cbn [length]; lia]. }
  assert (RC : read_cycles c (ra_sync a') (h :: pre ++ [f]) [] [] h pre f []).
  { constructor; try reflexivity; try assumption; try constructor. eapply Forall_impl; [|exact Hall]. cbn beta. tauto. }
  assert (Fl : filter r_beat (pre ++ [f]) = pre ++ [f]).
  { clear - Hall. induction Hall as [|i x [E _] _ IH]; [reflexivity|]. cbn [filter]. rewrite E, IH. reflexivity. }
  destruct (read_complete c _ a' tt PActive (AxOut L0 [] [] [] []) [] _ _ _ _ _ _ _ RO RC) as (ws & words & X1 & X2 & X3 & X4).
  rewrite Fl in *. rewrite X4. cbn [fst]. unfold beats_result. cbn [ra_address ra_burst ra_size ra_length a'] in *. rewrite X1. cbn [rbind]. rewrite X2. reflexivity.
Qed.
Lemma burst_shape c l : forall acc, Forall (fun i => r_final c i = false) acc ->
  Forall (fun bs => exists pre f, bs = pre ++ [f] /\ Forall (fun i => r_final c i = false) pre /\ r_final c f = true) (r_bursts c acc l).
Proof.
  induction l as [|i l IH]; intros acc Ha; [constructor|]. cbn [r_bursts]. destruct (r_final c i) eqn:E.
  - constructor; [exists acc, i; auto|apply IH; constructor].
  - apply IH. destruct (r_beat i); [apply Forall_app; split; [exact Ha|repeat constructor; exact E]|exact Ha].
Qed.
Lemma burst_ok c l : Forall (fun i => r_beat i = true -> r_beat_ok c i) l -> forall acc, Forall (fun i => r_beat i = true /\ r_beat_ok c i) acc ->
  Forall (Forall (fun i => r_beat i = true /\ r_beat_ok c i)) (r_bursts c acc l).
Proof.
  induction 1 as [|i l Hi _ IH]; intros acc Ha; [constructor|]. cbn [r_bursts]. destruct (r_final c i) eqn:E.
  - assert (B : r_beat i = true) by (unfold r_final in E; apply andb_prop in E; apply E).
    constructor; [apply Forall_app; split; [exact Ha|constructor; [split; [assumption||reflexivity|auto]|constructor]]|apply IH; constructor].
  - apply IH. destruct (bool_dec (r_beat i) true) as [B|B]; [rewrite B; apply Forall_app; split; [exact Ha|constructor; [split; auto|constructor]]|apply not_true_is_false in B; rewrite B; exact Ha].
Qed.

Lemma combine_firstn_l {A B} (x : list A) (y : list B) n : length y <= n -> combine (firstn n x) y = combine x y.
Proof.
  revert n y. induction x as [|a x IH]; intros n y H; [destruct n; reflexivity|]. destruct n as [|n]; [destruct y; [reflexivity|cbn in H; lia]|].
  destruct y as [|b y]; [reflexivity|]. cbn [firstn combine]. f_equal. apply IH. cbn [length] in H. lia.
Qed.
Lemma last_final c l n : nf c l = S n -> exists pre i post, l = pre ++ i :: post /\ r_final c i = true /\ nf c pre = n.
Proof.
  induction l as [|i x IH] using rev_ind; [discriminate|]. rewrite nf_app. unfold nf at 2. cbn [filter]. destruct (r_final c i) eqn:E; cbn [length]; intro H.
  - exists x, i, []. repeat split; [exact E|lia].
  - destruct IH as (pre & j & post & -> & H1 & H2); [lia|]. exists pre, j, (post ++ [i]). rewrite <- app_assoc. auto.
Qed.

Lemma addressed_all (ra : list (raccess * Z * nat * outcome unit)) : Forall (fun x => snd x = Done tt) ra ->
  addressed ra = map (fun x => (snd (fst x), fst (fst x))) ra.
Proof. induction 1 as [|[[x n] r] ra E _ IH]; [reflexivity|]. cbn [snd] in E. subst r. cbn [addressed flat_map map app fst snd]. f_equal. exact IH. Qed.
Section Reads.
Context (c : axi_cfg) (fuel : nat) (calls : list (nat * raccess)) (p : phase) (o : ax_out) (l : list axi_in).
Hypothesis Hok : reads_ok c fuel calls p o l.
Notation accesses := (map snd calls).
Definition rsized (x : nat * raccess) : nat * (raccess * Z) := (fst x, (snd x, size_or (x_bytes c) (ra_size (snd x)))).
Notation jobs := (map rsized calls).
Lemma radmitted_all : admitted (read_check c) calls = jobs.
Proof.
  destruct Hok as (Hb & F & _). clear Hok. induction F as [|[t a] cs (Hl & _) _ IH]; [reflexivity|].
  cbn [admitted flat_map map fst snd]. unfold read_check at 1. cbn [snd] in Hl. destruct (legal_facts c _ _ _ _ Hb Hl) as (-> & _). cbn [app]. f_equal. exact IH.
Qed.
Lemma rjobs_ok : Forall (fun j => ar_ok c (snd j)) jobs.
Proof.
  destruct Hok as (_ & F & _). apply Forall_forall. intros j Hj. apply in_map_iff in Hj. destruct Hj as (x & <- & Hx).
  rewrite Forall_forall in F. split; [apply F; exact Hx|reflexivity].
Qed.
Definition ar_words (x : raccess * Z) : list request := [read_request c (fst x)].

Lemma ar_channel :
  let '(rs, v) := serve (ar_job c fuel) jobs (World tt p o [] l) in
  let full := trace v ++ held (out v) (ins v) in
  map fst full = l /\ stable aw_offered ar_accepts full /\
  map (fun x => fst (fst x)) rs = firstn (length rs) (map snd jobs) /\
  Forall (fun x => snd x = Done tt) rs /\ length rs <= length calls /\
  (exists k, map (decode c) (transfers aw_offered ar_accepts full) = firstn k (map (read_request c) accesses)) /\
  (list_max (map fst calls) + 2 * length calls <= ready_cycles ar_accepts l ->
     map (decode c) (transfers aw_offered ar_accepts full) = map (read_request c) accesses) /\
  (forall j m, j < length calls -> S j <= length (transfers aw_offered ar_accepts (firstn m full)) ->
     exists x, nth_error rs j = Some x /\ snd (fst x) <= m).
Proof.
  pose proof rjobs_ok as Jk. destruct Hok as (Hb & F & Hp & Ho & Hl).
  pose proof (channel aw_offered ar_accepts (ar_job c fuel) (decode c) ar_words (fun _ => 2) fuel (ar_ok c)
    (ar_HB c fuel Hb) (fun a w => ar_HS c fuel a w) (fun a w r w' _ _ => ar_HP c fuel a w r w')
    (fun a _ => ltac:(discriminate)) jobs p o l Jk Hp Ho Hl) as C.
  destruct (serve (ar_job c fuel) jobs (World tt p o [] l)) as [rs v]. destruct C as (C1 & C2 & C3 & C4 & C5 & C6 & C7 & C8 & C9).
  assert (Fw : flat_map ar_words (map snd jobs) = map (read_request c) accesses).
  { clear. induction calls as [|x cs IH]; [reflexivity|]. cbn [map flat_map app ar_words rsized snd fst]. f_equal. exact IH. }
  rewrite map_length in C5. rewrite Fw in C6, C7.
  assert (Jf : map fst jobs = map fst calls) by (rewrite map_map; reflexivity). rewrite Jf in C7.
  assert (Ec : costs (fun _ => 2) (map snd jobs) = 2 * length calls).
  { clear. unfold costs. rewrite !map_map. induction calls as [|x cs IH]; [reflexivity|]. cbn [map list_sum fold_right length]. unfold list_sum in IH. rewrite IH. lia. }
  rewrite Ec in C7.
  repeat (split; [assumption|]).
  intros j m Hj Ht. apply C8; [rewrite map_length; exact Hj|].
  assert (Et : forall n, n <= length calls -> total ar_words (firstn n (map snd jobs)) = n).
  { clear. intros n. revert n. induction calls as [|x cs IH]; intros n Hn; [cbn [length] in Hn; replace n with 0 by lia; reflexivity|].
    destruct n as [|n]; [reflexivity|]. cbn [map firstn]. unfold total in *. cbn [flat_map ar_words app length] in *. f_equal. apply IH. lia. }
  rewrite Et by lia. exact Ht.
Qed.

Lemma reads_channel :
  let r := concurrent_reads c fuel calls p o l in
  map fst (rs_ar r) = l /\ stable aw_offered ar_accepts (rs_ar r) /\
  (exists k, map (decode c) (transfers aw_offered ar_accepts (rs_ar r)) = firstn k (map (read_request c) accesses)) /\
  (list_max (map fst calls) + 2 * length calls <= ready_cycles ar_accepts l ->
     map (decode c) (transfers aw_offered ar_accepts (rs_ar r)) = map (read_request c) accesses).
Proof.
  unfold concurrent_reads. rewrite radmitted_all. pose proof ar_channel as C.
  destruct (serve (ar_job c fuel) jobs (World tt p o [] l)) as [ra va]. destruct C as (C1 & C2 & C3 & C4 & C5 & C6 & C7 & C8).
  destruct (serve _ (addressed ra) _) as [rr vr]. cbn [rs_ar]. auto.
Qed.

Lemma reads_results h : ar_accepts h = true ->
  let r := concurrent_reads c fuel calls p o l in
  answers_reads c r l -> Forall (fun i => r_beat i = true -> r_beat_ok c i) l ->
  rs_results r = map (fun x => (fst x, alone c (fst x) h (snd x))) (combine accesses (r_bursts c [] l)) /\
  length (r_bursts c [] l) <= length calls.
Proof.
  intro Hh. unfold concurrent_reads. rewrite radmitted_all. pose proof ar_channel as C. pose proof rjobs_ok as Jk.
  destruct Hok as (Hb & F & Hp & Ho & Hl).
  destruct (serve (ar_job c fuel) jobs (World tt p o [] l)) as [ra va]. destruct C as (C1 & C2 & C3 & C4 & C5 & (k & C6) & C7 & C8).
  rewrite addressed_all by exact C4. set (rj := map (fun x : raccess * Z * nat * outcome unit => (snd (fst x), fst (fst x))) ra).
  intros HA HR. destruct (serve (r_job c fuel) rj (World tt p o [] l)) as [rr vr] eqn:Er. unfold answers_reads in HA. cbn [rs_ar rs_results] in *.
  assert (HJ : forall pre i post, l = pre ++ i :: post -> r_beat i = true -> exists j, nth_error rj (nf c pre) = Some j /\ fst j <= length pre).
  { intros pre i post El Hi. destruct (nth_at_split pre i post) as [N1 N2]. rewrite <- El in N1, N2.
    pose proof (HA _ _ N1 Hi) as H1. rewrite N2 in H1. fold (nf c pre) in H1.
    assert (Ln : nf c pre < length calls).
    { apply (f_equal (@length _)) in C6. rewrite map_length, firstn_length, !map_length in C6. pose proof (transfers_firstn aw_offered ar_accepts (trace va ++ held (out va) (ins va)) (length pre)). lia. }
    destruct (C8 (nf c pre) (length pre) Ln ltac:(lia)) as (x & Ex & Lx). exists (snd (fst x), fst (fst x)). split; [|exact Lx].
    unfold rj. rewrite nth_error_map, Ex. reflexivity. }
  assert (Lb : length (r_bursts c [] l) <= length ra).
  { rewrite r_bursts_length. destruct (nf c l) as [|n] eqn:En; [lia|]. destruct (last_final c l n En) as (pre & i & post & El & Hi & Hn).
    assert (Hi2 : r_beat i = true) by (unfold r_final in Hi; apply andb_prop in Hi; apply Hi).
    destruct (HJ pre i post El Hi2) as (j & Ej & _). rewrite Hn in Ej. unfold rj in Ej. 
    assert (n < length (map (fun x : raccess * Z * nat * outcome unit => (snd (fst x), fst (fst x))) ra)) by (apply nth_error_Some; congruence). rewrite map_length in H. lia. }
  split; [|lia].
  assert (Sj : map snd rj = firstn (length ra) (map snd jobs)).
  { unfold rj. rewrite map_map. cbn [snd]. exact C3. }
  assert (Fj : Forall (fun j => ar_ok c (snd j)) rj).
  { rewrite Forall_forall in Jk.
    assert (X : Forall (ar_ok c) (map snd rj)).
    { rewrite Sj. apply Forall_forall. intros x Hx2. apply (in_map (fun y => y)) in Hx2. rewrite map_id in Hx2.
      assert (In x (map snd jobs)) by (rewrite <- (firstn_skipn (length ra) (map snd jobs)); apply in_or_app; left; exact Hx2).
      apply in_map_iff in H. destruct H as (y & <- & Hy). apply Jk. exact Hy. }
    rewrite Forall_map in X. exact X. }
  pose proof (serve_r c fuel Hb l Hl HR rj Fj (World tt p o [] l) eq_refl Hp) as SR.
  rewrite Er in SR. cbn [ins trace map fst length] in SR.
  assert (SR' := SR ltac:(intros pre i post El Hi _; change (nf c []) with 0; rewrite Nat.sub_0_r; exact (HJ pre i post El Hi))). clear SR.
  rewrite Sj, combine_firstn_l in SR' by exact Lb.
  apply (f_equal (map (fun x : raccess * Z * outcome (list bits * list Z) => (fst (fst x), snd x)))) in SR'. rewrite !map_map in SR'. cbn [fst snd] in SR'.
  rewrite SR'. clear SR' Er rj HJ Sj Fj.
  pose proof (burst_shape c l [] ltac:(constructor)) as Sh. pose proof (burst_ok c l HR [] ltac:(constructor)) as Bk.
  clear - F Hb Hh Sh Bk. revert Sh Bk. generalize (r_bursts c [] l) as bs. induction F as [|[t a] cs Ha _ IH]; intros bs Sh Bk; [reflexivity|].
  destruct bs as [|b bs]; [reflexivity|]. inversion Sh; inversion Bk; subst. cbn [map combine fst snd rsized]. f_equal; [|apply IH; assumption].
  f_equal. symmetry. apply alone_beats; assumption.
Qed.
End Reads.

Lemma combine_inj {A B} (x y : list A) (z : list B) : length x = length z -> length y = length z -> combine x z = combine y z -> x = y.
Proof.
  revert y z. induction x as [|a x IH]; intros [|b y] [|e z] H1 H2 E; try discriminate; [reflexivity|].
  cbn [combine length] in *. inversion E. f_equal. eapply IH; [| |eassumption]; lia.
Qed.
Lemma alone_memory c a h bs req mems : axi_bus c -> read_call_ok c a -> ar_accepts h = true ->
  (exists pre f, bs = pre ++ [f] /\ Forall (fun i => r_final c i = false) pre /\ r_final c f = true) ->
  Forall (fun i => r_beat i = true /\ r_beat_ok c i) bs ->
  decode c req = read_request c a -> slave_reads c req mems bs ->
  (ra_burst a = WRAP -> wrap_smooth (x_bytes c) (ra_address a) (size_or (x_bytes c) (ra_size a)) (ra_length a)) ->
  (ra_burst a <> FIXED -> forall i, mems i = mems 0%nat) ->
  alone c a h bs = Done (read_words (ra_burst a) mems (ra_address a) (size_or (x_bytes c) (ra_size a)) (Z.to_nat (ra_length a)), map rresp_of bs).
Proof.
  intros Hb (Hl & Ha & Hu) Hh (pre & f & -> & Hpre & Hf) Hall Hd Hs Hw Hm. unfold alone.
  set (a' := RAccess _ _ _ _ false). set (o := AxOut L0 [] [] [] []).
  assert (RO : read_ok c (2 + length (pre ++ [f])) a' PActive (h :: pre ++ [f])).
  { constructor; [exact Hb|exact Hl|exact Ha|discriminate|cbn [length]; lia]. }
  assert (RC : read_cycles c (ra_sync a') (h :: pre ++ [f]) [] [] h pre f []).
  { constructor; try reflexivity; try assumption; try constructor. eapply Forall_impl; [|exact Hall]. cbn beta. tauto. }
  assert (Fl : filter r_beat (pre ++ [f]) = pre ++ [f]).
  { clear - Hall. induction Hall as [|i x [E _] _ IH]; [reflexivity|]. cbn [filter]. rewrite E, IH. reflexivity. }
  destruct (legal_facts c _ _ _ _ Hb Hl) as (_ & Ps & Ls & Hn & _).
  destruct (read_complete c _ a' tt PActive o [] _ _ _ _ _ _ _ RO RC) as (ws & words & X1 & X2 & X3 & X4).
  assert (SR : slave_reads c (ax_request c o (ra_address a') (ra_length a') (ra_burst a') (size_or (x_bytes c) (ra_size a'))) mems (filter r_beat (pre ++ [f]))).
  { rewrite Fl. unfold slave_reads in *. rewrite Hd in Hs. rewrite decode_request by (try assumption; exact (on_bus_size _ _ _ _ _ Hu eq_refl)). exact Hs. }
  destruct (read_memory c _ a' tt PActive o [] _ _ _ _ _ _ _ mems RO RC Hu Hw Hm SR) as [M _].
  unfold axi_read_rresp in M. cbn [ra_address ra_burst ra_size ra_length ra_sync a'] in *. fold a' in X4, M. rewrite Fl in *.
  assert (Lb : Z.of_nat (length (pre ++ [f])) = ra_length a).
  { unfold slave_reads in Hs. rewrite Hd in Hs. apply Hs. }
  rewrite X4. cbn [fst]. rewrite (proj2 (Z.eqb_eq _ _) Lb).
  rewrite (proj2 (Z.eqb_eq _ _) Lb) in X4. rewrite (bind_done _ _ _ _ _ X4) in M. cbn [ret] in M. injection M as M.
  f_equal. f_equal. eapply combine_inj; [| |exact M].
  - rewrite map_length, X3. reflexivity.
  - unfold read_words, fixed_words, incr_words, wrap_words. destruct (ra_burst a); rewrite !map_length, ?seq_length; lia.
Qed.

Lemma reads_memory c fuel calls p o l : reads_ok c fuel calls p o l ->
  let r := concurrent_reads c fuel calls p o l in
  answers_reads c r l -> Forall (fun i => r_beat i = true -> r_beat_ok c i) l ->
  forall k t a req bs mems,
    nth_error calls k = Some (t, a) ->
    nth_error (transfers aw_offered ar_accepts (rs_ar r)) k = Some req -> nth_error (r_bursts c [] l) k = Some bs ->
    slave_reads c req mems bs ->
    (ra_burst a = WRAP -> wrap_smooth (x_bytes c) (ra_address a) (size_or (x_bytes c) (ra_size a)) (ra_length a)) ->
    (ra_burst a <> FIXED -> forall i, mems i = mems 0%nat) ->
    nth_error (rs_results r) k =
      Some (a, Done (read_words (ra_burst a) mems (ra_address a) (size_or (x_bytes c) (ra_size a)) (Z.to_nat (ra_length a)), map rresp_of bs)).
Proof.
  intros Hok r HA HR k t a req bs mems Ea Er Eb Hs Hw Hm.
  set (h := AxiIn L0 L0 L0 [] L1 L0 [] [] L0).
  destruct (reads_results c fuel calls p o l Hok h eq_refl HA HR) as [R1 R2]. fold r in R1. rewrite R1.
  destruct (reads_channel c fuel calls p o l Hok) as (_ & _ & (n & Hn) & _). fold r in Hn.
  destruct Hok as (Hb & F & _).
  assert (Hd : decode c req = read_request c a).
  { assert (E : nth_error (map (decode c) (transfers aw_offered ar_accepts (rs_ar r))) k = Some (decode c req)) by (rewrite nth_error_map, Er; reflexivity).
    rewrite Hn in E. assert (E2 : nth_error (map (read_request c) (map snd calls)) k = Some (decode c req)).
    { revert E. generalize (map (read_request c) (map snd calls)) as q. clear. intro q. revert n k. induction q as [|x q IH]; intros [|n] [|k] E; cbn in *; try discriminate; auto. eauto. }
    rewrite !nth_error_map, Ea in E2. cbn in E2. congruence. }
  assert (Hc : nth_error (combine (map snd calls) (r_bursts c [] l)) k = Some (a, bs)).
  { assert (E1 : nth_error (map snd calls) k = Some a) by (rewrite nth_error_map, Ea; reflexivity).
    revert E1 Eb. generalize (map snd calls) as x, (r_bursts c [] l) as y. clear. induction k as [|k IH]; intros [|u x] [|v y] E1 E2; cbn in *; try discriminate; [congruence|auto]. }
  rewrite nth_error_map, Hc. cbn [option_map fst snd]. f_equal. f_equal.
  rewrite Forall_forall in F. pose proof (F _ (nth_error_In _ _ Ea)) as Ha. cbn [snd] in Ha.
  pose proof (burst_shape c l [] ltac:(constructor)) as Sh. pose proof (burst_ok c l HR [] ltac:(constructor)) as Bk.
  rewrite Forall_forall in Sh, Bk. apply nth_error_In in Eb.
  eapply alone_memory; eauto.
Qed.
