(** AxlProof.v -- channels of an AXI4Master used by several tasks, some of which raise:
    with enough ready cycles all others transfer their words. *)
From Verif Require Import Base Async BitsLemmas HandshakeSpec Handshake AxiModel AxiSpec AxiDataProof AxiReadProof AxiChanProof AxiRunProof AxiTopProof AxcModel AxcSpec AxcProof AxcTopProof AxcWriteProof AxcReadProof AxfSpec AxfProof.
Local Open Scope list_scope.

Section Mixed.
Context {TO A P : Type} (off : TO -> bool) (acc : axi_in -> bool).
Context (body : A -> M unit axi_in TO unit) (proj : TO -> P) (words : A -> list P) (cost : A -> nat) (fuel : nat) (ok bad : A -> Prop).
Notation world := (world unit axi_in TO).
Hypothesis HB : forall a (w : world), ok a -> ph w <> PReadOnly -> off (out w) = false -> free off acc (trace w) -> length (ins w) < fuel ->
  exists ds, map proj ds = words a /\ tx off acc (body a) w ds (cost a) (fun _ w' => off (out w') = false /\ at_handshake off acc (trace w')).
Hypothesis HP : forall a (w : world) r w', ok a -> ph w <> PReadOnly -> body a w = (Done r, w') -> ph w' <> PReadOnly.
Hypothesis HX : forall a, bad a -> words a = [] /\ exists n e, n <= cost a /\ forall w,
  body a w = match edges n w with (Done _, w') => (Exn e, w') | (_, w') => (Susp, w') end.

(** what one job does *)
Lemma job_step t a (w : world) : ok a \/ bad a -> ph w <> PReadOnly -> off (out w) = false -> free off acc (trace w) -> stable off acc (trace w) -> length (ins w) < fuel ->
  let '(x, w1) := (edges (t - length (trace w)) ;; body a) w in
  exists new, trace w1 = trace w ++ new /\ map fst new ++ ins w1 = ins w /\
    match x with
    | Fuel => False
    | Susp => ready_cycles acc (ins w) < t - length (trace w) + cost a
    | _ => ph w1 <> PReadOnly /\ off (out w1) = false /\ free off acc (trace w1) /\ stable off acc (trace w1) /\
           t <= length (trace w1) /\ map proj (transfers off acc new) = words a /\
           (ready_cycles acc (map fst new) <= (t - length (trace w)) + cost a)
    end.
Proof using HB HP HX.
  intros Ha Hp Ho Hf St Hl. set (d := t - length (trace w)). 
  assert (TE : forall n (v : world), ph v <> PReadOnly -> off (out v) = false -> free off acc (trace v) -> stable off acc (trace v) ->
    let '(r, v') := edges n v in exists new, trace v' = trace v ++ new /\ map fst new ++ ins v' = ins v /\
      match r with
      | Done _ => ph v' <> PReadOnly /\ off (out v') = false /\ free off acc (trace v') /\ stable off acc (trace v') /\ length new = n /\ transfers off acc new = []
      | Susp => length (ins v) < n
      | _ => False
      end).
  { clear - d. intros n v Hp Ho Hf St. pose proof (tx_edges off acc n v (fun _ w' => ph w' <> PReadOnly /\ out w' = out v /\ free off acc (trace w')) Ho Hf Hp
      ltac:(intros p' tr' l' Hp' Hf'; cbn; auto) St) as X.
    rewrite edges_spec in X. rewrite edges_spec. destruct (Nat.leb_spec n (length (ins v))) as [L|L].
    - destruct X as (new & X1 & X2 & X3 & X4 & _ & X5 & X6 & X7). exists new. cbn [trace ins out ph] in *. split; [exact X1|]. split; [exact X2|].
      split; [exact X5|]. split; [exact Ho|]. split; [exact X7|]. split; [exact X3|]. split; [|exact X4].
      apply (f_equal (@length _)) in X1. rewrite !app_length, held_length, firstn_length in X1. lia.
    - destruct X as (new & X1 & X2 & _). exists new. auto. }
  pose proof (TE d w Hp Ho Hf St) as E0. unfold bind. destruct (edges d w) as [r0 w0]. destruct E0 as (n0 & T0 & I0 & E0).
  assert (R0 : ready_cycles acc (ins w) = ready_cycles acc (map fst n0) + ready_cycles acc (ins w0)) by (rewrite <- I0; apply rc_app).
  assert (RL : forall x : list axi_in, ready_cycles acc x <= length x).
  { clear. intro x. unfold ready_cycles. induction x as [|i x IH]; [apply le_n|]. cbn [filter]. destruct (acc i); cbn [length]; lia. }
  destruct r0 as [[]|e| |]; [| contradiction | | contradiction].
  2:{ exists n0. split; [exact T0|]. split; [exact I0|]. pose proof (RL (ins w)). lia. }
  destruct E0 as (P0 & O0 & F0 & S0 & L0 & C0).
  assert (Rn : ready_cycles acc (map fst n0) <= d) by (pose proof (RL (map fst n0)) as X; rewrite map_length in X; lia).
  assert (Hl0 : length (ins w0) < fuel) by (rewrite <- I0, app_length in Hl; lia).
  assert (Lt : t <= length (trace w0)) by (rewrite T0, app_length; lia).
  destruct Ha as [Ha|Ha].
  - destruct (HB a w0 Ha P0 O0 F0 Hl0) as (ds & Eds & TX). specialize (TX S0). pose proof (HP a w0) as HP0.
    destruct (body a w0) as [r1 w1]. destruct TX as (n1 & T1 & I1 & S1 & D). exists (n0 ++ n1).
    split; [rewrite T1, T0, app_assoc; reflexivity|]. split; [rewrite map_app, <- app_assoc, I1, I0; reflexivity|].
    destruct r1 as [[]|e| |]; [| contradiction | | contradiction].
    + destruct D as (D1 & D2 & D3 & D4). split; [exact (HP0 tt w1 Ha P0 eq_refl)|]. split; [exact D3|]. split; [exact (handshake_free _ _ _ D4)|].
      split; [exact S1|]. split; [rewrite T1, app_length; lia|]. split; [rewrite transfers_app, C0, D1; exact Eds|]. rewrite map_app, rc_app. lia.
    + destruct D as (D1 & D2 & D3 & _). rewrite R0. lia.
  - destruct (HX a Ha) as (Ew & n & e & Hn & E). rewrite E. pose proof (TE n w0 P0 O0 F0 S0) as E1. destruct (edges n w0) as [r1 w1]. destruct E1 as (n1 & T1 & I1 & E1).
    assert (G : trace w1 = trace w ++ n0 ++ n1 /\ map fst (n0 ++ n1) ++ ins w1 = ins w).
    { split; [rewrite T1, T0, app_assoc; reflexivity|]. rewrite map_app, <- app_assoc, I1, I0; reflexivity. }
    destruct r1 as [[]|e1| |]; [| contradiction | | contradiction]; exists (n0 ++ n1); (split; [apply G|]; split; [apply G|]).
    + destruct E1 as (P1 & O1 & F1 & S1 & L1 & C1). repeat (split; [assumption|]). split; [rewrite T1, app_length; lia|].
      split; [rewrite transfers_app, C0, C1, Ew; reflexivity|]. rewrite map_app, rc_app. pose proof (RL (map fst n1)) as X. rewrite map_length in X. lia.
    + rewrite R0. pose proof (RL (ins w0)). lia.
Qed.

Lemma serve_mixed T jobs : Forall (fun j => (ok (snd j) \/ bad (snd j)) /\ fst j <= T) jobs -> forall w : world,
  ph w <> PReadOnly -> off (out w) = false -> free off acc (trace w) -> stable off acc (trace w) -> length (ins w) < fuel ->
  (T - length (trace w)) + costs cost (map snd jobs) <= ready_cycles acc (ins w) ->
  let '(rs, v) := serve body jobs w in
  exists new, trace v = trace w ++ new /\ length rs = length jobs /\
    map proj (transfers off acc new) = flat_map words (map snd jobs) /\ off (out v) = false.
Proof using HB HP HX.
  induction 1 as [|[t a] jobs [Oa Ht] _ IH]; intros w Hp Ho Hf St Hl R.
  - exists []. rewrite app_nil_r. auto.
  - cbn [serve]. cbn [map snd fst] in *. rewrite costs_cons in R. pose proof (job_step t a w Oa Hp Ho Hf St Hl) as J.
    destruct ((edges (t - length (trace w)) ;; body a) w) as [x w1]. destruct J as (n1 & T1 & I1 & J).
    assert (Hl1 : length (ins w1) < fuel) by (rewrite <- I1, app_length in Hl; lia).
    assert (R1 : ready_cycles acc (ins w) = ready_cycles acc (map fst n1) + ready_cycles acc (ins w1)) by (rewrite <- I1; apply rc_app).
    assert (Ln : length (trace w1) = length (trace w) + length n1) by (rewrite T1, app_length; reflexivity).
    assert (G : x <> Susp -> x <> Fuel -> let '(rs, v) := serve body jobs w1 in
      exists new, trace v = trace w ++ new /\ S (length rs) = length ((t, a) :: jobs) /\ map proj (transfers off acc new) = words a ++ flat_map words (map snd jobs) /\ off (out v) = false).
    { intros N1 N2. assert (J' : ph w1 <> PReadOnly /\ off (out w1) = false /\ free off acc (trace w1) /\ stable off acc (trace w1) /\ t <= length (trace w1) /\
        map proj (transfers off acc n1) = words a /\ ready_cycles acc (map fst n1) <= (t - length (trace w)) + cost a) by (destruct x; [exact J|exact J|contradiction N1; reflexivity|contradiction N2; reflexivity]).
      destruct J' as (P1 & O1 & F1 & S1 & L1 & W1 & C1).
      specialize (IH w1 P1 O1 F1 S1 Hl1 ltac:(lia)). destruct (serve body jobs w1) as [rs v]. destruct IH as (new & G1 & G2 & G3 & G4).
      exists (n1 ++ new). split; [rewrite G1, T1, app_assoc; reflexivity|]. split; [cbn [length]; lia|]. split; [|exact G4].
      rewrite transfers_app, map_app, W1, G3. reflexivity. }
    destruct x as [[]|e| |]; [specialize (G ltac:(discriminate) ltac:(discriminate))|specialize (G ltac:(discriminate) ltac:(discriminate))|lia|contradiction];
      (destruct (serve body jobs w1) as [rs v]; destruct G as (new & G1 & G2 & G3 & G4); exists new; split; [exact G1|]; split; [exact G2|]; split; [exact G3|exact G4]).
Qed.

Lemma channel_mixed jobs p o l : Forall (fun j => ok (snd j) \/ bad (snd j)) jobs -> p <> PReadOnly -> off o = false -> length l < fuel ->
  list_max (map fst jobs) + costs cost (map snd jobs) <= ready_cycles acc l ->
  let '(rs, v) := serve body jobs (World tt p o [] l) in
  length rs = length jobs /\ map proj (transfers off acc (trace v ++ held (out v) (ins v))) = flat_map words (map snd jobs).
Proof using HB HP HX.
  intros Hok Hp Ho Hl R.
  assert (Hj : Forall (fun j => (ok (snd j) \/ bad (snd j)) /\ fst j <= list_max (map fst jobs)) jobs).
  { rewrite Forall_forall in Hok |- *. intros j Hin. split; [auto|]. apply list_max_in. apply in_map. exact Hin. }
  pose proof (serve_mixed (list_max (map fst jobs)) jobs Hj (World tt p o [] l) Hp Ho (free_nil off acc) I Hl) as S0. cbn [trace ins length app] in S0.
  rewrite Nat.sub_0_r in S0. specialize (S0 R). destruct (serve body jobs (World tt p o [] l)) as [rs v].
  destruct S0 as (new & -> & S1 & S2 & S3). split; [exact S1|]. rewrite transfers_app, transfers_idle, app_nil_r by exact S3. exact S2.
Qed.
End Mixed.

(** ** reads *)
Section Reads.
Context (c : axi_cfg) (fuel : nat) (calls : list (nat * raccess)) (p : phase) (o : ax_out) (l : list axi_in).
Hypothesis Hb : axi_bus c.
Hypothesis F : Forall (fun x => read_call_any c (snd x)) calls.
Hypothesis Hp : p <> PReadOnly.
Hypothesis Ho : aw_offered o = false.
Hypothesis Hl : length l < fuel.

Lemma reads_progress : list_max (map fst calls) + 2 * length calls <= ready_cycles ar_accepts l ->
  map (decode c) (transfers aw_offered ar_accepts (rs_ar (concurrent_reads c fuel calls p o l))) =
  map (read_request c) (filter (fun a => address_fits c (ra_address a)) (map snd calls)).
Proof.
  intro R. 
  assert (E : admitted (read_check c) calls = map (rsized c) calls).
  { clear - Hb F. induction F as [|[t a] cs (H & _) _ IH]; [reflexivity|].
    cbn [admitted flat_map map fst snd]. unfold read_check at 1. cbn [snd] in H. destruct (legal_facts c _ _ _ _ Hb H) as (-> & _). cbn [app]. f_equal. apply IH. inversion F; assumption. }
  unfold concurrent_reads. rewrite E.
  pose proof (channel_mixed aw_offered ar_accepts (ar_job c fuel) (decode c)
    (fun x => if address_fits c (ra_address (fst x)) then [read_request c (fst x)] else []) (fun _ => 2) fuel (ar_ok c)
    (fun x => address_fits c (ra_address (fst x)) = false)) as C.
  specialize (C ltac:(intros a w Ha; assert (X : address_fits c (ra_address (fst a)) = true) by (apply Z.ltb_lt; apply Ha); cbn beta; rewrite X; exact (ar_HB c fuel Hb a w Ha))).
  specialize (C (fun a w r w' _ _ => ar_HP c fuel a w r w')).
  specialize (C ltac:(intros a Ha; cbn beta in *; rewrite Ha; split; [reflexivity|]; destruct (ar_waits c fuel a Ha) as (n & Hn & X); exists n, EValue; auto)).
  specialize (C (map (rsized c) calls) p o l).
  assert (J : Forall (fun j => ar_ok c (snd j) \/ address_fits c (ra_address (fst (snd j))) = false) (map (rsized c) calls)).
  { apply Forall_map. eapply Forall_impl; [|exact F]. intros x (H1 & H2 & H3). cbn [rsized snd fst]. destruct (address_fits c (ra_address (snd x))) eqn:Ef; [left|right; reflexivity].
    apply Z.ltb_lt in Ef. split; [split; [exact H1|split; [split; [exact H2|exact Ef]|exact H3]]|reflexivity]. }
  specialize (C J Hp Ho Hl). rewrite map_map in C. cbn [rsized fst] in C.
  assert (Ec : costs (fun _ : raccess * Z => 2) (map snd (map (rsized c) calls)) = 2 * length calls).
  { clear. unfold costs. rewrite !map_map. induction calls as [|x cs IH]; [reflexivity|]. cbn [map list_sum fold_right length]. unfold list_sum in IH. rewrite IH. lia. }
  rewrite Ec in C. specialize (C R). destruct (serve (ar_job c fuel) (map (rsized c) calls) (World tt p o [] l)) as [ra va]. destruct C as [_ C].
  destruct (serve _ (addressed ra) _) as [rr vr]. cbn [rs_ar]. rewrite C. clear.
  induction calls as [|x cs IH]; [reflexivity|]. cbn [map flat_map rsized snd fst filter]. rewrite IH. destruct (address_fits c (ra_address (snd x))); reflexivity.
Qed.
End Reads.

(** ** writes *)
Section Writes.
Context (c : axi_cfg) (fuel : nat) (calls : list (nat * waccess)) (p : phase) (oa : ax_out) (ow : w_out) (l : list axi_in).
Hypothesis Hb : axi_bus c.
Hypothesis F : Forall (fun x => write_call_any c (snd x)) calls.
Hypothesis Hp : p <> PReadOnly.
Hypothesis Ho1 : aw_offered oa = false.
Hypothesis Ho2 : w_offered ow = false.
Hypothesis Hl : length l < fuel.
Notation accesses := (map snd calls).

Lemma aw_progress : list_max (map fst calls) + list_sum (map (fun a => 2 + wa_alat a) accesses) <= ready_cycles aw_accepts l ->
  let '(rs, v) := serve (aw_job c fuel) (map (sized c) calls) (World tt p oa [] l) in
  length rs = length calls /\
  map (decode c) (transfers aw_offered aw_accepts (trace v ++ held (out v) (ins v))) = map (write_request c) (filter (fun a => address_fits c (wa_address a)) accesses).
Proof.
  intro R.
  set (ok := fun x : waccess * Z => aw_ok c (enabled (fst x), snd x)).
  pose proof (channel_mixed aw_offered aw_accepts (aw_job c fuel) (decode c)
    (fun x => if address_fits c (wa_address (fst x)) then [write_request c (fst x)] else []) aw_cost fuel ok
    (fun x => address_fits c (wa_address (fst x)) = false)) as C.
  specialize (C ltac:(intros [a s] w Ha; assert (X : address_fits c (wa_address a) = true) by (apply Z.ltb_lt; apply Ha); cbn [fst]; rewrite X; exact (aw_HB c fuel Hb (enabled a, s) w Ha))).
  specialize (C ltac:(intros [a s] w r w' Ha _; exact (aw_HP c fuel Hb (enabled a, s) w r w'))).
  specialize (C ltac:(intros a Ha; cbn beta in *; rewrite Ha; split; [reflexivity|]; destruct (aw_waits c fuel a Ha) as (n & Hn & X); exists n, EValue; auto)).
  specialize (C (map (sized c) calls) p oa l).
  assert (J : Forall (fun j => ok (snd j) \/ address_fits c (wa_address (fst (snd j))) = false) (map (sized c) calls)).
  { apply Forall_map. eapply Forall_impl; [|exact F]. intros x (H1 & H2 & H3). cbn [sized snd fst]. destruct (address_fits c (wa_address (snd x))) eqn:Ef; [left|right; reflexivity].
    apply Z.ltb_lt in Ef. subst ok. cbn [fst snd]. split; [|reflexivity]. split; [exact H1|]. split; [split; [exact H2|exact Ef]|]. split; [discriminate|exact H3]. }
  specialize (C J Hp Ho1 Hl). rewrite map_map in C. cbn [sized fst] in C.
  assert (Ec : costs aw_cost (map snd (map (sized c) calls)) = list_sum (map (fun a => 2 + wa_alat a) accesses)).
  { unfold costs. rewrite !map_map. reflexivity. }
  rewrite Ec in C. specialize (C R). destruct (serve (aw_job c fuel) (map (sized c) calls) (World tt p oa [] l)) as [ra va]. destruct C as [C0 C].
  rewrite map_length in C0. split; [exact C0|]. rewrite C. clear.
  induction calls as [|x cs IH]; [reflexivity|]. cbn [map flat_map sized snd fst filter]. rewrite IH. destruct (address_fits c (wa_address (snd x))); reflexivity.
Qed.

Lemma w_progress : list_max (map fst calls) + list_sum (map (fun a => 1 + wa_dlat a + length (wa_value a)) accesses) <= ready_cycles w_accepts l ->
  let '(rs, v) := serve (w_job c fuel) (map (sized c) calls) (World tt p ow [] l) in
  length rs = length calls /\
  exists bs, Forall2 (beats_of_write c) (filter has_enable accesses) bs /\
    map beat_of (transfers w_offered w_accepts (trace v ++ held (out v) (ins v))) = concat bs.
Proof.
  intro R. destruct (wide_enough c calls Hb F) as (n & W). set (c' := widened c n).
  set (ok := fun x : waccess * Z => aw_ok c' x /\ has_enable (fst x) = true).
  pose proof (channel_mixed w_offered w_accepts (w_job c fuel) (w_proj c)
    (fun x => if has_enable (fst x) then w_expected c x else []) w_cost fuel ok
    (fun x => wa_value (fst x) <> [] /\ has_enable (fst x) = false)) as C.
  specialize (C ltac:(intros a w [Ha X]; cbn beta; rewrite X; exact (w_HB c' fuel Hb a w Ha))).
  specialize (C ltac:(intros a w r w' [Ha _]; exact (w_HP c' fuel a w r w' Ha))).
  specialize (C ltac:(intros a [H1 H2]; cbn beta in *; rewrite H2; split; [reflexivity|]; destruct (w_waits c fuel a H1 H2) as (m & Hm & X); exists m, EIndex; split; [lia|exact X])).
  specialize (C (map (sized c) calls) p ow l).
  assert (P : Forall (fun x => (has_enable (snd x) = true -> aw_ok c' (snd (sized c x))) /\ wa_value (snd x) <> []) calls).
  { apply Forall_forall. intros x Hi. rewrite Forall_forall in F, W. destruct (F x Hi) as (H1 & H2 & H3). specialize (W x Hi). split.
    - intro He. split; [|reflexivity]. split; [exact H1|]. split; [split; [exact H2|exact W]|]. split; [|exact H3]. intro E. cbn [sized snd fst] in E. unfold has_enable in He. rewrite E in He. discriminate.
    - intro E. destruct (legal_facts c _ _ _ _ Hb H1) as (_ & _ & _ & N & _). rewrite E in N. cbn [length] in N. lia. }
  assert (J : Forall (fun j => ok (snd j) \/ (wa_value (fst (snd j)) <> [] /\ has_enable (fst (snd j)) = false)) (map (sized c) calls)).
  { apply Forall_map. eapply Forall_impl; [|exact P]. intros x (H1 & H2). destruct (has_enable (snd x)) eqn:Ef; [left|right; split; assumption].
    split; [apply H1; reflexivity|exact Ef]. }
  specialize (C J Hp Ho2 Hl). rewrite map_map in C. cbn [sized fst] in C.
  assert (Ec : costs w_cost (map snd (map (sized c) calls)) = list_sum (map (fun a => 1 + wa_dlat a + length (wa_value a)) accesses)).
  { unfold costs. rewrite !map_map. reflexivity. }
  rewrite Ec in C. specialize (C R). destruct (serve (w_job c fuel) (map (sized c) calls) (World tt p ow [] l)) as [ra va]. destruct C as [C0 C].
  rewrite map_length in C0. split; [exact C0|].
  assert (B : exists bs, Forall2 (beats_of_write c) (filter has_enable accesses) bs /\
     map fst (flat_map (fun x => if has_enable (fst x) then w_expected c x else []) (map snd (map (sized c) calls))) = concat bs).
  { clear - P Hb. induction P as [|x cs [H1 H2] _ IH]; [exists []; split; [constructor|reflexivity]|]. destruct IH as (bs & B1 & B2).
    cbn [map filter flat_map snd]. change (fst (snd (sized c x))) with (snd x). destruct (has_enable (snd x)) eqn:Ef.
    - destruct (w_facts c' Hb _ (H1 eq_refl)) as (b & E & L & Ff & Pb). exists (b :: bs). split; [constructor; [exact E|exact B1]|].
      cbn [concat]. rewrite map_app, B2. f_equal. change (w_expected c (snd (sized c x))) with (w_expected c' (snd (sized c x))). unfold w_expected. rewrite E.
      assert (Lc : length b = length (w_lasts c' (length b))) by (rewrite w_lasts_length by exact Pb; reflexivity).
      clear - Lc. revert Lc. generalize (w_lasts c' (length b)) as y. induction b as [|a b IH]; intros [|z y] H; try discriminate; [reflexivity|]. cbn. f_equal. apply IH. cbn in H. lia.
    - exists bs. split; [exact B1|]. rewrite <- B2. reflexivity. }
  destruct B as (bs & B1 & B2). exists bs. split; [exact B1|]. rewrite <- B2, <- C, map_map. reflexivity.
Qed.

Lemma writes_progress :
  let r := concurrent_writes c fuel calls p oa ow l in
  (list_max (map fst calls) + list_sum (map (fun a => 2 + wa_alat a) accesses) <= ready_cycles aw_accepts l ->
     map (decode c) (transfers aw_offered aw_accepts (ws_aw r)) = map (write_request c) (filter (fun a => address_fits c (wa_address a)) accesses) /\
     forall k a, nth_error accesses k = Some a -> address_fits c (wa_address a) = false -> In k (map fst (ws_results r))) /\
  (list_max (map fst calls) + list_sum (map (fun a => 1 + wa_dlat a + length (wa_value a)) accesses) <= ready_cycles w_accepts l ->
     (exists bs, Forall2 (beats_of_write c) (filter has_enable accesses) bs /\ map beat_of (transfers w_offered w_accepts (ws_w r)) = concat bs) /\
     forall k a, nth_error accesses k = Some a -> has_enable a = false -> In k (map fst (ws_results r))).
Proof.
  pose proof aw_progress as PA. pose proof w_progress as PW. 
  pose proof (aw_any c fuel calls p oa ow l Hb F Hp Ho1 Ho2 Hl) as (_ & _ & _ & A). pose proof (w_any c fuel calls p oa ow l Hb F Hp Ho1 Ho2 Hl) as (_ & _ & _ & W).
  cbn zeta. unfold concurrent_writes. rewrite (admitted_any c calls Hb F).
  pose proof (serve_prefix (aw_job c fuel) (map (sized c) calls) (World tt p oa [] l)) as Fa.
  pose proof (serve_prefix (w_job c fuel) (map (sized c) calls) (World tt p ow [] l)) as Fw.
  destruct (serve (aw_job c fuel) (map (sized c) calls) (World tt p oa [] l)) as [ra va]. destruct (serve (w_job c fuel) (map (sized c) calls) (World tt p ow [] l)) as [rw vw].
  destruct (serve _ (by_time (joined 0 ra rw)) _) as [rb vb]. cbn [ws_aw ws_w ws_results fst] in *. rewrite map_app.
  assert (N : forall (q : list (waccess * Z * nat * outcome unit)) k a, map (fun x => fst (fst x)) q = firstn (length q) (map snd (map (sized c) calls)) -> length q = length calls ->
              nth_error accesses k = Some a -> exists n x, nth_error q k = Some (a, size_or (x_bytes c) (wa_size a), n, x)).
  { intros q k a E Lq Hk. assert (E2 : map (fun x => fst (fst x)) q = map (fun a => (a, size_or (x_bytes c) (wa_size a))) accesses).
    { rewrite E, Lq, firstn_all2 by (rewrite !map_length; lia). rewrite !map_map. reflexivity. }
    apply (map_nth_error (fun a => (a, size_or (x_bytes c) (wa_size a)))) in Hk. rewrite <- E2, nth_error_map in Hk.
    destruct (nth_error q k) as [[[b n] x]|]; [|discriminate]. cbn [option_map fst] in Hk. injection Hk as ->. eauto. }
  assert (G : forall k, (exists b n e, nth_error ra k = Some (b, n, Exn e) \/ nth_error rw k = Some (b, n, Exn e)) -> In k (map fst (raised ra rw))).
  { clear. intros k (b & n & e & H). unfold raised.
    assert (Lk : k < Nat.max (length ra) (length rw)).
    { destruct H as [H|H]; [pose proof (nth_error_Some ra k) as [X _]|pose proof (nth_error_Some rw k) as [X _]]; rewrite H in X; specialize (X ltac:(discriminate)); lia. }
    assert (Hs : In k (seq 0 (Nat.max (length ra) (length rw)))) by (apply in_seq; lia). 
    apply in_map_iff. 
    assert (X : exists y, In (k, y) (match nth_error ra k, nth_error rw k with
      | Some (_, na, Exn e), Some (_, nw, Exn f) => [(k, @Exn unit (if nw <? na then f else e))]
      | Some (_, _, Exn e), _ | _, Some (_, _, Exn e) => [(k, Exn e)]
      | _, _ => [] end)).
    { destruct H as [H|H]; rewrite H; [destruct (nth_error rw k) as [[[? ?] []]|]|destruct (nth_error ra k) as [[[? ?] []]|]]; eexists; left; reflexivity. }
    destruct X as (y & X). exists (k, y). split; [reflexivity|]. apply in_flat_map. exists k. split; [exact Hs|exact X]. }
  rewrite Forall_forall in A, W. split; intro R.
  - destruct (PA R) as [P1 P2]. split; [exact P2|]. intros k a Hk Hf. apply in_or_app. left. apply G.
    destruct (N ra k a Fa P1 Hk) as (n & x & E). pose proof (A _ (nth_error_In _ _ E)) as X. cbn [fst snd] in X. rewrite Hf in X. subst x. eexists _, _, _. left. exact E.
  - destruct (PW R) as [P1 P2]. split; [exact P2|]. intros k a Hk Hf. apply in_or_app. left. apply G.
    destruct (N rw k a Fw P1 Hk) as (n & x & E). pose proof (W _ (nth_error_In _ _ E)) as X. cbn [fst snd] in X. rewrite Hf in X. subst x. eexists _, _, _. right. exact E.
Qed.
End Writes.
