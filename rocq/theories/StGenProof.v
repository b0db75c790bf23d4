(** StGenProof.v *)
From Verif Require Import Base Async BitsLemmas CompatModel DrvUtilModel AvalonSTModel HandshakeSpec Handshake.
From Verif Require AvalonSTProof.
From Verif Require Import StGenModel StGenSpec.
Local Open Scope list_scope.
Notation transfers := HandshakeSpec.transfers.
Notation stable := HandshakeSpec.stable.
Notation transferred := HandshakeSpec.transferred.

Lemma after_app s a b : after_calls s (a ++ b) = after_calls (after_calls s a) b.
Proof. revert s. induction a as [|[r [g|]] a IH]; intro s; cbn; [reflexivity| |]; apply IH. Qed.
Lemma after_none s l : Forall no_call l -> after_calls s l = s.
Proof. revert s. induction 1 as [|[r q] l E _ IH]; [reflexivity|]. unfold no_call in E. cbn in E. subst q. exact IH. Qed.

Lemma tick_cons {TO} {s : valid} {p} {o : TO} {tr} {c : gcycle} {l} :
  tick (World s p o tr (c :: l)) = (Done tt, World (after_calls s [c]) PActive o (tr ++ [(c, o)]) l).
Proof. destruct c as [r [g|]]; reflexivity. Qed.
Lemma tick_nil {TO} {s : valid} {p} {o : TO} {tr : list (gcycle * TO)} : tick (World s p o tr []) = (Susp, World s p o tr []).
Proof. reflexivity. Qed.

Lemma ticks_spec {TO} n : forall s p (o : TO) tr l, exists p', (p <> PReadOnly -> p' <> PReadOnly) /\
  ticks n (World s p o tr l) =
  if n <=? length l
  then (Done tt, World (after_calls s (firstn n l)) p' o (tr ++ held o (firstn n l)) (skipn n l))
  else (Susp, World (after_calls s l) p' o (tr ++ held o l) []).
Proof.
  induction n as [|n IH]; intros s p o tr l.
  - exists p. split; [auto|]. cbn. rewrite app_nil_r. reflexivity.
  - destruct l as [|c l].
    + exists p. split; [auto|]. cbn. rewrite app_nil_r. reflexivity.
    + destruct (IH (after_calls s [c]) PActive o (tr ++ [(c, o)]) l) as (p' & Hp & E). exists p'.
      split; [intros _; apply Hp; discriminate|]. cbn [ticks]. rewrite (bind_done _ _ _ _ _ tick_cons), E.
      cbn [length Nat.leb firstn skipn held map]. rewrite <- !app_assoc. cbn [app].
      change (c :: firstn n l) with ([c] ++ firstn n l). change (c :: l) with ([c] ++ l). rewrite !after_app. reflexivity.
Qed.

(** the generator state after the gap and its number of cycles *)
Definition k_sync (sync : bool) : nat := if sync then 1 else 0.
Definition s_sync (sync : bool) (s : valid) (l : list gcycle) : valid := after_calls s (firstn (k_sync sync) l).
Definition n_gap (s1 : valid) : nat := fst (throttle s1).
Definition s_gap (s1 : valid) (l1 : list gcycle) : valid :=
  consume (if truthy (v_on s1) then s1 else next_valids (after_calls s1 (firstn (n_gap s1) l1))).

Lemma n_gap_eq s1 : n_gap s1 = if truthy (v_on s1) then 0 else Z.to_nat (v_off s1).
Proof. unfold n_gap, throttle. destruct (truthy (v_on s1)); reflexivity. Qed.
Lemma throttle_consume s1 : snd (throttle s1) = consume (if truthy (v_on s1) then s1 else next_valids s1).
Proof. unfold throttle, consume. destruct (truthy (v_on s1)); reflexivity. Qed.

Lemma gap_spec s1 p o tr l : p <> PReadOnly -> o_valid o = L0 -> exists p' s', p' <> PReadOnly /\
  gen_gap (set_valid L0) (World s1 p o tr l) =
  if n_gap s1 <=? length l
  then (Done tt, World (s_gap s1 l) p' o (tr ++ held o (firstn (n_gap s1) l)) (skipn (n_gap s1) l))
  else (Susp, World s' p' o (tr ++ held o l) []).
Proof.
  intros Hp Ho. unfold gen_gap, s_gap. rewrite n_gap_eq. unfold bind at 1, get at 1. cbn [st].
  destruct (truthy (v_on s1)) eqn:E.
  - exists p, s1. split; [exact Hp|]. cbn [Nat.leb firstn skipn held map]. rewrite app_nil_r. reflexivity.
  - destruct (ticks_spec (Z.to_nat (v_off s1)) s1 p o tr l) as (p' & Hp' & T). exists p', (after_calls s1 l).
    split; [exact (Hp' Hp)|].
    assert (D : drive (set_valid L0) (World s1 p o tr l) = (Done tt, World s1 p o tr l)).
    { rewrite drive_ok by exact Hp. destruct o as [v d]. cbn in Ho. subst v. reflexivity. }
    unfold bind at 1. rewrite (bind_done _ _ _ _ _ D). destruct (_ <=? _) eqn:L.
    + rewrite (bind_done _ _ _ _ _ T). reflexivity.
    + rewrite (bind_susp _ _ _ _ T). reflexivity.
Qed.

Lemma glead_spec (sync : bool) s p o tr l : p <> PReadOnly -> o_valid o = L0 ->
  let s1 := s_sync sync s l in
  let n := k_sync sync + n_gap s1 in
  exists p' s', p' <> PReadOnly /\
  ((if sync then tick else ret tt) ;; gen_gap (set_valid L0)) (World s p o tr l) =
  if n <=? length l
  then (Done tt, World (s_gap s1 (skipn (k_sync sync) l)) p' o (tr ++ held o (firstn n l)) (skipn n l))
  else (Susp, World s' p' o (tr ++ held o l) []).
Proof.
  intros Hp Ho s1 n. destruct sync.
  - destruct l as [|c l].
    + exists p, s. split; [exact Hp|]. rewrite (bind_susp _ _ _ _ tick_nil). cbn. rewrite app_nil_r. reflexivity.
    + destruct (gap_spec s1 PActive o (tr ++ [(c, o)]) l ltac:(discriminate) Ho) as (p' & s' & Hp' & E).
      exists p', s'. split; [exact Hp'|]. rewrite (bind_done _ _ _ _ _ tick_cons).
      change (after_calls s [c]) with s1. rewrite E. subst n. cbn [k_sync Nat.add length Nat.leb firstn skipn held map].
      rewrite <- !app_assoc. reflexivity.
  - destruct (gap_spec s1 p o tr l Hp Ho) as (p' & s' & Hp' & E). exists p', s'. split; [exact Hp'|]. exact E.
Qed.

Section Send.
Context (width : nat) (hr : bool).
Notation acc := (takes hr).

Lemma gwait_loop fuel : forall s (o : st_out) tr l, length l < fuel -> l <> [] ->
  exists p s', (loop fuel gwait_body tt ;; tick) (World s PReadOnly o tr l) =
  match span (takes true) l with
  | (_, []) => (Susp, World s' p o (tr ++ held o l) [])
  | (nr, i :: r) => (Done tt, World (after_calls s (nr ++ [i])) PActive o (tr ++ held o (nr ++ [i])) r)
  end.
Proof.
  induction fuel as [|f IH]; intros s o tr l Hf Hl; [lia|].
  destruct l as [|c l]; [contradiction|]. clear Hl. cbn [span].
  assert (Ec : takes true c = is1 (fst c)) by (destruct c as [[] q]; reflexivity).
  rewrite Ec. destruct (is1 (fst c)) eqn:E.
  - exists PActive, s.
    assert (B : gwait_body tt (World s PReadOnly o tr (c :: l)) = (Done (inr tt), World s PReadOnly o tr (c :: l))).
    { unfold gwait_body, bind, input, ret. cbn [ins]. rewrite E. reflexivity. }
    apply (loop_step f) in B. rewrite (bind_done _ _ _ _ _ B). exact tick_cons.
  - destruct l as [|c' l].
    + exists PActive, (after_calls s [c]).
      assert (B : gwait_body tt (World s PReadOnly o tr [c]) = (Susp, World (after_calls s [c]) PActive o (tr ++ [(c, o)]) [])).
      { unfold gwait_body, input. unfold bind at 1. cbn [ins]. rewrite E. unfold bind at 1. rewrite tick_cons. reflexivity. }
      apply (loop_susp f) in B. rewrite (bind_susp _ _ _ _ B). reflexivity.
    + destruct (IH (after_calls s [c]) o (tr ++ [(c, o)]) (c' :: l)) as (p & s' & Hp); [cbn in *; lia | discriminate |].
      exists p, s'.
      assert (B : gwait_body tt (World s PReadOnly o tr (c :: c' :: l))
                  = (Done (inl tt), World (after_calls s [c]) PReadOnly o (tr ++ [(c, o)]) (c' :: l))).
      { unfold gwait_body, input. unfold bind at 1. cbn [ins]. rewrite E. unfold bind at 1. rewrite tick_cons. reflexivity. }
      apply (loop_step f) in B. unfold bind at 1. rewrite B. unfold bind at 1 in Hp. rewrite Hp.
      destruct (span (takes true) (c' :: l)) as [nr [|k r]]; rewrite <- app_assoc; [reflexivity|].
      destruct c as [rr [g|]]; reflexivity.
Qed.

Lemma gwait_spec fuel s p (o : st_out) tr l : length l < fuel -> p <> PReadOnly ->
  exists p' s',
  ((if hr then gwait_ready fuel else ret tt) ;; tick) (World s p o tr l) =
  match span acc l with
  | (_, []) => (Susp, World s' p' o (tr ++ held o l) [])
  | (nr, i :: r) => (Done tt, World (after_calls s (nr ++ [i])) PActive o (tr ++ held o (nr ++ [i])) r)
  end.
Proof.
  intros Hf Hp. destruct hr.
  - destruct l as [|c l].
    + exists p, s. cbn. unfold bind, gwait_ready, bind, readonly. destruct p; try contradiction; cbn;
        rewrite app_nil_r; reflexivity.
    + destruct (gwait_loop fuel s o tr (c :: l)) as (p' & s' & H); [exact Hf|discriminate|].
      exists p', s'. rewrite <- H. unfold bind at 1, gwait_ready. unfold bind at 1.
      unfold readonly at 1. destruct p; try contradiction; cbn [ph ins st out trace]; reflexivity.
  - exists p, s. rewrite span_true by reflexivity. unfold bind, ret.
    destruct l; cbn [app]; [rewrite tick_nil; cbn; rewrite app_nil_r; reflexivity|exact tick_cons].
Qed.

Definition word (d : bits) : st_out := StOut L1 d.
Definition rest_out : st_out := StOut L0 (xs width).

Lemma gen_send_spec fuel value (sync : bool) s p o tr l d :
  length l < fuel -> p <> PReadOnly -> create_binary value width false = Ok d ->
  let o0 := set_valid L0 o in
  let s1 := s_sync sync s l in
  let n := k_sync sync + n_gap s1 in
  let s3 := s_gap s1 (skipn (k_sync sync) l) in
  exists p' s' s2 p2, p' <> PReadOnly /\
  gen_send width hr fuel value sync (World s p o tr l) =
  if n <=? length l then
    match span acc (skipn n l) with
    | (_, []) => (Susp, World s2 p2 (word d) (tr ++ held o0 (firstn n l) ++ held (word d) (skipn n l)) [])
    | (nr, i :: r) => (Done tt, World (after_calls s3 (nr ++ [i])) PActive rest_out
                                      (tr ++ held o0 (firstn n l) ++ held (word d) (nr ++ [i])) r)
    end
  else (Susp, World s' p' o0 (tr ++ held o0 l) []).
Proof.
  intros Hf Hp Ed o0 s1 n s3. unfold gen_send.
  rewrite (bind_done _ _ _ _ _ (drive_ok _ _ _ _ _ _ Hp)). fold o0.
  rewrite <- bind_assoc.
  destruct (glead_spec sync s p o0 tr l Hp eq_refl) as (p1 & s' & Hp1 & E1).
  fold s1 in E1. fold n in E1. fold s3 in E1.
  destruct (n <=? length l) eqn:En.
  2:{ exists p1, s', s, p1. split; [assumption|]. rewrite (bind_susp _ _ _ _ E1). reflexivity. }
  destruct (gwait_spec fuel s3 p1 (word d) (tr ++ held o0 (firstn n l)) (skipn n l)) as (p2 & s2 & E2);
    [rewrite skipn_length; lia | assumption |].
  exists p1, s', s2, p2. split; [assumption|]. rewrite (bind_done _ _ _ _ _ E1).
  rewrite (bind_done _ _ _ _ _ (drive_ok _ _ _ _ _ _ Hp1)).
  rewrite Ed. cbn [of_res]. unfold bind at 1, ret at 1.
  rewrite (bind_done _ _ _ _ _ (drive_ok _ _ _ _ _ _ Hp1)).
  change (set_data d (set_valid L1 o0)) with (word d).
  rewrite <- bind_assoc.
  destruct (span acc (skipn n l)) as [nr [|i r]].
  - rewrite (bind_susp _ _ _ _ E2). rewrite <- app_assoc. reflexivity.
  - rewrite (bind_done _ _ _ _ _ E2). unfold bind at 1.
    rewrite drive_ok, drive_ok by discriminate. cbn. rewrite <- app_assoc. reflexivity.
Qed.

(** ** bounds *)
Lemma bounded_pair B g : forall off, (off <= Z.of_nat B)%Z -> gen_bounded B (Some g) -> bounded B (next_pair g off).
Proof.
  induction g as [|[on f] g IH]; intros off Ho Hg; cbn [next_pair].
  - split; cbn; [exact Ho|]. intros g' q E I. injection E as <-. destruct I.
  - assert (Hf : (f <= Z.of_nat B)%Z) by (apply (Hg _ (on, f) eq_refl); left; reflexivity).
    assert (Hg' : gen_bounded B (Some g)).
    { intros g' q E I. injection E as <-. apply (Hg _ q eq_refl). right. exact I. }
    destruct (on =? 0)%Z; [apply IH; assumption|]. split; assumption.
Qed.
Lemma bounded_next B v : bounded B v -> bounded B (next_valids v).
Proof.
  intros [H1 H2]. unfold next_valids. destruct (v_gen v) as [g|]; [apply bounded_pair; assumption|].
  split; cbn; [lia|]. discriminate.
Qed.
Lemma bounded_set B g : gen_bounded B g -> bounded B (set_valid_generator g).
Proof. intro H. apply bounded_next. split; cbn; [lia|exact H]. Qed.
Lemma bounded_consume B v : bounded B v -> bounded B (consume v).
Proof. intro H. unfold consume. destruct (v_on v) as [|z]; [exact H|]. destruct (z =? 0)%Z; exact H. Qed.
Lemma bounded_after B l : forall s, bounded B s -> calls_bounded B l -> bounded B (after_calls s l).
Proof.
  induction l as [|[r [g|]] l IH]; intros s Hs Hl; [exact Hs| |]; cbn [after_calls]; apply IH.
  - apply bounded_set, (Hl r). left. reflexivity.
  - intros r' g' I. apply (Hl r'). right. exact I.
  - exact Hs.
  - intros r' g' I. apply (Hl r'). right. exact I.
Qed.
Lemma calls_part B a b : calls_bounded B (a ++ b) -> calls_bounded B a /\ calls_bounded B b.
Proof. intro H. split; intros r g I; apply (H r), in_or_app; auto. Qed.

Lemma gen_bounded_mono B B' g : B <= B' -> gen_bounded B g -> gen_bounded B' g.
Proof. intros L H g' q E I. specialize (H g' q E I). lia. Qed.
Lemma gen_bound g : exists B, gen_bounded B g.
Proof.
  destruct g as [g|]; [|exists 0; discriminate]. induction g as [|[on f] g [B IH]].
  - exists 0. intros g' q E I. injection E as <-. destruct I.
  - exists (B + Z.to_nat f). intros g' q E I. injection E as <-. destruct I as [<-|I]; [cbn; lia|].
    specialize (IH _ q eq_refl I). lia.
Qed.
Lemma bound_exists s l : exists B, bounded B s /\ calls_bounded B l.
Proof.
  induction l as [|[r [g|]] l (B & IH1 & IH2)].
  - destruct (gen_bound (v_gen s)) as [B H]. exists (B + Z.to_nat (v_off s)). split; [|intros r g []].
    split; [lia|]. apply (gen_bounded_mono B); [lia|exact H].
  - destruct (gen_bound g) as [B' H]. exists (B + B'). split.
    + destruct IH1 as [A1 A2]. split; [lia|]. apply (gen_bounded_mono B); [lia|exact A2].
    + intros r' g' [I|I]; [injection I as <- <-; apply (gen_bounded_mono B'); [lia|exact H]|].
      apply (gen_bounded_mono B); [lia|]. exact (IH2 _ _ I).
  - exists B. split; [exact IH1|]. intros r' g' [I|I]; [discriminate|]. exact (IH2 _ _ I).
Qed.
Lemma n_gap_le B s : bounded B s -> n_gap s <= B.
Proof. intros [H _]. rewrite n_gap_eq. destruct (truthy (v_on s)); lia. Qed.

(** ** one send as a transfer *)
Notation tx := (tx offered acc).
Lemma tx_gen_send fuel value (sync : bool) s p o tr l d B :
  length l < fuel -> p <> PReadOnly -> create_binary value width false = Ok d ->
  free offered acc tr -> bounded B s -> calls_bounded B l ->
  tx (gen_send width hr fuel value sync) (World s p o tr l) [word d] (B + 2)
     (fun _ w => ph w <> PReadOnly /\ offered (out w) = false /\ free offered acc (trace w)
                 /\ bounded B (st w) /\ calls_bounded B (ins w)).
Proof.
  intros Hf Hp Ed Fr Bs Bl S. cbn [trace] in S.
  destruct (gen_send_spec fuel value sync s p o tr l d Hf Hp Ed) as (p' & s' & s2 & p2 & Hp' & E).
  rewrite E. clear E. set (s1 := s_sync sync s l) in *. set (n := k_sync sync + n_gap s1) in *.
  set (s3 := s_gap s1 (skipn (k_sync sync) l)) in *. set (o0 := set_valid L0 o) in *.
  assert (Bs1 : bounded B s1).
  { apply bounded_after; [exact Bs|]. rewrite <- (firstn_skipn (k_sync sync) l) in Bl. apply calls_part in Bl. tauto. }
  assert (Hn : n <= B + 1) by (pose proof (n_gap_le B s1 Bs1); subst n; destruct sync; cbn [k_sync]; lia).
  destruct (n <=? length l) eqn:En.
  2:{ apply Nat.leb_gt in En. exists (held o0 l). cbn [trace ins out]. rewrite held_fst, app_nil_r.
      split; [reflexivity|]. split; [reflexivity|].
      destruct (stable_held offered acc l tr o0 S (Fr _)) as [A1 A2]. split; [exact A1|].
      split; [reflexivity|]. split; [exact A2|]. split; [pose proof (rc_le acc l); lia|].
      exists 0. split; [apply transfers_idle; reflexivity|discriminate]. }
  apply Nat.leb_le in En.
  pose proof (span_app acc (skipn n l)) as Sp. pose proof (span_fst acc (skipn n l)) as Sf.
  assert (S0 : stable offered acc (tr ++ held o0 (firstn n l))) by (apply stable_held; auto).
  assert (F0 : free offered acc (tr ++ held o0 (firstn n l))) by (apply free_held_idle; auto).
  assert (R0 : HandshakeSpec.ready_cycles acc (firstn n l) <= n) by (pose proof (rc_le acc (firstn n l)) as R; rewrite firstn_length in R; lia).
  destruct (span acc (skipn n l)) as [nr [|i r]] eqn:Es; cbn [fst snd] in *.
  - rewrite app_nil_r in Sp. subst nr. exists (held o0 (firstn n l) ++ held (word d) (skipn n l)). cbn [trace ins out].
    rewrite map_app, !held_fst, app_nil_r, firstn_skipn. split; [reflexivity|]. split; [reflexivity|].
    rewrite app_assoc. destruct (stable_held offered acc (skipn n l) _ (word d) S0 (F0 _)) as [A1 A2].
    split; [exact A1|]. split; [reflexivity|]. split; [exact A2|].
    split. { rewrite <- (firstn_skipn n l), rc_app, (rc_none acc (skipn n l) Sf). lia. }
    exists 0. rewrite transfers_app, transfers_idle, transfers_wait by (reflexivity || assumption).
    split; [reflexivity|]. reflexivity.
  - assert (Ei : acc i = true) by (apply (span_snd acc (skipn n l) i r); rewrite Es; reflexivity).
    exists (held o0 (firstn n l) ++ held (word d) (nr ++ [i])). cbn [trace ins out ph st].
    assert (El : l = firstn n l ++ (nr ++ [i]) ++ r) by (rewrite <- app_assoc; cbn [app]; rewrite Sp, firstn_skipn; reflexivity).
    rewrite map_app, !held_fst. split; [reflexivity|]. split; [rewrite <- app_assoc; symmetry; exact El|].
    split. { rewrite app_assoc. apply stable_held; [exact S0|apply F0]. }
    split. { rewrite held_app, !transfers_app, transfers_idle, transfers_wait by (reflexivity || assumption).
             cbn [held map app]. rewrite transfers_one by (reflexivity || assumption). reflexivity. }
    split. { rewrite !rc_app, (rc_none acc nr Sf). pose proof (rc_le acc [i]). cbn in *. lia. }
    split; [discriminate|]. split; [reflexivity|].
    split. { rewrite held_app, !app_assoc. apply free_accept, Ei. }
    assert (Bl' := Bl). rewrite El in Bl'. apply calls_part in Bl'. destruct Bl' as [_ Bl']. apply calls_part in Bl'.
    destruct Bl' as [Bw Br]. split; [|exact Br]. apply bounded_after; [|exact Bw].
    subst s3. unfold s_gap. apply bounded_consume. destruct (truthy (v_on s1)); [exact Bs1|].
    apply bounded_next, bounded_after; [exact Bs1|].
    rewrite <- (firstn_skipn (k_sync sync) l) in Bl. apply calls_part in Bl. destruct Bl as [_ Bl].
    rewrite <- (firstn_skipn (n_gap s1) (skipn (k_sync sync) l)) in Bl. apply calls_part in Bl. tauto.
Qed.

Lemma tx_gen_all fuel B : forall ws ds, Forall2 (fun w d => create_binary (fst w) width false = Ok d) ws ds ->
  forall s p o tr l, length l < fuel -> p <> PReadOnly -> offered o = false -> free offered acc tr -> bounded B s -> calls_bounded B l ->
  tx (gen_send_all width hr fuel ws) (World s p o tr l) (map word ds) (length ws * (B + 2))
     (fun _ w => free offered acc (trace w) /\ offered (out w) = false).
Proof.
  induction 1 as [|[v sync] d ws ds Ed HF IH]; intros s p o tr l Hf Hp Ho Fr Bs Bl.
  - cbn. apply tx_ret. cbn. auto.
  - cbn [fst] in Ed. unfold gen_send_all in *. cbn [for_each fst snd map length].
    apply (tx_bind offered acc _ _ _ [word d] (map word ds) (B + 2) (length ws * (B + 2))).
    apply (tx_conseq offered acc _ _ _ (B + 2) _ _ _ (tx_gen_send fuel v sync s p o tr l d B Hf Hp Ed Fr Bs Bl)); [lia|].
    intros _ [s' p' o' tr' l'] (A1 & A2 & A3 & A4 & A5) L. cbn [ph out trace st ins] in *. apply IH; auto. lia.
Qed.
End Send.

(** ** the two properties *)
Lemma gen_transfers width hr ws ds s p o fuel l :
  Forall2 (fun w d => create_binary (fst w) width false = Ok d) ws ds ->
  length l < fuel -> p <> PReadOnly -> o_valid o <> L1 ->
  let '(r, w) := gen_send_all width hr fuel ws (World s p o [] l) in
  map fst (trace w) ++ ins w = l
  /\ (forall i, stable offered (takes hr) (trace w ++ [(i, out w)]))
  /\ match r with
     | Done _ => transfers offered (takes hr) (trace w) = map (StOut L1) ds /\ o_valid (out w) <> L1
     | Susp => ins w = [] /\ exists k, transfers offered (takes hr) (trace w) = map (StOut L1) (firstn k ds)
                 /\ (o_valid (out w) = L1 -> exists d, nth_error ds k = Some d /\ out w = StOut L1 d)
     | _ => False
     end.
Proof.
  intros HF Hf Hp Ho. destruct (bound_exists s l) as (B & Bs & Bl).
  assert (Of : offered o = false) by (unfold offered; destruct (o_valid o); try reflexivity; contradiction).
  pose proof (tx_gen_all width hr fuel B ws ds HF s p o [] l Hf Hp Of (free_nil _ _) Bs Bl) as T.
  apply tx_result_next in T; [|intros ? ? [? ?]; assumption].
  destruct (gen_send_all _ _ _ _ _) as [r w]. destruct T as (T1 & T2 & T3). split; [exact T1|]. split; [exact T2|].
  destruct r; try contradiction.
  - destruct T3 as (T3 & _ & T4). split; [exact T3|]. intro E. unfold offered in T4. rewrite E in T4. discriminate.
  - destruct T3 as (T3 & _ & k & T4 & T5). split; [exact T3|]. exists k. split; [rewrite T4; apply firstn_map|].
    intro E. specialize (T5 ltac:(unfold offered; rewrite E; reflexivity)). rewrite nth_error_map in T5.
    destruct (nth_error ds k) as [d|]; [|discriminate]. exists d. split; [reflexivity|]. injection T5 as <-. reflexivity.
Qed.

Lemma gen_progress width hr ws ds B s p o fuel l :
  Forall2 (fun w d => create_binary (fst w) width false = Ok d) ws ds ->
  length l < fuel -> p <> PReadOnly -> o_valid o <> L1 -> bounded B s -> calls_bounded B l ->
  length ws * (B + 2) <= length (filter (takes hr) l) ->
  exists w, gen_send_all width hr fuel ws (World s p o [] l) = (Done tt, w).
Proof.
  intros HF Hf Hp Ho Bs Bl Hl.
  assert (Of : offered o = false) by (unfold offered; destruct (o_valid o); try reflexivity; contradiction).
  pose proof (tx_gen_all width hr fuel B ws ds HF s p o [] l Hf Hp Of (free_nil _ _) Bs Bl) as T.
  apply tx_result_next in T; [|intros ? ? [? ?]; assumption].
  destruct (gen_send_all _ _ _ _ _) as [r w]. destruct T as (T1 & T2 & T3). destruct r as [[]|e| |]; try contradiction.
  - exists w. reflexivity.
  - destruct T3 as (_ & T3 & _). unfold HandshakeSpec.ready_cycles in T3. lia.
Qed.

Lemma gen_shape width hr fuel value d (sync : bool) s p o l w :
  create_binary value width false = Ok d -> length l < fuel -> p <> PReadOnly ->
  gen_send width hr fuel value sync (World s p o [] l) = (Done tt, w) ->
  exists synced gap wait,
    trace w = synced ++ gap ++ wait
    /\ Forall (fun c => o_valid (snd c) = L0) (synced ++ gap)
    /\ Forall (fun c => snd c = StOut L1 d) wait
    /\ length synced = (if sync then 1 else 0)
    /\ let s1 := after_calls s (map fst synced) in
       length gap = fst (throttle s1)
       /\ st w = after_calls (if truthy (v_on s1) then snd (throttle s1)
                              else consume (next_valids (after_calls s1 (map fst gap)))) (map fst wait).
Proof.
  intros Ed Hf Hp E.
  destruct (gen_send_spec width hr fuel value sync s p o [] l d Hf Hp Ed) as (p' & s' & s2 & p2 & _ & G).
  rewrite G in E. clear G.
  set (s1 := s_sync sync s l) in *. set (n := k_sync sync + n_gap s1) in *. set (o0 := set_valid L0 o) in *.
  destruct (n <=? length l) eqn:En; [|discriminate]. apply Nat.leb_le in En.
  destruct (span (takes hr) (skipn n l)) as [nr [|i r]]; [discriminate|]. injection E as <-. cbn [trace st app].
  exists (held o0 (firstn (k_sync sync) l)), (held o0 (firstn (n_gap s1) (skipn (k_sync sync) l))), (held (StOut L1 d) (nr ++ [i])).
  rewrite !held_fst. fold (s_sync sync s l). fold s1.
  assert (F : firstn n l = firstn (k_sync sync) l ++ firstn (n_gap s1) (skipn (k_sync sync) l)).
  { subst n. generalize (n_gap s1) as m. clear. intro m. revert l. induction (k_sync sync) as [|k IH]; intro l; [reflexivity|].
    destruct l as [|c l]; cbn [Nat.add firstn skipn app]; [rewrite firstn_nil; reflexivity|]. rewrite IH. reflexivity. }
  assert (IdleH : forall a, Forall (fun c : gcycle * st_out => o_valid (snd c) = L0) (held o0 a)).
  { intro a. unfold held. apply Forall_forall. intros c I. apply in_map_iff in I. destruct I as (x & <- & _). reflexivity. }
  split; [rewrite F, held_app, <- app_assoc; reflexivity|].
  split; [apply Forall_app; split; apply IdleH|].
  split. { unfold held. apply Forall_forall. intros c I. apply in_map_iff in I. destruct I as (x & <- & _). reflexivity. }
  split. { unfold held. rewrite map_length, firstn_length. subst n. destruct sync; cbn [k_sync] in *; lia. }
  split. { unfold held. rewrite map_length, firstn_length, skipn_length. subst n. fold (n_gap s1). lia. }
  unfold s_gap. rewrite throttle_consume. destruct (truthy (v_on s1)); reflexivity.
Qed.

(** an exhausted generator inserts no gap, whatever the off value *)
Lemma gaps_true n off g : gaps n (Valid OnTrue off g) = repeat 0 n.
Proof. induction n as [|n IH]; [reflexivity|]. cbn. rewrite IH. reflexivity. Qed.
Lemma gaps_pair n g off off' : gaps n (consume (next_pair g off)) = gaps n (consume (next_pair g off')).
Proof.
  destruct g as [|[on f] g]; [|reflexivity]. cbn [next_pair consume v_on]. rewrite !gaps_true. reflexivity.
Qed.
Lemma pair_truthy g : forall off, truthy (v_on (next_pair g off)) = true.
Proof.
  induction g as [|[on f] g IH]; intro off; [reflexivity|]. cbn [next_pair].
  destruct (on =? 0)%Z eqn:E; [apply IH|]. cbn. rewrite E. reflexivity.
Qed.
Lemma set_throttle g : throttle (set_valid_generator (Some g)) = (0, consume (next_pair g 0)).
Proof.
  unfold set_valid_generator, next_valids. cbn [v_gen v_off]. unfold throttle. rewrite pair_truthy. reflexivity.
Qed.
Lemma first_pair_gone on off g n : on <> 0%Z ->
  gaps n (consume (next_valids (set_valid_generator (Some ((on, off) :: g)))))
  = gaps n (snd (throttle (set_valid_generator (Some g)))).
Proof.
  intro H. rewrite set_throttle. unfold set_valid_generator, next_valids. cbn [v_gen v_off next_pair snd].
  rewrite (proj2 (Z.eqb_neq _ _) H). cbn [v_gen v_off]. apply gaps_pair.
Qed.

(** ** without calls this is the driver of AvalonSTModel.v *)
Section Same.
Context {TO : Type}.
Definition plain (c : gcycle * TO) : logic * TO := (fst (fst c), snd c).
Notation W := (world valid gcycle TO).
Definition plainw (w : W) : world valid logic TO := World (st w) (ph w) (out w) (map plain (trace w)) (map fst (ins w)).
Definition sim {A} (m : M valid gcycle TO A) (m' : M valid logic TO A) : Prop :=
  forall w, Forall no_call (ins w) ->
  m' (plainw w) = (fst (m w), plainw (snd (m w))) /\ Forall no_call (ins (snd (m w))).
Lemma sim_ret {A} (a : A) : sim (ret a) (ret a).
Proof. intros w H. split; [reflexivity|exact H]. Qed.
Lemma sim_bind {A B} (m : M _ _ _ A) m' (f : A -> M _ _ _ B) f' : sim m m' -> (forall a, sim (f a) (f' a)) -> sim (bind m f) (bind m' f').
Proof.
  intros S1 S2 w H. destruct (S1 w H) as [E N]. unfold bind. rewrite E. destruct (m w) as [[a|e| |] w1]; cbn [fst snd] in *;
    try (split; [reflexivity|exact N]). exact (S2 a w1 N).
Qed.
Definition sim_at {A} (m : M valid gcycle TO A) (m' : M valid logic TO A) (w : W) : Prop :=
  m' (plainw w) = (fst (m w), plainw (snd (m w))) /\ Forall no_call (ins (snd (m w))).
Lemma sim_at_bind {A B} (m : M _ _ _ A) m' (f : A -> M _ _ _ B) f' w : sim_at m m' w ->
  (forall a w1, m w = (Done a, w1) -> Forall no_call (ins w1) -> sim_at (f a) (f' a) w1) -> sim_at (bind m f) (bind m' f') w.
Proof.
  intros [E N] K. unfold sim_at, bind. rewrite E. destruct (m w) as [[a|e| |] w1]; cbn [fst snd] in *;
    try (split; [reflexivity|exact N]). exact (K a w1 eq_refl N).
Qed.
Lemma sim_drive f : sim (drive f) (drive f).
Proof. intros w H. unfold drive. destruct w as [s [] o tr l]; (split; [reflexivity|exact H]). Qed.
Lemma sim_get : sim get get.
Proof. intros w H. split; [reflexivity|exact H]. Qed.
Lemma sim_put s : sim (put s) (put s).
Proof. intros w H. split; [reflexivity|exact H]. Qed.
Lemma sim_res {A} (r : res A) : sim (of_res r) (of_res r).
Proof. intros w H. destruct r; (split; [reflexivity|exact H]). Qed.
Lemma sim_readonly : sim readonly readonly.
Proof.
  intros [s p o tr l] H. unfold readonly, plainw. cbn [ins ph st out trace] in *. destruct p, l; (split; [reflexivity|exact H]).
Qed.
Lemma sim_tick : sim tick edge.
Proof.
  intros [s p o tr [|c l]] H; [split; [reflexivity|exact H]|]. rewrite tick_cons. inversion H as [|? ? Hc Hl]; subst.
  rewrite after_none by (constructor; [exact Hc|constructor]). cbn [fst snd ins]. split; [|exact Hl].
  unfold edge, plainw. cbn [ins st ph out trace map]. rewrite map_app. reflexivity.
Qed.
Lemma sim_ticks n : sim (ticks n) (edges n).
Proof. induction n as [|n IH]; [apply sim_ret|]. cbn. apply sim_bind; [apply sim_tick|auto]. Qed.
Lemma sim_loop {B R} (body : B -> M _ _ _ (B + R)) body' fuel : (forall b, sim (body b) (body' b)) ->
  forall b, sim (loop fuel body b) (loop fuel body' b).
Proof.
  intro Hb. induction fuel as [|f IH]; intros b w H; [split; [reflexivity|exact H]|]. cbn [loop].
  destruct (Hb b w H) as [E N]. unfold bind. rewrite E. destruct (body b w) as [[[b'|r]|e| |] w1]; cbn [fst snd] in *;
    try (split; [reflexivity|exact N]). exact (IH b' w1 N).
Qed.
Lemma sim_wait fuel : sim (gwait_ready fuel) (wait_ready fuel).
Proof.
  apply sim_bind; [apply sim_readonly|]. intros _. apply sim_loop. intros [] w H.
  destruct w as [s p o tr [|c l]]; [split; [reflexivity|exact H]|].
  assert (E1 : gwait_body tt (World s p o tr (c :: l)) =
    (if is1 (fst c) then ret (inr tt) else tick ;; readonly ;; ret (inl tt)) (World s p o tr (c :: l))) by reflexivity.
  assert (E2 : wait_body tt (plainw (World s p o tr (c :: l))) =
    (if is1 (fst c) then ret (inr tt) else edge ;; readonly ;; ret (inl tt)) (plainw (World s p o tr (c :: l)))) by reflexivity.
  rewrite E1, E2. clear E1 E2. destruct (is1 (fst c)); [apply sim_ret, H|]. revert H. generalize (World s p o tr (c :: l)).
  fold (sim (tick ;; readonly ;; ret (@inl unit unit tt)) (edge ;; readonly ;; ret (inl tt))).
  apply sim_bind; [apply sim_tick|]. intros _. apply sim_bind; [apply sim_readonly|]. intros _. apply sim_ret.
Qed.
Lemma sim_gap set0 : sim (gen_gap set0) (gap_code set0).
Proof.
  intros w H.
  assert (E1 : gen_gap set0 w = ((if truthy (v_on (st w)) then ret tt
     else drive set0 ;; ticks (Z.to_nat (v_off (st w))) ;; v <- get ;; put (next_valids v)) ;;
     v <- get ;; put (consume v)) w) by reflexivity.
  assert (E2 : gap_code set0 (plainw w) = ((if truthy (v_on (st w)) then ret tt else drive set0) ;;
     edges (fst (throttle (st w))) ;; put (snd (throttle (st w)))) (plainw w)) by reflexivity.
  rewrite E1, E2. clear E1 E2. unfold throttle. destruct (truthy (v_on (st w))) eqn:E; [split; [reflexivity|exact H]|].
  cbn [fst snd]. rewrite bind_assoc. apply sim_at_bind; [apply sim_drive, H|]. intros [] w1 D N.
  assert (Est : st w1 = st w).
  { unfold drive in D. destruct w as [? [] ? ? ?]; [|discriminate|]; injection D as <-; reflexivity. }
  unfold sim_at. cbn beta. rewrite bind_assoc. apply sim_at_bind; [apply sim_ticks, N|]. intros [] w2 T N2.
  assert (Es2 : st w2 = st w1).
  { destruct w1 as [s1 p1 o1 tr1 l1]. destruct (ticks_spec (Z.to_nat (v_off (st w))) s1 p1 o1 tr1 l1) as (p' & _ & Q).
    rewrite Q in T. cbn [ins] in N. assert (Nf : Forall no_call (firstn (Z.to_nat (v_off (st w))) l1)).
    { apply Forall_forall. intros c I. rewrite Forall_forall in N. apply N. rewrite <- (firstn_skipn (Z.to_nat (v_off (st w))) l1).
      apply in_or_app. left. exact I. }
    destruct (_ <=? _); [|discriminate]. injection T as <-. cbn [st]. apply (after_none _ _ Nf). }
  rewrite <- Est, <- Es2. split; [reflexivity|exact N2].
Qed.
Lemma sim_raise {A} e : sim (@raise _ _ _ A e) (raise e).
Proof. intros w H. split; [reflexivity|exact H]. Qed.
End Same.
Lemma sim_send width hr fuel value sync : sim (gen_send width hr fuel value sync) (st_send width hr fuel value sync).
Proof.
  unfold gen_send, st_send. apply sim_bind; [apply sim_drive|]. intros _.
  apply sim_bind; [destruct sync; [apply sim_tick|apply sim_ret]|]. intros _.
  apply sim_bind; [apply sim_gap|]. intros _. apply sim_bind; [apply sim_drive|]. intros _.
  apply sim_bind; [apply sim_res|]. intros d. apply sim_bind; [apply sim_drive|]. intros _.
  apply sim_bind; [destruct hr; [apply sim_wait|apply sim_ret]|]. intros _.
  apply sim_bind; [apply sim_tick|]. intros _. apply sim_bind; [apply sim_drive|]. intros _. apply sim_drive.
Qed.
Lemma sim_all width hr fuel ws : sim (gen_send_all width hr fuel ws) (st_send_all width hr fuel ws).
Proof.
  unfold gen_send_all, st_send_all. induction ws as [|x ws IH]; [apply sim_ret|]. cbn [for_each].
  apply sim_bind; [apply sim_send|]. intros _. exact IH.
Qed.
Lemma gen_same width hr fuel ws s p o l : Forall no_call l ->
  let '(r, w) := gen_send_all width hr fuel ws (World s p o [] l) in
  st_send_all width hr fuel ws (World s p o [] (map fst l))
  = (r, World (st w) (ph w) (out w) (map (fun c => (fst (fst c), snd c)) (trace w)) (map fst (ins w))).
Proof.
  intro H. destruct (sim_all width hr fuel ws (World s p o [] l) H) as [E _].
  destruct (gen_send_all _ _ _ _ _) as [r w]. exact E.
Qed.

Lemma gen_dropped width hr fuel value d (sync : bool) s p o synced gap rest on off g w :
  create_binary value width false = Ok d -> length (synced ++ gap ++ rest) < fuel -> p <> PReadOnly ->
  length synced = (if sync then 1 else 0) ->
  let s1 := after_calls s synced in
  v_on s1 = OnInt 0 -> length gap = Z.to_nat (v_off s1) ->
  after_calls s1 gap = set_valid_generator (Some ((on, off) :: g)) -> on <> 0%Z -> Forall no_call rest ->
  gen_send width hr fuel value sync (World s p o [] (synced ++ gap ++ rest)) = (Done tt, w) ->
  forall n, gaps n (st w) = gaps n (snd (throttle (set_valid_generator (Some g)))).
Proof.
  intros Ed Hf Hp Ls s1 On Lg Ag Hon Nr E n. set (l := synced ++ gap ++ rest) in *.
  destruct (gen_send_spec width hr fuel value sync s p o [] l d Hf Hp Ed) as (p' & s' & s2 & p2 & _ & G).
  rewrite E in G. clear E. change (if sync then 1 else 0) with (k_sync sync) in Ls.
  assert (Es : s_sync sync s l = s1).
  { unfold s_sync. subst l. rewrite <- Ls, firstn_app, firstn_all, Nat.sub_diag, firstn_O, app_nil_r. reflexivity. }
  assert (Sk : skipn (k_sync sync) l = gap ++ rest).
  { subst l. rewrite <- Ls, skipn_app, skipn_all, Nat.sub_diag. reflexivity. }
  assert (Tr : truthy (v_on s1) = false) by (rewrite On; reflexivity).
  assert (Ng : n_gap s1 = length gap) by (rewrite n_gap_eq, Tr, Lg; reflexivity).
  assert (Sg : s_gap s1 (gap ++ rest) = consume (next_valids (set_valid_generator (Some ((on, off) :: g))))).
  { unfold s_gap. rewrite Tr, Ng, firstn_app, firstn_all, Nat.sub_diag, firstn_O, app_nil_r, Ag. reflexivity. }
  rewrite Es, Sk, Sg, Ng in G.
  assert (Sr : skipn (k_sync sync + length gap) l = rest).
  { subst l. rewrite <- Ls, <- app_length, app_assoc, skipn_app, skipn_all, Nat.sub_diag. reflexivity. }
  rewrite Sr in G. destruct (_ <=? _); [|discriminate].
  pose proof (span_app (takes hr) rest) as Sp. destruct (span (takes hr) rest) as [nr [|i r]]; [discriminate|].
  injection G as Ew. rewrite Ew. cbn [st]. cbn [fst snd] in Sp. rewrite after_none, (first_pair_gone on off g n Hon); [reflexivity|].
  rewrite <- Sp in Nr. apply Forall_app in Nr. destruct Nr as [N1 N2]. apply Forall_cons_iff in N2. destruct N2 as [N2 _].
  apply Forall_app. split; [exact N1|constructor; [assumption|constructor]].
Qed.
