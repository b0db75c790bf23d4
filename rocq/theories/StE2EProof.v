(** StE2EProof.v *)
From Verif Require Import Base Async BitsLemmas CompatSpec CompatModel CompatProof DriverModel DriverSpec DriverProof
  DrvUtilModel AvalonSTModel AvalonSTSpec AvalonSTProof E2ESpec E2EProof StE2EModel StE2ESpec.
From Verif Require ScoreboardModel ScoreboardSpec ScoreboardProof.
From Coq Require Import Lia.
Local Open Scope list_scope.

(** ** words *)
Lemma fits_create width v : width <> 1 -> fits width v ->
  exists d, create_binary v width false = Ok d /\ length d = width /\ bval d = Some (number v).
Proof.
  intros W F. destruct v as [z|s|b]; cbn [fits number] in *; unfold create_binary; destruct (Nat.eqb_spec width 1); try contradiction.
  - unfold logicarray_of_int. assert (E : ((0 <=? z) && (z <? 2 ^ Z.of_nat width))%Z = true).
    { apply andb_true_intro. split; [apply Z.leb_le|apply Z.ltb_lt]; apply F. }
    rewrite E. eexists. split; [reflexivity|]. split; [apply zbits_length|]. rewrite bval_zbits, Z.mod_small by exact F. reflexivity.
  - destruct F as [F1 F2]. unfold logicarray_of_str. rewrite F1, Nat.eqb_refl. exists s. split; [reflexivity|]. split; [exact F1|].
    apply bval_resolvable in F2. destruct F2 as [z F2]. rewrite F2. reflexivity.
  - destruct F as [F1 F2]. unfold logicarray_of_str. rewrite app_length, zeros_length, bytes_bits_length, rev_length.
    replace (width - 8 * length b + 8 * length b) with width by lia. rewrite Nat.eqb_refl.
    eexists. split; [reflexivity|]. split; [rewrite app_length, zeros_length, bytes_bits_length, rev_length; lia|].
    rewrite bval_app, bval_zeros, (bval_bytes_bits _ (all_bytes_rev _ F1)). unfold from_be. rewrite rev_involutive.
    cbn. f_equal. 
Qed.
Lemma word_spelled width v d be : length d = width -> bval d = Some (number v) ->
  exists r, convert_binary_to_bytes d be = Ok r /\ spells be width (number v) r.
Proof.
  intros L V. destruct (convert_resolvable d be) as (bs & z & C & Z1 & B & L1 & L2 & E).
  { apply bval_resolvable. eauto. }
  exists bs. split; [exact C|]. rewrite V in Z1. injection Z1 as <-. subst width. repeat split; assumption.
Qed.
Lemma spells_inj be width z r r' : spells be width z r -> spells be width z r' -> r = r'.
Proof.
  intros (B & L & E) (B' & L' & E'). assert (Ll : length r = length r') by lia.
  destruct be.
  - unfold from_be in *. rewrite <- (rev_involutive r), <- (rev_involutive r'). f_equal.
    apply from_le_inj; try (apply all_bytes_rev; assumption); [rewrite !rev_length; exact Ll|congruence].
  - apply from_le_inj; congruence || assumption.
Qed.
Lemma reports_inj be width l : forall r r', word_reports be width l r -> word_reports be width l r' -> r = r'.
Proof.
  induction l as [|i l IH]; intros r r' H H'; inversion H; inversion H'; subst; [reflexivity|].
  f_equal; [eapply spells_inj; eassumption|apply IH; assumption].
Qed.

(** ** on the bus *)
Section Bus.
Context (width : nat) (hr : bool).
Notation acc := (accepts hr).

Fixpoint gap_budget (gws : list (nat * (binsrc * bool))) (s : valid) : nat :=
  match gws with
  | [] => 0
  | (g, (_, sync)) :: r => g + (lead sync s + 1 + gap_budget r (snd (throttle s)))
  end.

Lemma transfers_quiet (o : st_out) (l : list logic) : o_valid o <> L1 -> transfers hr (held o l) = [].
Proof.
  intro H. unfold transfers. replace (filter _ _) with (@nil (logic * st_out)); [reflexivity|].
  induction l as [|i l IH]; cbn; [reflexivity|]. unfold transferred at 1. cbn. destruct (o_valid o); congruence || exact IH.
Qed.

Definition gpost (ds : list bits) (tr0 : list (logic * st_out)) (l0 : list logic) (r : outcome unit * world valid logic st_out) : Prop :=
  let w := snd r in
  exists new k,
    trace w = tr0 ++ new /\ map fst new ++ ins w = l0
    /\ transfers hr new = firstn k ds
    /\ match fst r with
       | Done _ => k = length ds /\ o_valid (out w) <> L1
       | Susp => k < length ds /\ ins w = [] /\
                 (o_valid (out w) <> L1 \/ exists d, nth_error ds k = Some d /\ out w = word d)
       | _ => False
       end.

Lemma send_gaps_post fuel : forall gws ds, encodes width (map snd gws) ds -> forall s p o tr l,
  length l < fuel -> p <> PReadOnly -> o_valid o <> L1 ->
  gpost ds tr l (st_send_gaps width hr fuel gws (World s p o tr l))
  /\ (gap_budget gws s <= ready_cycles hr l ->
      exists w, st_send_gaps width hr fuel gws (World s p o tr l) = (Done tt, w)).
Proof.
  induction gws as [|[g [v sync]] gws IH]; intros ds HF s p o tr l Hf Hp Ho; cbn [map snd] in HF;
    inversion HF as [|x d xs ds' Ed HF' E1 E2]; subst; clear HF.
  - split; [|intros _; eexists; reflexivity]. exists [], 0. cbn. rewrite app_nil_r. repeat split. exact Ho.
  - cbn [fst] in Ed. unfold st_send_gaps in *. cbn [for_each fst snd]. rewrite bind_assoc.
    set (rest := fun _ : unit => for_each _ gws).
    pose proof (edges_spec g (World s p o tr l)) as Eg. cbn [ins st ph out trace] in Eg.
    destruct (g <=? length l) eqn:Gg.
    2:{ rewrite (bind_susp _ _ _ _ Eg). apply Nat.leb_gt in Gg. split.
        - exists (held o l), 0. cbn [snd fst trace ins out]. rewrite held_fst, app_nil_r, transfers_quiet by exact Ho.
          repeat split; [cbn; lia|]. left. exact Ho.
        - intro B. cbn [gap_budget] in B. pose proof (ready_cycles_le hr l). lia. }
    apply Nat.leb_le in Gg. rewrite (bind_done _ _ _ _ _ Eg).
    set (p1 := if g then p else PActive) in *.
    match goal with |- context [World s ?q o _ (skipn g l)] => set (p2 := q) end.
    assert (Hp2 : p2 <> PReadOnly) by (subst p2; destruct g; [exact Hp|discriminate]).
    assert (Hl2 : length (skipn g l) < fuel) by (rewrite skipn_length; lia).
    destruct (st_send_spec width hr fuel v sync s p2 o (tr ++ held o (firstn g l)) (skipn g l) Hl2 Hp2) as [p' [p3 [Hp' E]]].
    rewrite Ed in E. set (n := lead sync s) in *. set (o0 := set_valid L0 o) in *. set (l2 := skipn g l) in *.
    assert (Lf : map fst (held o (firstn g l)) = firstn g l) by apply held_fst.
    pose proof (ready_cycles_firstn hr g l) as RG. fold l2 in RG.
    destruct (n <=? length l2) eqn:En.
    2:{ rewrite (bind_susp _ _ _ _ E). apply Nat.leb_gt in En. split.
        - exists (held o (firstn g l) ++ held o0 l2), 0. cbn [snd fst trace ins out].
          rewrite map_app, !held_fst, app_nil_r, transfers_app, !transfers_quiet by (exact Ho || discriminate).
          rewrite app_assoc. unfold l2. rewrite firstn_skipn. repeat split; [cbn; lia|]. left. discriminate.
        - intro B. cbn [gap_budget] in B. fold n in B. pose proof (ready_cycles_le hr l2). lia. }
    pose proof (span_app acc (skipn n l2)) as Sp.
    pose proof (span_fst acc (skipn n l2)) as Sf.
    destruct (span acc (skipn n l2)) as [nr [|i r]] eqn:Es; cbn [fst snd] in Sp, Sf.
    + rewrite (bind_susp _ _ _ _ E). rewrite app_nil_r in Sp. subst nr. split.
      * exists (held o (firstn g l) ++ held o0 (firstn n l2) ++ held (word d) (skipn n l2)), 0.
        cbn [snd fst trace ins out]. rewrite !map_app, !held_fst, app_nil_r, firstn_skipn.
        rewrite !transfers_app, !transfers_quiet, transfers_wait by (assumption || discriminate).
        rewrite <- app_assoc. unfold l2. rewrite firstn_skipn. repeat split; [cbn; lia|]. right. exists d. split; reflexivity.
      * intro B. cbn [gap_budget] in B. fold n in B.
        pose proof (ready_cycles_firstn hr n l2) as R. rewrite (ready_cycles_none hr _ Sf) in R. lia.
    + rewrite (bind_done _ _ _ _ _ E).
      assert (Ei : acc i = true) by (apply (span_snd acc (skipn n l2) i r); rewrite Es; reflexivity).
      set (new := held o (firstn g l) ++ held o0 (firstn n l2) ++ held (word d) (nr ++ [i])).
      assert (Hnew : map fst new ++ r = l).
      { unfold new. rewrite !map_app, !held_fst, <- !app_assoc. cbn [app]. rewrite Sp, firstn_skipn. unfold l2. apply firstn_skipn. }
      assert (Ht : transfers hr new = [d]).
      { unfold new. rewrite held_app, !transfers_app, !transfers_quiet, transfers_wait by (assumption || discriminate).
        cbn [held map]. rewrite transfers_one by (assumption || reflexivity). reflexivity. }
      assert (Hl : length r < fuel).
      { apply (f_equal (@length _)) in Hnew. rewrite app_length in Hnew. lia. }
      destruct (IH ds' HF' (snd (throttle s)) PActive (rest_out width) ((tr ++ held o (firstn g l)) ++ held o0 (firstn n l2) ++ held (word d) (nr ++ [i])) r Hl) as [P B];
        try discriminate. unfold rest.
      split.
      * clear B E. match type of P with gpost _ _ _ ?x => set (R := x) in *; clearbody R end.
        destruct P as (new2 & k & T & I & X & C).
        exists (new ++ new2), (S k).
        rewrite T, map_app, transfers_app, Ht, X, <- (app_assoc (map fst new)), I.
        split; [unfold new; rewrite <- !app_assoc; reflexivity|]. split; [exact Hnew|]. split; [reflexivity|].
        destruct (fst R); try contradiction; cbn [length nth_error]; [split; [lia|apply C]|]. destruct C as (C1 & C2 & C3). split; [lia|]. split; [exact C2|exact C3].
      * intro Bu. cbn [gap_budget] in Bu. fold n in Bu. apply B.
        pose proof (ready_cycles_firstn hr n l2) as R. rewrite <- Sp in R.
        change (nr ++ i :: r) with (nr ++ [i] ++ r) in R.
        rewrite !ready_cycles_app, (ready_cycles_none hr nr Sf) in R.
        pose proof (ready_cycles_le hr [i]). cbn [length] in *. lia.
Qed.

Lemma gaps_progress gws s : width <> 1 -> Forall (fun gw => fits width (fst (snd gw))) gws ->
  exists N, forall p o fuel l, length l < fuel -> p <> PReadOnly -> o_valid o <> L1 ->
  N <= ready_cycles hr l -> exists w, st_send_gaps width hr fuel gws (World s p o [] l) = (Done tt, w).
Proof.
  intros W F. exists (gap_budget gws s). intros p o fuel l Hf Hp Ho.
  assert (He : exists ds, encodes width (map snd gws) ds).
  { clear -F W. induction F as [|[g [v sy]] gws F1 _ [ds IH]]; [exists []; constructor|].
    destruct (fits_create width v W F1) as (d & Ed & _). exists (d :: ds). constructor; assumption. }
  destruct He as [ds He]. exact (proj2 (send_gaps_post fuel gws ds He s p o [] l Hf Hp Ho)).
Qed.

Lemma gaps_end_to_end be gws (l : list logic) (items : list (item binsrc)) s p o fuel :
  width <> 1 -> Forall (fun i => fits width (i_tx i)) items -> map (fun gw => fst (snd gw)) gws = map i_tx items ->
  length l < fuel -> p <> PReadOnly -> o_valid o <> L1 ->
  let '(r, w) := st_send_gaps width hr fuel gws (World s p o [] l) in
  exists reps n, word_reports be width items reps /\ st_monitor hr be (trace w) = (firstn n reps, None)
    /\ match r with Done _ => n = length reps | Susp => ins w = [] /\ n < length reps | _ => False end.
Proof.
  intros W F Ei Hf Hp Ho.
  assert (He : exists ds reps, encodes width (map snd gws) ds /\ word_reports be width items reps
     /\ Forall2 (fun d b => convert_binary_to_bytes d be = Ok b) ds reps).
  { clear -F W Ei. revert gws Ei. induction F as [|i items F1 _ IH]; intros gws Ei.
    - destruct gws; [|discriminate]. exists [], []. repeat split; constructor.
    - destruct gws as [|[g [v sy]] gws]; [discriminate|]. cbn [map fst snd] in Ei. injection Ei as Ev Ei.
      destruct (IH gws Ei) as (ds & reps & A & B & C). rewrite <- Ev in F1.
      destruct (fits_create width v W F1) as (d & Ed & Ld & Vd).
      destruct (word_spelled width v d be Ld Vd) as (b & Cb & Sb). subst v.
      exists (d :: ds), (b :: reps). repeat split; constructor; assumption. }
  destruct He as (ds & reps & He & Hr & Hc).
  destruct (send_gaps_post fuel gws ds He s p o [] l Hf Hp Ho) as [P _].
  destruct (st_send_gaps width hr fuel gws (World s p o [] l)) as [r w].
  destruct P as (new & k & T & _ & X & C). cbn [snd fst app] in *.
  exists reps, k. split; [exact Hr|].
  assert (Ll : length ds = length reps) by apply (Forall2_len _ _ _ Hc).
  split.
  - rewrite st_monitor_transfers, T, X. clear -Hc. revert k.
    induction Hc as [|d b ds bs E _ IH]; intros [|k]; try reflexivity.
    cbn [firstn]. rewrite E, IH. reflexivity.
  - rewrite <- Ll. destruct r; try contradiction; tauto.
Qed.
End Bus.

Lemma word_calls_started (l : list (ev binsrc)) : map fst (word_calls l) = map i_tx (started l).
Proof.
  unfold word_calls, started. induction l as [|e l IH]; [reflexivity|]. cbn [flat_map]. rewrite !map_app, IH. f_equal.
  destruct e; reflexivity.
Qed.

Section Top.
Context (ty : bytes -> nat) (eqb : bytes -> bytes -> bool) (str : bytes -> String.string) (fn : nat -> list bytes -> bytes -> bytes).
Context (EQ : forall a b, eqb a b = true <-> a = b).
Definition verdict im m loc hist :=
  ScoreboardModel.result bytes (fst (ScoreboardModel.sb_run bytes ty eqb str fn
     (ScoreboardSpec.start bytes im m loc 0) (ScoreboardSpec.ops_of m loc hist))).

Lemma st_top_prefix width hr be beh acts gws s p o fuel l im m loc hist :
  width <> 1 ->
  let d := run binsrc beh acts drv_init in
  Forall (fun i => fits width (i_tx i)) (appended (log d)) -> map snd gws = word_calls (log d) ->
  length l < fuel -> p <> PReadOnly -> o_valid o <> L1 ->
  let '(r, w) := st_send_gaps width hr fuel gws (World s p o [] l) in
  let '(reps, f) := st_monitor hr be (trace w) in
  f = None
  /\ match r with
     | Done _ => word_reports be width (started (log d)) reps
     | Susp => ins w = [] /\ exists all n, word_reports be width (started (log d)) all /\ n < length all /\ reps = firstn n all
     | _ => False
     end
  /\ (hears hist reps ->
      (verdict im m loc hist = Ok tt <-> ScoreboardSpec.exps hist = reps /\ ScoreboardSpec.never_early hist)).
Proof.
  intros W d Hs E Hf Hp Ho.
  assert (Hps : Forall (fun i => fits width (i_tx i)) (started (log d))).
  { apply Forall_forall. intros i Hi. apply started_appended in Hi. rewrite Forall_forall in Hs. apply Hs, Hi. }
  assert (E' : map (fun gw : nat * (binsrc * bool) => fst (snd gw)) gws = map i_tx (started (log d))).
  { rewrite <- word_calls_started, <- E, map_map. reflexivity. }
  pose proof (gaps_end_to_end width hr be gws l (started (log d)) s p o fuel W Hps E' Hf Hp Ho) as G.
  destruct (st_send_gaps width hr fuel gws (World s p o [] l)) as [r w]. destruct G as (all & n & G1 & G2 & G3).
  rewrite G2. split; [reflexivity|]. split.
  - destruct r; try contradiction.
    + subst n. rewrite firstn_all. exact G1.
    + destruct G3 as [G3 G4]. split; [exact G3|]. exists all, n. auto.
  - unfold hears. intro H. unfold verdict. rewrite (ScoreboardProof.inorder_iff ty eqb str fn EQ), H.
    intuition congruence.
Qed.

Lemma st_top_all width hr be beh acts gws s p o fuel l im m loc hist :
  width <> 1 -> passive beh -> no_clear acts ->
  let d := run binsrc beh acts drv_init in
  Forall (fun i => fits width (i_tx i) /\ i_sync_kw i = false) (appends_of acts) -> sendq d = [] -> map snd gws = word_calls (log d) ->
  length l < fuel -> p <> PReadOnly -> o_valid o <> L1 ->
  let '(r, w) := st_send_gaps width hr fuel gws (World s p o [] l) in
  let '(reps, f) := st_monitor hr be (trace w) in
  r = Done tt -> hears hist reps ->
      word_reports be width (appends_of acts) reps /\
      (verdict im m loc hist = Ok tt <->
       word_reports be width (appends_of acts) (ScoreboardSpec.exps hist) /\ ScoreboardSpec.never_early hist).
Proof.
  intros W Pa NC d Hs Q E Hf Hp Ho.
  assert (Ea : appended (log d) = appends_of acts) by apply (run_appended beh acts Pa drv_init).
  assert (Et : started (log d) = appends_of acts).
  { rewrite <- Ea. unfold d at 2. rewrite (run_exact beh acts); [|apply run_no_clear; auto]. fold d. rewrite Q, app_nil_r.
    symmetry. apply taken_started. apply run_no_reject. fold d. rewrite Ea.
    eapply Forall_impl; [|exact Hs]. cbn. tauto. }
  pose proof (st_top_prefix width hr be beh acts gws s p o fuel l im m loc hist W) as G. cbn zeta in G. fold d in G.
  specialize (G ltac:(rewrite Ea; eapply Forall_impl; [|exact Hs]; cbn; tauto) E Hf Hp Ho).
  destruct (st_send_gaps width hr fuel gws (World s p o [] l)) as [r w].
  destruct (st_monitor hr be (trace w)) as [reps f].
  destruct G as (_ & G2 & G3). intros -> R. rewrite Et in G2. split; [exact G2|]. rewrite (G3 R).
  split; intros [H1 H2]; (split; [|exact H2]).
  - rewrite H1. exact G2.
  - eapply reports_inj; eassumption.
Qed.
End Top.

(** ** a batch at full rate *)
Section Batch.
Context (beh : nat -> binsrc -> list (cbop binsrc) * option exn).
Definition plain (i : item binsrc) : Prop := i_sync_kw i = false /\ i_callback i = None.
Lemma run_appends items : forall d, run binsrc beh (map AAppend items) d =
  Driver_ (sendq d ++ items) (match items with [] => pending d | _ => true end)
          (match items, thr d with _ :: _, TAsleep => TReady | _, t => t end) (direct d) (log d ++ map VAppend items).
Proof.
  induction items as [|i items IH]; intro d; cbn [map run fold_left].
  - rewrite !app_nil_r. destruct d as [q p [| | |] dr lg]; reflexivity.
  - change (run binsrc beh (map AAppend items) (append i d) = Driver_ (sendq d ++ i :: items) true
      (match thr d with TAsleep => TReady | t => t end) (direct d) (log d ++ VAppend i :: map VAppend items)).
    rewrite IH. unfold append. cbn [sendq pending thr direct log]. rewrite <- !app_assoc. cbn [app].
    destruct items, (thr d); reflexivity.
Qed.
Lemma calls_app a b : word_calls (a ++ b) = word_calls a ++ word_calls b.
Proof. apply flat_map_app. Qed.
Lemma calls_appends items : word_calls (map VAppend items) = [].
Proof. induction items; [reflexivity|assumption]. Qed.
(** the thread in the middle of a batch *)
Lemma run_finish q : forall i sy d, plain i -> Forall plain q -> thr d = TSending i sy -> sendq d = q ->
  word_calls (log (run binsrc beh (repeat (AFinish None) (S (length q))) d)) = word_calls (log d) ++ map (fun j => (i_tx j, false)) q.
Proof.
  induction q as [|j q IH]; intros i sy d [K C] F Ht Hq.
  - cbn [length repeat run fold_left map]. unfold run. cbn [fold_left step]. rewrite Ht. unfold finish. rewrite C.
    destruct (i_event i); unfold inner_loop; cbn [sendq emit log]; rewrite Hq; unfold pending_wait, set_thr; cbn [log]; rewrite !calls_app; cbn; rewrite !app_nil_r; reflexivity.
  - inversion F as [|? ? [Kj Cj] Fq]; subst. cbn [length]. change (repeat (AFinish None) (S (S (length q)))) with (@AFinish binsrc None :: repeat (AFinish None) (S (length q))).
    change (run binsrc beh (AFinish None :: repeat (AFinish None) (S (length q))) d)
      with (run binsrc beh (repeat (AFinish None) (S (length q))) (step binsrc beh d (AFinish None))).
    cbn [step]. rewrite Ht. unfold finish. rewrite C.
    destruct (i_event i); unfold inner_loop; cbn [sendq emit log pending thr direct]; rewrite Hq, Kj; cbn [negb].
    + rewrite (IH j false); [|split; assumption|exact Fq|reflexivity|reflexivity].
      cbn [log emit set_thr]. rewrite !calls_app. cbn. rewrite !app_nil_r, <- app_assoc. reflexivity.
    + rewrite (IH j false); [|split; assumption|exact Fq|reflexivity|reflexivity].
      cbn [log emit set_thr]. rewrite !calls_app. cbn. rewrite !app_nil_r, <- app_assoc. reflexivity.
Qed.
Lemma batch_calls i q : Forall plain (i :: q) ->
  word_calls (log (run binsrc beh (map AAppend (i :: q) ++ ARun :: repeat (AFinish None) (S (length q))) drv_init))
  = (i_tx i, true) :: map (fun j => (i_tx j, false)) q.
Proof.
  intro F. inversion F as [|? ? [Ki Ci] Fq]; subst. unfold run. rewrite fold_left_app. fold (run binsrc beh (map AAppend (i :: q)) drv_init).
  rewrite run_appends. cbn [drv_init sendq pending thr direct log app fold_left step].
  unfold inner_loop. cbn [sendq pending thr direct log]. rewrite Ki. cbn [negb].
  match goal with |- word_calls (log (fold_left _ _ ?d)) = _ => pose proof (run_finish q i true d (conj Ki Ci) Fq eq_refl eq_refl) as H end.
  unfold run in H. rewrite H. cbn [log emit set_thr]. rewrite calls_app, calls_appends. reflexivity.
Qed.
End Batch.

Section Rate.
Context (width : nat) (hr : bool).
Lemma always_on : throttle (set_valid_generator None) = (0, set_valid_generator None).
Proof. reflexivity. Qed.
Lemma sends_now fuel ws : forall ds tr l o, encodes width (map (fun v => (v, false)) ws) ds ->
  length l < fuel -> length ws <= length l -> Forall (fun r => accepts hr r = true) l ->
  exists w, st_send_gaps width hr fuel (map (fun v => (0, (v, false))) ws) (World (set_valid_generator None) PActive o tr l) = (Done tt, w) /\
    trace w = tr ++ combine (firstn (length ws) l) (map word ds).
Proof.
  induction ws as [|v ws IH]; intros ds tr l o En Hf Hl F; inversion En as [|x d xs ds' Ed En']; subst.
  - eexists. split; [reflexivity|]. cbn. rewrite app_nil_r. reflexivity.
  - destruct l as [|r l]; [cbn in Hl; lia|]. inversion F as [|? ? Fr Fl]; subst. cbn [length] in *. cbn [fst] in Ed.
    unfold st_send_gaps. cbn [map for_each fst snd edges]. rewrite bind_assoc.
    change (bind (ret tt) ?f) with (f tt). cbn beta.
    destruct (st_send_spec width hr fuel v false (set_valid_generator None) PActive o tr (r :: l) Hf) as (p' & p2 & _ & E); [discriminate|].
    unfold lead in E. rewrite always_on in E. cbn [fst snd Nat.add Nat.leb length firstn skipn held map app] in E. rewrite Ed in E.
    assert (Es : span (accepts hr) (r :: l) = ([], r :: l)) by (cbn [span]; rewrite Fr; reflexivity).
    rewrite Es in E. cbn [app map] in E.
    unfold bind at 1. rewrite E.
    destruct (IH ds' (tr ++ [(r, word d)]) l (rest_out width) En' ltac:(lia) ltac:(lia) Fl) as (w & Ew & Tw).
    exists w. split; [exact Ew|]. rewrite Tw, <- app_assoc. reflexivity.
Qed.
Lemma batch_now fuel v ws : forall d ds i r l o, create_binary v width false = Ok d -> encodes width (map (fun v => (v, false)) ws) ds ->
  S (S (length l)) < fuel -> length ws <= length l -> Forall (fun r => accepts hr r = true) (r :: l) ->
  exists w, st_send_gaps width hr fuel ((0, (v, true)) :: map (fun v => (0, (v, false))) ws)
              (World (set_valid_generator None) PActive o [] (i :: r :: l)) = (Done tt, w) /\
    trace w = (i, set_valid L0 o) :: combine (r :: firstn (length ws) l) (map word (d :: ds)).
Proof.
  intros d ds i r l o Ed En Hf Hl F. inversion F as [|? ? Fr Fl]; subst.
  unfold st_send_gaps. cbn [for_each fst snd edges]. rewrite bind_assoc.
  change (bind (ret tt) ?f) with (f tt). cbn beta.
  destruct (st_send_spec width hr fuel v true (set_valid_generator None) PActive o [] (i :: r :: l)) as (p' & p2 & _ & E); [cbn [length]; lia|discriminate|].
  unfold lead in E. rewrite always_on in E. cbn [fst snd Nat.add Nat.leb length firstn skipn held map app] in E. rewrite Ed in E.
  assert (Es : span (accepts hr) (r :: l) = ([], r :: l)) by (cbn [span]; rewrite Fr; reflexivity).
  rewrite Es in E. cbn [app map] in E.
  unfold bind at 1. rewrite E.
  destruct (sends_now fuel ws ds [(i, set_valid L0 o); (r, word d)] l (rest_out width) En ltac:(lia) Hl Fl) as (w & Ew & Tw).
  exists w. split; [exact Ew|]. rewrite Tw. reflexivity.
Qed.
End Rate.

Lemma fits_encodes width ws : width <> 1 -> Forall (fits width) ws -> exists ds, encodes width (map (fun v => (v, false)) ws) ds /\ length ds = length ws.
Proof.
  intros W F. induction F as [|v ws Fv F [ds [E L]]]; [exists []; split; [constructor|reflexivity]|].
  destruct (fits_create width v W Fv) as (d & Ed & _). exists (d :: ds). split; [constructor; assumption|]. cbn. congruence.
Qed.
Lemma batch_rate width hr beh i q fuel x l : width <> 1 ->
  Forall (fun j => fits width (i_tx j) /\ plain j) (i :: q) ->
  Forall (fun r => accepts hr r = true) l -> length l = S (length q) -> S (length l) < fuel ->
  let d := run binsrc beh (map AAppend (i :: q) ++ ARun :: repeat (AFinish None) (S (length q))) drv_init in
  exists w, st_send_gaps width hr fuel (map (fun c => (0, c)) (word_calls (log d)))
              (World (set_valid_generator None) PActive (st_init_out width) [] (x :: l)) = (Done tt, w) /\
    ins w = [] /\ map (fun c => o_valid (snd c)) (trace w) = L0 :: repeat L1 (S (length q)).
Proof.
  intros W F Fl Ll Lf d.
  assert (Fp : Forall plain (i :: q)) by (apply Forall_impl with (2 := F); tauto).
  unfold d. rewrite batch_calls by exact Fp. cbn [map]. rewrite map_map.
  inversion F as [|? ? [Fi _] Fq]; subst.
  destruct (fits_create width (i_tx i) W Fi) as (di & Ei & _).
  assert (Fw : Forall (fits width) (map i_tx q)) by (apply Forall_map, Forall_impl with (2 := Fq); tauto).
  destruct (fits_encodes width (map i_tx q) W Fw) as (ds & Es & Ls). rewrite map_length in Ls.
  destruct l as [|r l]; [discriminate|]. injection Ll as Ll.
  assert (Eq : map (fun j : item binsrc => (0, (i_tx j, false))) q = map (fun v => (0, (v, false))) (map i_tx q)) by (rewrite map_map; reflexivity).
  rewrite Eq.
  destruct (batch_now width hr fuel (i_tx i) (map i_tx q) di ds x r l (st_init_out width) Ei Es) as (w & Ew & Tw);
    [cbn [length] in Lf; lia|rewrite map_length; lia|exact Fl|].
  exists w. split; [exact Ew|].
  rewrite map_length, <- Ll, firstn_all in Tw.
  assert (Hen : encodes width (map snd ((0, (i_tx i, true)) :: map (fun v => (0, (v, false))) (map i_tx q))) (di :: ds)).
  { cbn [map snd]. constructor; [exact Ei|]. rewrite map_map. exact Es. }
  destruct (send_gaps_post width hr fuel _ _ Hen (set_valid_generator None) PActive (st_init_out width) [] (x :: r :: l)) as [(new & k & T & I & _) _];
    [cbn [length] in *; lia|discriminate|discriminate|].
  rewrite Ew in T, I. cbn [snd app] in T, I. subst new. rewrite Tw in I.
  split.
  - apply (f_equal (@length _)) in I. rewrite app_length, map_length in I. cbn [length combine map] in I. rewrite combine_length, map_length in I.
    destruct (ins w); [reflexivity|]. cbn [length] in I. lia.
  - rewrite Tw. cbn [map combine fst snd st_init_out set_valid o_valid word repeat]. do 2 f_equal.
    rewrite <- Ll. clear - Ls Ll. revert l q Ls Ll. induction ds as [|d ds IH]; intros l q Ls Ll.
    + cbn [map]. destruct l; [|cbn [length] in *; lia]. reflexivity.
    + destruct l as [|y l]; [cbn [length] in *; lia|]. destruct q as [|z q]; [discriminate|].
      cbn [map combine length repeat]. f_equal. apply (IH l q); cbn [length] in *; lia.
Qed.
