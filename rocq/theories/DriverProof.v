(** DriverProof.v *)
From Verif Require Import DriverModel DriverSpec.
From Coq Require Import Permutation.

Section Proof.
Context {T : Type} (beh : nat -> T -> list (cbop T) * option exn).
Notation item := (item T). Notation ev := (ev T). Notation driver := (driver T).
Notation step := (step T beh). Notation run := (run T beh). Notation finish := (finish T beh).

Definition inv3 (l : list ev) (q : list item) (b : bool) (lf : life) : Prop :=
  follows fifo [] l q /\ follows batch ([], true) l (q, b) /\ follows lifecycle LIdle l lf.

Lemma inv3_step l q b lf e q' b' lf' :
  inv3 l q b lf -> fifo q e q' -> batch (q, b) e (q', b') -> lifecycle lf e lf' ->
  inv3 (l ++ [e]) q' b' lf'.
Proof.
  intros [H1 [H2 H3]] F B L. split; [|split]; econstructor; eauto.
Qed.

(** the state between two events, for a given thread state *)
Definition flag_ok (t : thread T) (b : bool) : Prop :=
  match t with TReady | TAsleep => b = true | TSending _ _ => b = false | TDead _ => True end.

Definition Inv (d : driver) : Prop :=
  (exists b, inv3 (log d) (sendq d) b (life_of (thr d)) /\ flag_ok (thr d) b)
  /\ (thr d = TAsleep -> sendq d = []).

Lemma Inv_init : Inv drv_init.
Proof.
  split; [|cbn; congruence]. exists true. split; [|reflexivity].
  split; [|split]; constructor.
Qed.

Lemma append_inv3 i d b lf : inv3 (log d) (sendq d) b lf ->
  inv3 (log (append i d)) (sendq (append i d)) b lf.
Proof. intro H. eapply inv3_step; [exact H| | |]; constructor. Qed.
Lemma clear_inv3 d b lf : inv3 (log d) (sendq d) b lf ->
  inv3 (log (clear d)) (sendq (clear d)) b lf.
Proof. intro H. eapply inv3_step; [exact H| | |]; constructor. Qed.
Lemma emit_inv3 e d b b' lf lf' : inv3 (log d) (sendq d) b lf ->
  fifo (sendq d) e (sendq d) -> batch (sendq d, b) e (sendq d, b') -> lifecycle lf e lf' ->
  inv3 (log (emit [e] d)) (sendq (emit [e] d)) b' lf'.
Proof. intros. eapply inv3_step; eauto. Qed.

Lemma cbops_inv3 ops : forall d b lf, inv3 (log d) (sendq d) b lf ->
  inv3 (log (fold_left run_cbop ops d)) (sendq (fold_left run_cbop ops d)) b lf.
Proof.
  induction ops as [|o ops IH]; intros d b lf H; [exact H|].
  cbn [fold_left]. apply IH. destruct o; [apply append_inv3|apply clear_inv3]; exact H.
Qed.

Lemma die_Inv d e b lf :
  inv3 (log d) (sendq d) b lf -> lifecycle lf (VDead e) LEnded -> Inv (die e d).
Proof.
  intros H L. split; [|cbn; congruence]. exists b. split; [|exact I].
  eapply inv3_step; [exact H| | |]; [constructor|constructor|exact L].
Qed.

Lemma inner_loop_Inv s d b :
  inv3 (log d) (sendq d) b LIdle ->
  (sendq d = [] -> b = true) -> (sendq d <> [] -> b = negb s) ->
  Inv (inner_loop s d).
Proof.
  intros H E N. unfold inner_loop. destruct (sendq d) as [|i q] eqn:Q.
  - split; [|reflexivity]. exists b. cbn. split; auto.
  - rewrite N in H by congruence.
    destruct (i_sync_kw i).
    + eapply die_Inv with (lf := LIdle); [|constructor].
      cbn. eapply inv3_step; [exact H| | |]; constructor.
    + split; [|cbn; congruence]. exists false. split; [|reflexivity].
      cbn. eapply inv3_step; [exact H| | |]; constructor.
Qed.

Lemma finish_Inv i d b :
  inv3 (log d) (sendq d) b (LSending i) -> Inv (finish i d).
Proof.
  intro H. unfold DriverModel.finish.
  set (d1 := emit [VSent i] d).
  set (d2 := match i_event i with Some k => emit [VEvent k] d1 | None => d1 end).
  assert (H2 : inv3 (log d2) (sendq d2) b
                 (match i_callback i with Some _ => LCall i | None => LAfter i end)).
  { subst d2 d1. destruct (i_event i) as [k|] eqn:E.
    - eapply emit_inv3 with (lf := LNotify i);
        [eapply emit_inv3; [exact H|constructor|constructor|econstructor; eauto]
        |constructor|constructor|].
      destruct (i_callback i) eqn:C; econstructor; eauto.
    - eapply emit_inv3; [exact H|constructor|constructor|].
      destruct (i_callback i) eqn:C; econstructor; eauto. }
  clearbody d2. clear H d1.
  assert (Done : forall d3, inv3 (log d3) (sendq d3) b (LAfter i) ->
                  Inv (inner_loop true (emit [VDone i] d3))).
  { intros d3 H3. eapply inner_loop_Inv
      with (b := match sendq d3 with [] => true | _ => false end).
    - eapply emit_inv3; [exact H3|constructor|constructor|constructor].
    - cbn. intros ->. reflexivity.
    - cbn. destruct (sendq d3); congruence. }
  destruct (i_callback i) as [c|] eqn:C; [|apply Done; exact H2].
  destruct (beh c (i_tx i)) as [ops r].
  set (d3 := fold_left _ _ _).
  assert (H3 : inv3 (log d3) (sendq d3) b (LAfter i)).
  { subst d3. apply cbops_inv3. eapply emit_inv3; [exact H2|constructor|constructor|].
    constructor; exact C. }
  clearbody d3. destruct r as [e|]; [|apply Done; exact H3].
  eapply die_Inv; [exact H3|constructor].
Qed.

Lemma step_Inv d a : Inv d -> Inv (step d a).
Proof.
  intros [[b [H F]] S]. destruct a as [i| | | |r|t s|n]; cbn [DriverModel.step].
  - split.
    + exists b. split.
      * assert (L : life_of (thr (append i d)) = life_of (thr d)) by (cbn; destruct (thr d); reflexivity).
        rewrite L. apply append_inv3. exact H.
      * cbn. destruct (thr d); auto.
    + cbn. destruct (thr d); congruence.
  - split; [|reflexivity]. exists b. split; [|exact F]. apply clear_inv3. exact H.
  - destruct (thr d) eqn:E; cbn [life_of] in H;
      try (split; [exists b; rewrite E; auto | rewrite E; exact S]; fail);
      (eapply die_Inv; [exact H|constructor]).
  - destruct (thr d) eqn:E; try (split; [exists b; rewrite E; auto | rewrite E; exact S]; fail).
    cbn in F. subst b. eapply inner_loop_Inv; [exact H| |]; reflexivity.
  - destruct (thr d) eqn:E; try (split; [exists b; rewrite E; auto | rewrite E; exact S]; fail).
    destruct r as [e|]; [eapply die_Inv; [exact H|constructor]|].
    eapply finish_Inv. exact H.
  - split; [|exact S]. exists b. split; [|exact F]. cbn [log thr sendq].
    eapply inv3_step; [exact H| | |]; constructor.
  - destruct (nth_error (direct d) n); [|split; [exists b|]; auto].
    split; [|exact S]. exists b. split; [|exact F]. cbn [log thr sendq].
    eapply inv3_step; [exact H| | |]; constructor.
Qed.

Lemma run_Inv acts : forall d, Inv d -> Inv (run acts d).
Proof.
  induction acts as [|a acts IH]; intros d H; [exact H|]. cbn. apply IH, step_Inv, H.
Qed.

Lemma run_fifo acts : follows fifo [] (log (run acts drv_init)) (sendq (run acts drv_init)).
Proof. destruct (run_Inv acts _ Inv_init) as [[b [[H _] _]] _]. exact H. Qed.

Lemma run_batch acts :
  exists b, follows batch ([], true) (log (run acts drv_init)) (sendq (run acts drv_init), b).
Proof. destruct (run_Inv acts _ Inv_init) as [[b [[_ [H _]] _]] _]. eauto. Qed.

Lemma run_life acts :
  follows lifecycle LIdle (log (run acts drv_init)) (life_of (thr (run acts drv_init))).
Proof. destruct (run_Inv acts _ Inv_init) as [[b [[_ [_ H]] _]] _]. exact H. Qed.

Lemma run_wakeup acts :
  sendq (run acts drv_init) <> [] -> ~ sleeping (run acts drv_init).
Proof. destruct (run_Inv acts _ Inv_init) as [_ H]. unfold sleeping. auto. Qed.

(** ** Consequences of the FIFO discipline *)
Lemma subseq_nil_l {A} (l : list A) : subseq [] l.
Proof. induction l; constructor; auto. Qed.
Lemma subseq_refl {A} (l : list A) : subseq l l.
Proof. induction l; [constructor|apply SS_take; auto]. Qed.
Lemma subseq_app {A} (a b c d : list A) : subseq a b -> subseq c d -> subseq (a ++ c) (b ++ d).
Proof. induction 1; intro H2; cbn; [exact H2|apply SS_skip; auto|apply SS_take; auto]. Qed.
Lemma subseq_trans {A} (b c : list A) : subseq b c -> forall a, subseq a b -> subseq a c.
Proof.
  induction 1 as [|x l1 l2 H IH|x l1 l2 H IH]; intros a Ha; auto.
  - apply SS_skip; auto.
  - inversion Ha; subst; [apply SS_skip|apply SS_take]; auto.
Qed.
Lemma subseq_app_l {A} (a b c : list A) : subseq (a ++ b) c -> subseq a c.
Proof.
  intro H. eapply subseq_trans; [exact H|].
  rewrite <- (app_nil_r a) at 1. apply subseq_app; [apply subseq_refl|apply subseq_nil_l].
Qed.

Lemma appended_app (l l' : list ev) : appended (l ++ l') = appended l ++ appended l'.
Proof. apply flat_map_app. Qed.
Lemma taken_app (l l' : list ev) : taken (l ++ l') = taken l ++ taken l'.
Proof. apply flat_map_app. Qed.
Lemma started_app (l l' : list ev) : started (l ++ l') = started l ++ started l'.
Proof. apply flat_map_app. Qed.
Lemma completed_app (l l' : list ev) : completed (l ++ l') = completed l ++ completed l'.
Proof. apply flat_map_app. Qed.

Lemma follows_fifo_subseq s (l : list ev) q : follows fifo s l q -> s = [] ->
  subseq (taken l ++ q) (appended l).
Proof.
  induction 1 as [s|s l q1 e q2 H IH F]; intros ->; [constructor|].
  specialize (IH eq_refl). rewrite taken_app, appended_app.
  inversion F; subst; cbn;
    rewrite ?app_nil_r; auto.
  - rewrite app_assoc. apply subseq_app; [exact IH|apply subseq_refl].
  - eapply subseq_app_l. exact IH.
  - rewrite <- app_assoc. exact IH.
  - rewrite <- app_assoc. exact IH.
Qed.

Lemma follows_fifo_exact s (l : list ev) q : follows fifo s l q -> s = [] -> never_cleared l ->
  appended l = taken l ++ q.
Proof.
  induction 1 as [s|s l q1 e q2 H IH F]; intros -> NC; [reflexivity|].
  assert (NC' : never_cleared l) by (intro C; apply NC, in_or_app; auto).
  specialize (IH eq_refl NC'). rewrite taken_app, appended_app, IH.
  inversion F; subst; cbn; rewrite ?app_nil_r, <- ?app_assoc; auto.
  exfalso. apply NC, in_or_app. right. left. reflexivity.
Qed.

Lemma started_subseq_taken (l : list ev) : subseq (started l) (taken l).
Proof. induction l as [|[]]; cbn; auto; [constructor|apply SS_take; auto|apply SS_skip; auto]. Qed.

Lemma run_subseq acts :
  subseq (started (log (run acts drv_init)) ++ sendq (run acts drv_init))
         (appended (log (run acts drv_init))).
Proof.
  eapply subseq_trans; [apply (follows_fifo_subseq _ _ _ (run_fifo acts) eq_refl)|].
  apply subseq_app; [apply started_subseq_taken|apply subseq_refl].
Qed.

Lemma run_exact acts : never_cleared (log (run acts drv_init)) ->
  appended (log (run acts drv_init)) = taken (log (run acts drv_init)) ++ sendq (run acts drv_init).
Proof. apply (follows_fifo_exact _ _ _ (run_fifo acts) eq_refl). Qed.

(** completed and started *)
Lemma follows_life_completed s (l : list ev) q : follows lifecycle s l q -> s = LIdle ->
  exists rest, started l = completed l ++ rest /\ length rest <= 1 /\
    match q with
    | LSending i => rest = [i]
    | LEnded => True
    | _ => rest = []
    end.
Proof.
  induction 1 as [s|s l s1 e s2 H IH F]; intros ->; [exists []; cbn; auto|].
  destruct (IH eq_refl) as [rest [E [Le R]]]. rewrite started_app, completed_app, E.
  inversion F; subst; cbn; rewrite ?app_nil_r; eauto;
    try (exists []; subst; rewrite ?app_nil_r; auto; fail).
  all: try (exists rest; repeat split; auto; try (destruct s2; auto); fail).
  exists [i]. subst rest. rewrite app_nil_r. auto.
Qed.

Lemma run_completed acts :
  exists rest, started (log (run acts drv_init)) = completed (log (run acts drv_init)) ++ rest
    /\ length rest <= 1
    /\ match thr (run acts drv_init) with
       | TSending i _ => rest = [i]
       | TDead _ => True
       | _ => rest = []
       end.
Proof.
  destruct (follows_life_completed _ _ _ (run_life acts) eq_refl) as [rest [A [B C]]].
  exists rest. split; [exact A|]. split; [exact B|].
  destruct (thr (run acts drv_init)); exact C.
Qed.

(** notifications *)
Lemma notifications_app (l l' : list ev) : notifications (l ++ l') = notifications l ++ notifications l'.
Proof. unfold notifications. apply filter_app. Qed.

Lemma follows_life_notified s (l : list ev) q : follows lifecycle s l q -> s = LIdle ->
  flat_map owed (completed l) = notifications l ++
    match q with
    | LNotify i => owed i
    | LCall i => match i_callback i with Some c => [VCallback c (i_tx i)] | None => [] end
    | _ => []
    end.
Proof.
  induction 1 as [s|s l s1 e s2 H IH F]; intros ->; [reflexivity|].
  specialize (IH eq_refl). rewrite completed_app, notifications_app, flat_map_app, IH.
  inversion F; subst; cbn; rewrite ?app_nil_r, <- ?app_assoc; try reflexivity.
  all: unfold owed;
    repeat match goal with X : i_event _ = _ |- _ => rewrite X | X : i_callback _ = _ |- _ => rewrite X end;
    cbn; rewrite ?app_nil_r; reflexivity.
Qed.

Lemma run_notified acts :
  notifications (log (run acts drv_init)) = flat_map owed (completed (log (run acts drv_init))).
Proof.
  rewrite (follows_life_notified _ _ _ (run_life acts) eq_refl).
  destruct (thr (run acts drv_init)); cbn; rewrite app_nil_r; reflexivity.
Qed.

Lemma finish_passive i d : passive beh ->
  finish i d = inner_loop true
    (emit ([VSent i] ++ match i_event i with Some k => [VEvent k] | None => [] end
           ++ match i_callback i with Some c => [VCallback c (i_tx i)] | None => [] end
           ++ [VDone i]) d).
Proof.
  intro P. unfold DriverModel.finish. destruct (i_event i), (i_callback i); rewrite ?P;
    cbn; unfold emit; cbn; rewrite <- ?app_assoc; reflexivity.
Qed.

(** with passive callbacks, exactly the appends of the schedule *)
Lemma inner_loop_appended s (d : driver) : appended (log (inner_loop s d)) = appended (log d).
Proof.
  unfold inner_loop. destruct (sendq d) as [|i q]; [reflexivity|].
  destruct (i_sync_kw i); cbn; unfold appended; rewrite ?flat_map_app; cbn; rewrite ?app_nil_r; reflexivity.
Qed.

Lemma step_appended (d : driver) a : passive beh ->
  appended (log (step d a)) = appended (log d) ++ appends_of [a].
Proof.
  intro P.
  assert (R : forall l : list item, l = l ++ []) by (intro; rewrite app_nil_r; reflexivity).
  destruct a as [i| | | |r|t s|n]; cbn [DriverModel.step appends_of flat_map app].
  - cbn. unfold appended; rewrite flat_map_app; cbn; rewrite ?app_nil_r. reflexivity.
  - cbn. unfold appended; rewrite flat_map_app; cbn; rewrite ?app_nil_r. reflexivity.
  - destruct (thr d); cbn; unfold appended; rewrite ?flat_map_app; cbn; rewrite ?app_nil_r; reflexivity.
  - destruct (thr d); rewrite ?inner_loop_appended; apply R.
  - destruct (thr d) as [| |i s|e]; try apply R. destruct r as [e|].
    + cbn. unfold appended; rewrite flat_map_app; cbn; rewrite ?app_nil_r. reflexivity.
    + rewrite finish_passive by exact P. rewrite inner_loop_appended. cbn [emit log].
      rewrite appended_app. f_equal. destruct (i_event i), (i_callback i); reflexivity.
  - cbn. unfold appended; rewrite flat_map_app; cbn; rewrite ?app_nil_r. reflexivity.
  - destruct (nth_error (direct d) n); [|apply R]. cbn. unfold appended; rewrite flat_map_app; cbn; rewrite ?app_nil_r. reflexivity.
Qed.

Lemma run_appended acts : passive beh -> forall d : driver,
  appended (log (run acts d)) = appended (log d) ++ appends_of acts.
Proof.
  intro P. induction acts as [|a acts IH]; intro d; [cbn; rewrite app_nil_r; reflexivity|].
  change (run (a :: acts) d) with (run acts (step d a)).
  rewrite IH, step_appended, <- app_assoc by exact P. f_equal.
  unfold appends_of. cbn. rewrite app_nil_r. reflexivity.
Qed.

(** After the end nothing is started. *)
Lemma step_dead d a e : thr d = TDead e -> thr (step d a) = TDead e
  /\ exists l, log (step d a) = log d ++ l /\ started l = [] /\ completed l = [] /\ taken l = []
       /\ forall c t, ~ In (VCallback c t) l /\ forall k, ~ In (VEvent k) l.
Proof.
  intro E. destruct a as [i| | | |r|t s|n]; cbn; rewrite ?E; cbn;
    try (solve [split; [auto|exists []; rewrite app_nil_r; cbn; repeat split; auto]]).
  - split; [reflexivity|]. exists [VAppend i]. cbn. repeat split; auto; intros; intros [X|[]]; discriminate X.
  - split; [reflexivity|]. exists [VClear]. cbn. repeat split; auto; intros; intros [X|[]]; discriminate X.
  - split; [reflexivity|]. exists [VDirect t s]. cbn. repeat split; auto; intros; intros [X|[]]; discriminate X.
  - destruct (nth_error (direct d) n); cbn.
    + split; [auto|]. eexists [VDirectDone _]. cbn. repeat split; auto; intros; intros [X|[]]; discriminate X.
    + split; [auto|]. exists []; rewrite app_nil_r; cbn; repeat split; auto.
Qed.

Lemma run_dead acts : forall d e, thr d = TDead e -> thr (run acts d) = TDead e
  /\ exists l, log (run acts d) = log d ++ l /\ started l = [] /\ completed l = [] /\ taken l = []
       /\ forall c t, ~ In (VCallback c t) l /\ forall k, ~ In (VEvent k) l.
Proof.
  induction acts as [|a acts IH]; intros d e E.
  - split; [exact E|]. exists []. rewrite app_nil_r. cbn. repeat split; auto.
  - destruct (step_dead d a e E) as [E1 [l1 [A1 [B1 [C1 [D1 F1]]]]]].
    destruct (IH _ _ E1) as [E2 [l2 [A2 [B2 [C2 [D2 F2]]]]]].
    split; [exact E2|]. exists (l1 ++ l2). change (run (a :: acts) d) with (run acts (step d a)). rewrite A2, A1, <- app_assoc.
    rewrite started_app, completed_app, taken_app, B1, B2, C1, C2, D1, D2.
    repeat split; auto.
    + intro X. apply in_app_or in X. destruct X as [X|X]; [apply (F1 c t)|apply (F2 c t)]; exact X.
    + intros k X. apply in_app_or in X. destruct X as [X|X]; [apply (F1 c t) in X|apply (F2 c t) in X]; exact X.
Qed.

(** ** Progress *)
Definition no_kw (q : list item) : Prop := Forall (fun i => i_sync_kw i = false) q.


Lemma drain_sending : passive beh -> forall q d i s,
  no_kw q -> sendq d = q -> thr d = TSending i s ->
  let d' := run (repeat (AFinish None) (S (length q))) d in
  thr d' = TAsleep /\ sendq d' = []
  /\ exists l, log d' = log d ++ l /\ started l = q /\ completed l = i :: q.
Proof.
  intros P q. induction q as [|j q IH]; intros d i s K Q E; cbn zeta.
  - cbn. rewrite E, finish_passive by exact P. unfold inner_loop, emit; cbn. rewrite Q. cbn.
    repeat split. eexists. split; [reflexivity|]. split; cbn;
      destruct (i_event i), (i_callback i); reflexivity.
  - inversion K as [|? ? K1 K2]; subst.
    assert (RS : run (repeat (AFinish None) (S (length (j :: q)))) d
                 = run (repeat (AFinish None) (S (length q))) (step d (AFinish None))) by reflexivity.
    rewrite RS. clear RS.
    assert (D1 : exists d1, step d (AFinish None) = d1 /\ sendq d1 = q /\ thr d1 = TSending j false
       /\ exists l, log d1 = log d ++ l /\ started l = [j] /\ completed l = [i]).
    { eexists. split; [reflexivity|]. cbn [DriverModel.step]. rewrite E, finish_passive by exact P.
      unfold inner_loop, emit. cbn. rewrite Q. cbn [i_sync_kw]. rewrite K1. cbn.
      repeat split. rewrite <- app_assoc. eexists. split; [reflexivity|].
      destruct (i_event i), (i_callback i); split; reflexivity. }
    destruct D1 as [d1 [-> [Q1 [E1 [l1 [A1 [B1 C1]]]]]]].
    destruct (IH d1 j false K2 Q1 E1) as [A [B [l [L1 [L2 L3]]]]].
    split; [exact A|]. split; [exact B|].
    exists (l1 ++ l). rewrite L1, A1, <- app_assoc, started_app, completed_app, B1, C1, L2, L3.
    auto.
Qed.

Lemma drain : passive beh -> forall acts d,
  d = run acts drv_init -> no_kw (sendq d) -> alive d ->
  exists acts', Forall (fun a => a = ARun \/ a = AFinish None) acts'
    /\ length acts' <= 1 + S (length (sendq d))
    /\ let d' := run acts' d in
       sleeping d' /\ sendq d' = []
       /\ exists l, log d' = log d ++ l /\ started l = sendq d
            /\ completed l = match thr d with TSending i _ => [i] | _ => [] end ++ sendq d.
Proof.
  intros P acts d D K A.
  assert (FR : forall n, Forall (fun a : action T => a = ARun \/ a = AFinish None) (repeat (AFinish None) n)).
  { induction n; constructor; auto. }
  destruct (thr d) as [| |i s|e] eqn:E.
  - destruct (sendq d) as [|j q] eqn:Q.
    + exists [ARun]. split; [repeat constructor|]. split; [cbn; lia|].
      cbn. rewrite E. unfold inner_loop. rewrite Q. cbn. split; [reflexivity|]. split; [reflexivity|].
      exists []. rewrite app_nil_r. auto.
    + inversion K as [|? ? K1 K2]; subst q j.
      set (d1 := step d ARun).
      assert (D1 : sendq d1 = l /\ thr d1 = TSending x true /\ log d1 = log d ++ [VStart x true]).
      { subst d1. cbn. rewrite E. unfold inner_loop. rewrite Q, K1. cbn. auto. }
      destruct D1 as [D1 [D2 D3]].
      destruct (drain_sending P l d1 x true K2 D1 D2) as [R1 [R2 [l' [R3 [R4 R5]]]]].
      exists (ARun :: repeat (AFinish None) (S (length l))).
      split; [constructor; auto|]. split; [cbn [length]; rewrite repeat_length; lia|].
      cbn zeta. change (run (ARun :: ?x) d) with (run x d1).
      split; [exact R1|]. split; [exact R2|].
      exists ([VStart x true] ++ l'). rewrite R3, D3, <- app_assoc.
      rewrite started_app, completed_app, R4, R5. auto.
  - pose proof (proj2 (run_Inv acts _ Inv_init)) as W. rewrite <- D in W. specialize (W E).
    exists []. rewrite W in *. split; [constructor|]. split; [cbn; lia|].
    cbn. split; [exact E|]. split; [exact W|]. exists []. rewrite app_nil_r. auto.
  - destruct (drain_sending P (sendq d) d i s K eq_refl E) as [R1 [R2 [l' [R3 [R4 R5]]]]].
    exists (repeat (AFinish None) (S (length (sendq d)))).
    split; [apply FR|]. split; [rewrite repeat_length; lia|].
    cbn zeta. split; [exact R1|]. split; [exact R2|]. eauto.
  - unfold alive in A. rewrite E in A. contradiction.
Qed.

(** ** C69, C70 *)
Lemma direct_fold ops : forall d : driver, direct (fold_left run_cbop ops d) = direct d.
Proof. induction ops as [|[] ops IH]; intro d; cbn [fold_left]; auto; rewrite IH; reflexivity. Qed.
Lemma direct_inner s (d : driver) : direct (inner_loop s d) = direct d.
Proof. unfold inner_loop. destruct (sendq d) as [|i q]; [reflexivity|]. destruct (i_sync_kw i); reflexivity. Qed.

Lemma direct_finish i d : direct (finish i d) = direct d.
Proof.
  unfold DriverModel.finish. destruct (i_callback i).
  - destruct (beh n (i_tx i)) as [ops [e|]]; rewrite ?direct_inner; cbn; rewrite direct_fold;
      destruct (i_event i); reflexivity.
  - rewrite direct_inner. destruct (i_event i); reflexivity.
Qed.

Lemma run_direct acts : forall d : driver, (forall t s, ~ In (ADirect t s) acts) ->
  direct d = [] -> direct (run acts d) = [].
Proof.
  induction acts as [|a acts IH]; intros d N E; [exact E|].
  change (run (a :: acts) d) with (run acts (step d a)). apply IH.
  - intros t s H. apply (N t s). right. exact H.
  - destruct a as [i| | | |r|t s|n]; cbn [DriverModel.step].
    + exact E.
    + exact E.
    + destruct (thr d); exact E.
    + destruct (thr d); rewrite ?direct_inner; exact E.
    + destruct (thr d); try exact E. destruct r; [exact E|]. rewrite direct_finish. exact E.
    + exfalso. apply (N t s). left. reflexivity.
    + rewrite E. destruct n; exact E.
Qed.

Lemma run_no_direct acts : (forall t s, ~ In (ADirect t s) acts) -> ~ overlapping (run acts drv_init).
Proof. intros N [D _]. apply D. apply run_direct; auto. Qed.

Lemma run_sync_kw t later :
  let d := run ([AAppend (Item t None None true); ARun] ++ later) drv_init in
  thr d = TDead (Some EType) /\ started (log d) = [].
Proof.
  cbn zeta. unfold DriverModel.run. rewrite fold_left_app.
  set (d1 := fold_left step [_; _] drv_init).
  assert (E : thr d1 = TDead (Some EType)) by reflexivity.
  destruct (run_dead later d1 _ E) as [A [l [B [C _]]]].
  split; [exact A|]. change (fold_left step later d1) with (run later d1). rewrite B, started_app, C. reflexivity.
Qed.

Lemma subseq_In {A} (a b : list A) x : subseq a b -> In x a -> In x b.
Proof. induction 1; cbn; auto. intros [->|]; auto. Qed.

Lemma follows_reject (l : list ev) q : follows fifo [] l q -> forall i, In (VReject i) l -> In i (taken l).
Proof.
  intros _ i H. unfold taken. apply in_flat_map. exists (VReject i). split; [exact H|left; reflexivity].
Qed.

Definition kw_only (l : list ev) : Prop := forall i, In (VReject i) l -> i_sync_kw i = true.
Lemma kw_only_snoc l e : kw_only l -> (forall i, e = VReject i -> i_sync_kw i = true) -> kw_only (l ++ [e]).
Proof. intros H N i X. apply in_app_or in X. destruct X as [X|[X|[]]]; eauto. Qed.
Lemma kw_inner s (d : driver) : kw_only (log d) -> kw_only (log (inner_loop s d)).
Proof.
  intro H. unfold inner_loop. destruct (sendq d) as [|i q]; [exact H|]. destruct (i_sync_kw i) eqn:K.
  - cbn. apply kw_only_snoc; [apply kw_only_snoc; [exact H|]|]; intros j E; inversion E; subst; exact K.
  - cbn. apply kw_only_snoc; [exact H|]. intros j E; discriminate E.
Qed.
Lemma kw_fold ops : forall d : driver, kw_only (log d) -> kw_only (log (fold_left run_cbop ops d)).
Proof.
  induction ops as [|[] ops IH]; intros d H; cbn [fold_left]; auto; apply IH; cbn;
    apply kw_only_snoc; auto; discriminate.
Qed.
Lemma kw_finish i d : kw_only (log d) -> kw_only (log (finish i d)).
Proof.
  intro H. unfold DriverModel.finish.
  set (d2 := match i_event i with Some k => _ | None => _ end).
  assert (H2 : kw_only (log d2)).
  { subst d2. destruct (i_event i); cbn; repeat (apply kw_only_snoc; [|discriminate]); exact H. }
  clearbody d2. destruct (i_callback i).
  - destruct (beh n (i_tx i)) as [ops r].
    set (d3 := fold_left _ _ _).
    assert (H3 : kw_only (log d3)) by (subst d3; apply kw_fold; cbn; apply kw_only_snoc; [exact H2|discriminate]).
    clearbody d3. destruct r; [cbn; apply kw_only_snoc; [exact H3|discriminate]|].
    apply kw_inner. cbn. apply kw_only_snoc; [exact H3|discriminate].
  - apply kw_inner. cbn. apply kw_only_snoc; [exact H2|discriminate].
Qed.
Lemma kw_run acts : forall d : driver, kw_only (log d) -> kw_only (log (run acts d)).
Proof.
  induction acts as [|a acts IH]; intros d H; [exact H|].
  change (run (a :: acts) d) with (run acts (step d a)). apply IH.
  destruct a as [i| | | |r|t s|n]; cbn [DriverModel.step].
  - cbn; apply kw_only_snoc; [exact H|discriminate].
  - cbn; apply kw_only_snoc; [exact H|discriminate].
  - destruct (thr d); try exact H; cbn; (apply kw_only_snoc; [exact H|discriminate]).
  - destruct (thr d); try exact H. apply kw_inner, H.
  - destruct (thr d); try exact H. destruct r; [cbn; apply kw_only_snoc; [exact H|discriminate]|apply kw_finish, H].
  - cbn; apply kw_only_snoc; [exact H|discriminate].
  - destruct (nth_error (direct d) n); [|exact H]. cbn; apply kw_only_snoc; [exact H|discriminate].
Qed.

Lemma run_no_reject acts :
  let d := run acts drv_init in
  Forall (fun i => i_sync_kw i = false) (appended (log d)) -> forall i, ~ In (VReject i) (log d).
Proof.
  cbn zeta. intros F i H.
  assert (K : i_sync_kw i = true) by (apply (kw_run acts drv_init); [intros j []|exact H]).
  pose proof (follows_reject _ _ (run_fifo acts) i H) as TK.
  pose proof (follows_fifo_subseq _ _ _ (run_fifo acts) eq_refl) as SS.
  rewrite Forall_forall in F. specialize (F i (subseq_In _ _ i SS (in_or_app _ _ _ (or_introl TK)))).
  congruence.
Qed.

(** ** direct sends *)
(** the state without direct sends *)
Definition undirect (d : driver) : driver :=
  Driver_ (sendq d) (pending d) (thr d) [] (filter (fun e => negb (is_direct e)) (log d)).
Lemma undirect_emit es (d : driver) : forallb (fun e => negb (is_direct e)) es = true -> undirect (emit es d) = emit es (undirect d).
Proof.
  intro F. unfold undirect, emit. cbn [sendq pending thr direct log]. f_equal. rewrite filter_app. f_equal.
  induction es as [|e es IH]; [reflexivity|]. cbn [forallb] in F. apply andb_prop in F as [F1 F2]. cbn [filter]. rewrite F1, IH; auto.
Qed.
Lemma undirect_thr t (d : driver) : undirect (set_thr t d) = set_thr t (undirect d).
Proof. reflexivity. Qed.
Lemma undirect_die e (d : driver) : undirect (die e d) = die e (undirect d).
Proof. unfold die. rewrite undirect_emit by reflexivity. reflexivity. Qed.
Lemma undirect_append i (d : driver) : undirect (append i d) = append i (undirect d).
Proof. unfold undirect, append. cbn [sendq pending thr direct log]. f_equal. rewrite filter_app. reflexivity. Qed.
Lemma undirect_clear (d : driver) : undirect (clear d) = clear (undirect d).
Proof. unfold undirect, clear. cbn [sendq pending thr direct log]. f_equal. rewrite filter_app. reflexivity. Qed.
Lemma undirect_ops ops : forall d : driver, undirect (fold_left run_cbop ops d) = fold_left run_cbop ops (undirect d).
Proof.
  induction ops as [|o ops IH]; intro d; [reflexivity|]. cbn [fold_left]. rewrite IH. f_equal.
  destruct o; [apply undirect_append|apply undirect_clear].
Qed.
Lemma undirect_inner s (d : driver) : undirect (inner_loop s d) = inner_loop s (undirect d).
Proof.
  unfold inner_loop. cbn [undirect sendq]. destruct (sendq d) as [|i q]; [reflexivity|]. destruct (i_sync_kw i).
  - rewrite undirect_die, undirect_emit by reflexivity. reflexivity.
  - rewrite undirect_emit by reflexivity. reflexivity.
Qed.
Lemma undirect_finish i d : undirect (finish i d) = finish i (undirect d).
Proof.
  unfold DriverModel.finish.
  assert (E : undirect (match i_event i with Some k => emit [VEvent k] (emit [VSent i] d) | None => emit [VSent i] d end)
            = match i_event i with Some k => emit [VEvent k] (emit [VSent i] (undirect d)) | None => emit [VSent i] (undirect d) end).
  { destruct (i_event i); rewrite !undirect_emit by reflexivity; reflexivity. }
  cbn zeta. destruct (i_callback i) as [c|].
  - destruct (beh c (i_tx i)) as [ops [e|]].
    + rewrite undirect_die, undirect_ops, undirect_emit, E by reflexivity. reflexivity.
    + rewrite undirect_inner, undirect_emit, undirect_ops, undirect_emit, E by reflexivity. reflexivity.
  - rewrite undirect_inner, undirect_emit, E by reflexivity. reflexivity.
Qed.
Lemma undirect_step d a : undirect (step d a) = if is_send a then undirect d else step (undirect d) a.
Proof.
  destruct a as [i| | | |r|t s|n]; cbn [DriverModel.step is_send].
  - apply undirect_append.
  - apply undirect_clear.
  - cbn [undirect thr]. destruct (thr d); try apply undirect_die. reflexivity.
  - cbn [undirect thr]. destruct (thr d); try reflexivity. apply undirect_inner.
  - cbn [undirect thr]. destruct (thr d); try reflexivity. destruct r; [apply undirect_die|apply undirect_finish].
  - unfold undirect. cbn [sendq pending thr direct log]. rewrite filter_app. cbn [filter is_direct negb]. rewrite app_nil_r. reflexivity.
  - destruct (nth_error (direct d) n); [|reflexivity].
    unfold undirect. cbn [sendq pending thr direct log]. rewrite filter_app. cbn [filter is_direct negb]. rewrite app_nil_r. reflexivity.
Qed.
Lemma undirect_run acts : forall d, undirect (run acts d) = run (filter (fun a => negb (is_send a)) acts) (undirect d).
Proof.
  induction acts as [|a acts IH]; intro d; [reflexivity|]. change (run (a :: acts) d) with (run acts (step d a)).
  rewrite IH, undirect_step. cbn [filter]. destruct (is_send a); reflexivity.
Qed.
Lemma queue_undisturbed acts :
  let d := run acts drv_init in let d' := run (filter (fun a => negb (is_send a)) acts) drv_init in
  filter (fun e => negb (is_direct e)) (log d) = log d' /\ sendq d = sendq d' /\ thr d = thr d'.
Proof.
  cbn zeta. pose proof (undirect_run acts drv_init) as E. change (undirect drv_init) with (drv_init (T := T)) in E.
  rewrite <- E. auto.
Qed.

(** sends and returns of the steps of the send thread *)
Definition kept (d d' : driver) : Prop :=
  sends (log d') = sends (log d) /\ returned (log d') = returned (log d) /\ direct d' = direct d.
Lemma kept_refl d : kept d d. Proof. repeat split. Qed.
Lemma kept_trans a b c : kept a b -> kept b c -> kept a c.
Proof. intros (A & B & C) (D & E & F). repeat split; congruence. Qed.
Lemma kept_emit es (d : driver) : forallb (fun e => negb (is_direct e)) es = true -> kept d (emit es d).
Proof.
  intro F. unfold kept, emit, sends, returned. cbn [log direct]. rewrite !flat_map_app.
  assert (G : forall g : ev -> list T, (forall e, is_direct e = false -> g e = []) -> flat_map g es = []).
  { intros g H. induction es as [|e es IH]; [reflexivity|]. cbn [forallb] in F. apply andb_prop in F as [F1 F2].
    cbn [flat_map]. rewrite (H e) by (destruct (is_direct e); [discriminate F1|reflexivity]). apply IH, F2. }
  rewrite !G by (intros []; cbn; intros; try reflexivity; discriminate). rewrite !app_nil_r. auto.
Qed.
Lemma kept_append i (d : driver) : kept d (append i d).
Proof. apply (kept_emit [VAppend i] d). reflexivity. Qed.
Lemma kept_clear (d : driver) : kept d (clear d).
Proof. apply (kept_emit [VClear] d). reflexivity. Qed.
Lemma kept_die e (d : driver) : kept d (die e d).
Proof. apply (kept_emit [VDead e] (set_thr (TDead e) d)). reflexivity. Qed.
Lemma kept_ops ops : forall d : driver, kept d (fold_left run_cbop ops d).
Proof.
  induction ops as [|o ops IH]; intro d; [apply kept_refl|]. cbn [fold_left]. eapply kept_trans; [|apply IH].
  destruct o; [apply kept_append|apply kept_clear].
Qed.
Lemma kept_inner s (d : driver) : kept d (inner_loop s d).
Proof.
  unfold inner_loop. destruct (sendq d) as [|i q]; [repeat split|]. destruct (i_sync_kw i).
  - eapply kept_trans; [|apply kept_die]. apply (kept_emit [VReject i] (Driver_ q (pending d) (thr d) (direct d) (log d))). reflexivity.
  - apply (kept_emit [VStart i (negb s)] (set_thr (TSending i (negb s)) (Driver_ q (pending d) (thr d) (direct d) (log d)))). reflexivity.
Qed.
Lemma kept_finish i d : kept d (finish i d).
Proof.
  unfold DriverModel.finish. cbn zeta.
  assert (E : kept d (match i_event i with Some k => emit [VEvent k] (emit [VSent i] d) | None => emit [VSent i] d end)).
  { destruct (i_event i); [eapply kept_trans; [apply (kept_emit [VSent i]); reflexivity|]|]; apply kept_emit; reflexivity. }
  eapply kept_trans; [exact E|]. destruct (i_callback i) as [c|].
  - destruct (beh c (i_tx i)) as [ops [e|]].
    + eapply kept_trans; [|apply kept_die]. eapply kept_trans; [|apply kept_ops]. apply kept_emit. reflexivity.
    + eapply kept_trans; [|apply kept_inner]. eapply kept_trans; [|apply kept_emit; reflexivity].
      eapply kept_trans; [|apply kept_ops]. apply kept_emit. reflexivity.
  - eapply kept_trans; [|apply kept_inner]. apply kept_emit. reflexivity.
Qed.
Lemma nth_remove {A} (n : nat) (l : list A) x : nth_error l n = Some x -> Permutation l (x :: remove_nth n l).
Proof.
  intro E. destruct (nth_error_split l n E) as (a & b & -> & L). subst n. unfold remove_nth.
  rewrite firstn_app, firstn_all, Nat.sub_diag, firstn_O, app_nil_r.
  rewrite skipn_app. replace (S (length a) - length a) with 1 by lia. rewrite skipn_all2 by lia. cbn [app skipn].
  symmetry. apply Permutation_middle.
Qed.
Lemma sends_perm acts : forall d : driver, Permutation (sends (log d)) (returned (log d) ++ direct d) ->
  Permutation (sends (log (run acts d))) (returned (log (run acts d)) ++ direct (run acts d)).
Proof.
  induction acts as [|a acts IH]; intros d H; [exact H|]. change (run (a :: acts) d) with (run acts (step d a)). apply IH. clear IH.
  assert (K : forall d', kept d d' -> Permutation (sends (log d')) (returned (log d') ++ direct d')) by (intros d' (-> & -> & ->); exact H).
  destruct a as [i| | | |r|t s|n]; cbn [DriverModel.step].
  - apply K, kept_append.
  - apply K, kept_clear.
  - destruct (thr d); try (apply K, kept_die). exact H.
  - destruct (thr d); try exact H. apply K, kept_inner.
  - destruct (thr d); try exact H. destruct r; apply K; [apply kept_die|apply kept_finish].
  - cbn [log direct]. unfold sends, returned in *. rewrite !flat_map_app. cbn [flat_map app]. rewrite app_nil_r, app_assoc.
    apply Permutation_app; [exact H|reflexivity].
  - destruct (nth_error (direct d) n) as [t|] eqn:E; [|exact H]. cbn [log direct]. unfold sends, returned in *. rewrite !flat_map_app.
    cbn [flat_map app]. rewrite app_nil_r, <- app_assoc. cbn [app]. rewrite H. apply Permutation_app; [reflexivity|]. apply nth_remove, E.
Qed.
End Proof.
