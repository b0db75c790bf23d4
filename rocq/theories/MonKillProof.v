(** MonKillProof.v *)
From Verif Require Import MonitorModel MonitorSpec MonitorProof MonKillModel MonKillSpec.
Local Open Scope list_scope.

Section P.
Context (T : Type) (beh : list (nat * T) -> nat -> T -> list nat * option exn) (fuel : nat).
Notation step := (whole_step T beh fuel).
Notation run := (whole_run T beh fuel).

Lemma run_app a b s : run s (a ++ b) = match run s a with None => None | Some s' => run s' b end.
Proof. revert s. induction a as [|o a IH]; intro s; [reflexivity|]. cbn [app whole_run]. destruct (step s o) as [[s' r]|]; [apply IH|reflexivity]. Qed.

(** once ended, for ever ended *)
Lemma ended_step s o e : thr s = Ended e ->
  exists s' r, step s o = Some (s', r) /\ thr s' = Ended e /\ reception_record (mon s') = reception_record (mon s) /\ wdata (wts s') = wdata (wts s) /\ whist (wts s') = whist (wts s).
Proof.
  intro H. destruct o; cbn [whole_step]; rewrite ?H; try (eexists _, _; split; [reflexivity|]; repeat split; cbn [thr mon]; rewrite ?H; reflexivity).
  unfold add_callable. destruct (named c); eexists _, _; (split; [reflexivity|]); repeat split; assumption.
Qed.
Lemma ended_run ops : forall s e, thr s = Ended e ->
  exists s', run s ops = Some s' /\ thr s' = Ended e /\ reception_record (mon s') = reception_record (mon s) /\ wdata (wts s') = wdata (wts s) /\ whist (wts s') = whist (wts s).
Proof.
  induction ops as [|o r IH]; intros s e H; [exists s; auto|]. destruct (ended_step s o e H) as (s1 & x & E & H1 & H2 & H3 & H4).
  destruct (IH s1 e H1) as (s2 & E2 & K1 & K2 & K3 & K4). exists s2. cbn [whole_run]. rewrite E. split; [exact E2|]. repeat split; congruence.
Qed.
(** the waits never depend on anything but the notified receptions *)
Lemma upd_other {A} (l : list A) f : forall i j, i <> j -> nth_error (upd l j f) i = nth_error l i.
Proof. induction l as [|a l IH]; intros [|i] [|j] H; try reflexivity; [congruence|]. cbn [upd nth_error]. apply IH. congruence. Qed.

(** a blocked task without a timer, while nothing is received *)
Lemma quiet_step s o i x : ~ receives o -> nth_error (tasks (wts s)) i = Some x -> tstatus x = WBlocked -> ttimeout x = false ->
  exists s' r, step s o = Some (s', r) /\ nth_error (tasks (wts s')) i = Some x.
Proof.
  intros Hn Hx Hs Ht. destruct o; cbn [whole_step].
  - unfold add_callable. destruct (named c); eexists _, _; (split; [reflexivity|exact Hx]).
  - contradiction (Hn I).
  - eexists _, _; split; [reflexivity|exact Hx].
  - eexists _, _; split; [reflexivity|]. cbn [wts wstep tasks]. rewrite nth_error_app1; [exact Hx|]. apply nth_error_Some. congruence.
  - eexists _, _; split; [reflexivity|]. cbn [wts wstep tasks]. destruct (Nat.eq_dec i i0) as [->|N]; [|rewrite upd_other; assumption].
    rewrite (nth_error_upd _ _ _ _ Hx). unfold fire. rewrite Hs, Ht. reflexivity.
  - eexists _, _; split; [reflexivity|]. cbn [wts wstep tasks]. destruct (Nat.eq_dec i i0) as [->|N]; [|rewrite upd_other; assumption].
    rewrite (nth_error_upd _ _ _ _ Hx). unfold resume. rewrite Hs. reflexivity.
Qed.
Lemma quiet_run ops : forall s i x, Forall (fun o => ~ receives o) ops -> nth_error (tasks (wts s)) i = Some x -> tstatus x = WBlocked -> ttimeout x = false ->
  exists s', run s ops = Some s' /\ nth_error (tasks (wts s')) i = Some x.
Proof.
  induction ops as [|o r IH]; intros s i x HF Hx Hs Ht; [exists s; auto|]. inversion HF; subst. destruct (quiet_step s o i x) as (s1 & y & E & Hx1); try assumption.
  cbn [whole_run]. rewrite E. apply IH; assumption.
Qed.

(** the waits are those of a schedule, and its receptions are those notified *)
Lemma wrun_app l1 l2 : wrun T (l1 ++ l2) = fold_left (wstep T) l2 (wrun T l1).
Proof. unfold wrun. apply fold_left_app. Qed.
Definition linked (s : whole T) : Prop := notified (mon s) = whist (wts s) /\ exists l, wts s = wrun T l.
Lemma linked_act s s' a : linked s -> wts s' = wstep T (wts s) a -> notified (mon s') = whist (wts s') -> linked s'.
Proof. intros [_ [l E]] H N. split; [exact N|]. exists (l ++ [a]). rewrite wrun_app, H, E. reflexivity. Qed.
Lemma linked_step s o s' r : linked s -> step s o = Some (s', r) -> linked s'.
Proof.
  intros HL. pose proof HL as [N [l E]]. destruct o; cbn [whole_step].
  - unfold add_callable. destruct (named c); intro H; inversion H; subst; split; eauto.
  - destruct (thr s) as [|e]; [|intro H; inversion H; subst; exact HL].
    destruct (recv T beh fuel (mon s) t) as [[m [[]|e]]|] eqn:R; intro H; inversion H; subst; clear H.
    + apply recv_ok in R as (_ & _ & _ & _ & _ & _ & R). apply (linked_act s _ (ARecv t) HL); [reflexivity|]. cbn [mon wts wstep whist]. congruence.
    + apply recv_err in R as (_ & _ & _ & _ & _ & _ & R). split; cbn [mon wts]; [congruence|eauto].
  - intro H; inversion H; subst; split; eauto.
  - intro H; inversion H; subst. eapply (linked_act s _ (AWait _) HL); [reflexivity|exact N].
  - intro H; inversion H; subst. eapply (linked_act s _ (ATimer _) HL); [reflexivity|exact N].
  - intro H; inversion H; subst. eapply (linked_act s _ (AResume _) HL); [reflexivity|exact N].
Qed.
Lemma linked_run ops : forall s s', linked s -> run s ops = Some s' -> linked s'.
Proof.
  induction ops as [|o r IH]; intros s s' HL; cbn [whole_run]; [intro H; inversion H; subst; exact HL|].
  destruct (step s o) as [[s1 x]|] eqn:E; [|discriminate]. apply IH. eapply linked_step; eassumption.
Qed.
Lemma linked_init cb ev s : construct T cb ev = Ok s -> linked s.
Proof.
  unfold construct. destruct cb as [c|]; [unfold add_callable; destruct (named c)|]; cbn [rbind]; intro H; inversion H; subst; (split; [reflexivity|exists []; reflexivity]).
Qed.
(** when a task began to wait *)
Definition began (w w' : waits T) : Prop := length (whist w) <= length (whist w') /\ length (tasks w) <= length (tasks w') /\
  forall i x', nth_error (tasks w') i = Some x' -> (exists x, nth_error (tasks w) i = Some x /\ tstart x = tstart x') \/ (length (tasks w) <= i /\ length (whist w) <= tstart x').
Lemma began_refl w : began w w.
Proof. split; [lia|]. split; [lia|]. intros i x H. left. eauto. Qed.
Lemma began_trans a b c : began a b -> began b c -> began a c.
Proof.
  intros (A1 & A2 & A3) (B1 & B2 & B3). split; [lia|]. split; [lia|]. intros i x H. destruct (B3 i x H) as [(y & Hy & E)|[H1 H2]]; [|right; lia].
  destruct (A3 i y Hy) as [(z & Hz & E2)|[H1 H2]]; [left; exists z; split; [exact Hz|congruence]|right; lia].
Qed.
Lemma upd_length {A} (l : list A) f : forall i, length (upd l i f) = length l.
Proof. induction l as [|a l IH]; intros [|i]; cbn [upd length]; auto. Qed.
Lemma began_upd w f i d h : (forall x : wtask T, tstart (f x) = tstart x) -> h = whist w -> began w (mkWaits T d h (upd (tasks w) i f)).
Proof.
  intros Hf ->. split; [cbn; lia|]. split; [cbn [tasks]; rewrite upd_length; lia|]. cbn [tasks]. intros j x' Hx. left.
  destruct (Nat.eq_dec j i) as [->|N]; [|rewrite upd_other in Hx by exact N; eauto].
  destruct (nth_error (tasks w) i) as [x|] eqn:E.
  - rewrite (nth_error_upd _ _ _ _ E) in Hx. injection Hx as <-. exists x. split; [reflexivity|symmetry; apply Hf].
  - exfalso. apply nth_error_None in E. assert (L : i < length (upd (tasks w) i f)) by (apply nth_error_Some; congruence). rewrite upd_length in L. lia.
Qed.
Lemma began_act w a : began w (wstep T w a).
Proof.
  destruct a as [b|t|i|i]; cbn [wstep].
  - split; [cbn; lia|]. split; [cbn [tasks]; rewrite app_length; lia|]. cbn [tasks]. intros i x H. destruct (Nat.lt_ge_cases i (length (tasks w))) as [L|L].
    + rewrite nth_error_app1 in H by exact L. left. eauto.
    + rewrite nth_error_app2 in H by exact L. right. split; [exact L|]. destruct (i - length (tasks w)) as [|k]; cbn in H; [injection H as <-; cbn; lia|destruct k; discriminate].
  - split; [cbn [whist]; rewrite app_length; lia|]. split; [cbn [tasks]; rewrite map_length; lia|]. cbn [tasks]. intros i x. rewrite nth_error_map. destruct (nth_error (tasks w) i) as [y|]; [|discriminate].
    cbn [option_map]. intro H. injection H as <-. left. exists y. split; [reflexivity|]. unfold wake. destruct (tstatus y); reflexivity.
  - apply began_upd; [|reflexivity]. intro x. unfold fire. destruct (tstatus x), (ttimeout x); reflexivity.
  - apply began_upd; [|reflexivity]. intro x. unfold resume. destruct (tstatus x); reflexivity.
Qed.
Lemma began_step s o s' r : step s o = Some (s', r) -> began (wts s) (wts s').
Proof.
  destruct o; cbn [whole_step].
  - unfold add_callable. destruct (named c); intro H; inversion H; subst; apply began_refl.
  - destruct (thr s) as [|e]; [|intro H; inversion H; subst; apply began_refl].
    destruct (recv T beh fuel (mon s) t) as [[m [[]|e]]|] eqn:R; intro H; inversion H; subst; clear H; [apply (began_act _ (ARecv t))|apply began_refl].
  - intro H; inversion H; subst; apply began_refl.
  - intro H; inversion H; subst. apply (began_act _ (AWait _)).
  - intro H; inversion H; subst. apply (began_act _ (ATimer _)).
  - intro H; inversion H; subst. apply (began_act _ (AResume _)).
Qed.
Lemma began_run ops : forall s s', run s ops = Some s' -> began (wts s) (wts s').
Proof.
  induction ops as [|o r IH]; intros s s'; cbn [whole_run]; [intro H; inversion H; subst; apply began_refl|].
  destruct (step s o) as [[s1 x]|] eqn:E; [|discriminate]. intro H. eapply began_trans; [eapply began_step, E|apply IH, H].
Qed.

Lemma killed_thm cb ev s0 pre s post : construct T cb ev = Ok s0 -> run s0 pre = Some s ->
  exists s', run s (WKill :: post) = Some s' /\ reception_record (mon s') = reception_record (mon s) /\
    forall i t, answer_of s' i = Some (Returned (Some t)) -> i < calls_made s /\ In t (notified (mon s)).
Proof.
  intros HC HR. pose proof (linked_run pre s0 s (linked_init _ _ _ HC) HR) as HL.
  set (s1 := mkWhole T (mon s) (wts s) (kill (thr s))).
  assert (E1 : exists e, thr s1 = Ended e) by (unfold s1; cbn [thr]; destruct (thr s); cbn [kill]; eauto). destruct E1 as [e E1].
  destruct (ended_run post s1 e E1) as (s' & E & _ & H2 & H3 & H4). exists s'. split; [exact E|]. split; [exact H2|].
  intros i t Ha. pose proof (linked_run post s1 s' HL E) as [N [l El]]. pose proof (began_run post s1 s' E) as (B1 & B2 & B3).
  unfold answer_of in Ha. destruct (nth_error (tasks (wts s')) i) as [x|] eqn:Ex; [|discriminate].
  destruct (tstatus x) as [| | |r at_] eqn:Es; try discriminate. injection Ha as ->.
  assert (Hin : In x (tasks (wrun T l))) by (rewrite <- El; eapply nth_error_In; exact Ex).
  destruct (wait_result l x _ _ Hin Es) as [(t' & Et & Hlt & Hnth)|[Hc _]]; [|discriminate]. injection Et as <-. rewrite <- El in *. rewrite H4 in *. unfold s1 in *. cbn [wts] in *.
  split.
  - destruct (B3 i x Ex) as [(y & Hy & _)|[Hl Hs]]; [unfold calls_made; apply nth_error_Some; congruence|lia].
  - destruct HL as [-> _]. eapply nth_error_In, Hnth.
Qed.

(** callbacks *)
Fixpoint mon_ops (ops : list (wop T)) : list (mon_op T) :=
  match ops with
  | [] => []
  | WAdd c :: r => if named c then OAdd (ident c) :: mon_ops r else mon_ops r
  | WRecv t :: r => ORecv t :: mon_ops r
  | _ :: r => mon_ops r
  end.
Definition dead_of (t : thread) : option exn := match t with Running => None | Ended (Some e) => Some e | Ended None => None end.
Lemma as_mon ops : forall s s', Forall (fun o => ~ kills o) ops -> (thr s = Running \/ exists e, thr s = Ended (Some e)) -> run s ops = Some s' ->
  mon_run T beh fuel (mon_ops ops) (mon s) (dead_of (thr s)) = Some (mon s', dead_of (thr s')) /\ (thr s' = Running \/ exists e, thr s' = Ended (Some e)).
Proof.
  induction ops as [|o r IH]; intros s s' HF HT; cbn [whole_run]; [intro H; inversion H; subst; split; [reflexivity|exact HT]|].
  inversion HF as [|? ? Hk HF']; subst. destruct o; cbn [whole_step mon_ops].
  - unfold add_callable. destruct (named c); [|apply IH; assumption]. intro H. apply (IH _ _ HF') in H; [exact H|exact HT].
  - destruct HT as [HT|[e HT]]; rewrite HT.
    + cbn [mon_run dead_of]. destruct (recv T beh fuel (mon s) t) as [[m [[]|e]]|] eqn:R; [| |discriminate]; intro H.
      * apply (IH _ _ HF') in H; [exact H|left; reflexivity].
      * exact (IH (mkWhole T m (wts s) (Ended (Some e))) _ HF' (or_intror (ex_intro _ e eq_refl)) H).
    + intro H. destruct (IH _ _ HF' (or_intror (ex_intro _ e HT)) H) as [A B]. rewrite HT in A. cbn [mon_run dead_of] in *. split; [exact A|exact B].
  - contradiction (Hk I).
  - intro H. apply (IH _ _ HF') in H; [exact H|exact HT].
  - intro H. apply (IH _ _ HF') in H; [exact H|exact HT].
  - intro H. apply (IH _ _ HF') in H; [exact H|exact HT].
Qed.
Lemma seen_all ops : forall i n, i < n -> seen_by i n (mon_ops ops) = transactions ops.
Proof.
  induction ops as [|o r IH]; intros i n H; [reflexivity|]. destruct o; cbn [mon_ops transactions]; try (apply IH; exact H).
  - destruct (named c); cbn [seen_by]; apply IH; lia.
  - cbn [seen_by]. destruct (Nat.ltb_spec i n); [|lia]. f_equal. apply IH, H.
Qed.
Lemma adds_bound ops : adds (mon_ops ops) <= length ops.
Proof. unfold adds. induction ops as [|o r IH]; [reflexivity|]. destruct o; cbn [mon_ops length]; try lia; [destruct (named c)|]; cbn [filter length]; lia. Qed.
Lemma registered_thm c ops s s' : quiet beh -> named c = true -> thr s = Running -> Forall (fun o => ~ kills o) ops -> length (callbacks (mon s)) + S (length ops) < fuel ->
  run s (WAdd c :: ops) = Some s' ->
  calls_of (length (callbacks (mon s))) (calls (mon s')) = calls_of (length (callbacks (mon s))) (calls (mon s)) ++ transactions ops.
Proof.
  intros Q Hn HT HF Hfuel H. assert (HF' : Forall (fun o => ~ kills o) (WAdd c :: ops)) by (apply Forall_cons; [intros []|exact HF]).
  destruct (as_mon _ s s' HF' (or_introl HT) H) as [A _]. rewrite HT in A. cbn [dead_of] in A.
  destruct (mon_run_quiet beh Q fuel (mon_ops (WAdd c :: ops)) (mon s)) as (m' & E & C & _).
  { pose proof (adds_bound (WAdd c :: ops)). cbn [length] in H0. lia. }
  rewrite E in A. inversion A; subst. rewrite C. f_equal. cbn [mon_ops]. rewrite Hn. cbn [seen_by]. apply seen_all. lia.
Qed.

(** timeouts *)
Definition late (st : wstatus T) : Prop := match st with WTimedOut => True | WDone None _ => True | _ => False end.
Lemma late_step s o s' r i x : step s o = Some (s', r) -> nth_error (tasks (wts s)) i = Some x -> late (tstatus x) ->
  exists x', nth_error (tasks (wts s')) i = Some x' /\ late (tstatus x') /\ (is_resume i o -> exists n, tstatus x' = WDone None n) /\ ((exists n, tstatus x = WDone None n) -> x' = x).
Proof.
  intros HS Hx Hl. assert (G : forall s1, tasks (wts s1) = tasks (wts s) -> ~ is_resume i o -> exists x', nth_error (tasks (wts s1)) i = Some x' /\ late (tstatus x') /\ (is_resume i o -> exists n, tstatus x' = WDone None n) /\ ((exists n, tstatus x = WDone None n) -> x' = x)).
  { intros s1 -> N. exists x. split; [exact Hx|]. split; [exact Hl|]. split; [intro; contradiction|auto]. }
  destruct o; cbn [whole_step is_resume] in *.
  - unfold add_callable in HS. destruct (named c); inversion HS; subst; (apply G; [reflexivity|auto]).
  - destruct (thr s); [|inversion HS; subst; apply G; [reflexivity|auto]].
    destruct (recv T beh fuel (mon s) t) as [[m [[]|e]]|] eqn:R; inversion HS; subst; clear HS; [|apply G; [reflexivity|auto]].
    cbn [wts wstep tasks]. exists x. rewrite nth_error_map, Hx. cbn [option_map]. unfold wake. split; [destruct (tstatus x); try reflexivity; contradiction|]. split; [exact Hl|]. split; [intros []|auto].
  - inversion HS; subst; apply G; [reflexivity|auto].
  - inversion HS; subst. cbn [wts wstep tasks]. exists x. rewrite nth_error_app1 by (apply nth_error_Some; congruence). split; [exact Hx|]. split; [exact Hl|]. split; [intros []|auto].
  - inversion HS; subst. cbn [wts wstep tasks]. destruct (Nat.eq_dec i i0) as [->|N].
    + rewrite (nth_error_upd _ _ _ _ Hx). exists x. unfold fire. split; [destruct (tstatus x); try reflexivity; contradiction|]. split; [exact Hl|]. split; [intros []|auto].
    + rewrite upd_other by exact N. exists x. split; [exact Hx|]. split; [exact Hl|]. split; [intros []|auto].
  - inversion HS; subst. cbn [wts wstep tasks]. destruct (Nat.eq_dec i i0) as [->|N].
    + rewrite (nth_error_upd _ _ _ _ Hx). unfold resume. destruct (tstatus x) as [| | |[q|] n] eqn:Es; try contradiction; eexists; (split; [reflexivity|]); cbn [tstatus]; rewrite ?Es; (split; [exact I|]); (split; [eauto|]); intros [m Hm]; [discriminate|reflexivity].
    + rewrite upd_other by exact N. exists x. split; [exact Hx|]. split; [exact Hl|]. split; [intro; congruence|auto].
Qed.
Lemma late_run ops : forall s s' i x, run s ops = Some s' -> nth_error (tasks (wts s)) i = Some x -> late (tstatus x) ->
  exists x', nth_error (tasks (wts s')) i = Some x' /\ late (tstatus x') /\ (Exists (is_resume i) ops \/ (exists n, tstatus x = WDone None n) -> exists n, tstatus x' = WDone None n).
Proof.
  induction ops as [|o r IH]; intros s s' i x; cbn [whole_run].
  - intro H; inversion H; subst. intros Hx Hl. exists x. split; [exact Hx|]. split; [exact Hl|]. intros [H0|H0]; [inversion H0|exact H0].
  - destruct (step s o) as [[s1 y]|] eqn:E; [|discriminate]. intros H Hx Hl. destruct (late_step _ _ _ _ _ _ E Hx Hl) as (x1 & Hx1 & Hl1 & R1 & R2).
    destruct (IH _ _ _ _ H Hx1 Hl1) as (x2 & Hx2 & Hl2 & R3). exists x2. split; [exact Hx2|]. split; [exact Hl2|]. intros [H0|H0].
    + apply R3. inversion H0; subst; [right; apply R1; assumption|left; assumption].
    + apply R3. right. rewrite (R2 H0). exact H0.
Qed.
Definition idle_or_late (x : wtask T) : Prop := (tstatus x = WBlocked /\ ttimeout x = true) \/ late (tstatus x).
Lemma idle_run ops : forall s s' i x, Forall (fun o => ~ receives o) ops -> run s ops = Some s' -> nth_error (tasks (wts s)) i = Some x -> idle_or_late x ->
  exists x', nth_error (tasks (wts s')) i = Some x' /\ idle_or_late x'.
Proof.
  induction ops as [|o r IH]; intros s s' i x HF; cbn [whole_run]; [intro H; inversion H; subst; eauto|]. inversion HF as [|? ? Hr HF']; subst.
  destruct (step s o) as [[s1 y]|] eqn:E; [|discriminate]. intros H Hx [[Hb Ht]|Hl].
  - assert (G : exists x', nth_error (tasks (wts s1)) i = Some x' /\ idle_or_late x'); [|destruct G as (x' & G1 & G2); exact (IH _ _ _ _ HF' H G1 G2)]. clear IH H.
    assert (K : nth_error (tasks (wts s1)) i = Some x -> exists x', nth_error (tasks (wts s1)) i = Some x' /\ idle_or_late x') by (intro K; exists x; split; [exact K|left; auto]).
    destruct o; cbn [whole_step] in E.
    + unfold add_callable in E. destruct (named c); inversion E; subst; exact (K Hx).
    + contradiction (Hr I).
    + inversion E; subst; exact (K Hx).
    + inversion E; subst. apply K. cbn [wts wstep tasks]. rewrite nth_error_app1 by (apply nth_error_Some; congruence). exact Hx.
    + inversion E; subst. clear K. cbn [wts wstep tasks]. destruct (Nat.eq_dec i i0) as [->|N].
      * rewrite (nth_error_upd _ _ _ _ Hx). unfold fire. rewrite Hb, Ht. eexists; split; [reflexivity|]. right. exact I.
      * rewrite upd_other by exact N. exists x. split; [exact Hx|]. left; auto.
    + inversion E; subst. clear K. cbn [wts wstep tasks]. destruct (Nat.eq_dec i i0) as [->|N].
      * rewrite (nth_error_upd _ _ _ _ Hx). unfold resume. rewrite Hb. exists x; split; [reflexivity|]. left. auto.
      * rewrite upd_other by exact N. exists x. split; [exact Hx|]. left; auto.
  - destruct (late_step _ _ _ _ _ _ E Hx Hl) as (x1 & Hx1 & Hl1 & _). exact (IH _ _ _ _ HF' H Hx1 (or_intror Hl1)).
Qed.
Lemma timeout_thm n s a b s' : Forall (fun o => ~ receives o) a -> Exists (is_resume (calls_made s)) b ->
  run s (WWait (Some (S n)) :: a ++ WTimer (calls_made s) :: b) = Some s' -> answer_of s' (calls_made s) = Some (Returned None).
Proof.
  intros HA HB. set (i := calls_made s) in *. cbn [whole_run whole_step truthy]. rewrite run_app.
  set (s1 := mkWhole T (mon s) (wstep T (wts s) (AWait true)) (thr s)).
  assert (Hx : nth_error (tasks (wts s1)) i = Some (mkTask (length (whist (wts s))) true WBlocked)).
  { unfold s1, i, calls_made. cbn [wts wstep tasks]. rewrite nth_error_app2, Nat.sub_diag by lia. reflexivity. }
  destruct (run s1 a) as [s2|] eqn:E; [|discriminate]. destruct (idle_run a s1 s2 i _ HA E Hx (or_introl (conj eq_refl eq_refl))) as (x & Hx2 & Hi).
  cbn [whole_run]. intro H. destruct (step s2 (WTimer i)) as [[s3 y]|] eqn:E3; [|discriminate].
  assert (G : exists x', nth_error (tasks (wts s3)) i = Some x' /\ late (tstatus x')).
  { destruct Hi as [[Hb Ht]|Hl].
    - cbn [whole_step] in E3. inversion E3; subst. cbn [wts wstep tasks]. rewrite (nth_error_upd _ _ _ _ Hx2). unfold fire. rewrite Hb, Ht. eexists. split; [reflexivity|exact I].
    - destruct (late_step _ _ _ _ _ _ E3 Hx2 Hl) as (x' & A & B & _). eauto. }
  destruct G as (x' & Hx' & Hl'). destruct (late_run b s3 s' i x' H Hx' Hl') as (x2 & Hx2' & _ & R). destruct (R (or_introl HB)) as [m Em].
  unfold answer_of. rewrite Hx2', Em. reflexivity.
Qed.
Lemma no_timeout_thm s ops t : truthy t = false -> Forall (fun o => ~ receives o) ops ->
  exists s', run s (WWait t :: ops) = Some s' /\ answer_of s' (calls_made s) = Some Pending.
Proof.
  intros Ht HF. cbn [whole_run whole_step]. rewrite Ht. 
  destruct (quiet_run ops (mkWhole T (mon s) (wstep T (wts s) (AWait false)) (thr s)) (calls_made s) (mkTask (length (whist (wts s))) false WBlocked) HF) as (s' & E & Hx).
  - unfold calls_made. cbn [wts wstep tasks]. rewrite nth_error_app2, Nat.sub_diag by lia. reflexivity.
  - reflexivity.
  - reflexivity.
  - exists s'. split; [exact E|]. unfold answer_of. rewrite Hx. reflexivity.
Qed.
End P.
