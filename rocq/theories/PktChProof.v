(** PktChProof.v -- the channel attribute follows the packets delivered. *)
From Verif Require Import Base CompatModel MonitorModel PktModel PktSpec PktMonProof PktChModel PktChSpec.
Local Open Scope list_scope.

(** the same monitor with report_channel *)
Definition reporting (c : pcfg) : pcfg :=
  PCfg (c_width c) (c_dbs c) (c_high c) (c_maxch c) (c_ready c) (c_ew c) (c_cw c) (c_error c) (c_timeout c) true.

Section Ch.
Context (c : pcfg).
Let c1 := reporting c.

Definition given (r : report) : report :=
  match r with RChan d ch => if c_report c then RChan d ch else RData d | RData d => RData d end.
Definition chan_of (r : report) : option Z := match r with RChan _ ch => ch | RData _ => None end.

Lemma step_reporting a m s : chan_step c a m s =
  match pm_step c1 m s with
  | Err e => Err e
  | Ok (None, m') => Ok (None, a, m')
  | Ok (Some r, m') => Ok (Some (given r, Some (chan_of r)), Some (chan_of r), m')
  end.
Proof.
  unfold chan_step, pm_step. change (pm_valid c1 s) with (pm_valid c s). change (c_timeout c1) with (c_timeout c).
  change (c_high c1) with (c_high c). change (c_report c1) with true.
  change (pm_last c1) with (pm_last c). change (pm_channel c1) with (pm_channel c).
  destruct (in_reset _ _) as [rst|]; [|reflexivity]. cbn [rbind]. destruct rst; [reflexivity|].
  destruct (pm_valid c s).
  - destruct (if is1 (k_sop (s_bus s)) then _ else _) as [[pkt inp]|]; [|reflexivity]. cbn [rbind].
    destruct (negb inp); [reflexivity|].
    destruct (if negb (is1 (k_eop (s_bus s))) then _ else _) as [[b e]|]; [|reflexivity]. cbn [rbind].
    destruct (pm_channel c (m_ch m) (s_bus s)) as [ch|]; [|reflexivity]. cbn [rbind].
    destruct (is1 (k_eop (s_bus s))); reflexivity.
  - destruct (m_in m); [|reflexivity]. destruct (negb _ && _); reflexivity.
Qed.
Lemma step_same m s : pm_step c m s =
  match pm_step c1 m s with
  | Err e => Err e
  | Ok (r, m') => Ok (option_map given r, m')
  end.
Proof.
  unfold pm_step. change (pm_valid c1 s) with (pm_valid c s). change (c_timeout c1) with (c_timeout c).
  change (c_high c1) with (c_high c). change (c_report c1) with true.
  change (pm_last c1) with (pm_last c). change (pm_channel c1) with (pm_channel c).
  destruct (in_reset _ _) as [rst|]; [|reflexivity]. cbn [rbind]. destruct rst; [reflexivity|].
  destruct (pm_valid c s).
  - destruct (if is1 (k_sop (s_bus s)) then _ else _) as [[pkt inp]|]; [|reflexivity]. cbn [rbind].
    destruct (negb inp); [reflexivity|].
    destruct (if negb (is1 (k_eop (s_bus s))) then _ else _) as [[b e]|]; [|reflexivity]. cbn [rbind].
    destruct (pm_channel c (m_ch m) (s_bus s)) as [ch|]; [|reflexivity]. cbn [rbind].
    destruct (is1 (k_eop (s_bus s))); reflexivity.
  - destruct (m_in m); [|reflexivity]. destruct (negb _ && _); reflexivity.
Qed.

Definition attr_after (a : attribute) (reps : list report) : attribute :=
  match rev reps with [] => a | r :: _ => Some (chan_of r) end.
Lemma run_reporting l : forall a m, chan_run c a m l =
  (map (fun r => (given r, Some (chan_of r))) (fst (pm_run c1 m l)), attr_after a (fst (pm_run c1 m l)), snd (pm_run c1 m l)).
Proof.
  induction l as [|s l IH]; intros a m; [reflexivity|]. cbn [chan_run pm_run]. rewrite step_reporting.
  destruct (pm_step c1 m s) as [[[r|] m']|]; [| |reflexivity]; rewrite IH; destruct (pm_run c1 m' l) as [reps f]; cbn [fst snd map].
  - f_equal. f_equal. unfold attr_after. cbn [rev]. destruct (rev reps); reflexivity.
  - reflexivity.
Qed.
Lemma run_given l : forall m, pm_run c m l = (map given (fst (pm_run c1 m l)), snd (pm_run c1 m l)).
Proof.
  induction l as [|s l IH]; intro m; [reflexivity|]. cbn [pm_run]. rewrite step_same.
  destruct (pm_step c1 m s) as [[r m']|]; [|reflexivity]. rewrite IH. destruct (pm_run c1 m' l) as [reps f]. destruct r; reflexivity.
Qed.

Lemma chan_same a l m : let '(ds, _, f) := chan_run c a m l in pm_run c m l = (map fst ds, f).
Proof. rewrite run_reporting, run_given, map_map. reflexivity. Qed.

Lemma chan_last l reps m : wide_words c l -> pm_run c pm_init l = (reps, Ok m) ->
  chan_monitor c l = (map (delivery c) (completed (seen c l)), last_channel c (seen c l), Ok m).
Proof.
  intros W H. unfold chan_monitor. rewrite run_reporting. rewrite run_given in H.
  destruct (pm_run c1 pm_init l) as [reps1 f] eqn:E. cbn [fst snd] in *. injection H as _ ->.
  destruct (run_ok c1 l reps1 m W E) as [_ ->].
  change (seen c1 l) with (seen c l). f_equal. f_equal.
  - rewrite map_map. apply map_ext. intro p. unfold delivery, given, chan_of, reported, c1. cbn [c_report reporting].
    destruct (c_report c); reflexivity.
  - unfold attr_after, last_channel. rewrite <- map_rev. destruct (rev (completed (seen c l))); reflexivity.
Qed.

Lemma run_cut l : forall m reps e, pm_run c m l = (reps, Err e) ->
  exists a s b m', l = a ++ s :: b /\ pm_run c m a = (reps, Ok m') /\ pm_step c m' s = Err e.
Proof.
  induction l as [|s l IH]; intros m reps e H; [discriminate|]. cbn [pm_run] in H.
  destruct (pm_step c m s) as [[r m1]|e1] eqn:St.
  - destruct (pm_run c m1 l) as [reps1 f] eqn:E. injection H as H ->.
    destruct (IH _ _ _ E) as (a & t & b & m' & -> & H1 & H2).
    exists (s :: a), t, b, m'. repeat split; [|exact H2]. cbn [pm_run]. rewrite St, H1, H. reflexivity.
  - injection H as <- <-. exists [], s, l, m. repeat split. exact St.
Qed.

Lemma chan_app a l1 : forall m ds a1 m1 l2, chan_run c a m l1 = (ds, a1, Ok m1) ->
  chan_run c a m (l1 ++ l2) = let '(d, a2, f) := chan_run c a1 m1 l2 in (ds ++ d, a2, f).
Proof.
  revert a. induction l1 as [|s l IH]; intros a m ds a1 m1 l2 H.
  - cbn [chan_run] in H. injection H as <- <- <-. cbn [app]. destruct (chan_run c a m l2) as [[? ?] ?]. reflexivity.
  - cbn [chan_run app] in *. destruct (chan_step c a m s) as [[[r a'] m']|]; [|discriminate].
    destruct (chan_run c a' m' l) as [[d0 a0] f0] eqn:E. injection H as H -> ->.
    rewrite (IH _ _ _ _ _ l2 E). destruct (chan_run c a1 m1 l2) as [[? ?] ?]. subst ds. destruct r; reflexivity.
Qed.

Lemma chan_raised l ds a e : wide_words c l -> chan_monitor c l = (ds, a, Err e) ->
  exists l1 s l2, l = l1 ++ s :: l2
    /\ ds = map (delivery c) (completed (seen c l1)) /\ a = last_channel c (seen c l1)
    /\ snd (chan_monitor c (l1 ++ [s])) = Err e.
Proof.
  intros W H. pose proof (chan_same None l pm_init) as S. unfold chan_monitor in H. rewrite H in S.
  destruct (run_cut _ _ _ _ S) as (l1 & s & l2 & m' & -> & H1 & St). exists l1, s, l2. split; [reflexivity|].
  assert (W1 : wide_words c l1).
  { unfold wide_words in *. rewrite seen_app in W. apply Forall_app in W. tauto. }
  pose proof (chan_last l1 _ m' W1 H1) as L. unfold chan_monitor in *.
  assert (Sc : forall a, chan_step c a m' s = Err e).
  { intro a0. rewrite step_reporting. rewrite step_same in St. destruct (pm_step c1 m' s) as [[r q]|e0]; [discriminate|].
    injection St as ->. reflexivity. }
  rewrite (chan_app _ _ _ _ _ _ (s :: l2) L) in H. cbn [chan_run] in H. rewrite Sc in H. injection H as <- <-.
  rewrite app_nil_r. repeat split.
  rewrite (chan_app _ _ _ _ _ _ [s] L). cbn [chan_run]. rewrite Sc. reflexivity.
Qed.
End Ch.
