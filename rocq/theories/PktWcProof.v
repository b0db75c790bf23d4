(** PktWcProof.v -- report_channel changes the form of what is delivered only. *)
From Verif Require Import Base CompatModel MonitorModel PktModel PktSpec PktMonProof PktChModel PktChProof PktWcModel PktWcSpec.
Local Open Scope list_scope.

Lemma reporting_is c : reporting c = with_report true c.
Proof. reflexivity. Qed.
Lemma rchan c m s r m' : pm_step (with_report true c) m s = Ok (Some r, m') -> exists d ch, r = RChan d ch.
Proof.
  unfold pm_step. destruct (in_reset _ _) as [[|]|]; [discriminate| |discriminate]. cbn [rbind].
  destruct (pm_valid _ s).
  - destruct (if is1 (k_sop (s_bus s)) then _ else _) as [[pkt inp]|]; [|discriminate]. cbn [rbind].
    destruct (negb inp); [discriminate|].
    destruct (if negb (is1 (k_eop (s_bus s))) then _ else _) as [[b e]|]; [|discriminate]. cbn [rbind].
    destruct (pm_channel _ _ _) as [ch|]; [|discriminate]. cbn [rbind].
    destruct (is1 (k_eop (s_bus s))); [|discriminate]. cbn [c_report with_report]. intro H. injection H as <- _. eauto.
  - destruct (m_in m); [|discriminate]. destruct (negb _ && _); discriminate.
Qed.
Lemma run_rchan c l : forall m, Forall (fun r => exists d ch, r = RChan d ch) (fst (pm_run (with_report true c) m l)).
Proof.
  induction l as [|s l IH]; intro m; [constructor|]. cbn [pm_run].
  destruct (pm_step (with_report true c) m s) as [[r m']|] eqn:St; [|constructor].
  specialize (IH m'). destruct (pm_run (with_report true c) m' l) as [reps f]. cbn [fst] in *.
  destruct r as [r|]; [|exact IH]. constructor; [|exact IH]. eapply rchan, St.
Qed.

Lemma forms c l m : let q := pm_run (with_report false c) m l in let t := pm_run (with_report true c) m l in
  fst q = map (fun r => RData (data_of r)) (fst t) /\ snd q = snd t.
Proof.
  cbn zeta. rewrite (run_given (with_report false c)). change (reporting (with_report false c)) with (with_report true c).
  cbn [fst snd]. split; [|reflexivity]. pose proof (run_rchan c l m) as F.
  induction F as [|r reps (d & ch & ->) F IH]; [reflexivity|]. cbn [map]. rewrite IH. reflexivity.
Qed.

Lemma attributes c l a m :
  map (fun '(r, x) => (data_of r, x)) (fst (fst (chan_run (with_report false c) a m l)))
  = map (fun r => match r with RChan d ch => (d, Some ch) | RData d => (d, None) end) (fst (pm_run (with_report true c) m l)).
Proof.
  rewrite run_reporting. change (reporting (with_report false c)) with (with_report true c). cbn [fst].
  rewrite map_map. pose proof (run_rchan c l m) as F. induction F as [|r reps (d & ch & ->) F IH]; [reflexivity|].
  cbn [map]. rewrite IH. reflexivity.
Qed.

Lemma rchan_some c m s r m' : c_cw c <> None -> pm_step (with_report true c) m s = Ok (Some r, m') ->
  exists d ch, r = RChan d (Some ch).
Proof.
  intro Cw. unfold pm_step. destruct (in_reset _ _) as [[|]|]; [discriminate| |discriminate]. cbn [rbind].
  destruct (pm_valid _ s).
  - destruct (if is1 (k_sop (s_bus s)) then _ else _) as [[pkt inp]|]; [|discriminate]. cbn [rbind].
    destruct (negb inp); [discriminate|].
    destruct (if negb (is1 (k_eop (s_bus s))) then _ else _) as [[b e]|]; [|discriminate]. cbn [rbind].
    destruct (pm_channel _ _ _) as [ch|] eqn:E; [|discriminate]. cbn [rbind].
    destruct (is1 (k_eop (s_bus s))); [|discriminate]. cbn [c_report with_report]. intro H. injection H as <- _.
    assert (S : exists v, ch = Some v).
    { unfold pm_channel in E. cbn [c_cw with_report] in E. destruct (c_cw c); [|congruence].
      destruct (bval _) as [v|]; [|discriminate]. destruct (m_ch m) as [w|].
      - destruct (v =? w)%Z; [|discriminate]. injection E as <-. eauto.
      - destruct (_ <? v)%Z; [discriminate|]. injection E as <-. eauto. }
    destruct S as [v ->]. eauto.
  - destruct (m_in m); [|discriminate]. destruct (negb _ && _); discriminate.
Qed.

Lemma old_runs c c' l : wc_init c None = Ok c' ->
  pkts_init c (Some true) = Ok c'
  /\ Forall (fun r => exists d ch, r = RChan d (Some ch)) (fst (pm_run c' pm_init l)).
Proof.
  intro H. split; [exact H|]. unfold wc_init, pkts_init, pm_check in H. cbn [c_cw c_report with_report] in H.
  assert (Cw : c_cw c <> None) by (intro X; rewrite X in H; discriminate).
  destruct (c_cw c) as [n|] eqn:Ec; [|congruence]. clear Cw. assert (Cw : c_cw c <> None) by congruence.
  destruct (pk_check _); [|discriminate]. cbn [rbind] in H. injection H as <-.
  clear -Cw. generalize pm_init as m. induction l as [|s l IH]; intro m; [constructor|]. cbn [pm_run].
  destruct (pm_step (with_report true c) m s) as [[r m']|] eqn:St; [|constructor].
  specialize (IH m'). destruct (pm_run (with_report true c) m' l) as [reps f]. cbn [fst] in *.
  destruct r as [r|]; [|exact IH]. constructor; [|exact IH]. eapply rchan_some; eassumption.
Qed.
