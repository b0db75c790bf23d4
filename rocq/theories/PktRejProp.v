(** PktRejProp.v -- C112: a packet monitor whose construction failed. *)
From Verif Require Import Base Async CompatModel BitsLemmas MonitorModel PktModel PktSpec PktMonProof PktRejModel.
Local Open Scope list_scope.

Lemma pm_step_unset_silent c m s rep m' : pm_step_unset c m s = Ok (rep, m') -> rep = None.
Proof.
  unfold pm_step_unset. destruct (in_reset _ _) as [rst|e]; cbn [rbind]; [|discriminate].
  destruct rst; [now intros [= <- _]|]. destruct (pm_valid c s).
  - destruct (if is1 _ then _ else _) as [[pkt inp]|e]; cbn [rbind]; [|discriminate].
    destruct (negb inp); [discriminate|]. destruct (is1 _); [discriminate|].
    destruct (convert_binary_to_bytes _ _); cbn [rbind]; [|discriminate].
    destruct (pm_channel _ _ _); cbn [rbind]; [now intros [= <- _]|discriminate].
  - destruct (m_in m); [|now intros [= <- _]]. destruct (_ && _); [discriminate|now intros [= <- _]].
Qed.
Lemma pm_run_unset_silent c l : forall m, fst (pm_run_unset c m l) = [].
Proof.
  induction l as [|s r IH]; intro m; [reflexivity|]. cbn [pm_run_unset].
  destruct (pm_step_unset c m s) as [[rep m']|e] eqn:E; [|reflexivity].
  apply pm_step_unset_silent in E. subst rep. specialize (IH m'). destruct (pm_run_unset c m' r). exact IH.
Qed.

(** C112 in full would be: if the constructor raises, nothing is ever delivered to the
    callback it was given.  It holds where the report_channel or the missing empty signal is
    what is refused: *)
Theorem C112_partial c l :
  (c_cw c = None /\ c_report c = true -> pm_construct c l = (Err EValue, [])) /\
  (~ (c_cw c = None /\ c_report c = true) -> c_dbs c < c_width c -> c_ew c = None ->
     pm_construct c l = (Err EAttribute, [])).
Proof.
  unfold pm_construct, config_set, pm_check, pk_check. split.
  - intros (E & R). rewrite E, R. cbn [negb andb]. now rewrite pm_run_unset_silent.
  - intros N H E. unfold use_empty. rewrite E, (proj2 (Nat.ltb_lt _ _) H). cbn [negb andb]. rewrite Bool.andb_false_r, pm_run_unset_silent.
    destruct (c_cw c); [reflexivity|]. destruct (c_report c); [exfalso; auto|reflexivity].
Qed.
Print Assumptions C112_partial.

(** Where nothing is delivered, the process that was started goes on observing the bus as that of
    a monitor would: it raises the same protocol errors, until the last word of a packet comes;
    there it raises KeyError. *)
Lemma pm_step_unset_same c m s : running_cycle s && transfer c s && is_eop (s_bus s) = false ->
  pm_step_unset c m s = pm_step c m s.
Proof.
  intro H. unfold pm_step_unset, pm_step. destruct (in_reset _ _) as [b|e] eqn:Er; cbn [rbind]; [|reflexivity].
  destruct (reset_ok s b Er) as [(-> & _)|(-> & _ & R)]; [reflexivity|]. rewrite R, <- valid_transfer in H. cbn [andb] in H.
  destruct (pm_valid c s); [|reflexivity]. cbn [andb] in H. rewrite is1_eop, H. cbn [negb].
  destruct (if is1 (k_sop (s_bus s)) then _ else _) as [[pkt inp]|e]; cbn [rbind]; [|reflexivity].
  destruct (negb inp); [reflexivity|]. destruct (convert_binary_to_bytes _ _); reflexivity.
Qed.
Lemma pm_run_unset_same c l : Forall (fun w => is_eop w = false) (seen c l) -> forall m, pm_run_unset c m l = pm_run c m l.
Proof.
  induction l as [|s l IH]; intros F m; [reflexivity|]. cbn [pm_run_unset pm_run].
  change (s :: l) with ([s] ++ l) in F. rewrite seen_app in F. apply Forall_app in F as [F1 F2].
  rewrite (pm_step_unset_same c m s). { destruct (pm_step c m s) as [[rep m']|e]; [|reflexivity]. rewrite IH by exact F2. reflexivity. }
  unfold seen in F1. cbn [filter] in F1. destruct (running_cycle s && transfer c s); [|reflexivity].
  cbn [map] in F1. inversion F1. assumption.
Qed.
Lemma pm_run_unset_snoc c s l : forall m m', snd (pm_run_unset c m l) = Ok m' ->
  snd (pm_run_unset c m (l ++ [s])) = rbind (pm_step_unset c m' s) (fun x => Ok (snd x)).
Proof.
  induction l as [|x l IH]; intros m m' H; cbn [app pm_run_unset] in *.
  - injection H as <-. destruct (pm_step_unset c m s) as [[[]]|]; reflexivity.
  - destruct (pm_step_unset c m x) as [[rep m1]|e]; [|discriminate]. specialize (IH m1 m').
    destruct (pm_run_unset c m1 l). destruct (pm_run_unset c m1 (l ++ [s])). apply IH, H.
Qed.
Theorem C112_process_partial c :
  (c_cw c = None /\ c_report c = true) \/ (c_dbs c < c_width c /\ c_ew c = None) ->
  forall l, Forall (fun w => is_eop w = false) (seen c l) ->
    pm_leftover c l = snd (pm_run c pm_init l)
    /\ (forall m s, wide_words c l -> pm_leftover c l = Ok m ->
          running_cycle s = true -> transfer c s = true -> is_eop (s_bus s) = true ->
          (misplaced (seen c l) (s_bus s) -> pm_leftover c (l ++ [s]) = Err EAvalonProtocol)
          /\ (~ misplaced (seen c l) (s_bus s) -> pm_leftover c (l ++ [s]) = Err EKey)).
Proof.
  intro H. assert (E : config_set c = false).
  { unfold config_set. destruct H as [[H1 H2]|[H1 H2]]; [rewrite H1, H2; reflexivity|].
    unfold use_empty. rewrite (proj2 (Nat.ltb_lt _ _) H1), H2. cbn [andb negb]. apply Bool.andb_false_r. }
  unfold pm_leftover. rewrite E. intros l F. split; [rewrite pm_run_unset_same; [reflexivity|exact F]|].
  intros m s W O R T Ep. rewrite (pm_run_unset_snoc c s l pm_init m O).
  rewrite pm_run_unset_same in O by exact F. destruct (pm_run c pm_init l) as [reps f] eqn:Er. cbn [snd] in O. subst f.
  destruct (run_ok c l reps m W Er) as [[I1 I2 I3 _ _ _] _].
  unfold pm_step_unset. rewrite reset_false by exact R. cbn [rbind]. rewrite valid_transfer, T, is1_sop, is1_eop, Ep. split.
  - intros [[M1 M2]|[M1 M2]]; rewrite M2.
    + cbn [rbind]. rewrite I1, M1. reflexivity.
    + specialize (I3 M1). destruct (m_pkt m); [contradiction|reflexivity].
  - intro N.
    assert (Hst : (if is_sop (s_bus s) then match m_pkt m with [] => Ok ([], true) | _ => Err EAvalonProtocol end
                 else Ok (m_pkt m, m_in m)) = Ok (m_pkt m, true)).
    { unfold misplaced in N. destruct (current (seen c l)) as [|f r] eqn:Ec.
      - destruct (is_sop _); [rewrite I2 by reflexivity; reflexivity|]. exfalso. apply N. left. split; reflexivity.
      - destruct (is_sop _); [exfalso; apply N; right; split; [discriminate|reflexivity]|]. rewrite I1. reflexivity. }
    rewrite Hst. reflexivity.
Qed.
Print Assumptions C112_process_partial.

(** The same bus and options, maxChannel left at its default. *)
Definition default_maxch (c : pcfg) : pcfg :=
  PCfg (c_width c) (c_dbs c) (c_high c) None (c_ready c) (c_ew c) (c_cw c) (c_error c) (c_timeout c) (c_report c).
(** the channel signal has its width *)
Definition channel_wide (c : pcfg) (l : list psample) : Prop :=
  Forall (fun s => forall n, c_cw c = Some n -> length (k_channel (s_bus s)) = n) l.

Lemma bval_le b v : bval b = Some v -> (v <= 2 ^ Z.of_nat (length b) - 1)%Z.
Proof. intro H. apply bval_bound in H. lia. Qed.

Lemma pm_channel_default c n ch o : c_cw c = Some n -> length (k_channel o) = n -> (2 ^ Z.of_nat n <= max_channel c)%Z ->
  pm_channel c ch o = pm_channel (default_maxch c) ch o.
Proof.
  intros E L M. unfold pm_channel. cbn [c_cw default_maxch]. rewrite E. destruct (bval (k_channel o)) as [v|] eqn:V; [|reflexivity].
  apply bval_le in V. rewrite L in V. destruct ch; [reflexivity|]. unfold max_channel at 2. cbn [c_maxch c_cw default_maxch].
  rewrite E, !(proj2 (Z.ltb_ge _ _)) by lia. reflexivity.
Qed.
Lemma pm_run_default c n : c_cw c = Some n -> (2 ^ Z.of_nat n <= max_channel c)%Z ->
  forall l, channel_wide c l -> forall m, pm_run c m l = pm_run (default_maxch c) m l.
Proof.
  intros E M l H. induction H as [|s r Hs _ IH]; intro m; [reflexivity|]. cbn [pm_run].
  assert (S : pm_step c m s = pm_step (default_maxch c) m s).
  { unfold pm_step. rewrite <- (pm_channel_default c n _ _ E (Hs n E) M). reflexivity. }
  rewrite <- S. destruct (pm_step c m s) as [[rep m']|e]; [|reflexivity]. now rewrite IH.
Qed.

(** C112 fails: a monitor refused because its maxChannel is too large, or its channel too
    wide, works on: its callback gets all that the callback of the monitor constructed with
    the default maxChannel gets. *)
Theorem C112_refuted c n l :
  c_cw c = Some n -> (c_dbs c < c_width c -> c_ew c <> None) ->
  (n <= 128 /\ (2 ^ Z.of_nat n <= max_channel c)%Z -> channel_wide c l ->
     fst (pm_construct c l) = Err EAttribute /\
     fst (pm_construct (default_maxch c) l) = Ok tt /\
     snd (pm_construct c l) = snd (pm_construct (default_maxch c) l)) /\
  (128 < n -> fst (pm_construct c l) = Err EType /\ snd (pm_construct c l) = fst (pm_run c pm_init l)).
Proof.
  intros E Hw.
  assert (S : forall c', c_cw c' = Some n -> (c_dbs c' < c_width c' -> c_ew c' <> None) -> config_set c' = true /\
     use_empty c' && match c_ew c' with None => true | Some _ => false end = false).
  { intros c' E' W. unfold config_set. rewrite E'. cbn [negb andb].
    assert (X : use_empty c' && match c_ew c' with None => true | Some _ => false end = false).
    { unfold use_empty. destruct (Nat.ltb_spec (c_dbs c') (c_width c')) as [H|H]; [|reflexivity].
      specialize (W H). destruct (c_ew c'); [reflexivity|now elim W]. }
    rewrite X. auto. }
  destruct (S c E Hw) as (S1 & X1). destruct (S (default_maxch c) E Hw) as (S2 & X2).
  unfold pm_construct, pm_check, pk_check. rewrite S1, S2, X1, X2. cbn [c_cw default_maxch]. rewrite E. cbn [fst snd]. split.
  - intros (N & M) W. rewrite (proj2 (Nat.ltb_ge _ _)) by lia. rewrite (proj2 (Z.ltb_lt _ _)) by lia.
    split; [reflexivity|]. unfold max_channel at 1. cbn [c_maxch c_cw default_maxch]. rewrite E, Z.ltb_irrefl.
    split; [reflexivity|]. now rewrite (pm_run_default c n E M l W).
  - intro N. now rewrite (proj2 (Nat.ltb_lt _ _)) by lia.
Qed.
Print Assumptions C112_refuted.

(** C72, the monitor: report_channel without channel is refused with ValueError, all else is
    checked as by the driver *)
Theorem C72_monitor_partial c : (forall n, c_cw c = Some n -> n <= 128) ->
  fst (pm_construct c []) =
    if c_report c && (match c_cw c with None => true | _ => false end) then Err EValue
    else if (c_dbs c <? c_width c) && (match c_ew c with None => true | _ => false end) then Err EAttribute
    else match c_cw c, c_maxch c with
         | Some n, Some m => if (2 ^ Z.of_nat n <=? m)%Z then Err EAttribute else Ok tt
         | _, _ => Ok tt
         end.
Proof.
  intro H. unfold pm_construct, pm_check. cbn [fst]. rewrite (check_narrow c H).
  destruct (c_cw c); [now rewrite Bool.andb_false_r|]. now destruct (c_report c).
Qed.
Print Assumptions C72_monitor_partial.

(** an 8-bit bus with a 2-bit channel, maxChannel=7: refused, and the packet of one word is delivered *)
Definition exj_cfg := PCfg 8 8 true (Some 7%Z) true None (Some 2) false 0 true.
Definition exj_word := PSample None None L1 (PkOut L1 L1 L1 [] (zbits 8 65) (zbits 2 3) L0).
Example C112_nonvacuous :
  c_cw exj_cfg = Some 2 /\ (2 ^ Z.of_nat 2 <= max_channel exj_cfg)%Z /\ channel_wide exj_cfg [exj_word] /\
  pm_construct exj_cfg [exj_word] = (Err EAttribute, [RChan [65%Z] (Some 3%Z)]) /\
  pm_construct (PCfg 16 8 true None true None None false 0 false) [exj_word] = (Err EAttribute, []) /\
  pm_construct (PCfg 8 8 true None true None None false 0 true) [exj_word] = (Err EValue, []) /\
  pm_leftover (PCfg 8 8 true None true None None false 0 true) [exj_word] = Err EKey.
Proof.
  split; [reflexivity|]. split; [vm_compute; discriminate|]. split; [|vm_compute; repeat split].
  constructor; [intros n [= <-]; reflexivity|constructor].
Qed.
