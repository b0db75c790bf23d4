(** PktRstProof.v -- what a reset does to a packet monitor. *)
From Verif Require Import Base CompatModel MonitorModel PktModel PktSpec PktMonProof PktJoinSpec PktJoinProof PktRstSpec.
Local Open Scope list_scope.

Section Rst.
Context (c : pcfg).

Lemma run_app l : forall m reps m1 l', pm_run c m l = (reps, Ok m1) ->
  pm_run c m (l ++ l') = let '(r, f) := pm_run c m1 l' in (reps ++ r, f).
Proof.
  induction l as [|s l IH]; intros m reps m1 l' H.
  - cbn [pm_run] in H. injection H as <- <-. cbn [app]. destruct (pm_run c m l'); reflexivity.
  - cbn [pm_run app] in *. destruct (pm_step c m s) as [[r m2]|]; [|discriminate].
    destruct (pm_run c m2 l) as [reps2 f] eqn:E. injection H as H ->.
    rewrite (IH _ _ _ l' E). destruct (pm_run c m1 l'). subst reps. destruct r; reflexivity.
Qed.

Lemma run_reset r : forall m, Forall (fun s => in_reset_cycle s = true) r -> pm_run c m r = ([], Ok m).
Proof.
  induction r as [|s r IH]; intros m R; [reflexivity|]. inversion R; subst.
  cbn [pm_run]. unfold pm_step at 1. rewrite reset_true by assumption. cbn [rbind]. rewrite IH by assumption. reflexivity.
Qed.
Lemma seen_reset r : Forall (fun s => in_reset_cycle s = true) r -> seen c r = [].
Proof.
  unfold seen. induction r as [|s r IH]; intro R; [reflexivity|]. inversion R; subst. cbn [filter].
  rewrite reset_excl by assumption. cbn [andb]. apply IH. assumption.
Qed.

(** two states that differ in the last count of unused bits only, and outside packets in
    the count of idle cycles *)
Definition same (m m' : pmstate) : Prop :=
  m_pkt m = m_pkt m' /\ m_in m = m_in m' /\ (m_in m = true -> m_cnt m = m_cnt m') /\ m_ch m = m_ch m'.
Lemma last_same e e' o b e1 : pm_last c e o = Ok (b, e1) -> exists e2, pm_last c e' o = Ok (b, e2).
Proof.
  unfold pm_last. destruct (if use_empty c then _ else _) as [n|]; [|discriminate]. cbn [rbind].
  destruct (n =? 0)%Z.
  - destruct (create_binary _ _ _) as [v|]; [|discriminate]. cbn [rbind].
    destruct (negb (resolvable v)); [destruct e; discriminate|].
    destruct (length v =? 1); [discriminate|].
    destruct (convert_binary_to_bytes v (c_high c)); [|discriminate]. cbn [rbind]. intro H. injection H as <- <-. eauto.
  - intro H. exists e1. exact H.
Qed.
Lemma step_same m m' s rep m1 : same m m' -> pm_step c m s = Ok (rep, m1) ->
  exists m2, pm_step c m' s = Ok (rep, m2) /\ same m1 m2.
Proof.
  intros (E1 & E2 & E3 & E4). unfold pm_step. destruct (in_reset _ _) as [rst|]; [|discriminate]. cbn [rbind].
  destruct rst.
  { intro H. injection H as <- <-. exists m'. repeat split; assumption. }
  destruct (pm_valid c s).
  - rewrite <- E1, <- E2, <- E4. destruct (if is1 (k_sop (s_bus s)) then _ else _) as [[pkt inp]|]; [|discriminate]. cbn [rbind].
    destruct (negb inp); [discriminate|].
    destruct (is1 (k_eop (s_bus s))); cbn [negb].
    + destruct (pm_last c (m_empty m) (s_bus s)) as [[b e]|] eqn:L; [|discriminate]. cbn [rbind].
      destruct (last_same _ (m_empty m') _ _ _ L) as [e2 ->]. cbn [rbind].
      destruct (pm_channel c (m_ch m) (s_bus s)) as [ch|]; [|discriminate]. cbn [rbind].
      intro H. injection H as <- <-. eexists. split; [reflexivity|]. repeat split.
    + destruct (convert_binary_to_bytes _ _) as [b|]; [|discriminate]. cbn [rbind].
      destruct (pm_channel c (m_ch m) (s_bus s)) as [ch|]; [|discriminate]. cbn [rbind].
      intro H. injection H as <- <-. eexists. split; [reflexivity|]. repeat split.
  - rewrite <- E2. destruct (m_in m) eqn:In.
    + rewrite <- E3 by reflexivity. destruct (negb _ && _); [discriminate|]. intro H. injection H as <- <-.
      eexists. split; [reflexivity|]. repeat split; cbn; assumption.
    + intro H. injection H as <- <-. exists m'. repeat split; congruence.
Qed.
Lemma run_same l : forall m m' reps m1, same m m' -> pm_run c m l = (reps, Ok m1) ->
  exists m2, pm_run c m' l = (reps, Ok m2).
Proof.
  induction l as [|s l IH]; intros m m' reps m1 E H.
  - cbn [pm_run] in *. injection H as <- <-. eauto.
  - cbn [pm_run] in *. destruct (pm_step c m s) as [[r m2]|] eqn:St; [|discriminate].
    destruct (step_same _ _ _ _ _ E St) as (m3 & -> & E').
    destruct (pm_run c m2 l) as [reps2 f] eqn:R. injection H as H ->.
    destruct (IH _ _ _ _ E' R) as [m4 ->]. subst reps. eauto.
Qed.

Lemma run_inside b : forall m, m_in m = true -> m_pkt m <> [] ->
  Forall (fun s => in_reset_cycle s = true \/ running_cycle s = true) b ->
  (forall w r, seen c b = w :: r -> is_sop w = true) -> seen c b <> [] ->
  exists x y, b = x ++ y /\ length (seen c x) <= 1 /\ pm_run c m x = ([], Err EAvalonProtocol).
Proof.
  induction b as [|s b IH]; intros m In P R G N; [destruct N; reflexivity|].
  inversion R as [|? ? R1 R2]; subst. change (s :: b) with ([s] ++ b) in G, N.
  rewrite seen_app, seen_one in G, N. unfold seen1 in G, N.
  assert (One : running_cycle s && transfer c s = false -> forall l, seen c (s :: l) = seen c l).
  { intros F l. change (s :: l) with ([s] ++ l). rewrite seen_app, seen_one. unfold seen1. rewrite F. reflexivity. }
  destruct R1 as [R1|R1].
  - rewrite (reset_excl s R1) in G, N, One. cbn [andb app] in G, N, One.
    destruct (IH m In P R2 G N) as (x & y & -> & L & Q). exists (s :: x), y. rewrite One by reflexivity.
    repeat split; [exact L|]. cbn [pm_run]. unfold pm_step at 1. rewrite reset_true by exact R1. cbn [rbind]. rewrite Q. reflexivity.
  - rewrite R1 in G, N, One. cbn [andb] in G, N, One. destruct (transfer c s) eqn:T.
    + exists [s], b. split; [reflexivity|]. split.
      { rewrite seen_one. unfold seen1. rewrite R1, T. cbn. lia. }
      cbn [pm_run]. unfold pm_step. rewrite reset_false by exact R1. cbn [rbind]. rewrite valid_transfer, T.
      specialize (G _ _ eq_refl). unfold is_sop in G. unfold is1.
      destruct (k_sop (s_bus s)); try discriminate. destruct (m_pkt m); [destruct P; reflexivity|]. reflexivity.
    + cbn [app] in G, N.
      assert (St : pm_step c m s = Err EAvalonProtocol
                   \/ exists n, pm_step c m s = Ok (None, PM (m_pkt m) true n (m_ch m) (m_empty m))).
      { unfold pm_step. rewrite reset_false by exact R1. cbn [rbind]. rewrite valid_transfer, T, In.
        destruct (negb _ && _); [left; reflexivity|right; eauto]. }
      destruct St as [St|[n St]].
      * exists [s], b. split; [reflexivity|]. split; [rewrite One by reflexivity; cbn; lia|]. cbn [pm_run]. rewrite St. reflexivity.
      * destruct (IH (PM (m_pkt m) true n (m_ch m) (m_empty m)) eq_refl P R2 G N) as (x & y & -> & L & Q).
        exists (s :: x), y. rewrite One by reflexivity. repeat split; [exact L|]. cbn [pm_run]. rewrite St, Q. reflexivity.
Qed.

Lemma good_before a b : good_traffic c (a ++ b) -> good_traffic c a.
Proof.
  intros [W R G M]. constructor.
  - unfold wide_words in *. rewrite seen_app in W. apply Forall_app in W. tauto.
  - apply Forall_app in R. tauto.
  - intros x w y H. apply (G x w (y ++ seen c b)). rewrite seen_app, H, <- app_assoc. reflexivity.
  - intro X. apply M, stalled_app, X.
Qed.

Lemma rst_before a r : (0 <= c_timeout c)%Z -> good_traffic c a -> Forall (fun s => in_reset_cycle s = true) r ->
  exists m, pm_run c pm_init (a ++ r) = (map (reported c) (completed (seen c a)), Ok m) /\ inv c a m
    /\ pm_run c pm_init a = (map (reported c) (completed (seen c a)), Ok m).
Proof.
  intros T [W R G M] Z. destruct (proj1 (run_good c a T W R G) M) as [m H].
  exists m. split; [|split; [apply (run_ok c a _ _ W H)|exact H]].
  rewrite (run_app _ _ _ _ r H), run_reset by exact Z. rewrite app_nil_r. reflexivity.
Qed.

Lemma rst_outside a r b : (0 <= c_timeout c)%Z -> reset_between c a r b -> current (seen c a) = [] ->
  exists m, pm_run c pm_init (a ++ r ++ b)
    = (map (reported c) (completed (seen c a)) ++ map (reported c) (completed (seen c b)), Ok m).
Proof.
  intros T [A [_ Z] [W R G M]] E. destruct (rst_before a r T A Z) as (m & H & I & _).
  destruct (proj1 (run_good c b T W R G) M) as [m1 H1].
  destruct I as [I1 I2 _ I4 _ _]. rewrite E in I1, I2, I4.
  assert (S : same pm_init m).
  { cbn in I1, I2. assert (C4 : m_ch m = None) by (rewrite I4; unfold first_channel; destruct (c_cw c); reflexivity).
    repeat split; cbn [m_pkt m_in m_cnt m_ch pm_init]; try congruence; discriminate. }
  destruct (run_same b pm_init m _ _ S H1) as [m2 H2].
  rewrite app_assoc, (run_app _ _ _ _ b H), H2. eauto.
Qed.

Lemma rst_inside a r b : (0 <= c_timeout c)%Z -> reset_between c a r b -> current (seen c a) <> [] -> seen c b <> [] ->
  exists x y, b = x ++ y /\ length (seen c x) <= 1
    /\ pm_run c pm_init (a ++ r ++ x) = (map (reported c) (completed (seen c a)), Err EAvalonProtocol).
Proof.
  intros T [A [_ Z] [W R G M]] E N. destruct (rst_before a r T A Z) as (m & H & I & _).
  destruct (run_inside b m) as (x & y & -> & L & Q); try assumption.
  - rewrite (iv_in _ _ _ I). destruct (current (seen c a)); [destruct E|]; reflexivity.
  - apply (iv_ne _ _ _ I), E.
  - intros w q Hw. destruct (G [] w q Hw) as (G1 & _). unfold misplaced in G1.
    destruct (is_sop w); [reflexivity|]. destruct G1. left. split; reflexivity.
  - exists x, y. repeat split; [exact L|]. rewrite app_assoc, (run_app _ _ _ _ x H), Q, app_nil_r. reflexivity.
Qed.
End Rst.
