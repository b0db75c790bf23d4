(** PktJoinProof.v -- a packet monitor created in the middle of traffic. *)
From Verif Require Import Base CompatModel MonitorModel PktModel PktSpec PktMonProof PktJoinSpec.
Local Open Scope list_scope.

Lemma parse_after a b : current a = [] -> parse (a ++ b) = (completed a ++ completed b, current b).
Proof.
  intro E. unfold completed, current in *. induction b as [|w b IH] using rev_ind.
  - rewrite app_nil_r. destruct (parse a) as [d cu]. cbn in *. subst. rewrite app_nil_r. reflexivity.
  - rewrite app_assoc, !parse_snoc, IH. destruct (parse b) as [d cu]. cbn [fst snd].
    destruct (is_eop w); cbn [fst snd]; rewrite ?app_assoc; reflexivity.
Qed.
Lemma current_after a b : current a = [] -> current (a ++ b) = current b.
Proof. intro E. unfold current. rewrite parse_after by exact E. reflexivity. Qed.
Lemma completed_after a b : current a = [] -> completed (a ++ b) = completed a ++ completed b.
Proof. intro E. unfold completed at 1. rewrite parse_after by exact E. reflexivity. Qed.

Section Join.
Context (c : pcfg).

Lemma seen_running l : seen c (filter running_cycle l) = seen c l.
Proof.
  unfold seen. f_equal. induction l as [|s l IH]; [reflexivity|]. cbn [filter].
  destruct (running_cycle s) eqn:R; cbn [filter]; rewrite ?R; cbn [andb]; [|exact IH].
  destruct (transfer c s); rewrite IH; reflexivity.
Qed.

Lemma good_after a b : good_traffic c (a ++ b) -> current (seen c a) = [] -> good_traffic c b.
Proof.
  intros [W R G M] E. constructor.
  - unfold wide_words in *. rewrite seen_app in W. apply Forall_app in W. tauto.
  - apply Forall_app in R. tauto.
  - intros x w y H. destruct (G (seen c a ++ x) w y) as (G1 & G2 & G3).
    { rewrite seen_app, H, app_assoc. reflexivity. }
    unfold misplaced, bad_channel in *. rewrite current_after in G1, G3 by exact E. auto.
  - intros (T & x & mid & y & F & L & N & K). apply M. split; [exact T|].
    exists (filter running_cycle a ++ x), mid, y. rewrite filter_app, F, <- app_assoc.
    repeat split; try assumption. rewrite seen_app, seen_running, current_after by exact E. exact K.
Qed.

Lemma join_between a b : (0 <= c_timeout c)%Z -> good_traffic c (a ++ b) -> current (seen c a) = [] ->
  (exists m, pm_run c pm_init b = (map (reported c) (completed (seen c b)), Ok m))
  /\ completed (seen c (a ++ b)) = completed (seen c a) ++ completed (seen c b).
Proof.
  intros T G E. split.
  - destruct (good_after a b G E) as [W R Gw M]. exact (proj1 (run_good c b T W R Gw) M).
  - rewrite seen_app. apply completed_after, E.
Qed.

Lemma join_inside ws b : current ws <> [] ->
  Forall (fun s => in_reset_cycle s = true \/ running_cycle s = true) b ->
  (forall w r, seen c b = w :: r -> ~ misplaced ws w) -> seen c b <> [] ->
  exists x s y, b = x ++ s :: y /\ seen c x = [] /\ seen c [s] <> [] /\ pm_run c pm_init x = ([], Ok pm_init)
    /\ pm_run c pm_init (x ++ [s]) = ([], Err EAvalonProtocol).
Proof.
  intro C. induction b as [|s b IH]; intros R G N; [destruct N; reflexivity|].
  inversion R as [|? ? R1 R2]; subst. change (s :: b) with ([s] ++ b) in G, N.
  rewrite seen_app, seen_one in G, N. unfold seen1 in G, N.
  assert (Q : running_cycle s && transfer c s = false -> pm_step c pm_init s = Ok (None, pm_init)).
  { intro F. unfold pm_step. destruct R1 as [R1|R1].
    - rewrite reset_true by exact R1. reflexivity.
    - rewrite reset_false by exact R1. cbn [rbind]. rewrite valid_transfer. rewrite R1 in F. cbn [andb] in F. rewrite F.
      reflexivity. }
  destruct (running_cycle s && transfer c s) eqn:F.
  - apply andb_prop in F as [F1 F2]. exists [], s, b. repeat split.
    { rewrite seen_one. unfold seen1. rewrite F1, F2. discriminate. }
    cbn [pm_run app]. erewrite (step_misplaced c [] pm_init s (inv_init c) F1 F2); [reflexivity|].
    left. split; [reflexivity|]. specialize (G _ _ eq_refl). unfold misplaced in G.
    destruct (is_sop (s_bus s)); [|reflexivity]. destruct G. right. auto.
  - cbn [app] in G, N. specialize (Q eq_refl). destruct (IH R2 G N) as (x & t & y & -> & S & S1 & P1 & P2).
    exists (s :: x), t, y. repeat split.
    + change (s :: x) with ([s] ++ x). rewrite seen_app, seen_one. unfold seen1. rewrite F. exact S.
    + exact S1.
    + cbn [pm_run]. rewrite Q, P1. reflexivity.
    + cbn [pm_run app]. rewrite Q, P2. reflexivity.
Qed.
End Join.
