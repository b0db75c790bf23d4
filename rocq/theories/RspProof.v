(** RspProof.v *)
From Verif Require Import Base TmSpec TmProof AxTmProof RspSpec.
Local Open Scope list_scope.

Section Rsp.
Context {TI : Type} (acc : TI -> bool) (D : nat).

Lemma answers_later a b : answers_within acc D (a ++ b) -> answers_within acc D b.
Proof. intros H p w f -> L V. apply (H (a ++ p) w f); [rewrite app_assoc; reflexivity|assumption..]. Qed.

Lemma comb_app {A B} (a c : list A) (b d : list B) : length a = length b -> combine (a ++ c) (b ++ d) = combine a b ++ combine c d.
Proof. revert b. induction a as [|x a IH]; intros [|y b] L; try discriminate; [reflexivity|]. cbn [app combine]. rewrite IH by (cbn in L; lia). reflexivity. Qed.

Lemma quiet_short waits tl : Forall (fun j => acc j = false) waits -> answers_within acc D (combine waits (repeat true (length waits)) ++ tl) -> length waits < D.
Proof.
  intros F H. destruct (Nat.lt_ge_cases (length waits) D) as [L|L]; [exact L|exfalso].
  set (cb := combine waits (repeat true (length waits))) in *. pose proof (firstn_skipn D cb) as E.
  assert (Lc : length cb = length waits) by (unfold cb; rewrite combine_length, repeat_length; lia).
  specialize (H [] (firstn D cb) (skipn D cb ++ tl) ltac:(cbn [app]; rewrite app_assoc, E; reflexivity) ltac:(rewrite firstn_length; lia)).
  assert (S : forall y, In y (firstn D cb) -> snd y = true /\ acc (fst y) = false).
  { intros [i b] I. assert (J : In (i, b) cb) by (rewrite <- E; apply in_or_app; auto).
    pose proof (in_combine_l _ _ _ _ J) as J1. pose proof (in_combine_r _ _ _ _ J) as J2. rewrite Forall_forall in F.
    split; [apply repeat_spec in J2; exact J2|exact (F _ J1)]. }
  specialize (H ltac:(apply forallb_forall; intros y I; apply S; exact I)). apply existsb_exists in H. destruct H as (y & I & Y). destruct (S y I). congruence.
Qed.

Lemma rsp_bound gs l v rest : on_time acc gs l v rest -> answers_within acc D (combine l v) -> length v <= list_sum gs + D * length gs.
Proof.
  induction 1 as [l|g gs idle waits i l v rest L F A _ IH|g gs idle waits L F|g gs l L]; intro H.
  - cbn. lia.
  - change (list_sum (g :: gs)) with (g + list_sum gs). cbn [length]. rewrite repeat_app, <- app_assoc in H. cbn [repeat app] in H.
    rewrite comb_app in H by (rewrite repeat_length; exact L). apply answers_later in H.
    rewrite comb_app in H by (rewrite repeat_length; reflexivity). cbn [combine] in H.
    pose proof (quiet_short _ _ F H) as Q.
    assert (H2 : answers_within acc D (combine l v)).
    { apply (answers_later (combine waits (repeat true (length waits)) ++ [(i, true)])). rewrite <- app_assoc. exact H. }
    specialize (IH H2). rewrite !app_length, !repeat_length. nia.
  - change (list_sum (g :: gs)) with (g + list_sum gs). cbn [length]. rewrite comb_app in H by (rewrite repeat_length; exact L). apply answers_later in H.
    rewrite <- (app_nil_r (combine waits _)) in H. pose proof (quiet_short _ _ F H) as Q. rewrite app_length, !repeat_length. nia.
  - change (list_sum (g :: gs)) with (g + list_sum gs). rewrite repeat_length. cbn [length]. nia.
Qed.
End Rsp.

Lemma idles_sum ss gs : length ss = length gs -> list_sum (idles ss gs) = length (filter (fun b : bool => b) ss) + list_sum gs /\ length (idles ss gs) = length gs.
Proof.
  unfold idles. revert gs. induction ss as [|b ss IH]; intros [|g gs] E; try discriminate; [split; reflexivity|].
  destruct (IH gs ltac:(cbn in E; lia)) as [A B]. cbn [combine map length filter].
  change (list_sum ((if fst (b, g) then 1 else 0) + snd (b, g) :: map (fun p : bool * nat => (if fst p then 1 else 0) + snd p) (combine ss gs)))
    with ((if b then 1 else 0) + g + list_sum (map (fun p : bool * nat => (if fst p then 1 else 0) + snd p) (combine ss gs))).
  change (list_sum (g :: gs)) with (g + list_sum gs). rewrite A, B. split; [destruct b; cbn [length]; lia|reflexivity].
Qed.
