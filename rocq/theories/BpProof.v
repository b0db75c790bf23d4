(** BpProof.v -- lemmas for C139. *)
From Verif Require Import Base DrvUtilModel DrvUtilSpec HandshakeSpec TmSpec BpSpec.
Local Open Scope list_scope.

Section Count.
Context {TI : Type} (acc : TI -> bool).
Notation count := (HandshakeSpec.ready_cycles acc).

Lemma count_app : forall a b, count (a ++ b) = count a + count b.
Proof. intros. unfold HandshakeSpec.ready_cycles. rewrite filter_app, app_length. reflexivity. Qed.

Lemma count_firstn_mono : forall l a b, a <= b -> count (firstn a l) <= count (firstn b l).
Proof.
  induction l as [|i l IH]; intros a b H; [rewrite !firstn_nil; lia|].
  destruct a; [cbn; lia|]. destruct b; [lia|]. cbn [firstn].
  change (i :: firstn a l) with ([i] ++ firstn a l). change (i :: firstn b l) with ([i] ++ firstn b l).
  rewrite !count_app. specialize (IH a b). lia.
Qed.

Lemma count_last : forall l t i, nth_error l t = Some i -> acc i = true -> count (firstn (S t) l) = S (count (firstn t l)).
Proof.
  induction l as [|y l IH]; intros [|t] i E A; try discriminate.
  - cbn in E. injection E as ->. cbn. unfold HandshakeSpec.ready_cycles. cbn. rewrite A. reflexivity.
  - change (firstn (S (S t)) (y :: l)) with ([y] ++ firstn (S t) l). change (firstn (S t) (y :: l)) with ([y] ++ firstn t l).
    rewrite !count_app. cbn in E. rewrite (IH t i E A). lia.
Qed.

Definition is_nth (l : list TI) (j t : nat) : Prop :=
  count (firstn t l) = j /\ exists t' i, t = S t' /\ nth_error l t' = Some i /\ acc i = true.

Lemma nth_unique : forall l j t u, is_nth l j t -> is_nth l j u -> t = u.
Proof.
  assert (H : forall l j t u, is_nth l j t -> is_nth l j u -> t < u -> False).
  { intros l j t u [C _] [D (u' & i & -> & E & A)] L.
    rewrite (count_last l u' i E A) in D. pose proof (count_firstn_mono l t u' ltac:(lia)). lia. }
  intros l j t u Ht Hu. destruct (Nat.lt_trichotomy t u) as [L|[L|L]]; [|exact L|];
    exfalso; eauto.
Qed.

Lemma is_nth_app : forall a l j t, is_nth l j t -> is_nth (a ++ l) (count a + j) (length a + t).
Proof.
  intros a l j t [C (t' & i & -> & E & A)]. split.
  - rewrite firstn_app. replace (length a + S t' - length a) with (S t') by lia.
    rewrite firstn_all2 by lia. rewrite count_app. lia.
  - exists (length a + t'), i. split; [lia|]. split; [|exact A].
    rewrite nth_error_app2 by lia. replace (length a + t' - length a) with t' by lia. exact E.
Qed.

Lemma is_nth_prefix : forall l k j t, is_nth (firstn k l) j t -> is_nth l j t.
Proof.
  intros l k j t [C (t' & i & -> & E & A)].
  assert (L : t' < k).
  { assert (t' < length (firstn k l)) by (apply nth_error_Some; rewrite E; discriminate).
    rewrite firstn_length in H. lia. }
  split.
  - rewrite firstn_firstn in C. replace (Nat.min (S t') k) with (S t') in C by lia. exact C.
  - exists t', i. split; [reflexivity|]. split; [|exact A].
    rewrite <- (firstn_skipn k l). rewrite nth_error_app1; [exact E|apply nth_error_Some; rewrite E; discriminate].
Qed.

Lemma time_last : forall gs l v rest, on_time acc gs l v rest -> gs <> [] -> forall l', rest = Some l' ->
  exists t' i, length v = S t' /\ nth_error l t' = Some i /\ acc i = true.
Proof.
  induction 1 as [l|g gs idle waits i l v rest G W A T IH|g gs idle waits G W|g gs l G]; intros N l' R; try congruence.
  destruct gs as [|g' gs].
  - inversion T; subst. exists (length idle + length waits), i.
    rewrite !app_length, !repeat_length. cbn [length]. split; [lia|]. split; [|exact A].
    rewrite app_assoc, nth_error_app2 by (rewrite app_length; lia). rewrite app_length, Nat.sub_diag. reflexivity.
  - destruct (IH ltac:(discriminate) l' R) as (t' & y & L & E & B).
    exists (length idle + length waits + 1 + t'), y. rewrite !app_length, !repeat_length. split; [lia|]. split; [|exact B].
    replace (idle ++ waits ++ i :: l) with ((idle ++ waits ++ [i]) ++ l) by (rewrite <- !app_assoc; reflexivity).
    rewrite nth_error_app2 by (rewrite !app_length; cbn; lia). rewrite !app_length. cbn [length].
    replace (_ - _) with t' by lia. exact E.
Qed.

End Count.

(** ** The wave of a BitDriver. *)
Definition isone (v : logic) : bool := match v with L1 => true | _ => false end.
Notation ones := (HandshakeSpec.ready_cycles isone).

Lemma ones_L1 : forall n, ones (repeat L1 n) = n.
Proof. induction n; [reflexivity|]. unfold HandshakeSpec.ready_cycles in *. cbn. f_equal. exact IHn. Qed.
Lemma ones_L0 : forall n, ones (repeat L0 n) = 0.
Proof. induction n; [reflexivity|]. unfold HandshakeSpec.ready_cycles in *. cbn. exact IHn. Qed.

Lemma ones_wave : forall gen, ones (waveform gen) = on_cycles gen.
Proof.
  induction gen as [|[on off] g IH]; [reflexivity|]. unfold waveform in *. cbn [flat_map fst snd].
  rewrite !count_app, ones_L1, ones_L0, IH. unfold on_cycles. cbn [map fst]. change (list_sum (?a :: ?l)) with (a + list_sum l). lia.
Qed.

Lemma nth_on_first : forall on off j, 1 <= j <= on -> nth_on on off j = j.
Proof. intros. unfold nth_on. rewrite Nat.div_small, Nat.mod_small by lia. lia. Qed.
Lemma nth_on_next : forall on off j, 0 < on -> on < j -> nth_on on off j = on + off + nth_on on off (j - on).
Proof.
  intros on off j O H. unfold nth_on. set (q := j - on - 1). replace (j - 1) with (q + 1 * on) by lia.
  rewrite Nat.div_add, Nat.mod_add by lia. lia.
Qed.

Lemma wave_nth : forall on off n j, 1 <= j <= n * on ->
  is_nth isone (waveform (repeat (Z.of_nat on, Z.of_nat off) n)) j (nth_on on off j).
Proof.
  intros on off. induction n as [|n IH]; intros j H; [lia|].
  assert (O : 0 < on) by (destruct on; lia).
  cbn [repeat]. unfold waveform. cbn [flat_map fst snd]. rewrite !Nat2Z.id.
  fold (waveform (repeat (Z.of_nat on, Z.of_nat off) n)).
  destruct (Nat.le_gt_cases j on) as [L|L].
  - rewrite nth_on_first by lia. split.
    + rewrite <- app_assoc, firstn_app, repeat_length. replace (j - on) with 0 by lia. rewrite firstn_O, app_nil_r.
      replace on with (j + (on - j)) by lia. rewrite repeat_app, firstn_app, repeat_length, Nat.sub_diag, firstn_O, app_nil_r.
      rewrite firstn_all2 by (rewrite repeat_length; lia). apply ones_L1.
    + exists (j - 1), L1. split; [lia|]. split; [|reflexivity].
      rewrite <- app_assoc, nth_error_app1 by (rewrite repeat_length; lia). apply nth_error_repeat. lia.
  - rewrite nth_on_next by lia.
    replace j with (ones (repeat L1 on ++ repeat L0 off) + (j - on)) at 1 by (rewrite count_app, ones_L1, ones_L0; lia).
    replace (on + off) with (length (repeat L1 on ++ repeat L0 off)) by (rewrite app_length, !repeat_length; lia).
    apply is_nth_app. apply IH. lia.
Qed.
