(** MonitorProof.v *)
From Verif Require Import MonitorModel MonitorSpec.

Section Proofs.
Context {T : Type}.
Variable beh : list (nat * T) -> nat -> T -> list nat * option exn.

Lemma round_split k t (i : nat) : i < k ->
  (i, t) :: map (fun j => (j, t)) (seq (S i) (k - S i)) = map (fun j : nat => (j, t : T)) (seq i (k - i)).
Proof. intros H. replace (k - i) with (S (k - S i)) by lia. reflexivity. Qed.

Lemma run_callbacks_spec fuel : forall m i t m' r,
  run_callbacks T beh fuel m i t = Some (m', r) ->
  i <= length (callbacks m) ->
  exists added, callbacks m' = callbacks m ++ added
    /\ recvq m' = recvq m /\ received m' = received m /\ has_event m' = has_event m
    /\ events m' = events m /\ notified m' = notified m
    /\ match r with
       | Ok _ => calls m' = calls m ++ map (fun j => (j, t)) (seq i (length (callbacks m') - i))
       | Err e => exists k c, i <= k < length (callbacks m') /\ nth_error (callbacks m') k = Some c
            /\ calls m' = calls m ++ map (fun j => (j, t)) (seq i (S k - i))
            /\ snd (beh (calls m ++ map (fun j => (j, t)) (seq i (k - i))) c t) = Some e
       end.
Proof.
  induction fuel as [|f IH]; cbn [run_callbacks]; intros m i t m' r H Hi; [discriminate|].
  destruct (nth_error (callbacks m) i) as [c|] eqn:En.
  - assert (Hlt : i < length (callbacks m)) by (apply nth_error_Some; congruence).
    destruct (beh (calls m) c t) as [added ex] eqn:Eb. destruct ex as [e|].
    + injection H as <- <-. cbn [callbacks recvq received has_event events notified calls]. exists added. repeat split; auto.
      exists i, c. rewrite app_length. split; [lia|]. split; [rewrite nth_error_app1; auto|].
      replace (S i - i) with 1 by lia. replace (i - i) with 0 by lia. cbn. rewrite app_nil_r, Eb. auto.
    + apply IH in H; [|cbn; rewrite app_length; lia]. cbn [callbacks recvq received has_event events notified calls] in H.
      destruct H as (added' & H1 & H2 & H3 & H4 & H5 & H6 & H7).
      exists (added ++ added'). rewrite app_assoc. repeat split; auto.
      assert (Hlt' : i < length (callbacks m')) by (rewrite H1, !app_length; lia).
      destruct r as [u|e].
      * rewrite H7, <- app_assoc. cbn [app]. rewrite round_split; auto.
      * destruct H7 as (k & c' & Hk & Hn & Hc & Hr). exists k, c'. split; [lia|]. split; [exact Hn|].
        rewrite <- app_assoc in Hc, Hr. cbn [app] in Hc, Hr.
        rewrite round_split in Hc by lia. split; [exact Hc|].
        destruct (Nat.eq_dec k i) as [->|Hne]; [lia|].
        rewrite round_split in Hr by lia. exact Hr.
  - injection H as <- <-. exists []. rewrite app_nil_r. repeat split; auto.
    apply nth_error_None in En. replace (length (callbacks m) - i) with 0 by lia. cbn. now rewrite app_nil_r.
Qed.

Lemma recv_ok fuel m t m' :
  recv T beh fuel m t = Some (m', Ok tt) ->
  (exists added, callbacks m' = callbacks m ++ added)
  /\ calls m' = calls m ++ round (length (callbacks m')) t
  /\ received m' = S (received m)
  /\ recvq m' = (if length (callbacks m') =? 0 then recvq m ++ [t] else recvq m)
  /\ has_event m' = has_event m
  /\ events m' = (if has_event m then events m ++ [t] else events m)
  /\ notified m' = notified m ++ [t].
Proof.
  unfold recv. destruct (run_callbacks _ _ _ _ _ _) as [[m1 r]|] eqn:E; [|discriminate].
  apply run_callbacks_spec in E; [|cbn; lia]. cbn in E.
  destruct E as (added & H1 & H2 & H3 & H4 & H5 & H6 & H7).
  destruct r as [u|e]; [|discriminate]. intros H. injection H as <-. cbn.
  split; [eauto|]. rewrite H7, H2, H3, H4, H5, H6. unfold round. rewrite Nat.sub_0_r.
  repeat split; auto. destruct (callbacks m1); reflexivity.
Qed.

Lemma recv_err fuel m t m' e :
  recv T beh fuel m t = Some (m', Err e) ->
  (exists added, callbacks m' = callbacks m ++ added)
  /\ (exists k c, nth_error (callbacks m') k = Some c
        /\ calls m' = calls m ++ round (S k) t
        /\ snd (beh (calls m ++ round k t) c t) = Some e)
  /\ received m' = S (received m) /\ recvq m' = recvq m
  /\ has_event m' = has_event m /\ events m' = events m /\ notified m' = notified m.
Proof.
  unfold recv. destruct (run_callbacks _ _ _ _ _ _) as [[m1 r]|] eqn:E; [|discriminate].
  apply run_callbacks_spec in E; [|cbn; lia]. cbn in E.
  destruct E as (added & H1 & H2 & H3 & H4 & H5 & H6 & H7).
  destruct r as [u|e']; [discriminate|]. intros H. injection H as <- <-. cbn.
  split; [eauto|]. repeat split; auto.
  destruct H7 as (k & c & _ & Hn & Hc & Hr). exists k, c. unfold round. cbn in Hc, Hr.
  rewrite Nat.sub_0_r in Hr. auto.
Qed.

(** any history without an exception, callbacks may register callbacks *)
Lemma mon_run_spec fuel ops : forall m m' n,
  n <= length (callbacks m) ->
  mon_run T beh fuel ops m None = Some (m', None) ->
  exists ks, Forall2 le (registered_before n ops) ks
    /\ calls m' = calls m ++ flat_map (fun kt => round (fst kt) (snd kt)) (combine ks (receptions ops))
    /\ Forall (fun k => k <= length (callbacks m')) ks
    /\ length (callbacks m) <= length (callbacks m')
    /\ received m' = received m + length (receptions ops)
    /\ has_event m' = has_event m
    /\ events m' = (if has_event m then events m ++ receptions ops else events m)
    /\ notified m' = notified m ++ receptions ops
    /\ recvq m' = recvq m ++ map snd (filter (fun kt => fst kt =? 0) (combine ks (receptions ops))).
Proof.
  induction ops as [|[c|t] ops IH]; cbn [mon_run receptions registered_before]; intros m m' n Hn H.
  - injection H as <-. exists []. cbn. rewrite !app_nil_r. repeat split; auto.
    destruct (has_event m); reflexivity.
  - apply (IH _ _ (S n)) in H; [|cbn; rewrite app_length; cbn; lia].
    destruct H as (ks & H1 & H2 & H3 & H4 & H5). exists ks.
    cbn in H2, H4, H5. rewrite app_length in H4. cbn in H4.
    repeat split; try tauto. lia.
  - destruct (recv T beh fuel m t) as [[m1 [[]|e]]|] eqn:E; [| |discriminate].
    + apply recv_ok in E. destruct E as ((added & E1) & E2 & E3 & E4 & E5 & E6 & E7).
      assert (Hl : length (callbacks m) <= length (callbacks m1)) by (rewrite E1, app_length; lia).
      apply (IH _ _ n) in H; [|lia]. destruct H as (ks & H1 & H2 & H3 & H4 & H5 & H6 & H7 & H8 & H9).
      exists (length (callbacks m1) :: ks). cbn [combine flat_map fst snd filter map].
      split; [constructor; [lia|exact H1]|]. rewrite H2, E2, <- app_assoc. split; [reflexivity|].
      split; [constructor; [lia|exact H3]|]. split; [lia|]. rewrite H5, E3. cbn [length]. split; [lia|].
      split; [congruence|]. rewrite H7, E5, E6, H8, E7, H9, E4.
      split; [destruct (has_event m); now rewrite <- ?app_assoc|]. split; [now rewrite <- app_assoc|].
      destruct (length (callbacks m1) =? 0); cbn; now rewrite <- ?app_assoc.
    + exfalso. revert H. clear. revert m1. induction ops as [|[c|t'] ops IH]; cbn; intros m1 H; [discriminate| |]; eauto.
Qed.

(** quiet callbacks: the history always runs to the end *)
Lemma run_callbacks_quiet (Hq : quiet beh) fuel : forall m i t,
  length (callbacks m) - i < fuel -> i <= length (callbacks m) ->
  exists m', run_callbacks T beh fuel m i t = Some (m', Ok tt) /\ callbacks m' = callbacks m.
Proof.
  induction fuel as [|f IH]; cbn [run_callbacks]; intros m i t Hf Hi; [lia|].
  destruct (nth_error (callbacks m) i) as [c|] eqn:En; [|eauto].
  assert (Hlt : i < length (callbacks m)) by (apply nth_error_Some; congruence).
  rewrite Hq. rewrite app_nil_r.
  match goal with |- context [run_callbacks T beh f ?m1 _ _] => destruct (IH m1 (S i) t) as (m2 & -> & H2) end;
    [cbn; lia|cbn; lia|]. exists m2. split; [reflexivity|]. exact H2.
Qed.

Lemma recv_quiet (Hq : quiet beh) fuel m t :
  length (callbacks m) < fuel ->
  exists m', recv T beh fuel m t = Some (m', Ok tt) /\ callbacks m' = callbacks m.
Proof.
  intros Hf. unfold recv.
  match goal with |- context [run_callbacks T beh fuel ?m1 _ _] => destruct (run_callbacks_quiet Hq fuel m1 0 t) as (m2 & -> & H2) end;
    [cbn; lia|cbn; lia|]. eexists. split; [reflexivity|]. exact H2.
Qed.

Lemma calls_of_round i k t : calls_of i (round k t) = if i <? k then [t : T] else [].
Proof.
  unfold calls_of, round. assert (G : forall s, map snd (filter (fun p => fst p =? i) (map (fun j => (j, t)) (seq s k)))
     = if (s <=? i) && (i <? s + k) then [t] else []).
  { induction k as [|k IH]; intros s; cbn [seq map filter fst snd].
    - destruct (s <=? i) eqn:?, (i <? s + 0) eqn:?; cbn [andb]; try reflexivity; lia.
    - destruct (s =? i) eqn:E; cbn [map snd]; rewrite IH;
        destruct (S s <=? i) eqn:?, (i <? S s + k) eqn:?, (s <=? i) eqn:?, (i <? s + S k) eqn:?; cbn [andb]; try reflexivity; lia. }
  rewrite G. reflexivity.
Qed.

Lemma calls_of_app i (l1 l2 : list (nat * T)) : calls_of i (l1 ++ l2) = calls_of i l1 ++ calls_of i l2.
Proof. unfold calls_of. now rewrite filter_app, map_app. Qed.

Lemma mon_run_quiet (Hq : quiet beh) fuel ops : forall m,
  length (callbacks m) + adds ops < fuel ->
  exists m', mon_run T beh fuel ops m None = Some (m', None)
    /\ (forall i, calls_of i (calls m') = calls_of i (calls m) ++ seen_by i (length (callbacks m)) ops)
    /\ calls m' = calls m ++ flat_map (fun kt => round (fst kt) (snd kt))
                              (combine (registered_before (length (callbacks m)) ops) (receptions ops))
    /\ recvq m' = recvq m ++ unclaimed (length (callbacks m)) ops.
Proof.
  unfold adds. induction ops as [|[c|t] ops IH]; cbn [mon_run receptions registered_before seen_by unclaimed filter]; intros m Hf.
  - exists m. cbn. rewrite !app_nil_r. repeat split; auto. intros i. now rewrite app_nil_r.
  - destruct (IH (add_callback T m c)) as (m' & H1 & H2 & H3 & H4).
    { cbn in *. rewrite app_length. cbn. lia. }
    cbn in H2, H3, H4. rewrite app_length in H2, H3, H4. cbn in H2, H3, H4. rewrite Nat.add_1_r in *. eauto.
  - destruct (recv_quiet Hq fuel m t) as (m1 & E & Ec); [lia|]. rewrite E.
    assert (E' := E). apply recv_ok in E'. destruct E' as (_ & E2 & _ & E4 & _). rewrite Ec in *.
    destruct (IH m1) as (m' & H1 & H2 & H3 & H4); [rewrite Ec; lia|]. rewrite Ec in *.
    exists m'. split; [exact H1|]. split; [|split].
    + intros i. rewrite H2, E2, calls_of_app, calls_of_round, <- app_assoc. f_equal.
      destruct (i <? length (callbacks m)); reflexivity.
    + rewrite H3, E2, <- app_assoc. reflexivity.
    + rewrite H4, E4. destruct (length (callbacks m) =? 0); [now rewrite <- app_assoc|reflexivity].
Qed.

(** a raising callback *)
Lemma run_callbacks_raise fuel : forall m i t k c e,
  (forall log c' t', fst (beh log c' t') = []) ->
  i <= k -> nth_error (callbacks m) k = Some c -> k - i < fuel ->
  (forall j c', i <= j < k -> nth_error (callbacks m) j = Some c' -> forall log, snd (beh log c' t) = None) ->
  (forall log, snd (beh log c t) = Some e) ->
  exists m', run_callbacks T beh fuel m i t = Some (m', Err e)
          /\ calls m' = calls m ++ map (fun j => (j, t)) (seq i (S k - i)).
Proof.
  induction fuel as [|f IH]; cbn [run_callbacks]; intros m i t k c e Hadd Hik Hk Hf Hbefore Hat; [lia|].
  assert (Hkl : k < length (callbacks m)) by (apply nth_error_Some; congruence).
  destruct (Nat.eq_dec i k) as [->|Hne].
  - rewrite Hk. destruct (beh (calls m) c t) as [added ex] eqn:Eb.
    assert (added = []) by (specialize (Hadd (calls m) c t); rewrite Eb in Hadd; exact Hadd). subst.
    assert (ex = Some e) by (specialize (Hat (calls m)); rewrite Eb in Hat; exact Hat). subst.
    eexists. split; [reflexivity|]. cbn [calls]. replace (S k - k) with 1 by lia. reflexivity.
  - destruct (nth_error (callbacks m) i) as [c'|] eqn:En.
    2:{ apply nth_error_None in En. lia. }
    destruct (beh (calls m) c' t) as [added ex] eqn:Eb.
    assert (added = []) by (specialize (Hadd (calls m) c' t); rewrite Eb in Hadd; exact Hadd). subst.
    assert (ex = None) by (specialize (Hbefore i c' ltac:(lia) En (calls m)); rewrite Eb in Hbefore; exact Hbefore). subst.
    match goal with |- context [run_callbacks T beh f ?m1 _ _] => edestruct (IH m1 (S i) t k c e) as (m2 & H1 & H2) end;
      cbn [callbacks]; rewrite ?app_nil_r; try assumption; try lia.
    + intros j c'' Hj. apply Hbefore. lia.
    + exists m2. rewrite app_nil_r in *. split; [exact H1|]. rewrite H2. cbn [calls]. rewrite <- app_assoc. cbn [app].
      f_equal. replace (S k - i) with (S (k - i)) by lia. replace (S k - S i) with (k - i) by lia. reflexivity.
Qed.

Lemma recv_raise fuel m t k c e :
  (forall log c' t', fst (beh log c' t') = []) ->
  nth_error (callbacks m) k = Some c -> k < fuel ->
  (forall j c', j < k -> nth_error (callbacks m) j = Some c' -> forall log, snd (beh log c' t) = None) ->
  (forall log, snd (beh log c t) = Some e) ->
  exists m', recv T beh fuel m t = Some (m', Err e) /\ calls m' = calls m ++ round (S k) t
    /\ received m' = S (received m) /\ recvq m' = recvq m /\ events m' = events m
    /\ notified m' = notified m.
Proof.
  intros H1 H2 H3 H4 H5.
  match eval unfold recv in (recv T beh fuel m t) with context [run_callbacks T beh fuel ?m0 _ _] =>
    destruct (run_callbacks_raise fuel m0 0 t k c e H1) as (m' & E & Ec) end; try assumption; try lia.
  - intros j c' Hj. apply H4. lia.
  - assert (E' : recv T beh fuel m t = Some (m', Err e)) by (unfold recv; now rewrite E).
    exists m'. split; [exact E'|]. split; [exact Ec|]. apply recv_err in E'. tauto.
Qed.

Lemma mon_run_dead fuel ops : forall m e,
  exists m', mon_run T beh fuel ops m (Some e) = Some (m', Some e)
     /\ recvq m' = recvq m /\ received m' = received m /\ events m' = events m
     /\ notified m' = notified m /\ calls m' = calls m.
Proof.
  induction ops as [|[c|t] ops IH]; cbn; intros m e; [exists m; auto 10| |apply IH].
  destruct (IH (add_callback T m c) e) as (m' & H). exists m'. exact H.
Qed.
End Proofs.

(** ** wait_for_recv *)
Section Waits.
Context {T : Type}.

Definition task_inv (w : waits T) (x : wtask T) : Prop :=
  tstart x <= length (whist w)
  /\ match tstatus x with
     | WBlocked => tstart x = length (whist w)
     | WWoken => tstart x < length (whist w)
     | WTimedOut => ttimeout x = true
     | WDone r at_ =>
         at_ <= length (whist w) /\
         ((exists t, r = Some t /\ tstart x < at_ /\ nth_error (whist w) (at_ - 1) = Some t)
          \/ (r = None /\ ttimeout x = true /\ tstart x <= at_))
     end.

Definition winv (w : waits T) : Prop :=
  wdata w = nth_error (whist w) (length (whist w) - 1) /\ Forall (task_inv w) (tasks w).

Lemma Forall_upd {A} (P : A -> Prop) (f : A -> A) : forall l i,
  Forall P l -> (forall a, P a -> P (f a)) -> Forall P (upd l i f).
Proof.
  induction l as [|a l IH]; intros [|i] H Hf; cbn; auto; inversion H; subst; constructor; auto.
Qed.

Lemma winv_step w a : winv w -> winv (wstep T w a).
Proof.
  intros (Hd & Ht). destruct a as [tmo|t|i|i]; cbn [wstep]; unfold winv; cbn [wdata whist tasks].
  - split; [exact Hd|]. apply Forall_app. split; [exact Ht|]. constructor; [|constructor].
    unfold task_inv; cbn. auto.
  - split.
    + rewrite app_length. cbn [length].
      rewrite nth_error_app2 by lia.
      replace (length (whist w) + 1 - 1 - length (whist w)) with 0 by lia. reflexivity.
    + rewrite Forall_map. eapply Forall_impl; [|exact Ht]. intros [n tmo st] (H1 & H2).
      cbn in H1, H2. unfold task_inv, wake; cbn. rewrite !app_length. cbn [length]. destruct st as [| | |r at_]; cbn.
      * lia.
      * lia.
      * split; [lia|exact H2].
      * split; [lia|]. destruct H2 as (H2 & H3). split; [lia|].
        destruct H3 as [(x & -> & H4 & H5)|H3]; [left|right; exact H3].
        exists x. split; [reflexivity|]. split; [exact H4|]. rewrite nth_error_app1; [exact H5|].
        apply nth_error_Some. congruence.
  - split; [exact Hd|]. apply Forall_upd; [exact Ht|]. intros [n tmo st] (H1 & H2). cbn in *.
    unfold task_inv, fire; cbn. destruct st; cbn; try (split; assumption).
    destruct tmo; cbn; split; auto.
  - split; [exact Hd|]. apply Forall_upd; [exact Ht|]. intros [n tmo st] (H1 & H2). cbn in *.
    unfold task_inv, resume; cbn. destruct st; cbn; try (split; assumption).
    + split; [exact H1|]. split; [lia|]. left. rewrite Hd.
      destruct (nth_error (whist w) (length (whist w) - 1)) as [x|] eqn:E; [eauto|].
      apply nth_error_None in E. lia.
    + split; [exact H1|]. split; [lia|]. right. auto.
Qed.

Lemma winv_run l : winv (wrun T l).
Proof.
  unfold wrun. assert (G : forall w, winv w -> winv (fold_left (wstep T) l w)).
  { induction l as [|a l IH]; cbn; auto. intros w H. apply IH. now apply winv_step. }
  apply G. split; [reflexivity|constructor].
Qed.

Lemma wait_result l x r at_ :
  In x (tasks (wrun T l)) -> tstatus x = WDone r at_ ->
  (exists t, r = Some t /\ tstart x < at_ <= length (whist (wrun T l))
          /\ nth_error (whist (wrun T l)) (at_ - 1) = Some t)
  \/ (r = None /\ ttimeout x = true).
Proof.
  intros Hi Hs. destruct (winv_run l) as (_ & H). rewrite Forall_forall in H. destruct (H x Hi) as (_ & H2).
  rewrite Hs in H2. destruct H2 as (H2 & [(t & -> & H3 & H4)|(-> & H3 & _)]); [left|right; auto].
  exists t. repeat split; auto.
Qed.

Lemma wait_blocked l x :
  In x (tasks (wrun T l)) -> tstatus x = WBlocked -> tstart x = length (whist (wrun T l)).
Proof.
  intros Hi Hs. destruct (winv_run l) as (_ & H). rewrite Forall_forall in H. destruct (H x Hi) as (_ & H2).
  now rewrite Hs in H2.
Qed.

(** the history recorded is the list of receptions of the schedule *)
Fixpoint recv_acts (l : list (wact T)) : list T :=
  match l with [] => [] | ARecv t :: r => t :: recv_acts r | _ :: r => recv_acts r end.

Lemma whist_acts l : whist (wrun T l) = recv_acts l.
Proof.
  unfold wrun. assert (G : forall w, whist (fold_left (wstep T) l w) = whist w ++ recv_acts l).
  { induction l as [|a l IH]; cbn; intros w; [now rewrite app_nil_r|]. rewrite IH.
    destruct a; cbn; try reflexivity. now rewrite <- app_assoc. }
  rewrite G. reflexivity.
Qed.

Lemma nth_error_upd {A} (f : A -> A) : forall l i a, nth_error l i = Some a -> nth_error (upd l i f) i = Some (f a).
Proof.
  induction l as [|b l IH]; intros [|i] a H; cbn in *; try discriminate; [congruence|auto].
Qed.
End Waits.

Lemma in_reset_spec reset_n reset :
  in_reset reset_n reset =
  match reset_n, reset with
  | Some v, _ => match bval v with None => Err EValue | Some z => Ok (z =? 0)%Z end
  | None, Some v => match bval v with None => Err EValue | Some z => Ok (negb (z =? 0)%Z) end
  | None, None => Ok false
  end.
Proof.
  unfold in_reset. destruct reset_n as [v|]; [|reflexivity].
  destruct (bval v) as [z|]; [|reflexivity]. now rewrite negb_involutive.
Qed.
