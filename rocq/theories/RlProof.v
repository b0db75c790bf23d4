(** RlProof.v -- proofs about the ready latency. *)
From Verif Require Import Base Async DrvUtilModel PktModel PktSpec HandshakeSpec RlModel RlSpec.
Local Open Scope list_scope.

Definition tkf (p : (logic * pk_out) * logic) : bool := k_offered (snd (fst p)) && k_accepts true (snd p).

Lemma combine_split : forall {A B} (a b : list A) (ys : list B),
  combine (a ++ b) ys = combine a ys ++ combine b (skipn (length a) ys).
Proof.
  induction a as [|x a IH]; intros b ys; [reflexivity|]. destruct ys as [|y ys].
  - cbn [app combine length skipn]. destruct b; reflexivity.
  - cbn [app combine length skipn]. rewrite IH. reflexivity.
Qed.

Lemma filter_idle : forall b ys, Forall idle_cycle b -> filter tkf (combine b ys) = [].
Proof.
  induction b as [|x b IH]; intros ys F; [reflexivity|]. destruct ys as [|y ys]; [reflexivity|].
  cbn [combine filter]. unfold tkf at 1. cbn [fst snd]. rewrite (Forall_inv F). cbn [andb].
  exact (IH ys (Forall_inv_tail F)).
Qed.

Lemma idle_skipn : forall n b, Forall idle_cycle b -> Forall idle_cycle (skipn n b).
Proof.
  induction n as [|n IH]; intros [|x b] F; try exact F. exact (IH b (Forall_inv_tail F)).
Qed.

(** idle cycles at the end take nothing *)
Lemma takes_later : forall R tr later, Forall idle_cycle later -> takes R (tr ++ later) = takes R tr.
Proof.
  intros R tr later F. unfold takes. fold tkf. rewrite skipn_app, combine_split, filter_app.
  rewrite (filter_idle _ _ (idle_skipn _ _ F)), app_nil_r. f_equal. f_equal.
  rewrite map_app. assert (L : length (skipn R tr) <= length (map fst tr)) by (rewrite skipn_length, map_length; lia).
  revert L. generalize (skipn R tr) as a. generalize (map fst tr) as ys. generalize (map fst later) as zs.
  intros zs ys a. revert ys. induction a as [|x a IH]; intros [|y ys] L; try reflexivity; [cbn in L; lia|].
  cbn [app combine]. f_equal. apply IH. cbn [length] in L. lia.
Qed.

Lemma count_le : forall xs ys, length (filter tkf (combine xs ys)) <= length (filter (k_accepts true) (firstn (length xs) ys)).
Proof.
  induction xs as [|x xs IH]; intros ys; [cbn; lia|]. destruct ys as [|y ys]; [cbn; lia|].
  cbn [combine filter length firstn]. unfold tkf at 1. cbn [fst snd]. specialize (IH ys).
  destruct (k_offered (snd x)), (k_accepts true y); cbn [andb length]; lia.
Qed.

Lemma filter_firstn_le : forall {A} (f : A -> bool) n l, length (filter f (firstn n l)) <= length (filter f l).
Proof.
  intros A f n l. rewrite <- (firstn_skipn n l) at 2. rewrite filter_app, app_length. lia.
Qed.

(** ready high in the last cycle is of no use if the word must come later *)
Lemma takes_fewer : forall R a x, 1 <= R -> fst x = L1 -> length (takes R (a ++ [x])) < granted (a ++ [x]).
Proof.
  intros R a x HR E. unfold takes, granted, ready_cycles. fold tkf. rewrite map_length.
  eapply Nat.le_lt_trans; [apply count_le|]. rewrite skipn_length, app_length, !map_app, filter_app, app_length.
  cbn [map length]. rewrite E. cbn [filter k_accepts length].
  rewrite firstn_app. replace (length a + 1 - R - length (map fst a)) with 0 by (rewrite map_length; lia).
  cbn [firstn]. rewrite app_nil_r. pose proof (filter_firstn_le (k_accepts true) (length a + 1 - R) (map fst a)). lia.
Qed.

Lemma offered_all_ready : forall xs ys, Forall (fun y => y = L1) ys -> length xs <= length ys ->
  map (fun p => snd (fst p)) (filter tkf (combine xs ys)) = map snd (filter (fun x => k_offered (snd x)) xs).
Proof.
  induction xs as [|x xs IH]; intros ys F L; [reflexivity|]. destruct ys as [|y ys]; [cbn in L; lia|].
  cbn [combine filter]. unfold tkf at 1. cbn [fst snd]. rewrite (Forall_inv F). cbn [k_accepts]. rewrite andb_true_r.
  assert (I := IH ys (Forall_inv_tail F) ltac:(cbn [length] in L; lia)).
  destruct (k_offered (snd x)); cbn [map fst snd]; rewrite I; reflexivity.
Qed.

Lemma offered_idle : forall l, Forall idle_cycle l -> filter (fun x : logic * pk_out => k_offered (snd x)) l = [].
Proof.
  induction l as [|x l IH]; intros F; [reflexivity|]. cbn [filter]. rewrite (Forall_inv F). exact (IH (Forall_inv_tail F)).
Qed.

Lemma skipn_short : forall {A} n (a b : list A), n <= length a -> skipn n (a ++ b) = skipn n a ++ b.
Proof. intros A n a b L. rewrite skipn_app. replace (n - length a) with 0 by lia. reflexivity. Qed.

(** ready high all the time: every word offered is taken *)
Lemma takes_ready : forall R pre tr, R <= length pre -> Forall idle_cycle pre ->
  Forall ready_high (pre ++ tr) ->
  takes R (pre ++ tr) = transfers k_offered (k_accepts true) tr.
Proof.
  intros R pre tr L I F. unfold takes. fold tkf. rewrite offered_all_ready.
  - rewrite (skipn_short R pre tr L), filter_app, (offered_idle _ (idle_skipn _ _ I)). cbn [app].
    unfold transfers. f_equal. apply Forall_app in F. destruct F as [_ F]. induction tr as [|x tr IH]; [reflexivity|].
    cbn [filter]. unfold transferred at 1. rewrite (Forall_inv F : fst x = L1). cbn [k_accepts]. rewrite andb_true_r.
    rewrite IH by exact (Forall_inv_tail F). reflexivity.
  - apply Forall_map. exact F.
  - rewrite skipn_length, map_length. lia.
Qed.

Lemma takes_zero : forall tr, takes 0 tr = transfers k_offered (k_accepts true) tr.
Proof.
  intros tr. unfold takes, transfers. cbn [skipn]. induction tr as [|x tr IH]; [reflexivity|].
  cbn [map combine filter fst snd]. unfold transferred at 1.
  destruct (k_offered (snd x) && k_accepts true (fst x)); cbn [map fst snd]; rewrite IH; reflexivity.
Qed.

Lemma transfers_idle : forall l, Forall idle_cycle l -> transfers k_offered (k_accepts true) l = [].
Proof.
  unfold transfers. induction l as [|x l IH]; intros F; [reflexivity|]. cbn [filter]. unfold transferred at 1.
  rewrite (Forall_inv F). exact (IH (Forall_inv_tail F)).
Qed.

(** ** the leisurely stream *)
Lemma skipn_repeat_end : forall {A} (n : nat) (x : A) l, skipn n (repeat x n ++ l) = l.
Proof. induction n as [|n IH]; intros x l; [reflexivity|]. exact (IH x l). Qed.

Lemma combine_repeat_idle : forall n o (l : list (logic * pk_out)) zs, k_offered o = false ->
  filter tkf (combine (repeat (L0, o) n ++ l) zs) = filter tkf (combine l (skipn n zs)).
Proof.
  intros n o l zs H. rewrite combine_split, filter_app, filter_idle, repeat_length; [reflexivity|].
  apply Forall_forall. intros x X. apply repeat_spec in X. subst x. exact H.
Qed.

Lemma leisurely_takes : forall R o ws, 1 <= R -> k_offered o = false -> Forall (fun w => k_offered w = true) ws ->
  takes R (leisurely R o ws) = ws.
Proof.
  intros R o ws HR O F. unfold takes. fold tkf. destruct R as [|n]; [lia|]. clear HR.
  induction ws as [|w ws IH]; [reflexivity|].
  assert (E : leisurely (S n) o (w :: ws) = (L1, o) :: repeat (L0, o) n ++ (L0, w) :: leisurely (S n) o ws).
  { unfold leisurely. cbn [flat_map]. cbn [app]. rewrite Nat.sub_succ, Nat.sub_0_r, <- app_assoc. reflexivity. }
  rewrite E. cbn [skipn]. rewrite skipn_repeat_end. cbn [map fst combine filter]. unfold tkf at 1. cbn [fst snd].
  rewrite (Forall_inv F). cbn [k_accepts andb map fst snd]. f_equal.
  rewrite map_app. cbn [map fst]. specialize (IH (Forall_inv_tail F)).
  destruct ws as [|w2 ws]; [reflexivity|].
  assert (E2 : leisurely (S n) o (w2 :: ws) = (L1, o) :: repeat (L0, o) n ++ (L0, w2) :: leisurely (S n) o ws).
  { unfold leisurely. cbn [flat_map]. cbn [app]. rewrite Nat.sub_succ, Nat.sub_0_r, <- app_assoc. reflexivity. }
  etransitivity; [|exact IH]. f_equal. remember (leisurely (S n) o (w2 :: ws)) as T eqn:ET.
  assert (A : exists a b, T = a ++ b /\ length a = S n /\ Forall idle_cycle a).
  { exists ((L1, o) :: repeat (L0, o) n), ((L0, w2) :: leisurely (S n) o ws). split; [exact E2|].
    split; [cbn [length]; rewrite repeat_length; reflexivity|]. constructor; [exact O|].
    apply Forall_forall. intros x X. apply repeat_spec in X. subst x. exact O. }
  destruct A as (a & b & Ta & La & Fa). rewrite Ta at 1 3. rewrite combine_split, filter_app, (filter_idle a _ Fa).
  cbn [app]. f_equal. f_equal.
  - rewrite <- La, skipn_app, skipn_all, Nat.sub_diag. reflexivity.
  - rewrite La. change (L0 :: map fst T) with ([L0] ++ map fst T). rewrite app_assoc.
    replace (S n) with (length (map (@fst logic pk_out) (repeat (L0, o) n) ++ [L0])) by (rewrite app_length, map_length, repeat_length; cbn [length]; lia).
    rewrite skipn_app, skipn_all, Nat.sub_diag. reflexivity.
Qed.

Lemma leisurely_quiet : forall R o ws, k_offered o = false ->
  Forall (fun x => k_offered (snd x) && k_accepts true (fst x) = false) (leisurely R o ws).
Proof.
  intros R o ws O. unfold leisurely. apply Forall_flat_map. apply Forall_forall. intros w _.
  constructor; [cbn [fst snd]; rewrite O; reflexivity|]. apply Forall_app. split.
  - apply Forall_forall. intros x X. apply repeat_spec in X. subst x. cbn [fst snd k_accepts]. apply andb_false_r.
  - constructor; [|constructor]. cbn [fst snd k_accepts]. apply andb_false_r.
Qed.

(** samples without valid and ready together, before any packet *)
Lemma monitor_quiet : forall c l, c_ready c = true ->
  Forall (fun x => k_offered (snd x) && k_accepts true (fst x) = false) l ->
  pm_run c pm_init (map sample_of l) = ([], Ok pm_init).
Proof.
  intros c l C. induction l as [|x l IH]; intros F; [reflexivity|]. cbn [map pm_run].
  assert (S : pm_step c pm_init (sample_of x) = Ok (None, pm_init)).
  { unfold pm_step, sample_of. cbn [s_rstn s_rst in_reset rbind]. unfold pm_valid. rewrite C. cbn [s_bus s_ready].
    assert (V : is1 (k_valid (snd x)) && is1 (fst x) = false).
    { pose proof (Forall_inv F) as G. unfold k_offered, k_accepts in G. destruct (k_valid (snd x)), (fst x); first [reflexivity|discriminate G]. }
    rewrite V. reflexivity. }
  rewrite S, (IH (Forall_inv_tail F)). reflexivity.
Qed.
