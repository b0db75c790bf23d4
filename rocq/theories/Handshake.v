(** Handshake.v -- reasoning about coroutines that transfer words over a handshake. *)
From Verif Require Import Base Async HandshakeSpec.
Local Open Scope list_scope.

Section Traces.
Context {TI TO : Type} (off : TO -> bool) (acc : TI -> bool).
Notation transferred := (transferred off acc).
Notation transfers := (transfers off acc).
Notation stable := (stable off acc).
Notation rc := (ready_cycles acc).

Lemma transfers_app a b : transfers (a ++ b) = transfers a ++ transfers b.
Proof. unfold HandshakeSpec.transfers. rewrite filter_app, map_app. reflexivity. Qed.
Lemma transfers_idle o l : off o = false -> transfers (held o l) = [].
Proof.
  intro H. unfold HandshakeSpec.transfers, HandshakeSpec.transferred.
  induction l as [|i l IH]; cbn; [reflexivity|]. rewrite H. exact IH.
Qed.
Lemma transfers_wait o l : Forall (fun i => acc i = false) l -> transfers (held o l) = [].
Proof.
  intro H. unfold HandshakeSpec.transfers, HandshakeSpec.transferred.
  induction H as [|i l E _ IH]; cbn; [reflexivity|]. rewrite E, andb_false_r. exact IH.
Qed.
Lemma transfers_one i o : off o = true -> acc i = true -> transfers [(i, o)] = [o].
Proof.
  intros H E. unfold HandshakeSpec.transfers, HandshakeSpec.transferred. cbn. rewrite H, E. reflexivity.
Qed.

(** what is required of the cycle after [tr] *)
Definition settled (tr : list (TI * TO)) (o : TO) : Prop :=
  match rev tr with
  | [] => True
  | c :: _ => off (snd c) = true -> acc (fst c) = false -> o = snd c
  end.
Definition free (tr : list (TI * TO)) : Prop := forall o, settled tr o.

Lemma free_nil : free [].
Proof. intro o. exact I. Qed.
Lemma stable_snoc tr i o : stable tr -> settled tr o -> stable (tr ++ [(i, o)]).
Proof.
  induction tr as [|c tr IH]; intros H K; [cbn; auto|].
  destruct H as [H1 H2]. cbn [app HandshakeSpec.stable]. split.
  - destruct tr as [|c' tr]; [cbn; cbn in K; exact K | exact H1].
  - apply IH; [exact H2|]. unfold settled in *. cbn [rev] in K.
    destruct (rev tr) as [|x l] eqn:E; [exact I|]. exact K.
Qed.
Lemma settled_snoc tr i o o' :
  (off o = true -> acc i = false -> o' = o) -> settled (tr ++ [(i, o)]) o'.
Proof. intros H. unfold settled. rewrite rev_app_distr. exact H. Qed.
Lemma stable_held l : forall tr o, stable tr -> settled tr o ->
  stable (tr ++ held o l) /\ settled (tr ++ held o l) o.
Proof.
  induction l as [|i l IH]; intros tr o H K.
  - cbn. rewrite app_nil_r. auto.
  - cbn [held map]. change ((i, o) :: map (fun j => (j, o)) l) with ([(i, o)] ++ held o l).
    rewrite app_assoc. apply IH; [apply stable_snoc; assumption|].
    apply settled_snoc. reflexivity.
Qed.
Lemma free_held_idle tr o l : off o = false -> free tr -> free (tr ++ held o l).
Proof.
  intros H K. destruct l as [|i l]; [cbn; rewrite app_nil_r; exact K|].
  destruct (exists_last (l := i :: l) ltac:(discriminate)) as [l' [j E]]. rewrite E.
  rewrite held_app, app_assoc. intro o'. apply settled_snoc. congruence.
Qed.
Lemma free_accept tr i o : acc i = true -> free (tr ++ [(i, o)]).
Proof. intros H o'. apply settled_snoc. congruence. Qed.

Lemma rc_app a b : rc (a ++ b) = rc a + rc b.
Proof. unfold ready_cycles. rewrite filter_app, app_length. reflexivity. Qed.
Lemma rc_le a : rc a <= length a.
Proof. unfold ready_cycles. induction a as [|i a IH]; cbn; [lia|]. destruct (acc i); cbn; lia. Qed.
Lemma rc_none a : Forall (fun i => acc i = false) a -> rc a = 0.
Proof. unfold ready_cycles. induction 1 as [|i a E _ IH]; cbn; [reflexivity|]. rewrite E. exact IH. Qed.
End Traces.

(** [tx m w ds n Q]: run from [w], [m] transfers exactly the words [ds], in order,
    keeping offered words stable, needs at most [n] accepting cycles, and when it
    returns [Q] holds; it does not raise. *)
Section Tx.
Context {TS TI TO : Type} (off : TO -> bool) (acc : TI -> bool).
Notation world := (world TS TI TO).
Notation M := (M TS TI TO).
Notation transfers := (transfers off acc).
Notation stable := (stable off acc).
Notation settled := (settled off acc).
Notation free := (free off acc).
Notation rc := (ready_cycles acc).

Definition tx {A} (m : M A) (w : world) (ds : list TO) (n : nat) (Q : A -> world -> Prop) : Prop :=
  stable (trace w) ->
  let '(r, w') := m w in
  exists new,
    trace w' = trace w ++ new /\ map fst new ++ ins w' = ins w
    /\ stable (trace w')
    /\ match r with
       | Done a => transfers new = ds /\ rc (map fst new) <= n /\ Q a w'
       | Susp => ins w' = [] /\ settled (trace w') (out w')
                 /\ rc (ins w) < n
                 /\ exists k, transfers new = firstn k ds
                      /\ (off (out w') = true -> nth_error ds k = Some (out w'))
       | _ => False
       end.

Lemma tx_bind {A B} (m : M A) (f : A -> M B) w ds1 ds2 n1 n2 Q :
  tx m w ds1 n1 (fun a w' => length (ins w') <= length (ins w) -> tx (f a) w' ds2 n2 Q) ->
  tx (bind m f) w (ds1 ++ ds2) (n1 + n2) Q.
Proof.
  intros H S. specialize (H S). unfold bind. destruct (m w) as [[a|e| |] w1];
    destruct H as (new & T & I & St & C); try contradiction.
  - destruct C as (C1 & C2 & C3).
    assert (L : length (ins w1) <= length (ins w)).
    { rewrite <- I, app_length. lia. }
    specialize (C3 L St). destruct (f a w1) as [r w2].
    destruct C3 as (new2 & T2 & I2 & St2 & C3).
    exists (new ++ new2). rewrite T2, T, <- app_assoc, map_app, <- app_assoc, I2.
    split; [reflexivity|]. split; [exact I|].
    split; [rewrite app_assoc, <- T, <- T2; exact St2|].
    destruct r; try contradiction.
    + destruct C3 as (D1 & D2 & D3). rewrite transfers_app, C1, D1, rc_app.
      repeat split; auto; lia.
    + destruct C3 as (D1 & D2 & D3 & k & D4 & D5). repeat split; auto.
      * rewrite T2, T, <- app_assoc in D2. exact D2.
      * rewrite <- I, rc_app. lia.
      * exists (length ds1 + k). rewrite transfers_app, C1, D4, firstn_app_2. split; [reflexivity|].
        intro O. rewrite nth_error_app2 by lia. replace (length ds1 + k - length ds1) with k by lia. exact (D5 O).
  - destruct C as (C1 & C2 & C3 & k & C4 & C5). exists new. repeat split; auto; [lia|].
    destruct (le_lt_dec k (length ds1)) as [L|L].
    + exists k. rewrite firstn_app. replace (k - length ds1) with 0 by lia. rewrite app_nil_r. split; [exact C4|].
      intro O. specialize (C5 O). rewrite nth_error_app1; [exact C5|]. apply nth_error_Some. congruence.
    + exists (length ds1). rewrite (firstn_all2 ds1) in C4 by lia.
      rewrite firstn_app, Nat.sub_diag, firstn_all, app_nil_r. split; [exact C4|].
      intro O. specialize (C5 O). rewrite (proj2 (nth_error_None ds1 k)) in C5 by lia. discriminate.
Qed.

Lemma tx_conseq {A} (m : M A) w ds n n' (Q Q' : A -> world -> Prop) :
  tx m w ds n Q -> n <= n' -> (forall a w', Q a w' -> Q' a w') -> tx m w ds n' Q'.
Proof.
  intros H Hn HQ S. specialize (H S). destruct (m w) as [[a|e| |] w'];
    destruct H as (new & T & I & St & C); try contradiction; exists new;
    (split; [exact T|]; split; [exact I|]; split; [exact St|]).
  - destruct C as (C1 & C2 & C3). repeat split; auto; lia.
  - destruct C as (C1 & C2 & C3 & C4). repeat split; auto; lia.
Qed.

Lemma tx_ret {A} (a : A) w n (Q : A -> world -> Prop) : Q a w -> tx (ret a) w [] n Q.
Proof.
  intros H S. unfold ret. exists []. rewrite app_nil_r. cbn. repeat split; auto. lia.
Qed.

(** silent steps *)
Lemma tx_step {A B} (m : M A) (f : A -> M B) w a w' ds n Q :
  m w = (Done a, w') -> trace w' = trace w -> ins w' = ins w ->
  tx (f a) w' ds n Q -> tx (bind m f) w ds n Q.
Proof.
  intros E T I H S. rewrite (bind_done _ _ _ _ _ E). rewrite <- T in S. specialize (H S).
  rewrite T, I in H. exact H.
Qed.
Lemma tx_drive {B} f (k : unit -> M B) s p o tr l ds n Q : p <> PReadOnly ->
  tx (k tt) (World s p (f o) tr l) ds n Q ->
  tx (bind (drive f) k) (World s p o tr l) ds n Q.
Proof. intros Hp. apply tx_step; try reflexivity. apply drive_ok, Hp. Qed.
Lemma tx_drive_last f s p o tr l n (Q : unit -> world -> Prop) : p <> PReadOnly ->
  Q tt (World s p (f o) tr l) -> tx (drive f) (World s p o tr l) [] n Q.
Proof.
  intros Hp H S. rewrite (drive_ok _ _ _ _ _ _ Hp). exists []. cbn. rewrite app_nil_r.
  repeat split; auto. lia.
Qed.
Lemma tx_ok {A B} (r : res A) (k : A -> M B) w a ds n Q : r = Ok a ->
  tx (k a) w ds n Q -> tx (bind (of_res r) k) w ds n Q.
Proof. intros ->. apply (tx_step _ _ _ _ w); reflexivity. Qed.
Lemma tx_when {B} (b : bool) f (k : unit -> M B) s p o tr l ds n Q : p <> PReadOnly ->
  tx (k tt) (World s p (if b then f o else o) tr l) ds n Q ->
  tx (bind (if b then drive f else ret tt) k) (World s p o tr l) ds n Q.
Proof. intros Hp H. destruct b; [apply tx_drive; assumption|]. exact H. Qed.

(** idle cycles *)
Lemma tx_edges n w (Q : unit -> world -> Prop) :
  off (out w) = false -> free (trace w) -> ph w <> PReadOnly ->
  (forall p tr l, p <> PReadOnly -> free tr -> Q tt (World (st w) p (out w) tr l)) ->
  tx (edges n) w [] n Q.
Proof.
  intros Ho Hf Hp HQ S. rewrite edges_spec. destruct (n <=? length (ins w)) eqn:E.
  - exists (held (out w) (firstn n (ins w))). cbn [trace ins out].
    rewrite held_fst, firstn_skipn. split; [reflexivity|]. split; [reflexivity|].
    split; [apply stable_held; auto|]. split; [apply transfers_idle, Ho|]. split.
    + pose proof (rc_le acc (firstn n (ins w))) as R. rewrite firstn_length in R. lia.
    + apply HQ; [|apply free_held_idle; assumption]. destruct n; [assumption|discriminate].
  - apply Nat.leb_gt in E. exists (held (out w) (ins w)). cbn [trace ins out].
    rewrite held_fst, app_nil_r. split; [reflexivity|]. split; [reflexivity|].
    destruct (stable_held off acc (ins w) (trace w) (out w) S (Hf _)) as [A B].
    split; [exact A|]. split; [reflexivity|]. split; [exact B|]. split.
    + pose proof (rc_le acc (ins w)). lia.
    + exists 0. split; [apply transfers_idle, Ho|congruence].
Qed.
Lemma tx_edge w (Q : unit -> world -> Prop) :
  off (out w) = false -> free (trace w) -> ph w <> PReadOnly ->
  (forall p tr l, p <> PReadOnly -> free tr -> Q tt (World (st w) p (out w) tr l)) ->
  tx edge w [] 1 Q.
Proof.
  intros Ho Hf Hp HQ. pose proof (tx_edges 1 w Q Ho Hf Hp HQ) as H. unfold tx in *.
  cbn [edges] in H. unfold bind, ret in H. destruct (edge w) as [[[]|e| |] w']; exact H.
Qed.

(** offering a word until it is accepted *)
Lemma tx_offer (m : M unit) w (Q : unit -> world -> Prop) :
  (exists p', m w =
    match span acc (ins w) with
    | (_, []) => (Susp, World (st w) p' (out w) (trace w ++ held (out w) (ins w)) [])
    | (nr, i :: r) => (Done tt, World (st w) PActive (out w) (trace w ++ held (out w) (nr ++ [i])) r)
    end) ->
  off (out w) = true -> settled (trace w) (out w) ->
  (forall tr i l, acc i = true -> Q tt (World (st w) PActive (out w) (tr ++ [(i, out w)]) l)) ->
  tx m w [out w] 1 Q.
Proof.
  intros [p' E] Ho Hs HQ S. rewrite E. clear E.
  pose proof (span_app acc (ins w)) as Sp. pose proof (span_fst acc (ins w)) as Sf.
  destruct (span acc (ins w)) as [nr [|i r]] eqn:Es; cbn [fst snd] in *.
  - rewrite app_nil_r in Sp. subst nr. exists (held (out w) (ins w)). cbn [trace ins out].
    rewrite held_fst, app_nil_r. split; [reflexivity|]. split; [reflexivity|].
    destruct (stable_held off acc (ins w) (trace w) (out w) S Hs) as [A B].
    split; [exact A|]. split; [reflexivity|]. split; [exact B|].
    split; [rewrite rc_none by assumption; lia|]. exists 0. split; [apply transfers_wait, Sf|reflexivity].
  - assert (Ei : acc i = true) by (apply (span_snd acc (ins w) i r); rewrite Es; reflexivity).
    exists (held (out w) (nr ++ [i])). cbn [trace ins out]. rewrite held_fst, <- app_assoc.
    cbn [app]. split; [reflexivity|]. split; [exact Sp|].
    split; [apply stable_held; auto|]. split; [|split].
    + rewrite held_app, transfers_app, transfers_wait by assumption.
      cbn [held map]. rewrite transfers_one by assumption. reflexivity.
    + rewrite rc_app, rc_none by assumption. pose proof (rc_le acc [i]). cbn in *. lia.
    + rewrite held_app, app_assoc. apply HQ, Ei.
Qed.

(** what a finished run of [tx] says *)
Lemma tx_result_next {A} (m : M A) s p o l ds n Q :
  tx m (World s p o [] l) ds n Q ->
  (forall a w, Q a w -> free (trace w)) ->
  let '(r, w) := m (World s p o [] l) in
  map fst (trace w) ++ ins w = l
  /\ (forall i, stable (trace w ++ [(i, out w)]))
  /\ match r with
     | Done a => transfers (trace w) = ds /\ Q a w
     | Susp => ins w = [] /\ rc l < n
               /\ exists k, transfers (trace w) = firstn k ds
                    /\ (off (out w) = true -> nth_error ds k = Some (out w))
     | _ => False
     end.
Proof.
  intros H F. specialize (H I). destruct (m _) as [r w].
  destruct H as (new & T & In & St & C). cbn [trace ins app] in *. subst new.
  split; [exact In|]. destruct r; try contradiction.
  - destruct C as (C1 & C2 & C3). split; [|auto].
    intro i. apply stable_snoc; [exact St|]. exact (F _ _ C3 _).
  - destruct C as (C1 & C2 & C3 & C4). split; [|auto].
    intro i. apply stable_snoc; assumption.
Qed.
Lemma tx_result {A} (m : M A) s p o l ds n Q :
  tx m (World s p o [] l) ds n Q ->
  (forall a w, Q a w -> free (trace w)) ->
  let '(r, w) := m (World s p o [] l) in
  map fst (trace w) ++ ins w = l
  /\ (forall i, stable (trace w ++ [(i, out w)]))
  /\ match r with
     | Done a => transfers (trace w) = ds /\ Q a w
     | Susp => ins w = [] /\ rc l < n /\ exists k, transfers (trace w) = firstn k ds
     | _ => False
     end.
Proof.
  intros H F. pose proof (tx_result_next m s p o l ds n Q H F) as R. destruct (m _) as [r w].
  destruct R as (R1 & R2 & R3). repeat split; try assumption. destruct r; try assumption.
  destruct R3 as (R3 & R4 & k & R5 & _). eauto.
Qed.
End Tx.
