(** AvalonSTProof.v *)
From Verif Require Import Base Async BitsLemmas CompatSpec CompatModel CompatProof DrvUtilModel AvalonSTModel AvalonSTSpec.
From Coq Require Import Lia.
Local Open Scope list_scope.

(** ** Generic facts about traces *)
Section Traces.
Context (hr : bool).
Notation acc := (accepts hr).

Lemma transfers_app a b : transfers hr (a ++ b) = transfers hr a ++ transfers hr b.
Proof. unfold transfers. rewrite filter_app, map_app. reflexivity. Qed.
Lemma transfers_idle o l : o_valid o = L0 -> transfers hr (held o l) = [].
Proof.
  intro H. unfold transfers. replace (filter _ _) with (@nil (logic * st_out)); [reflexivity|].
  induction l as [|i l IH]; cbn; [reflexivity|]. unfold transferred at 1. cbn. rewrite H. exact IH.
Qed.
Lemma transfers_wait o l : Forall (fun i => acc i = false) l -> transfers hr (held o l) = [].
Proof.
  intro H. unfold transfers. replace (filter _ _) with (@nil (logic * st_out)); [reflexivity|].
  induction H as [|i l E _ IH]; cbn; [reflexivity|]. unfold transferred at 1. cbn. rewrite E.
  destruct (o_valid o); exact IH.
Qed.
Lemma transfers_one i o : o_valid o = L1 -> acc i = true -> transfers hr [(i, o)] = [o_data o].
Proof. intros H E. unfold transfers. cbn. unfold transferred. cbn. rewrite H, E. reflexivity. Qed.

(** what is required of the cycle after [tr] *)
Definition settled (tr : list (logic * st_out)) (o : st_out) : Prop :=
  match rev tr with
  | [] => True
  | c :: _ => o_valid (snd c) = L1 -> transferred hr c = false -> o = snd c
  end.

Lemma stable_snoc tr i o : stable hr tr -> settled tr o -> stable hr (tr ++ [(i, o)]).
Proof.
  induction tr as [|c tr IH]; intros H K; [cbn; auto|].
  destruct H as [H1 H2]. cbn [app stable]. split.
  - destruct tr as [|c' tr].
    + cbn. cbn in K. exact K.
    + exact H1.
  - apply IH; [exact H2|]. unfold settled in *. cbn [rev] in K.
    destruct (rev tr) as [|x xs] eqn:E; [exact I|]. exact K.
Qed.
Lemma settled_snoc tr i o o' :
  (o_valid o = L1 -> acc i = false -> o' = o) -> settled (tr ++ [(i, o)]) o'.
Proof.
  intros H. unfold settled. rewrite rev_app_distr. cbn. intros V T. apply H; [exact V|].
  unfold transferred in T. cbn in T. rewrite V in T. exact T.
Qed.
Lemma settled_idle tr i o o' : o_valid o = L0 -> settled (tr ++ [(i, o)]) o'.
Proof. intros H. apply settled_snoc. intro K. rewrite H in K. discriminate. Qed.

Lemma stable_held l : forall tr o, stable hr tr -> settled tr o ->
  stable hr (tr ++ held o l) /\ settled (tr ++ held o l) o.
Proof.
  induction l as [|i l IH]; intros tr o H K.
  - cbn. rewrite app_nil_r. auto.
  - cbn [held map]. change ((i, o) :: map (fun j => (j, o)) l) with ([(i, o)] ++ held o l).
    rewrite app_assoc. apply IH; [apply stable_snoc; assumption|].
    apply settled_snoc. reflexivity.
Qed.
Lemma settled_held_idle tr o l o' : o_valid o = L0 -> settled tr o' -> settled (tr ++ held o l) o'.
Proof.
  intros H K. destruct l as [|i l]; [cbn; rewrite app_nil_r; exact K|].
  destruct (exists_last (l := i :: l) ltac:(discriminate)) as [l' [j E]]. rewrite E.
  rewrite held_app, app_assoc. apply settled_idle, H.
Qed.
End Traces.

Section Send.
Context (width : nat) (hr : bool).
Notation acc := (accepts hr).
Notation world := (world valid logic st_out).

Lemma wait_loop {X Y : Type} fuel : forall (s : X) (o : Y) tr l, length l < fuel -> l <> [] ->
  exists p,
  (loop fuel wait_body tt ;; edge) (World s PReadOnly o tr l) =
  match span (accepts true) l with
  | (_, []) => (Susp, World s p o (tr ++ held o l) [])
  | (nr, i :: r) => (Done tt, World s PActive o (tr ++ held o (nr ++ [i])) r)
  end.
Proof.
  induction fuel as [|f IH]; intros s o tr l Hf Hl; [lia|].
  destruct l as [|i l]; [contradiction|]. clear Hl.
  cbn [span]. destruct (accepts true i) eqn:E.
  - exists PActive. cbn [accepts] in E.
    assert (B : wait_body tt (World s PReadOnly o tr (i :: l)) = (Done (inr tt), World s PReadOnly o tr (i :: l))).
    { unfold wait_body, bind, input, ret. cbn [ins]. destruct i; try discriminate. reflexivity. }
    apply (loop_step f) in B. rewrite (bind_done _ _ _ _ _ B). reflexivity.
  - assert (Ei : is1 i = false) by (destruct i; [reflexivity|discriminate|reflexivity|reflexivity]).
    destruct l as [|j l].
    + exists PActive.
      assert (B : wait_body tt (World s PReadOnly o tr [i]) = (Susp, World s PActive o (tr ++ [(i, o)]) [])).
      { unfold wait_body, bind, input, ret. cbn [ins]. rewrite Ei. reflexivity. }
      apply (loop_susp f) in B. rewrite (bind_susp _ _ _ _ B). reflexivity.
    + destruct (IH s o (tr ++ [(i, o)]) (j :: l)) as [p Hp]; [cbn in *; lia | discriminate |].
      exists p.
      assert (B : wait_body tt (World s PReadOnly o tr (i :: j :: l))
                  = (Done (inl tt), World s PReadOnly o (tr ++ [(i, o)]) (j :: l))).
      { unfold wait_body, bind, input, ret. cbn [ins]. rewrite Ei. reflexivity. }
      apply (loop_step f) in B. unfold bind at 1. rewrite B.
      unfold bind at 1 in Hp. rewrite Hp.
      destruct (span (accepts true) (j :: l)) as [nr [|k r]]; rewrite <- app_assoc; reflexivity.
Qed.

Lemma wait_spec {X Y : Type} fuel (s : X) p (o : Y) tr l : length l < fuel -> p <> PReadOnly ->
  exists p',
  ((if hr then wait_ready fuel else ret tt) ;; edge) (World s p o tr l) =
  match span acc l with
  | (_, []) => (Susp, World s p' o (tr ++ held o l) [])
  | (nr, i :: r) => (Done tt, World s PActive o (tr ++ held o (nr ++ [i])) r)
  end.
Proof.
  intros Hf Hp. destruct hr.
  - destruct l as [|i l].
    + exists p. cbn. unfold bind, wait_ready, bind, readonly. destruct p; try contradiction; cbn;
        rewrite app_nil_r; reflexivity.
    + destruct (wait_loop fuel s o tr (i :: l)) as [p' H]; [exact Hf|discriminate|].
      exists p'. rewrite <- H. unfold bind at 1, wait_ready. unfold bind at 1.
      unfold readonly at 1. destruct p; try contradiction; cbn [ph ins st out trace]; reflexivity.
  - exists p. rewrite span_true by reflexivity. unfold bind, ret, edge. cbn [ins].
    destruct l; cbn; [rewrite app_nil_r|]; reflexivity.
Qed.

(** [gap_code], for any kind of outputs *)
Definition lead (sync : bool) (v : valid) : nat := (if sync then 1 else 0) + fst (throttle v).

Lemma lead_spec {Y : Type} (set0 : Y -> Y) (sync : bool) (s : valid) p (o : Y) (tr : list (logic * Y)) l : p <> PReadOnly -> set0 o = o ->
  exists p', p' <> PReadOnly /\
  ((if sync then edge else ret tt) ;; gap_code set0) (World s p o tr l) =
  if lead sync s <=? length l
  then (Done tt, World (snd (throttle s)) p' o (tr ++ held o (firstn (lead sync s) l)) (skipn (lead sync s) l))
  else (Susp, World s p' o (tr ++ held o l) []).
Proof.
  intros Hp So.
  assert (G : forall p (tr : list (logic * Y)) l, p <> PReadOnly -> exists p', p' <> PReadOnly /\
    gap_code set0 (World s p o tr l) =
    if fst (throttle s) <=? length l
    then (Done tt, World (snd (throttle s)) p' o (tr ++ held o (firstn (fst (throttle s)) l)) (skipn (fst (throttle s)) l))
    else (Susp, World s p' o (tr ++ held o l) [])).
  { clear p tr l Hp. intros p tr l Hp. unfold gap_code, bind, get, put. cbn [st].
    assert (E : (if truthy (v_on s) then ret tt else drive set0) (World s p o tr l)
              = (Done tt, World s p o tr l)).
    { destruct (truthy (v_on s)); [reflexivity|]. rewrite drive_ok, So by assumption. reflexivity. }
    rewrite E, edges_spec. cbn [ins st ph out trace].
    destruct (fst (throttle s) <=? length l).
    - eexists. split; [|reflexivity]. cbn. destruct (fst (throttle s)); [assumption|discriminate].
    - eexists. split; [|reflexivity]. destruct l; [assumption|discriminate]. }
  destruct sync.
  - unfold bind, edge. cbn [ins st ph out trace]. destruct l as [|i l].
    + exists p. split; [assumption|]. cbn. rewrite app_nil_r. reflexivity.
    + destruct (G PActive (tr ++ [(i, o)]) l) as [p' [Hp' E]]; [discriminate|].
      exists p'. split; [assumption|]. rewrite E. unfold lead. cbn [Nat.add length Nat.leb firstn skipn].
      destruct (_ <=? _); cbn [held map]; rewrite <- app_assoc; reflexivity.
  - unfold bind, ret. exact (G p tr l Hp).
Qed.

Definition word (d : bits) : st_out := StOut L1 d.
Definition rest_out : st_out := StOut L0 (xs width).

Lemma st_send_spec fuel value sync s p o tr l :
  length l < fuel -> p <> PReadOnly ->
  let o0 := set_valid L0 o in
  let n := lead sync s in
  exists p' p2, p' <> PReadOnly /\
  st_send width hr fuel value sync (World s p o tr l) =
  if n <=? length l then
    match create_binary value width false with
    | Err e => (Exn e, World (snd (throttle s)) p' (set_valid L1 o) (tr ++ held o0 (firstn n l)) (skipn n l))
    | Ok d =>
        match span acc (skipn n l) with
        | (_, []) => (Susp, World (snd (throttle s)) p2
                                  (word d) (tr ++ held o0 (firstn n l) ++ held (word d) (skipn n l)) [])
        | (nr, i :: r) => (Done tt, World (snd (throttle s)) PActive rest_out
                                          (tr ++ held o0 (firstn n l) ++ held (word d) (nr ++ [i])) r)
        end
    end
  else (Susp, World s p' o0 (tr ++ held o0 l) []).
Proof.
  intros Hf Hp o0 n. unfold st_send.
  rewrite (bind_done _ _ _ _ _ (drive_ok _ _ _ _ _ _ Hp)). fold o0.
  rewrite <- bind_assoc.
  destruct (lead_spec (set_valid L0) sync s p o0 tr l Hp eq_refl) as [p1 [Hp1 E1]]. fold n in E1.
  destruct (n <=? length l) eqn:En.
  2:{ exists p1, p1. split; [assumption|]. rewrite (bind_susp _ _ _ _ E1). reflexivity. }
  destruct (create_binary value width false) as [d|e] eqn:Ed.
  2:{ exists p1, p1. split; [assumption|]. rewrite (bind_done _ _ _ _ _ E1).
      rewrite (bind_done _ _ _ _ _ (drive_ok _ _ _ _ _ _ Hp1)).
      cbn [of_res]. unfold bind, raise. reflexivity. }
  destruct (wait_spec fuel (snd (throttle s)) p1 (word d) (tr ++ held o0 (firstn n l)) (skipn n l)) as [p2 E2];
    [rewrite skipn_length; lia | assumption |].
  exists p1, p2. split; [assumption|]. rewrite (bind_done _ _ _ _ _ E1).
  rewrite (bind_done _ _ _ _ _ (drive_ok _ _ _ _ _ _ Hp1)).
  cbn [of_res]. unfold bind at 1, ret at 1.
  rewrite (bind_done _ _ _ _ _ (drive_ok _ _ _ _ _ _ Hp1)).
  change (set_data d (set_valid L1 o0)) with (word d).
  rewrite <- bind_assoc.
  destruct (span acc (skipn n l)) as [nr [|i r]].
  - rewrite (bind_susp _ _ _ _ E2). cbn [snd ph]. rewrite <- app_assoc. reflexivity.
  - rewrite (bind_done _ _ _ _ _ E2). unfold bind at 1.
    rewrite drive_ok, drive_ok by discriminate. cbn. rewrite <- app_assoc. reflexivity.
Qed.

(** consumption of ready cycles *)
Lemma ready_cycles_app a b : ready_cycles hr (a ++ b) = ready_cycles hr a + ready_cycles hr b.
Proof. unfold ready_cycles. rewrite filter_app, app_length. reflexivity. Qed.
Lemma ready_cycles_le a : ready_cycles hr a <= length a.
Proof. unfold ready_cycles. induction a as [|i a IH]; cbn; [lia|]. destruct (acc i); cbn; lia. Qed.
Lemma ready_cycles_none a : Forall (fun i => acc i = false) a -> ready_cycles hr a = 0.
Proof. unfold ready_cycles. induction 1 as [|i a E _ IH]; cbn; [reflexivity|]. rewrite E. exact IH. Qed.
Lemma ready_cycles_firstn n l : ready_cycles hr l <= n + ready_cycles hr (skipn n l).
Proof.
  rewrite <- (firstn_skipn n l) at 1. rewrite ready_cycles_app.
  pose proof (ready_cycles_le (firstn n l)). rewrite firstn_length in H. lia.
Qed.

Definition encodes (ws : list (binsrc * bool)) (ds : list bits) : Prop :=
  Forall2 (fun w d => create_binary (fst w) width false = Ok d) ws ds.

(** enough ready cycles for the words *)
Fixpoint budget (ws : list (binsrc * bool)) (s : valid) : nat :=
  match ws with
  | [] => 0
  | (_, sync) :: r => lead sync s + 1 + budget r (snd (throttle s))
  end.

Definition post (hr : bool) (ds : list bits) (tr0 : list (logic * st_out)) (l0 : list logic)
           (r : outcome unit * world) : Prop :=
  let w := snd r in
  exists new k,
    trace w = tr0 ++ new /\ map fst new ++ ins w = l0
    /\ transfers hr new = firstn k ds
    /\ stable hr (trace w) /\ settled hr (trace w) (out w)
    /\ match fst r with
       | Done _ => k = length ds /\ ph w <> PReadOnly
                   /\ o_valid (out w) <> L1 /\ (ds = [] \/ exists c tr', new = tr' ++ [c] /\ transferred hr c = true)
       | Susp => k < length ds /\ ins w = []
       | _ => False
       end.

Lemma send_all_post fuel : forall ws ds, encodes ws ds -> forall s p o tr l,
  length l < fuel -> p <> PReadOnly -> o_valid o <> L1 -> stable hr tr ->
  (forall o', settled hr tr o') ->
  post hr ds tr l (st_send_all width hr fuel ws (World s p o tr l))
  /\ (budget ws s <= ready_cycles hr l ->
      exists w, st_send_all width hr fuel ws (World s p o tr l) = (Done tt, w)).
Proof.
  induction 1 as [|[v sync] d ws ds Ed HF IH]; intros s p o tr l Hf Hp Ho Hs Hset.
  - split; [|intros _; eexists; reflexivity].
    exists [], 0. cbn. rewrite app_nil_r. repeat split; auto.
  - cbn [fst] in Ed. unfold st_send_all in *. cbn [for_each fst snd].
    destruct (st_send_spec fuel v sync s p o tr l Hf Hp) as [p' [p2 [Hp' E]]].
    rewrite Ed in E. set (n := lead sync s) in *. set (o0 := set_valid L0 o) in *.
    assert (H0 : stable hr (tr ++ held o0 (firstn n l)) /\ forall o', settled hr (tr ++ held o0 (firstn n l)) o').
    { split; [apply stable_held; auto|]. intro o'. apply settled_held_idle; auto. }
    destruct H0 as [Hs0 Hset0].
    destruct (n <=? length l) eqn:En.
    2:{ (* waiting before the word *)
        rewrite (bind_susp _ _ _ _ E). split.
        - exists (held o0 l), 0. cbn [snd fst trace ins out]. rewrite held_fst, app_nil_r.
          apply Nat.leb_gt in En. rewrite (firstn_all2 l) in Hs0, Hset0 by lia.
          repeat split; auto. apply transfers_idle; reflexivity. cbn; lia.
        - intro B. cbn [budget] in B. fold n in B. apply Nat.leb_gt in En.
          pose proof (ready_cycles_le l). lia. }
    pose proof (span_app acc (skipn n l)) as Sp.
    pose proof (span_fst acc (skipn n l)) as Sf.
    destruct (span acc (skipn n l)) as [nr [|i r]] eqn:Es; cbn [fst snd] in Sp, Sf.
    + (* waiting for ready *)
      rewrite (bind_susp _ _ _ _ E). rewrite app_nil_r in Sp. subst nr. split.
      * exists (held o0 (firstn n l) ++ held (word d) (skipn n l)), 0.
        cbn [snd fst trace ins out]. rewrite map_app, !held_fst, app_nil_r, firstn_skipn.
        rewrite transfers_app, transfers_idle, transfers_wait by (assumption || reflexivity).
        rewrite app_assoc.
        destruct (stable_held hr (skipn n l) _ (word d) Hs0 (Hset0 _)) as [A B].
        repeat split; auto. cbn; lia.
      * intro B. cbn [budget] in B. fold n in B.
        pose proof (ready_cycles_firstn n l). rewrite (ready_cycles_none _ Sf) in H. lia.
    + rewrite (bind_done _ _ _ _ _ E).
      assert (Ei : acc i = true) by (apply (span_snd acc (skipn n l) i r); rewrite Es; reflexivity).
      set (new := held o0 (firstn n l) ++ held (word d) (nr ++ [i])).
      assert (Hnew : map fst new ++ r = l).
      { unfold new. rewrite map_app, !held_fst, <- !app_assoc. cbn [app]. rewrite Sp. apply firstn_skipn. }
      assert (Ht : transfers hr new = [d]).
      { unfold new. rewrite held_app, !transfers_app, transfers_idle, transfers_wait by (assumption || reflexivity).
        cbn [held map]. rewrite transfers_one by (assumption || reflexivity). reflexivity. }
      assert (Hst : stable hr (tr ++ new)).
      { unfold new. rewrite app_assoc. apply stable_held; auto. }
      assert (Hse : forall o', settled hr (tr ++ new) o').
      { intro o'. unfold new. rewrite held_app, !app_assoc. apply settled_snoc. congruence. }
      assert (Hl : length r < fuel).
      { apply (f_equal (@length _)) in Hnew. rewrite app_length in Hnew. lia. }
      destruct (IH (snd (throttle s)) PActive rest_out (tr ++ new) r Hl) as [P B];
        try discriminate; try assumption.
      split.
      * destruct P as (new2 & k & T & I & X & St & Se & C).
        exists (new ++ new2), (S k).
        cbn [snd fst trace ins out firstn]. rewrite T, map_app, <- !app_assoc, I, transfers_app, Ht, X.
        rewrite T in St, Se. rewrite <- !app_assoc in St, Se.
        split; [reflexivity|]. split; [exact Hnew|]. split; [reflexivity|].
        split; [exact St|]. split; [exact Se|].
        destruct (fst (for_each _ ws _)); try contradiction.
        -- destruct C as (C1 & C2 & C3 & C4). cbn [length]. repeat split; auto.
           right. destruct C4 as [->|[c [tr' [-> Tc]]]].
           ++ cbn in X, C1. subst k.
              destruct (exists_last (l := new ++ new2)) as [t [c Ec]].
              { intro Z. apply app_eq_nil in Z. destruct Z as [Z _]. rewrite Z in Ht. discriminate. }
              destruct new2 as [|c2 t2].
              ** exists (i, word d), (held o0 (firstn n l) ++ held (word d) nr).
                 unfold new. rewrite app_nil_r, held_app, app_assoc. split; [reflexivity|].
                 unfold transferred. cbn. exact Ei.
              ** exfalso. assert (ws = []) by (inversion HF; reflexivity). subst ws. 
                 cbn in T. rewrite <- (app_nil_r (tr ++ new)) in T at 1.
                 apply app_inv_head in T. discriminate.
           ++ exists c, (new ++ tr'). rewrite app_assoc. auto.
        -- destruct C as [C1 C2]. split; [cbn; lia|exact C2].
      * intro Bu. cbn [budget] in Bu. fold n in Bu. apply B.
        pose proof (ready_cycles_firstn n l) as R. rewrite <- Sp in R.
        change (nr ++ i :: r) with (nr ++ [i] ++ r) in R.
        rewrite !ready_cycles_app, (ready_cycles_none nr Sf) in R.
        pose proof (ready_cycles_le [i]). cbn [length] in *. lia.
Qed.
End Send.

Section Top.
Context (width : nat) (hr : bool).

Lemma st_all ws ds s p o fuel l :
  encodes width ws ds -> length l < fuel -> p <> PReadOnly -> o_valid o <> L1 ->
  let '(r, w) := st_send_all width hr fuel ws (World s p o [] l) in
  map fst (trace w) ++ ins w = l
  /\ (forall i, stable hr (trace w ++ [(i, out w)]))
  /\ match r with
     | Done _ => transfers hr (trace w) = ds /\ o_valid (out w) <> L1
                 /\ (ds <> [] -> exists before c, trace w = before ++ [c] /\ transferred hr c = true)
     | Susp => ins w = [] /\ exists k, k < length ds /\ transfers hr (trace w) = firstn k ds
     | _ => False
     end.
Proof.
  intros He Hf Hp Ho.
  destruct (send_all_post width hr fuel ws ds He s p o [] l Hf Hp Ho I (fun _ => I)) as [P _].
  destruct (st_send_all _ _ _ _ _) as [r w].
  destruct P as (new & k & T & In & X & St & Se & C). cbn [snd fst app] in *. subst new.
  split; [exact In|]. split; [intro i; apply stable_snoc; assumption|].
  destruct r; try contradiction.
  - destruct C as (-> & _ & Cv & C). rewrite firstn_all in X. split; [exact X|]. split; [exact Cv|].
    intro N. destruct C as [C|[c [t C]]]; [contradiction|]. exists t, c. exact C.
  - destruct C as [C1 C2]. split; [exact C2|]. exists k. auto.
Qed.

Lemma st_progress ws s : exists N, forall ds p o fuel l,
  encodes width ws ds -> length l < fuel -> p <> PReadOnly -> o_valid o <> L1 ->
  N <= ready_cycles hr l -> exists w, st_send_all width hr fuel ws (World s p o [] l) = (Done tt, w).
Proof.
  exists (budget ws s). intros ds p o fuel l He Hf Hp Ho.
  exact (proj2 (send_all_post width hr fuel ws ds He s p o [] l Hf Hp Ho I (fun _ => I))).
Qed.

(** the shape of one send *)
Lemma st_shape fuel value d sync s p o l :
  create_binary value width false = Ok d -> length l < fuel -> p <> PReadOnly ->
  let '(r, w) := st_send width hr fuel value sync (World s p o [] l) in
  exists gap wait,
    trace w = gap ++ wait
    /\ Forall idle gap
    /\ Forall (fun c => snd c = StOut L1 d) wait
    /\ (forall i, r = Done i ->
         length gap = (if sync then 1 else 0) + fst (throttle s)
         /\ st w = snd (throttle s)
         /\ exists before c, wait = before ++ [c] /\ transferred hr c = true
              /\ Forall (fun c => transferred hr c = false) before).
Proof.
  intros Ed Hf Hp. destruct (st_send_spec width hr fuel value sync s p o [] l Hf Hp) as [p' [p2 [Hp' E]]].
  rewrite E, Ed. clear E. set (n := lead sync s). set (o0 := set_valid L0 o).
  assert (G : forall l, Forall idle (held o0 l)).
  { intro x. apply Forall_forall. intros c H. apply in_map_iff in H. destruct H as [i [<- _]]. reflexivity. }
  assert (W : forall l : list logic, Forall (fun c : logic * st_out => snd c = StOut L1 d) (held (word d) l)).
  { intro x. apply Forall_forall. intros c H. apply in_map_iff in H. destruct H as [i [<- _]]. reflexivity. }
  destruct (n <=? length l) eqn:En.
  - pose proof (span_fst (accepts hr) (skipn n l)) as Sf.
    destruct (span (accepts hr) (skipn n l)) as [nr [|i r]] eqn:Es; cbn [fst snd] in Sf.
    + exists (held o0 (firstn n l)), (held (word d) (skipn n l)). repeat split; auto; discriminate.
    + exists (held o0 (firstn n l)), (held (word d) (nr ++ [i])).
      split; [reflexivity|]. split; [apply G|]. split; [apply W|]. intros _ _.
      split. { unfold held. rewrite map_length, firstn_length. apply Nat.leb_le in En. fold (lead sync s). fold n. lia. }
      split; [reflexivity|].
      exists (held (word d) nr), (i, word d). rewrite held_app. split; [reflexivity|].
      split. { unfold transferred. cbn. apply (span_snd _ (skipn n l) i r). rewrite Es. reflexivity. }
      apply Forall_forall. intros c H. apply in_map_iff in H. destruct H as [j [<- Hj]].
      unfold transferred. cbn. rewrite Forall_forall in Sf. auto.
  - exists (held o0 l), []. cbn [trace]. rewrite app_nil_r. repeat split; auto; discriminate.
Qed.

(** monitor *)
Lemma st_monitor_transfers be tr :
  st_monitor hr be tr =
  (fix go (ds : list bits) := match ds with
     | [] => ([], None)
     | d :: r => match convert_binary_to_bytes d be with
                 | Err e => ([], Some e)
                 | Ok b => let '(l, e) := go r in (b :: l, e)
                 end
     end) (transfers hr tr).
Proof.
  induction tr as [|[i o] tr IH]; [reflexivity|].
  cbn [st_monitor]. unfold transfers. cbn [filter].
  assert (E : st_transfer hr (i, o) = transferred hr (i, o)).
  { unfold st_transfer, transferred, accepts. cbn. destruct hr, (o_valid o), i; reflexivity. }
  rewrite E. destruct (transferred hr (i, o)).
  - cbn [map snd]. destruct (convert_binary_to_bytes (o_data o) be); [|reflexivity].
    rewrite IH. reflexivity.
  - rewrite IH. reflexivity.
Qed.
End Top.

Lemma convert_little_word b k be : all_bytes b -> length b = k ->
  exists d, create_binary (BBytes b) (8 * k) false = Ok d
    /\ convert_binary_to_bytes d be = Ok (if be then rev b else b).
Proof.
  intros Hb Hl. rewrite create_bytes_little by lia.
  eexists; split; [reflexivity|]. subst k. rewrite Nat.sub_diag. cbn [repeat]. rewrite app_nil_r.
  destruct be.
  - rewrite convert_bytes_bits_big; [reflexivity|]. apply all_bytes_rev, Hb.
  - rewrite convert_bytes_bits_little; [reflexivity|assumption].
Qed.

Lemma st_round_trip k hr be ws s p o fuel l :
  Forall (fun w => all_bytes (fst w) /\ length (fst w) = k) ws ->
  length l < fuel -> p <> PReadOnly -> o_valid o <> L1 ->
  let words := map fst ws in
  let '(r, w) := st_send_all (8 * k) hr fuel (map (fun x => (BBytes (fst x), snd x)) ws) (World s p o [] l) in
  exists n, st_monitor hr be (trace w) = (firstn n (map (fun b => if be then rev b else b) words), None)
    /\ match r with Done _ => n = length ws | Susp => ins w = [] /\ n < length ws | _ => False end.
Proof.
  intros H Hf Hp Ho words.
  assert (Hds : exists ds, encodes (8 * k) (map (fun x => (BBytes (fst x), snd x)) ws) ds
    /\ Forall2 (fun d b => convert_binary_to_bytes d be = Ok b) ds (map (fun b => if be then rev b else b) words)).
  { subst words. clear -H. induction H as [|[b sy] ws [Hb Hl] _ IH].
    - exists []. split; constructor.
    - destruct IH as [ds [A B]]. cbn [fst] in *.
      destruct (convert_little_word b k be Hb Hl) as [d [D1 D2]].
      exists (d :: ds). split; constructor; auto. }
  destruct Hds as [ds [Hds Hc]].
  pose proof (st_all (8 * k) hr _ ds s p o fuel l Hds Hf Hp Ho) as P.
  destruct (st_send_all _ _ _ _ _) as [r w]. destruct P as (_ & _ & P).
  assert (L : length ds = length ws).
  { apply Forall2_len in Hds. rewrite map_length in Hds. auto. }
  assert (G : forall n, transfers hr (trace w) = firstn n ds ->
    st_monitor hr be (trace w) = (firstn n (map (fun b => if be then rev b else b) words), None)).
  { intros n E. rewrite st_monitor_transfers, E. clear -Hc. revert n.
    induction Hc as [|d b ds bs E _ IH]; intros [|n]; try reflexivity.
    cbn [firstn]. rewrite E, IH. reflexivity. }
  destruct r; try contradiction.
  - exists (length ds). destruct P as [P _]. rewrite <- (firstn_all ds) in P at 1. split; auto.
  - destruct P as [P [n [Hn E]]]. exists n. split; [auto|]. split; [exact P|lia].
Qed.

(** a word the driver rejects *)
Lemma st_reject width hr fuel value e (sync : bool) s p o l :
  create_binary value width false = Err e -> length l < fuel -> p <> PReadOnly ->
  (if sync then 1 else 0) + fst (throttle s) <= length l ->
  exists w, st_send width hr fuel value sync (World s p o [] l) = (Exn e, w)
    /\ out w = StOut L1 (o_data o) /\ ph w <> PReadOnly
    /\ ins w = skipn ((if sync then 1 else 0) + fst (throttle s)) l.
Proof.
  intros Ed Hf Hp Hl. destruct (st_send_spec width hr fuel value sync s p o [] l Hf Hp) as [p' [p2 [Hp' E]]].
  rewrite Ed in E. unfold lead in E. destruct (Nat.leb_spec ((if sync then 1 else 0) + fst (throttle s)) (length l)); [|lia].
  eexists. split; [exact E|]. cbn. auto.
Qed.
Lemma st_raises width hr fuel value (sync : bool) s p o l e w :
  length l < fuel -> p <> PReadOnly ->
  st_send width hr fuel value sync (World s p o [] l) = (Exn e, w) ->
  create_binary value width false = Err e /\ transfers hr (trace w) = [].
Proof.
  intros Hf Hp H. destruct (st_send_spec width hr fuel value sync s p o [] l Hf Hp) as (p' & p2 & _ & E).
  rewrite E in H. clear E. destruct (_ <=? length l); [|discriminate].
  destruct (create_binary value width false) as [d|e'].
  - destruct (span _ _) as [nr [|i r]]; discriminate.
  - inversion H; subst. split; [reflexivity|]. cbn [trace app]. unfold transfers.
    clear. generalize (firstn (lead sync s) l). intro a. induction a as [|x y IH]; [reflexivity|]. cbn. exact IH.
Qed.
