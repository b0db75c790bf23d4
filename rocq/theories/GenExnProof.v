(** GenExnProof.v *)
From Verif Require Import Base Async BitsLemmas CompatModel DrvUtilModel DrvUtilSpec DrvUtilProof AvalonSTModel AvalonSTSpec AvalonSTProof
  GenExnModel GenExnSpec.
From Coq Require Import Lia.
Local Open Scope list_scope.

(** ** One send *)
(** length of the gap, the state after it, and what it raises *)
Definition x_throttle (s : xvalid) : nat * xvalid * res unit :=
  if truthy (x_on s) then (0, x_consume s, Ok tt)
  else match x_off s with
       | None => (0, s, Err EType)
       | Some n => (Z.to_nat n,
                    match snd (x_next s) with Ok _ => x_consume (fst (x_next s)) | Err _ => fst (x_next s) end,
                    snd (x_next s))
       end.
Definition x_len s := fst (fst (x_throttle s)).
Definition x_then s := snd (fst (x_throttle s)).
Definition x_exn s := snd (x_throttle s).
Definition x_lead (sync : bool) s := (if sync then 1 else 0) + x_len s.

Lemma x_gap_spec s p o (tr : list (logic * st_out)) l : p <> PReadOnly -> o_valid o = L0 ->
  exists p', p' <> PReadOnly /\
  x_gap (World s p o tr l) =
  if x_len s <=? length l
  then (match x_exn s with Ok _ => Done tt | Err e => Exn e end,
        World (x_then s) p' o (tr ++ held o (firstn (x_len s) l)) (skipn (x_len s) l))
  else (Susp, World s p' o (tr ++ held o l) []).
Proof.
  intros Hp Ho. unfold x_gap. unfold bind at 1, get at 1. cbn [st].
  unfold x_len, x_then, x_exn, x_throttle. destruct (truthy (x_on s)) eqn:T.
  - exists p. split; [exact Hp|]. cbn. rewrite app_nil_r. reflexivity.
  - rewrite bind_assoc. rewrite (bind_done _ _ _ _ _ (drive_ok _ _ _ _ _ _ Hp)).
    replace (set_valid L0 o) with o by (destruct o; cbn in *; subst; reflexivity).
    rewrite bind_assoc. destruct (x_off s) as [n|] eqn:Eo.
    + cbn [fst snd]. pose proof (edges_spec (Z.to_nat n) (World s p o tr l)) as E. cbn [ins st ph out trace] in E.
      destruct (Z.to_nat n <=? length l).
      * rewrite (bind_done _ _ _ _ _ E). eexists.
        split; cycle 1; [unfold bind, get, put; cbn [st]; destruct (x_next s) as [s' [u|e]]; cbn; reflexivity|].
        cbn. destruct (Z.to_nat n); [assumption|discriminate].
      * rewrite (bind_susp _ _ _ _ E). eexists. split; [|reflexivity]. destruct l; [assumption|discriminate].
    + exists p. split; [exact Hp|]. cbn. rewrite app_nil_r. reflexivity.
Qed.

Lemma x_lead_spec (sync : bool) s p o (tr : list (logic * st_out)) l : p <> PReadOnly -> o_valid o = L0 ->
  exists p', p' <> PReadOnly /\
  ((if sync then edge else ret tt) ;; x_gap) (World s p o tr l) =
  if x_lead sync s <=? length l
  then (match x_exn s with Ok _ => Done tt | Err e => Exn e end,
        World (x_then s) p' o (tr ++ held o (firstn (x_lead sync s) l)) (skipn (x_lead sync s) l))
  else (Susp, World s p' o (tr ++ held o l) []).
Proof.
  intros Hp Ho. destruct sync.
  - unfold bind, edge. cbn [ins st ph out trace]. destruct l as [|i l].
    + exists p. split; [assumption|]. cbn. rewrite app_nil_r. reflexivity.
    + destruct (x_gap_spec s PActive o (tr ++ [(i, o)]) l) as [p' [Hp' E]]; [discriminate|assumption|].
      exists p'. split; [assumption|]. rewrite E. unfold x_lead. cbn [Nat.add length Nat.leb firstn skipn].
      destruct (_ <=? _); cbn [held map]; rewrite <- app_assoc; reflexivity.
  - unfold bind, ret. exact (x_gap_spec s p o tr l Hp Ho).
Qed.

Section Send.
Context (width : nat) (hr : bool).
Notation acc := (accepts hr).

Lemma x_send_spec fuel value (sync : bool) s p o (tr : list (logic * st_out)) l d :
  create_binary value width false = Ok d -> length l < fuel -> p <> PReadOnly ->
  let o0 := set_valid L0 o in
  let n := x_lead sync s in
  exists p' p2, p' <> PReadOnly /\
  x_send width hr fuel value sync (World s p o tr l) =
  if n <=? length l then
    match x_exn s with
    | Err e => (Exn e, World (x_then s) p' o0 (tr ++ held o0 (firstn n l)) (skipn n l))
    | Ok _ =>
        match span acc (skipn n l) with
        | (_, []) => (Susp, World (x_then s) p2
                                  (word d) (tr ++ held o0 (firstn n l) ++ held (word d) (skipn n l)) [])
        | (nr, i :: r) => (Done tt, World (x_then s) PActive (rest_out width)
                                          (tr ++ held o0 (firstn n l) ++ held (word d) (nr ++ [i])) r)
        end
    end
  else (Susp, World s p' o0 (tr ++ held o0 l) []).
Proof.
  intros Ed Hf Hp o0 n. unfold x_send.
  rewrite (bind_done _ _ _ _ _ (drive_ok _ _ _ _ _ _ Hp)). fold o0.
  rewrite <- bind_assoc.
  destruct (x_lead_spec sync s p o0 tr l Hp eq_refl) as [p1 [Hp1 E1]]. fold n in E1.
  destruct (n <=? length l) eqn:En.
  2:{ exists p1, p1. split; [assumption|]. rewrite (bind_susp _ _ _ _ E1). reflexivity. }
  destruct (x_exn s) as [u|e].
  2:{ exists p1, p1. split; [assumption|]. unfold bind at 1. rewrite E1. reflexivity. }
  destruct (wait_spec hr fuel (x_then s) p1 (word d) (tr ++ held o0 (firstn n l)) (skipn n l)) as [p2 E2];
    [rewrite skipn_length; lia | assumption |].
  exists p1, p2. split; [assumption|]. rewrite (bind_done _ _ _ _ _ E1).
  rewrite (bind_done _ _ _ _ _ (drive_ok _ _ _ _ _ _ Hp1)).
  rewrite Ed. cbn [of_res]. unfold bind at 1, ret at 1.
  rewrite (bind_done _ _ _ _ _ (drive_ok _ _ _ _ _ _ Hp1)).
  change (set_data d (set_valid L1 o0)) with (word d).
  rewrite <- bind_assoc.
  destruct (span acc (skipn n l)) as [nr [|i r]].
  - rewrite (bind_susp _ _ _ _ E2). rewrite <- app_assoc. reflexivity.
  - rewrite (bind_done _ _ _ _ _ E2). unfold bind at 1.
    rewrite drive_ok, drive_ok by discriminate. cbn. rewrite <- app_assoc. reflexivity.
Qed.

(** ** Many sends *)
(** [states s rs s']: sends with the results [rs] lead from [s] to [s'] *)
Fixpoint states (s : xvalid) (rs : list (res unit)) (s' : xvalid) : Prop :=
  match rs with
  | [] => s' = s
  | r :: rs' => r = x_exn s /\ states (x_then s) rs' s'
  end.

Definition x_post (ds : list bits) (s : xvalid) (tr0 : list (logic * st_out)) (l0 : list logic)
           (r : outcome (list (res unit)) * world xvalid logic st_out) : Prop :=
  let w := snd r in
  exists new rs s',
    trace w = tr0 ++ new /\ map fst new ++ ins w = l0
    /\ transfers hr new = returned ds rs /\ states s rs s'
    /\ stable hr (trace w) /\ settled hr (trace w) (out w)
    /\ match fst r with
       | Done x => rs = x /\ length rs = length ds /\ st w = s' /\ ph w <> PReadOnly /\ o_valid (out w) <> L1
       | Susp => length rs < length ds /\ ins w = []
       | _ => False
       end.

Lemma x_send_each_post fuel : forall ws ds, Forall2 (fun w d => create_binary (fst w) width false = Ok d) ws ds ->
  forall s p o tr l,
  length l < fuel -> p <> PReadOnly -> o_valid o <> L1 -> stable hr tr ->
  (forall o', settled hr tr o') ->
  x_post ds s tr l (x_send_each width hr fuel ws (World s p o tr l)).
Proof.
  induction 1 as [|[v sync] d ws ds Ed HF IH]; intros s p o tr l Hf Hp Ho Hs Hset.
  - exists [], [], s. cbn. rewrite app_nil_r. repeat split; auto.
  - cbn [fst] in Ed. cbn [x_send_each].
    destruct (x_send_spec fuel v sync s p o tr l d Ed Hf Hp) as [p' [p2 [Hp' E]]].
    set (n := x_lead sync s) in *. set (o0 := set_valid L0 o) in *.
    assert (H0 : stable hr (tr ++ held o0 (firstn n l)) /\ forall o', settled hr (tr ++ held o0 (firstn n l)) o').
    { split; [apply stable_held; auto|]. intro o'. apply settled_held_idle; auto. }
    destruct H0 as [Hs0 Hset0].
    assert (Rec : forall new p1 o1 r x,
      x_send width hr fuel v sync (World s p o tr l) = (match x with Ok _ => Done tt | Err e => Exn e end, World (x_then s) p1 o1 (tr ++ new) r) ->
      x = x_exn s -> map fst new ++ r = l -> transfers hr new = match x with Ok _ => [d] | Err _ => [] end ->
      stable hr (tr ++ new) -> (forall o', settled hr (tr ++ new) o') -> p1 <> PReadOnly -> o_valid o1 <> L1 ->
      x_post (d :: ds) s tr l ((x <- attempt (x_send width hr fuel v sync) ;; xs <- x_send_each width hr fuel ws ;; ret (x :: xs)) (World s p o tr l))).
    { intros new p1 o1 r x Ex Exx El Et Hst Hse Hp1 Ho1.
      assert (A : attempt (x_send width hr fuel v sync) (World s p o tr l) = (Done x, World (x_then s) p1 o1 (tr ++ new) r)).
      { unfold attempt. rewrite Ex. destruct x as [[]|e]; reflexivity. }
      rewrite (bind_done _ _ _ _ _ A).
      assert (Hl : length r < fuel).
      { apply (f_equal (@length _)) in El. rewrite app_length in El. lia. }
      specialize (IH (x_then s) p1 o1 (tr ++ new) r Hl Hp1 Ho1 Hst Hse).
      unfold bind. destruct (x_send_each width hr fuel ws _) as [rr w] eqn:Er.
      destruct IH as (new2 & rs & s' & T & I & X & Sts & St & Se & C). cbn [fst snd] in *.
      exists (new ++ new2), (x :: rs), s'.
      assert (Y : transfers hr (new ++ new2) = returned (d :: ds) (x :: rs)).
      { rewrite transfers_app, Et, X. destruct x as [[]|e]; reflexivity. }
      destruct rr as [xs|e| |]; try contradiction; cbn [ret fst snd trace ins out st ph] in *;
        rewrite T, map_app, <- !app_assoc, I; rewrite T, <- !app_assoc in St, Se;
        split; try reflexivity; (split; [exact El|]); (split; [exact Y|]); (split; [split; assumption|]);
        (split; [exact St|]); (split; [exact Se|]).
      - destruct C as (-> & C2 & C3). split; [reflexivity|]. split; [cbn; lia|exact C3].
      - destruct C as [C1 C2]. split; [cbn; lia|exact C2]. }
    destruct (n <=? length l) eqn:En.
    2:{ (* waiting before the word *)
        clear Rec. unfold bind, attempt. rewrite E.
        exists (held o0 l), [], s. cbn [snd fst trace ins out]. rewrite held_fst, app_nil_r.
        apply Nat.leb_gt in En. rewrite (firstn_all2 l) in Hs0, Hset0 by lia.
        repeat split; auto. apply transfers_idle; reflexivity. cbn; lia. }
    destruct (x_exn s) as [u|e] eqn:Ex.
    2:{ apply (Rec (held o0 (firstn n l)) p' o0 (skipn n l) (Err e)); auto.
        - rewrite held_fst. apply firstn_skipn.
        - apply transfers_idle; reflexivity.
        - discriminate. }
    pose proof (span_app acc (skipn n l)) as Sp.
    pose proof (span_fst acc (skipn n l)) as Sf.
    destruct (span acc (skipn n l)) as [nr [|i r]] eqn:Es; cbn [fst snd] in Sp, Sf.
    + (* waiting for ready *)
      clear Rec. unfold bind, attempt. rewrite E. rewrite app_nil_r in Sp. subst nr.
      exists (held o0 (firstn n l) ++ held (word d) (skipn n l)), [], s.
      cbn [snd fst trace ins out]. rewrite map_app, !held_fst, app_nil_r, firstn_skipn.
      rewrite transfers_app, transfers_idle, transfers_wait by (assumption || reflexivity).
      rewrite app_assoc.
      destruct (stable_held hr (skipn n l) _ (word d) Hs0 (Hset0 _)) as [A B].
      repeat split; auto. cbn; lia.
    + assert (Ei : acc i = true) by (apply (span_snd acc (skipn n l) i r); rewrite Es; reflexivity).
      apply (Rec (held o0 (firstn n l) ++ held (word d) (nr ++ [i])) PActive (rest_out width) r (Ok tt)).
      * exact E.
      * destruct u; reflexivity.
      * rewrite map_app, !held_fst, <- !app_assoc. cbn [app]. rewrite Sp. apply firstn_skipn.
      * rewrite held_app, !transfers_app, transfers_idle, transfers_wait by (assumption || reflexivity).
        cbn [held map]. rewrite transfers_one by (assumption || reflexivity). reflexivity.
      * rewrite app_assoc. apply stable_held; auto.
      * intro o'. rewrite held_app, !app_assoc. apply settled_snoc. congruence.
      * discriminate.
      * discriminate.
Qed.
End Send.

(** ** The states *)
(** what the source will still raise *)
Definition to_raise (s : xvalid) : list exn :=
  match x_src s with Some (Iter l) => errors l | _ => [] end.
(** range(self.off) does not raise *)
Definition has_off (s : xvalid) : Prop := x_on s = OnTrue \/ x_off s <> None.
Definition iterates (s : xvalid) : Prop := x_src s <> Some NotIterator.

Lemma pull_inv l : forall off, let '(s', r) := x_pull l off in
  errors l = match r with Ok _ => [] | Err e => [e] end ++ to_raise s' /\ iterates s'
  /\ (off <> None -> has_off s') /\ (r = Ok tt -> has_off s').
Proof.
  induction l as [|[[on o]|e] l IH]; intro off; cbn [x_pull].
  - cbn. repeat split; try discriminate; left; reflexivity.
  - destruct (on =? 0)%Z.
    + specialize (IH (Some o)). destruct (x_pull l (Some o)) as [s' r]. destruct IH as (A & B & C & D).
      cbn [errors flat_map app]. repeat split; auto. intros _. apply C. discriminate.
    + cbn. repeat split; try discriminate; right; discriminate.
  - cbn. repeat split; try discriminate; [intro H; right; exact H].
Qed.
Lemma next_inv s : iterates s -> let '(s', r) := x_next s in
  to_raise s = match r with Ok _ => [] | Err e => [e] end ++ to_raise s' /\ iterates s'
  /\ (x_off s <> None -> has_off s') /\ (r = Ok tt -> has_off s').
Proof.
  unfold iterates, x_next. destruct (x_src s) as [[|l]|] eqn:E; intro H.
  - congruence.
  - pose proof (pull_inv l (x_off s)) as P. unfold to_raise at 1. rewrite E. exact P.
  - unfold to_raise at 1. rewrite E. cbn. repeat split; try discriminate; left; reflexivity.
Qed.
Lemma consume_inv s : to_raise (x_consume s) = to_raise s /\ (iterates s -> iterates (x_consume s)) /\ (has_off s -> has_off (x_consume s)).
Proof.
  unfold x_consume. destruct (x_on s) as [|z] eqn:E; [auto|]. destruct (z =? 0)%Z; [auto|].
  unfold to_raise, iterates, has_off. cbn. rewrite E. repeat split; auto. intros [H|H]; [discriminate|auto].
Qed.
Lemma throttle_inv s : iterates s -> has_off s ->
  to_raise s = match x_exn s with Ok _ => [] | Err e => [e] end ++ to_raise (x_then s) /\ iterates (x_then s) /\ has_off (x_then s).
Proof.
  intros I H. unfold x_exn, x_then, x_throttle. destruct (truthy (x_on s)) eqn:T.
  - cbn. destruct (consume_inv s) as (A & B & C). rewrite A. auto.
  - destruct (x_off s) as [n|] eqn:Eo.
    2:{ destruct H as [H|H]; [rewrite H in T; discriminate|congruence]. }
    cbn. pose proof (next_inv s I) as N. destruct (x_next s) as [s' r]. cbn [fst snd]. destruct N as (A & B & C & _).
    rewrite Eo in C. specialize (C ltac:(discriminate)). rewrite A. destruct (consume_inv s') as (D & E & F).
    destruct r; [rewrite D|]; auto.
Qed.
Lemma states_errors rs : forall s s', iterates s -> has_off s -> states s rs s' ->
  to_raise s = errors rs ++ to_raise s'.
Proof.
  induction rs as [|r rs IH]; intros s s' I H S.
  - cbn in S. subst. reflexivity.
  - destruct S as [-> S]. destruct (throttle_inv s I H) as (A & B & C). rewrite A, (IH _ _ B C S).
    cbn [errors flat_map]. rewrite app_assoc. reflexivity.
Qed.
Lemma set_inv l s0 s : x_set (Some (Iter l)) s0 = (s, Ok tt) -> errors l = to_raise s /\ iterates s /\ has_off s.
Proof.
  intro E. unfold x_set in E. pose proof (next_inv (XValid (x_on s0) (x_off s0) (Some (Iter l))) ltac:(discriminate)) as N.
  rewrite E in N. destruct N as (A & B & _ & D). auto.
Qed.

(** refused generators *)
Definition stuck (s : xvalid) : Prop := x_on s = OnInt 0 /\ x_src s = Some NotIterator.
Lemma stuck_step s : stuck s -> x_exn s = Err EType /\ stuck (x_then s).
Proof.
  intros [A B]. unfold x_exn, x_then, x_throttle. rewrite A. cbn [truthy Z.eqb negb].
  destruct (x_off s) eqn:Eo; [|split; [reflexivity|split; assumption]].
  unfold x_next. rewrite B. cbn. repeat split.
Qed.
Lemma stuck_states rs : forall s s', stuck s -> states s rs s' -> rs = repeat (Err EType) (length rs).
Proof.
  induction rs as [|r rs IH]; intros s s' K S; [reflexivity|]. destruct S as [-> S]. destruct (stuck_step s K) as [A B].
  cbn [length repeat]. rewrite A. f_equal. exact (IH _ _ B S).
Qed.
Lemma returned_stuck {A} (ds : list A) : forall n, returned ds (repeat (Err EType) n) = [].
Proof. induction ds as [|d ds IH]; intros [|n]; cbn; auto. Qed.

(** a set_valid_generator with None as self.off *)
Definition no_range (s : xvalid) : Prop := x_on s = OnInt 0 /\ x_off s = None.
Lemma norange_step s : no_range s -> x_exn s = Err EType /\ x_then s = s.
Proof. intros [A B]. unfold x_exn, x_then, x_throttle. rewrite A. cbn [truthy Z.eqb negb]. rewrite B. split; reflexivity. Qed.
Lemma norange_states rs : forall s s', no_range s -> states s rs s' -> rs = repeat (Err EType) (length rs).
Proof.
  induction rs as [|r rs IH]; intros s s' K S; [reflexivity|]. destruct S as [-> S]. destruct (norange_step s K) as [A B].
  rewrite B in S. cbn [length repeat]. rewrite A. f_equal. exact (IH _ _ K S).
Qed.

(** ** Top *)
Section Top.
Context (width : nat) (hr : bool).

Lemma x_all ws ds s p o fuel l :
  Forall2 (fun w d => create_binary (fst w) width false = Ok d) ws ds ->
  length l < fuel -> p <> PReadOnly -> o_valid o <> L1 ->
  let '(r, w) := x_send_each width hr fuel ws (World s p o [] l) in
  map fst (trace w) ++ ins w = l
  /\ (forall i, stable hr (trace w ++ [(i, out w)]))
  /\ exists rs s', states s rs s' /\ transfers hr (trace w) = returned ds rs
     /\ match r with
     | Done x => rs = x /\ length rs = length ws /\ o_valid (out w) <> L1
     | Susp => ins w = [] /\ length rs < length ws
     | _ => False
     end.
Proof.
  intros He Hf Hp Ho.
  pose proof (x_send_each_post width hr fuel ws ds He s p o [] l Hf Hp Ho I (fun _ => I)) as P.
  rewrite (Forall2_len _ _ _ He).
  destruct (x_send_each _ _ _ _ _) as [r w].
  destruct P as (new & rs & s' & T & In & X & Sts & St & Se & C). cbn [snd fst app] in *. subst new.
  split; [exact In|]. split; [intro i; apply stable_snoc; assumption|].
  exists rs, s'. split; [exact Sts|]. split; [exact X|].
  destruct r; try contradiction.
  - destruct C as (-> & L & _ & _ & Cv). auto.
  - destruct C as [C1 C2]. auto.
Qed.

Lemma x_iter l0 s0 s ws ds p o fuel l :
  x_set (Some (Iter l0)) s0 = (s, Ok tt) ->
  Forall2 (fun w d => create_binary (fst w) width false = Ok d) ws ds ->
  length l < fuel -> p <> PReadOnly -> o_valid o <> L1 ->
  let '(r, w) := x_send_each width hr fuel ws (World s p o [] l) in
  map fst (trace w) ++ ins w = l
  /\ (forall i, stable hr (trace w ++ [(i, out w)]))
  /\ exists rs more, errors l0 = errors rs ++ more /\ transfers hr (trace w) = returned ds rs
     /\ match r with
     | Done x => rs = x /\ length rs = length ws /\ o_valid (out w) <> L1
     | Susp => ins w = [] /\ length rs < length ws
     | _ => False
     end.
Proof.
  intros Es He Hf Hp Ho. pose proof (x_all ws ds s p o fuel l He Hf Hp Ho) as P.
  destruct (x_send_each _ _ _ _ _) as [r w]. destruct P as (A & B & rs & s' & C & D & E).
  split; [exact A|]. split; [exact B|]. destruct (set_inv _ _ _ Es) as (F & G & H).
  exists rs, (to_raise s'). rewrite F, (states_errors _ _ _ G H C). auto.
Qed.

Lemma x_refused s0 ws ds p o fuel l :
  Forall2 (fun w d => create_binary (fst w) width false = Ok d) ws ds ->
  length l < fuel -> p <> PReadOnly -> o_valid o <> L1 ->
  exists s, x_set (Some NotIterator) s0 = (s, Err EType) /\
  let '(r, w) := x_send_each width hr fuel ws (World s p o [] l) in
  transfers hr (trace w) = []
  /\ match r with Done rs => rs = repeat (Err EType) (length ws) | Susp => ins w = [] | _ => False end.
Proof.
  intros He Hf Hp Ho. eexists. split; [reflexivity|].
  set (s := XValid _ _ _). assert (K : stuck s) by (split; reflexivity).
  pose proof (x_all ws ds s p o fuel l He Hf Hp Ho) as P.
  destruct (x_send_each _ _ _ _ _) as [r w]. destruct P as (A & B & rs & s' & C & D & E).
  rewrite (stuck_states _ _ _ K C) in D. rewrite D, returned_stuck. split; [reflexivity|].
  destruct r; try contradiction; [|apply E]. destruct E as (<- & L & _). rewrite <- L. exact (stuck_states _ _ _ K C).
Qed.

Lemma x_none_off e r ws ds p o fuel l :
  Forall2 (fun w d => create_binary (fst w) width false = Ok d) ws ds ->
  length l < fuel -> p <> PReadOnly -> o_valid o <> L1 ->
  exists s0 s, x_construct (Some (Iter [])) = (s0, Ok tt) /\ x_set (Some (Iter (Err e :: r))) s0 = (s, Err e) /\
  let '(x, w) := x_send_each width hr fuel ws (World s p o [] l) in
  transfers hr (trace w) = []
  /\ match x with Done rs => rs = repeat (Err EType) (length ws) | Susp => ins w = [] | _ => False end.
Proof.
  intros He Hf Hp Ho. eexists. eexists. split; [reflexivity|]. split; [reflexivity|].
  set (s := XValid _ _ _). assert (K : no_range s) by (split; reflexivity).
  pose proof (x_all ws ds s p o fuel l He Hf Hp Ho) as P.
  destruct (x_send_each _ _ _ _ _) as [x w]. destruct P as (A & B & rs & s' & C & D & E).
  rewrite (norange_states _ _ _ K C) in D. rewrite D, returned_stuck. split; [reflexivity|].
  destruct x; try contradiction; [|apply E]. destruct E as (<- & L & _). rewrite <- L. exact (norange_states _ _ _ K C).
Qed.

(** one send: a raising gap leaves the bus idle *)
Lemma x_one fuel value (sync : bool) d s p o l e w :
  create_binary value width false = Ok d -> length l < fuel -> p <> PReadOnly ->
  x_send width hr fuel value sync (World s p o [] l) = (Exn e, w) ->
  o_valid (out w) = L0 /\ Forall idle (trace w) /\ ph w <> PReadOnly.
Proof.
  intros Ed Hf Hp E. destruct (x_send_spec width hr fuel value sync s p o [] l d Ed Hf Hp) as (p' & p2 & Hp' & E').
  rewrite E in E'. destruct (_ <=? _); [|discriminate]. destruct (x_exn s).
  - destruct (span _ _) as [nr [|i r]]; discriminate.
  - injection E' as _ ->. cbn [out trace ph app]. split; [reflexivity|]. split; [|exact Hp'].
    unfold held. apply Forall_map, Forall_forall. intros i _. reflexivity.
Qed.
End Top.

(** ** No exceptions: the driver of AvalonSTModel *)
Definition same (v : valid) (x : xvalid) : Prop :=
  x_on x = v_on v /\ x_src x = option_map (fun g => Iter (map Ok g)) (v_gen v)
  /\ (x_on x = OnTrue \/ x_off x = Some (v_off v)).
Lemma same_pull g : forall off off', (off' = Some off \/ off' = None) ->
  let '(x, r) := x_pull (map Ok g) off' in r = Ok tt /\ same (next_pair g off) x.
Proof.
  induction g as [|[on o] g IH]; intros off off' H; cbn [map x_pull next_pair].
  - split; [reflexivity|]. repeat split. left. reflexivity.
  - destruct (on =? 0)%Z; [apply IH; auto|]. split; [reflexivity|]. repeat split. right. reflexivity.
Qed.
Lemma same_next v x off' : (off' = Some (v_off v) \/ off' = None) -> x_off x = off' ->
  x_src x = option_map (fun g => Iter (map Ok g)) (v_gen v) ->
  snd (x_next x) = Ok tt /\ same (next_valids v) (fst (x_next x)).
Proof.
  intros H Eo Es. unfold x_next, next_valids. rewrite Es. destruct (v_gen v) as [g|]; cbn [option_map].
  - rewrite Eo. pose proof (same_pull g (v_off v) off' H) as P. destruct (x_pull _ _). exact P.
  - split; [reflexivity|]. repeat split. left. reflexivity.
Qed.
Lemma same_consume v x : same v x -> same (match v_on v with
        | OnInt z => if (z =? 0)%Z then v else Valid (OnInt (z - 1)) (v_off v) (v_gen v)
        | OnTrue => v
        end) (x_consume x).
Proof.
  intros (A & B & C). unfold x_consume. rewrite A. destruct (v_on v) as [|z] eqn:E.
  - repeat split; auto. congruence.
  - destruct (z =? 0)%Z; [repeat split; auto; congruence|]. split; [reflexivity|]. split; [exact B|].
    right. destruct C as [C|C]; [congruence|exact C].
Qed.
Lemma same_throttle v x : same v x ->
  x_len x = fst (throttle v) /\ x_exn x = Ok tt /\ same (snd (throttle v)) (x_then x).
Proof.
  intros S. pose proof S as (A & B & C). unfold x_len, x_exn, x_then, x_throttle, throttle. rewrite A.
  destruct (truthy (v_on v)) eqn:T.
  - cbn. split; [reflexivity|]. split; [reflexivity|]. apply same_consume, S.
  - destruct C as [C|C]; [rewrite A in C; rewrite C in T; discriminate|]. rewrite C. cbn [fst snd].
    destruct (same_next v x _ (or_introl eq_refl) C B) as [D E]. rewrite D.
    split; [reflexivity|]. split; [reflexivity|]. apply same_consume, E.
Qed.
Lemma same_send width hr fuel value d (sync : bool) v x p o tr l :
  create_binary value width false = Ok d -> length l < fuel -> p <> PReadOnly -> same v x ->
  let '(r, w) := x_send width hr fuel value sync (World x p o tr l) in
  let '(r', w') := st_send width hr fuel value sync (World v p o tr l) in
  r = r' /\ trace w = trace w' /\ ins w = ins w' /\ out w = out w' /\ same (st w') (st w)
  /\ (r = Done tt -> ph w = PActive /\ ph w' = PActive).
Proof.
  intros Ed Hf Hp S. destruct (same_throttle v x S) as (A & B & C).
  destruct (x_send_spec width hr fuel value sync x p o tr l d Ed Hf Hp) as (p1 & p2 & _ & E1).
  destruct (st_send_spec width hr fuel value sync v p o tr l Hf Hp) as (p3 & p4 & _ & E2).
  rewrite E1, E2, B, Ed. clear E1 E2. unfold x_lead, lead. rewrite A.
  destruct (_ <=? _).
  - destruct (span _ _) as [nr [|i r]]; cbn; repeat split; auto; discriminate || apply C.
  - cbn. repeat split; auto; discriminate || apply S.
Qed.
Lemma same_each width hr fuel ws ds : Forall2 (fun w d => create_binary (fst w) width false = Ok d) ws ds ->
  forall v x p o tr l, length l < fuel -> p <> PReadOnly -> same v x ->
  let '(r, w) := x_send_each width hr fuel ws (World x p o tr l) in
  let '(r', w') := st_send_all width hr fuel ws (World v p o tr l) in
  r = match r' with Done _ => Done (repeat (Ok tt) (length ws)) | Susp => Susp | Exn e => Exn e | Fuel => Fuel end
  /\ trace w = trace w' /\ ins w = ins w' /\ out w = out w'.
Proof.
  induction 1 as [|[value sync] d ws ds Ed HF IH]; intros v x p o tr l Hf Hp S; [cbn; auto|].
  cbn [fst] in Ed. cbn [x_send_each]. unfold st_send_all. cbn [for_each fst snd].
  pose proof (same_send width hr fuel value d sync v x p o tr l Ed Hf Hp S) as E.
  destruct (st_send_spec width hr fuel value sync v p o tr l Hf Hp) as (p3 & p4 & _ & E2). rewrite Ed in E2.
  unfold bind, attempt.
  destruct (x_send width hr fuel value sync _) as [r w]. rewrite E2 in E |- *.
  destruct (lead sync v <=? length l).
  - pose proof (span_length (accepts hr) (skipn (lead sync v) l)) as SL.
    destruct (span _ _) as [nr [|i r1]].
    + cbn in E. destruct E as (-> & E). cbn. tauto.
    + cbn [fst snd trace ins out st ph] in E. destruct E as (-> & T & I & O & S' & P).
      destruct (P eq_refl) as [P1 _]. destruct w as [sw pw ow tw iw]. cbn [trace ins out st ph] in *. subst.
      assert (Hl : length r1 < fuel).
      { cbn [fst snd length] in SL. rewrite skipn_length in SL. lia. }
      specialize (IH (snd (throttle v)) sw PActive (rest_out width)
        (tr ++ held (set_valid L0 o) (firstn (lead sync v) l) ++ held (word d) (nr ++ [i])) _ Hl ltac:(discriminate) S').
      unfold st_send_all in IH.
      destruct (x_send_each width hr fuel ws _) as [rr ww].
      destruct (for_each _ ws _) as [r' w']. destruct IH as (-> & A & B & C).
      destruct r'; cbn; auto.
  - cbn in E. destruct E as (-> & E). cbn. tauto.
Qed.

Lemma x_same width hr fuel ws ds g p o l :
  Forall2 (fun w d => create_binary (fst w) width false = Ok d) ws ds ->
  length l < fuel -> p <> PReadOnly ->
  let x := x_construct (option_map (fun g => Iter (map Ok g)) g) in
  snd x = Ok tt /\
  let '(r, w) := x_send_each width hr fuel ws (World (fst x) p o [] l) in
  let '(r', w') := st_send_all width hr fuel ws (World (set_valid_generator g) p o [] l) in
  r = match r' with Done _ => Done (repeat (Ok tt) (length ws)) | Susp => Susp | Exn e => Exn e | Fuel => Fuel end
  /\ trace w = trace w' /\ ins w = ins w' /\ out w = out w'.
Proof.
  intros He Hf Hp. cbv zeta. unfold x_construct, x_set.
  destruct (same_next (Valid (OnInt 0) 0 g) (XValid (OnInt 0) None (option_map (fun g => Iter (map Ok g)) g)) None) as [A B]; auto.
  cbn [x_on x_off]. split; [exact A|]. apply (same_each width hr fuel ws ds); auto.
Qed.

(** ** BitDriver *)
Local Open Scope Z_scope.
Definition strip (s : xbit) : bitdrv :=
  match s with
  | XOn n off g => BOn n off (pairs_before g)
  | XOff n g => BOff n (pairs_before g)
  | XEnd _ => BEnd ERuntime
  end.
Definition will_end (s : xbit) : exn :=
  match s with XOn _ _ g | XOff _ g => ending g | XEnd e => e end.
Lemma strip_loop g : forall v, bd_loop (pairs_before g) v = (strip (fst (xb_loop g v)), snd (xb_loop g v))
  /\ will_end (fst (xb_loop g v)) = ending g.
Proof.
  induction g as [|[[on off]|e] g IH]; intro v; cbn [xb_loop pairs_before bd_loop ending]; try (split; reflexivity).
  destruct (0 <? on); [split; reflexivity|]. destruct (0 <? off); [split; reflexivity|]. apply IH.
Qed.
Lemma strip_edge s v : bd_edge (strip s, v) = (strip (fst (xb_edge (s, v))), snd (xb_edge (s, v)))
  /\ will_end (fst (xb_edge (s, v))) = will_end s.
Proof.
  destruct s as [n off g|n g|e]; cbn [strip bd_edge xb_edge will_end].
  - destruct (1 <? n); [split; reflexivity|]. destruct (0 <? off); [split; reflexivity|]. apply strip_loop.
  - destruct (1 <? n); [split; reflexivity|]. apply strip_loop.
  - split; reflexivity.
Qed.
Lemma strip_after n : forall s v, bd_after n (strip s, v) = (strip (fst (xb_after n (s, v))), snd (xb_after n (s, v)))
  /\ bd_wave n (strip s, v) = xb_wave n (s, v) /\ will_end (fst (xb_after n (s, v))) = will_end s.
Proof.
  induction n as [|n IH]; intros s v; cbn [bd_after xb_after bd_wave xb_wave fst snd]; [repeat split|].
  destruct (strip_edge s v) as [-> B]. destruct (xb_edge (s, v)) as [s' v']. cbn [fst snd] in *.
  destruct (IH s' v') as (-> & -> & ->). auto.
Qed.
Lemma xb_waveform l v0 n :
  let s := xb_start (Iter l) v0 in
  pairs_before l <> [] ->
  xb_wave n s = firstn n (waveform (pairs_before l) ++ repeat L0 n)
  /\ ((exists e, fst (xb_after n s) = XEnd e) <-> (length (waveform (pairs_before l)) <= n)%nat)
  /\ (forall e, fst (xb_after n s) = XEnd e -> e = ending l).
Proof.
  intros s H. unfold s, xb_start.
  destruct (bitdriver_waveform (pairs_before l) None v0 n H) as [A B]. cbn [bd_start] in A, B.
  destruct (strip_loop l v0) as [C D]. rewrite C in A, B. destruct (xb_loop l v0) as [x v]. cbn [fst snd] in *.
  destruct (strip_after n x v) as (E & F & G). rewrite F in A. rewrite E in B. cbn [fst] in B.
  split; [exact A|]. split.
  - rewrite <- B. split.
    + intros [e K]. rewrite K. reflexivity.
    + destruct (fst (xb_after n (x, v))); cbn; try discriminate. intros _. exists e. reflexivity.
  - intros e K. rewrite K in G. cbn in G. congruence.
Qed.
Lemma xb_immediate g v0 n : (match g with NotIterator => True | Iter l => pairs_before l = [] end) ->
  xb_wave n (xb_start g v0) = repeat v0 n
  /\ fst (xb_after n (xb_start g v0)) = XEnd (match g with NotIterator => EType | Iter l => ending l end).
Proof.
  intro H.
  assert (K : xb_start g v0 = (XEnd (match g with NotIterator => EType | Iter l => ending l end), v0)).
  { destruct g as [|[|[p|e] l]]; cbn in *; try reflexivity. discriminate. }
  rewrite K. generalize (match g with NotIterator => EType | Iter l => ending l end). intro e. clear.
  induction n as [|n IH]; [split; reflexivity|]. cbn. destruct IH as [-> ->]. split; reflexivity.
Qed.
