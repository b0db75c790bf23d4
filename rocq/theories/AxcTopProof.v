(** AxcTopProof.v -- concurrent writes and reads. *)
From Verif Require Import Base Async BitsLemmas CompatModel PktModel HandshakeSpec Handshake AxiModel AxiSpec AxiDataProof AxiReadProof AxiChanProof AxiRunProof AxiTopProof AxcModel AxcSpec AxcProof.
From Coq Require Import Sorting.Sorted.
Local Open Scope list_scope.

(** ** lists *)
Lemma first_true {A} (f : A -> bool) x : filter f x = [] \/ exists nr i r, x = nr ++ i :: r /\ f i = true /\ filter f nr = [].
Proof.
  induction x as [|a x IH]; [left; reflexivity|]. cbn [filter]. destruct (f a) eqn:E.
  - right. exists [], a, x. auto.
  - destruct IH as [IH|(nr & i & r & -> & H1 & H2)]; [left; exact IH|]. right. exists (a :: nr), i, r. cbn [filter app]. rewrite E. auto.
Qed.
Lemma filter_none {A} (f : A -> bool) x : Forall (fun i => f i = false) x -> filter f x = [].
Proof. induction 1 as [|a x E _ IH]; [reflexivity|]. cbn [filter]. rewrite E. exact IH. Qed.
Lemma combine_seq {A} (r : list A) : forall s a b, length r <= a -> length r <= b -> combine (seq s a) r = combine (seq s b) r.
Proof.
  induction r as [|x r IH]; intros s a b Ha Hb.
  - destruct (seq s a), (seq s b); reflexivity.
  - destruct a as [|a], b as [|b]; cbn [length] in *; try lia. cbn [seq combine]. rewrite (IH (S s) a b) by lia. reflexivity.
Qed.
Lemma nth_split_at {A} (l : list A) m i : nth_error l m = Some i -> l = firstn m l ++ i :: skipn (S m) l /\ length (firstn m l) = m.
Proof.
  revert m. induction l as [|a l IH]; intros m E; [destruct m; discriminate|]. destruct m as [|m].
  - inversion E; subst. split; reflexivity.
  - cbn [nth_error] in E. destruct (IH m E) as [E1 E2]. split; [cbn [firstn skipn app]; f_equal; exact E1|cbn [firstn length]; congruence].
Qed.
Lemma nth_at_split {A} (pre : list A) i post : nth_error (pre ++ i :: post) (length pre) = Some i /\ firstn (length pre) (pre ++ i :: post) = pre.
Proof.
  split.
  - rewrite nth_error_app2, Nat.sub_diag by lia. reflexivity.
  - rewrite firstn_app, Nat.sub_diag, firstn_all. cbn [firstn]. apply app_nil_r.
Qed.

(** ** the order of the response requests *)
Lemma insert_last x l : Forall (fun y => fst y <= fst x) l -> insert_time x l = l ++ [x].
Proof.
  induction 1 as [|y l H _ IH]; [reflexivity|]. cbn [insert_time app]. destruct (Nat.ltb_spec (fst x) (fst y)); [lia|]. rewrite IH. reflexivity.
Qed.
Lemma by_time_sorted l : StronglySorted (fun x y => fst x < fst y) l -> by_time l = l.
Proof.
  intro H. unfold by_time.
  assert (G : forall acc, Forall (fun x => Forall (fun y => fst y < fst x) acc) l -> fold_left (fun acc x => insert_time x acc) l acc = acc ++ l).
  { induction H as [|x l Hs IH Hx]; intros acc F; cbn [fold_left]; [rewrite app_nil_r; reflexivity|].
    inversion F as [|? ? F1 F2]; subst. rewrite insert_last by (eapply Forall_impl; [|exact F1]; cbn beta; intros ? Hlt; apply Nat.lt_le_incl; exact Hlt).
    rewrite IH, <- app_assoc; [reflexivity|]. rewrite Forall_forall in F2, Hx |- *. intros z Hz. apply Forall_app. split; [auto|]. constructor; auto. }
  apply G. apply Forall_forall. intros; constructor.
Qed.

Section Joined.
Context {A : Type}.
Notation res_list := (list (A * nat * outcome unit)).
Lemma joined_nth (ra rw : res_list) : Forall (fun x => snd x = Done tt) ra -> Forall (fun x => snd x = Done tt) rw -> forall i k,
  nth_error (joined i ra rw) k =
  match nth_error ra k, nth_error rw k with Some x, Some y => Some (Nat.max (snd (fst x)) (snd (fst y)), i + k) | _, _ => None end.
Proof.
  intro Fa. revert rw. induction Fa as [|[[a na] xa] ra Ea _ IH]; intros rw Fw i k.
  - cbn [joined]. destruct k, rw; reflexivity.
  - destruct Fw as [|[[b nw] xw] rw Ew Fw]; cbn [snd fst] in *; subst.
    + cbn [joined]. destruct k; [reflexivity|]. cbn [nth_error]. destruct (nth_error ra k); reflexivity.
    + cbn [joined]. destruct k as [|k]; cbn [nth_error]; [rewrite Nat.add_0_r; reflexivity|]. rewrite IH by assumption.
      rewrite Nat.add_succ_r. reflexivity.
Qed.
Lemma joined_snd (ra rw : res_list) : Forall (fun x => snd x = Done tt) ra -> Forall (fun x => snd x = Done tt) rw -> forall i,
  map snd (joined i ra rw) = seq i (min (length ra) (length rw)).
Proof.
  intro Fa. revert rw. induction Fa as [|[[a na] xa] ra Ea _ IH]; intros rw Fw i; [reflexivity|].
  destruct Fw as [|[[b nw] xw] rw Ew Fw]; cbn [snd fst] in *; subst; [reflexivity|].
  cbn [joined map length Nat.min seq snd]. rewrite IH by assumption. reflexivity.
Qed.
Lemma raised_none (ra rw : res_list) : Forall (fun x => snd x = Done tt) ra -> Forall (fun x => snd x = Done tt) rw -> raised ra rw = [].
Proof.
  intros Fa Fw. unfold raised. generalize (Nat.max (length ra) (length rw)). intro n. generalize 0. induction n as [|n IH]; intro k; [reflexivity|].
  cbn [seq flat_map]. rewrite IH, app_nil_r. rewrite Forall_forall in Fa, Fw.
  destruct (nth_error ra k) as [[[a na] xa]|] eqn:Ea; [apply nth_error_In, Fa in Ea; cbn [snd] in Ea; subst xa|];
    (destruct (nth_error rw k) as [[[b nw] xw]|] eqn:Ew; [apply nth_error_In, Fw in Ew; cbn [snd] in Ew; subst xw|]); reflexivity.
Qed.
End Joined.
Lemma sorted_nth (l : list (nat * nat)) : (forall i j x y, i < j -> nth_error l i = Some x -> nth_error l j = Some y -> fst x < fst y) ->
  StronglySorted (fun x y => fst x < fst y) l.
Proof.
  induction l as [|a l IH]; intro H; [constructor|]. constructor.
  - apply IH. intros i j x y L H1 H2. apply (H (S i) (S j)); [lia|exact H1|exact H2].
  - apply Forall_forall. intros y Hy. apply In_nth_error in Hy. destruct Hy as [j Hj]. apply (H 0 (S j)); [lia|reflexivity|exact Hj].
Qed.

(** ** the responses *)
Section Resp.
Context (l : list axi_in) (fuel : nat).
Hypothesis Hl : length l < fuel.
Hypothesis Hres : Forall (fun i => b_valid i = true -> bval (g_bresp i) <> None) l.
Definition nb (x : list axi_in) : nat := length (filter b_valid x).
Lemma nb_app x y : nb (x ++ y) = nb x + nb y.
Proof. unfold nb. rewrite filter_app, app_length. reflexivity. Qed.
Lemma b_responses_app x y : b_responses (x ++ y) = b_responses x ++ b_responses y.
Proof. unfold b_responses. rewrite filter_app, map_app. reflexivity. Qed.

Lemma serve_b jobs : forall (w : world unit axi_in unit), map fst (trace w) ++ ins w = l -> ph w <> PReadOnly ->
  (forall pre i post, l = pre ++ i :: post -> b_valid i = true -> nb (map fst (trace w)) <= nb pre ->
     exists j, nth_error jobs (nb pre - nb (map fst (trace w))) = Some j /\ fst j <= length pre) ->
  map (fun x => (fst (fst x), snd x)) (fst (serve (fun _ : nat => write_response (TO := unit) fuel) jobs w)) =
  combine (map snd jobs) (map response_outcome (b_responses (ins w))).
Proof.
  induction jobs as [|[t a] jobs IH]; intros w Hw Hp Hj; [reflexivity|].
  destruct w as [s p o tr L]. cbn [trace ins ph] in *. cbn [serve]. set (d := t - length (trace (World s p o tr L))). cbn [trace] in d.
  assert (Hfirst : forall nr i r, L = nr ++ i :: r -> b_valid i = true -> filter b_valid nr = [] -> d <= length nr).
  { intros nr i r E Hi Fn. destruct (Hj (map fst tr ++ nr) i r) as (j & Ej & Hle).
    - rewrite <- Hw, E, <- app_assoc. reflexivity.
    - exact Hi.
    - rewrite nb_app. lia.
    - rewrite nb_app in Ej. unfold nb in Ej at 2. rewrite Fn in Ej. cbn [length] in Ej. replace (nb (map fst tr) + 0 - nb (map fst tr)) with 0 in Ej by lia.
      inversion Ej; subst j. cbn [fst] in Hle. rewrite app_length, map_length in Hle. unfold d. lia. }
  unfold bind at 1. rewrite edges_spec. cbn [ins st ph out trace]. destruct (d <=? length L) eqn:Ed.
  2: { apply Nat.leb_gt in Ed. cbn [fst map]. destruct (first_true b_valid L) as [F|(nr & i & r & E & Hi & Fn)].
       - unfold b_responses. rewrite F. reflexivity.
       - specialize (Hfirst nr i r E Hi Fn). rewrite E, app_length in Ed. cbn [length] in Ed. lia. }
  apply Nat.leb_le in Ed.
  assert (F0 : filter b_valid (firstn d L) = []).
  { destruct (first_true b_valid (firstn d L)) as [F|(nr & i & r & E & Hi & Fn)]; [exact F|]. exfalso.
    assert (E' : L = nr ++ i :: (r ++ skipn d L)) by (rewrite <- (firstn_skipn d L) at 1; rewrite E, <- app_assoc; reflexivity).
    specialize (Hfirst nr i _ E' Hi Fn). apply (f_equal (@length axi_in)) in E. rewrite firstn_length, app_length in E. cbn [length] in E. lia. }
  set (y := skipn d L). assert (EL : L = firstn d L ++ y) by (symmetry; apply firstn_skipn).
  set (p1 := match d with 0 => p | _ => PActive end).
  assert (Hp1 : p1 <> PReadOnly) by (unfold p1; destruct d; [exact Hp|discriminate]).
  set (tr1 := tr ++ held o (firstn d L)).
  assert (Hy : length y < fuel).
  { unfold y. rewrite skipn_length. rewrite <- Hw, app_length in Hl. lia. }
  destruct (response_spec fuel y s p1 o tr1 Hp1 Hy) as [p' E]. rewrite E. clear E.
  pose proof (span_fst b_valid y) as Sf. pose proof (span_app b_valid y) as Sp. pose proof (fun i r => span_snd b_valid y i r) as Ss.
  destruct (span b_valid y) as [nr [|i r]]; cbn [fst snd] in *.
  - rewrite app_nil_r in Sp. rewrite EL, b_responses_app. unfold b_responses. rewrite F0, <- Sp, (filter_none _ _ Sf). reflexivity.
  - specialize (Ss i r eq_refl). assert (Fn := filter_none _ _ Sf).
    destruct (bval (g_bresp i)) as [v|] eqn:V.
    2: { exfalso. rewrite Forall_forall in Hres. refine (Hres i _ Ss V). rewrite <- Hw, EL, <- Sp. apply in_or_app. right. apply in_or_app. right. apply in_or_app. right. left. reflexivity. }
    assert (Eb : b_responses L = g_bresp i :: b_responses r).
    { rewrite EL, <- Sp, !b_responses_app. unfold b_responses. rewrite F0, Fn. cbn [filter map app]. rewrite Ss. reflexivity. }
    set (w2 := World s PActive o (tr1 ++ held o (nr ++ [i])) r).
    assert (Tw : map fst (trace w2) = map fst tr ++ firstn d L ++ nr ++ [i]).
    { unfold w2, tr1. cbn [trace]. rewrite !map_app, !held_fst, <- !app_assoc. reflexivity. }
    assert (Nw : nb (map fst (trace w2)) = S (nb (map fst tr))).
    { rewrite Tw, !nb_app. unfold nb at 2 3 4. rewrite F0, Fn. cbn [filter length]. rewrite Ss. cbn [length]. lia. }
    assert (G : map (fun x => (fst (fst x), snd x)) (fst (serve (fun _ : nat => write_response (TO := unit) fuel) jobs w2)) = combine (map snd jobs) (map response_outcome (b_responses r))).
    { apply (IH w2).
      - rewrite Tw. unfold w2. cbn [ins]. rewrite <- Hw, EL, <- Sp, <- !app_assoc. rewrite firstn_app, firstn_firstn, Nat.min_id.
        replace (d - length (firstn d L)) with 0 by (rewrite firstn_length; lia). cbn [firstn]. rewrite app_nil_r. reflexivity.
      - discriminate.
      - intros pre i' post El Hi' Hn. rewrite Nw in *. destruct (Hj pre i' post El Hi' ltac:(lia)) as (j & Ej & Hle). exists j. split; [|exact Hle].
        replace (nb pre - nb (map fst tr)) with (S (nb pre - S (nb (map fst tr)))) in Ej by lia. exact Ej. }
    rewrite Eb. cbn [map combine]. 
    assert (X : response_outcome (g_bresp i) = if (v =? 0)%Z then Done tt else Exn (EAXIProtocol v)) by (unfold response_outcome; rewrite V; reflexivity).
    rewrite X. fold w2. destruct (v =? 0)%Z; destruct (serve _ jobs w2) as [rs vv]; cbn [fst snd map] in *; rewrite G; reflexivity.
Qed.
End Resp.

(** ** a channel from its first cycle to its last *)
Lemma list_max_in (l : list nat) x : In x l -> x <= list_max l.
Proof. intro H. pose proof (proj1 (list_max_le l (list_max l)) (le_n _)) as F. rewrite Forall_forall in F. apply F, H. Qed.
Lemma firstn_full {A} k (l x : list A) : x = firstn k l -> length l <= length x -> x = l.
Proof. intros -> H. rewrite firstn_length in H. apply firstn_all2. lia. Qed.

Section Channel.
Context {TO A P : Type} (off : TO -> bool) (acc : axi_in -> bool).
Context (body : A -> M unit axi_in TO unit) (proj : TO -> P) (words : A -> list P) (cost : A -> nat) (fuel : nat) (ok : A -> Prop).
Notation world := (world unit axi_in TO).
Hypothesis HB : forall a (w : world), ok a -> ph w <> PReadOnly -> off (out w) = false -> free off acc (trace w) -> length (ins w) < fuel ->
  exists ds, map proj ds = words a /\ tx off acc (body a) w ds (cost a) (fun _ w' => off (out w') = false /\ at_handshake off acc (trace w')).
Hypothesis HS : forall a (w : world), ok a -> ph w <> PReadOnly -> off (out w) = false -> length (ins w) < fuel ->
  sus off acc (body a) w (cnt off acc w + length (words a)).
Hypothesis HP : forall a (w : world) r w', ok a -> ph w <> PReadOnly -> body a w = (Done r, w') -> ph w' <> PReadOnly.
Hypothesis HN : forall a, ok a -> words a <> [].
Notation total := (total words).

Lemma total_mono js m n : m <= n -> total (firstn m js) <= total (firstn n js).
Proof.
  intro H. unfold AxcProof.total. replace (firstn m js) with (firstn m (firstn n js)) by (rewrite firstn_firstn; f_equal; lia).
  rewrite <- (firstn_skipn m (firstn n js)) at 2. rewrite flat_map_app, app_length. lia.
Qed.
Lemma channel jobs p o l : Forall (fun j => ok (snd j)) jobs -> p <> PReadOnly -> off o = false -> length l < fuel ->
  let '(rs, v) := serve body jobs (World tt p o [] l) in
  let js := map snd jobs in
  let full := trace v ++ held (out v) (ins v) in
  map fst full = l /\ stable off acc full /\
  map (fun x => fst (fst x)) rs = firstn (length rs) js /\
  Forall (fun x => snd x = Done tt) rs /\ length rs <= length jobs /\
  (exists k, map proj (transfers off acc full) = firstn k (flat_map words js)) /\
  (list_max (map fst jobs) + costs cost js <= ready_cycles acc l -> map proj (transfers off acc full) = flat_map words js) /\
  (forall j m, j < length jobs -> total (firstn (S j) js) <= length (transfers off acc (firstn m full)) ->
     exists x, nth_error rs j = Some x /\ snd (fst x) <= m) /\
  (forall i j x y, i < j -> nth_error rs i = Some x -> nth_error rs j = Some y -> snd (fst x) < snd (fst y)).
Proof using HB HS HP HN.
  intros Hok Hp Ho Hl. set (T := list_max (map fst jobs)).
  assert (Hj : Forall (fun j => ok (snd j) /\ fst j <= T) jobs).
  { rewrite Forall_forall in Hok |- *. intros j Hin. split; [auto|]. apply list_max_in. apply in_map. exact Hin. }
  pose proof (serve_tx off acc body proj words cost fuel ok HB HS HP HN T jobs Hj (World tt p o [] l) Hp Ho (free_nil off acc) I Hl) as S0.
  destruct (serve body jobs (World tt p o [] l)) as [rs v]. cbn [trace ins app] in S0. destruct S0 as (new & E1 & E2 & St & F1 & F2 & (k & F3) & F4 & F5 & F6).
  subst new. intros js full.
  assert (Lr : length rs <= length jobs).
  { apply (f_equal (@length A)) in F1. rewrite map_length, firstn_length in F1. rewrite map_length in F1. lia. }
  assert (Hset : settled off acc (trace v) (out v)).
  { destruct (Nat.eq_dec (length rs) (length jobs)) as [E|E]; [apply (F4 E)|apply F5; lia]. }
  assert (Tf : transfers off acc full = transfers off acc (trace v) /\ forall m, transfers off acc (firstn m full) = transfers off acc (firstn m (trace v))).
  { unfold full. destruct (Nat.eq_dec (length rs) (length jobs)) as [E|E].
    - destruct (F4 E) as (_ & Hout & _). split; [rewrite transfers_app, transfers_idle, app_nil_r by exact Hout; reflexivity|].
      intro m. rewrite firstn_app, transfers_app. unfold held at 1. rewrite firstn_map. fold (held (out v) (firstn (m - length (trace v)) (ins v))).
      rewrite transfers_idle, app_nil_r by exact Hout. reflexivity.
    - destruct (F5 ltac:(lia)) as (-> & _). cbn [held map]. rewrite app_nil_r. auto. }
  destruct Tf as [Tf Tm].
  split; [unfold full; rewrite map_app, held_fst; exact E2|]. split; [apply stable_held; assumption|].
  split; [exact F1|]. split; [exact F2|]. split; [exact Lr|]. split; [exists k; rewrite Tf; exact F3|].
  split. { intro R. rewrite Tf. destruct (Nat.eq_dec (length rs) (length jobs)) as [E|E]; [apply (F4 E)|].
           destruct (F5 ltac:(lia)) as (_ & _ & _ & X). cbn [length] in X. unfold js in R. lia. }
  assert (Z0 : forall j x, nth_error rs j = Some x -> forall m, snd (fst x) <= m <-> total (firstn (S j) js) <= length (transfers off acc (firstn m (trace v)))).
  { intros j x Hx m. destruct (F6 j x Hx) as [_ H]. rewrite (H m). cbn [transfers filter map length]. unfold js. change (length (transfers off acc [])) with 0. split; [intros [? _]|intro; split]; lia. }
  split.
  - intros j m Hjl Ht. rewrite Tm in Ht. destruct (nth_error rs j) as [x|] eqn:Ex.
    + exists x. split; [reflexivity|]. apply (Z0 j x Ex m). exact Ht.
    + exfalso. apply nth_error_None in Ex. destruct (F5 ltac:(lia)) as (_ & _ & X & _).
      pose proof (total_mono js (S (length rs)) (S j) ltac:(lia)) as Y. pose proof (transfers_firstn off acc (trace v) m). unfold js in *. lia.
  - intros i j x y Hij Hx Hy. pose proof (Z0 i x Hx) as Zx. pose proof (Z0 j y Hy) as Zy.
    assert (Lj : j < length rs) by (apply nth_error_Some; congruence).
    assert (Tlt : total (firstn (S i) js) < total (firstn (S j) js)).
    { apply Nat.lt_le_trans with (total (firstn (S (S i)) js)); [|apply total_mono; lia].
      assert (Li : S i < length js) by (unfold js; rewrite map_length; lia). clear - Hok HN Li. unfold js in *. clear js.
      destruct (nth_error jobs (S i)) as [b|] eqn:E; [|apply nth_error_None in E; rewrite map_length in Li; lia].
      assert (Eb : nth_error (map snd jobs) (S i) = Some (snd b)) by (rewrite nth_error_map, E; reflexivity).
      assert (Ob : ok (snd b)) by (rewrite Forall_forall in Hok; apply Hok; exact (nth_error_In _ _ E)).
      destruct (nth_split_at _ _ _ Eb) as [Es Ls]. rewrite Es at 2. rewrite firstn_app, Ls. replace (S (S i) - S i) with 1 by lia.
      rewrite firstn_firstn. replace (min (S (S i)) (S i)) with (S i) by lia. cbn [firstn]. unfold AxcProof.total. rewrite flat_map_app, app_length.
      cbn [flat_map]. rewrite app_nil_r. pose proof (HN _ Ob). destruct (words (snd b)); [contradiction|]. cbn [length]. lia. }
    assert (Hx0 : ~ snd (fst x) <= 0).
    { intro H0. apply Zx in H0. rewrite firstn_O in H0. change (length (transfers off acc [])) with 0 in H0.
      assert (0 < total (firstn (S i) js)); [|lia].
      destruct jobs as [|b jobs']; [cbn [length] in *; lia|]. unfold js. cbn [map firstn]. unfold AxcProof.total. cbn [flat_map]. rewrite app_length.
      inversion Hok as [|? ? Ob _]; subst. pose proof (HN _ Ob). destruct (words (snd b)); [contradiction|]. cbn [length]. lia. }
    destruct (le_lt_dec (snd (fst y)) (snd (fst x))) as [L|L]; [|exact L]. exfalso. apply Zy in L.
    destruct (snd (fst x)) as [|n] eqn:En; [apply Hx0; lia|].
    pose proof (transfers_succ off acc (trace v) n) as Sx. assert (~ S n <= n) by lia. rewrite (Zx n) in H. lia.
Qed.
End Channel.
