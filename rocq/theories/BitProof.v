(** BitProof.v -- starting and stopping a BitDriver. *)
From Verif Require Import Base DrvUtilModel DrvUtilSpec DrvUtilProof BitModel BitSpec.
Local Open Scope list_scope.

Notation conf := (tstate * option (list (Z * Z)) * logic)%type.
Definition step (x : conf) : conf := let '(s, g, v) := x in tw_resume s g v.
Fixpoint iter (n : nat) (x : conf) : conf := match n with O => x | S n => iter n (step x) end.
Lemma iter_add n m x : iter (n + m) x = iter m (iter n x).
Proof. revert x. induction n as [|n IH]; intro x; [reflexivity|]. apply IH. Qed.
Definition runnable (s : tstate) : bool := match s with TEnd _ | TKilled => false | _ => true end.
Lemma step_dead s g v : runnable s = false -> step (s, g, v) = (s, g, v).
Proof. destruct s; try discriminate; reflexivity. Qed.
Lemma iter_dead n s g v : runnable s = false -> iter n (s, g, v) = (s, g, v).
Proof. intro H. induction n as [|n IH]; [reflexivity|]. cbn [iter]. rewrite step_dead by exact H. exact IH. Qed.

(** *** the waveform of one start *)
Lemma on_phase on off r v : (0 < on)%Z -> forall j, (Z.of_nat j < on)%Z ->
  iter j (TOn on off, Some r, v) = (TOn (on - Z.of_nat j) off, Some r, v).
Proof.
  intros H j. revert on H. induction j as [|j IH]; intros on H Hj; [cbn [iter]; rewrite Z.sub_0_r; reflexivity|].
  cbn [iter step tw_resume]. destruct (Z.ltb_spec 1 on); [|lia]. rewrite IH by lia. do 2 f_equal. f_equal. lia.
Qed.
Lemma off_phase off r v : (0 < off)%Z -> forall j, (Z.of_nat j < off)%Z ->
  iter j (TOff off, Some r, v) = (TOff (off - Z.of_nat j), Some r, v).
Proof.
  intros H j. revert off H. induction j as [|j IH]; intros off H Hj; [cbn [iter]; rewrite Z.sub_0_r; reflexivity|].
  cbn [iter step tw_resume]. destruct (Z.ltb_spec 1 off); [|lia]. rewrite IH by lia. do 2 f_equal. f_equal. lia.
Qed.
Lemma nth_repeat_lt {A} (x d : A) n k : k < n -> nth k (repeat x n) d = x.
Proof. revert k. induction n as [|n IH]; intros k H; [lia|]. destruct k; [reflexivity|]. cbn. apply IH. lia. Qed.

Lemma wave_cons on off r : waveform ((on, off) :: r) = repeat L1 (Z.to_nat on) ++ repeat L0 (Z.to_nat off) ++ waveform r.
Proof. unfold waveform. cbn [flat_map fst snd]. rewrite app_assoc. reflexivity. Qed.
Lemma wave_len on off : length (waveform [(on, off)]) = Z.to_nat on + Z.to_nat off.
Proof. rewrite wave_cons, !app_length, !repeat_length. cbn. lia. Qed.
Lemma value_later on off r v k : Z.to_nat on + Z.to_nat off <= k ->
  value_at ((on, off) :: r) v k = value_at r L0 (k - (Z.to_nat on + Z.to_nat off)).
Proof.
  intro H. unfold value_at. rewrite wave_cons, app_nth2, app_nth2; rewrite ?repeat_length; try lia.
  rewrite <- Nat.sub_add_distr. destruct r; [destruct (k - _); reflexivity|reflexivity].
Qed.
Lemma left_later on off r k : Z.to_nat on + Z.to_nat off <= k ->
  left_after (S k) ((on, off) :: r) = left_after (S (k - (Z.to_nat on + Z.to_nat off))) r.
Proof.
  intro H. cbn [left_after]. rewrite wave_len. destruct (Nat.leb_spec (S k) (Z.to_nat on + Z.to_nat off)); [lia|]. f_equal. lia.
Qed.

Lemma from_pair g : forall v k, exists s, iter k (tw_next (Some g) v) = (s, Some (left_after (S k) g), value_at g v k) /\
  (forall a, s <> TNew a).
Proof.
  induction g as [|[on off] r IH]; intros v k.
  - exists (TEnd ERuntime). split; [|discriminate]. cbn [tw_next tw_loop left_after value_at]. apply iter_dead. reflexivity.
  - assert (LATE : forall w, Z.to_nat on + Z.to_nat off <= k -> iter k w = iter (k - (Z.to_nat on + Z.to_nat off)) (tw_next (Some r) L0) ->
      exists s, iter k w = (s, Some (left_after (S k) ((on, off) :: r)), value_at ((on, off) :: r) v k) /\ (forall a, s <> TNew a)).
    { intros w H E. rewrite E, left_later, value_later by exact H. apply IH. }
    assert (EARLY : k < Z.to_nat on + Z.to_nat off -> left_after (S k) ((on, off) :: r) = r).
    { intro H. cbn [left_after]. rewrite wave_len. destruct (Nat.leb_spec (S k) (Z.to_nat on + Z.to_nat off)); [reflexivity|lia]. }
    assert (V1 : k < Z.to_nat on -> value_at ((on, off) :: r) v k = L1).
    { intro H. unfold value_at. rewrite wave_cons, app_nth1 by (rewrite repeat_length; lia). apply nth_repeat_lt. exact H. }
    assert (V0 : Z.to_nat on <= k < Z.to_nat on + Z.to_nat off -> value_at ((on, off) :: r) v k = L0).
    { intro H. unfold value_at. rewrite wave_cons, app_nth2, app_nth1 by (rewrite ?repeat_length; lia). apply nth_repeat_lt. rewrite repeat_length. lia. }
    assert (OFF : (0 < off)%Z -> forall j, iter j (TOff off, Some r, L0) =
              if (Z.of_nat j <? off)%Z then (TOff (off - Z.of_nat j), Some r, L0) else iter (j - Z.to_nat off) (tw_next (Some r) L0)).
    { intros H j. destruct (Z.ltb_spec (Z.of_nat j) off); [apply off_phase; lia|].
      replace j with ((Z.to_nat off - 1) + (1 + (j - Z.to_nat off))) at 1 by lia. rewrite iter_add, off_phase by lia. rewrite iter_add. f_equal.
      cbn [iter step tw_resume]. destruct (Z.ltb_spec 1 (off - Z.of_nat (Z.to_nat off - 1))); [lia|reflexivity]. }
    unfold tw_next. cbn [tw_loop]. destruct (Z.ltb_spec 0 on) as [Hon|Hon].
    + destruct (Nat.lt_ge_cases k (Z.to_nat on)) as [K|K].
      * exists (TOn (on - Z.of_nat k) off). split; [|discriminate]. rewrite on_phase by lia. rewrite EARLY, V1 by lia. reflexivity.
      * assert (E : iter k (TOn on off, Some r, L1) = iter (k - Z.to_nat on) (if (0 <? off)%Z then (TOff off, Some r, L0) else tw_next (Some r) L0)).
        { replace k with ((Z.to_nat on - 1) + (1 + (k - Z.to_nat on))) at 1 by lia. rewrite iter_add, on_phase by lia. rewrite iter_add. f_equal.
          cbn [iter step tw_resume]. destruct (Z.ltb_spec 1 (on - Z.of_nat (Z.to_nat on - 1))); [lia|reflexivity]. }
        destruct (Z.ltb_spec 0 off) as [Hoff|Hoff].
        -- rewrite OFF in E by exact Hoff. destruct (Z.ltb_spec (Z.of_nat (k - Z.to_nat on)) off).
           ++ eexists. split; [rewrite E, EARLY, V0 by lia; reflexivity|discriminate].
           ++ apply LATE; [lia|]. rewrite E. f_equal. lia.
        -- apply LATE; [lia|]. rewrite E. f_equal. lia.
    + destruct (Z.ltb_spec 0 off) as [Hoff|Hoff].
      * pose proof (OFF Hoff k) as E. destruct (Z.ltb_spec (Z.of_nat k) off).
        -- eexists. split; [rewrite E, EARLY, V0 by lia; reflexivity|discriminate].
        -- apply LATE; [lia|]. rewrite E. f_equal. lia.
      * apply (LATE (tw_next (Some r) L0)); [lia|]. f_equal. lia.
Qed.

(** *** the object with one live task *)
Definition dead (t : btask) : Prop := t_run t = false /\ runnable (t_state t) = false.
Lemma dead_waits t : dead t -> BTask (waits (t_state t)) (t_state t) = t.
Proof. intros [H1 H2]. destruct t as [r s]. cbn in *. subst. destruct s; try discriminate; reflexivity. Qed.
Lemma resume_dead ds ts g v : Forall dead ds -> resume_all (ds ++ ts) g v = (let '(ts', g', v') := resume_all ts g v in (ds ++ ts', g', v')).
Proof.
  induction 1 as [|t ds [H1 H2] _ IH]; cbn [app resume_all]; [destruct (resume_all ts g v) as [[? ?] ?]; reflexivity|].
  rewrite H1, IH. destruct (resume_all ts g v) as [[? ?] ?]. reflexivity.
Qed.
Lemma map_dead ds : Forall dead ds -> map (fun t => BTask (waits (t_state t)) (t_state t)) ds = ds.
Proof. induction 1 as [|t ds H _ IH]; [reflexivity|]. cbn [map]. rewrite dead_waits, IH by exact H. reflexivity. Qed.
Lemma resumed_live ds s g v cr : Forall dead ds ->
  resumed (BitObj v g (ds ++ [BTask (runnable s) s]) cr) =
  let '(s', g', v') := step (s, g, v) in BitObj v' g' (ds ++ [BTask false s']) cr.
Proof.
  intro D. unfold resumed. cbn [o_tasks o_generator o_signal o_cr]. rewrite resume_dead by exact D. cbn [resume_all t_run t_state].
  destruct (runnable s) eqn:R.
  - cbn [step]. destruct (tw_resume s g v) as [[s' g'] v']. reflexivity.
  - rewrite step_dead by exact R. reflexivity.
Qed.
Lemma tw_next_new g v a : fst (fst (tw_next g v)) <> TNew a.
Proof.
  destruct g as [g|]; [|discriminate]. cbn [tw_next]. revert v. induction g as [|[on off] r IH]; intro v; [discriminate|].
  cbn [tw_loop]. destruct (0 <? on)%Z; [discriminate|]. destruct (0 <? off)%Z; [discriminate|]. apply IH.
Qed.
Lemma step_new s g v a : fst (fst (step (s, g, v))) <> TNew a.
Proof.
  cbn [step]. destruct s as [[g'|]|n off|n|e|]; cbn [tw_resume]; try discriminate.
  - apply tw_next_new.
  - destruct g; [apply tw_next_new|discriminate].
  - destruct (1 <? n)%Z; [discriminate|]. destruct (0 <? off)%Z; [discriminate|]. apply tw_next_new.
  - destruct (1 <? n)%Z; [discriminate|]. apply tw_next_new.
Qed.
Lemma waits_runnable s : (forall a, s <> TNew a) -> waits s = runnable s.
Proof. destruct s; intro H; try reflexivity. exfalso. eapply H. reflexivity. Qed.
Lemma run_app a b o : bit_run (a ++ b) o = let '(x, o1) := bit_run a o in let '(y, o2) := bit_run b o1 in (x ++ y, o2).
Proof.
  revert o. induction a as [|c a IH]; intro o; cbn [app bit_run]; [destruct (bit_run b o); reflexivity|].
  destruct (bit_step c o) as [x o1]. rewrite IH. destruct (bit_run a o1) as [y o2]. destruct (bit_run b o2) as [z o3]. rewrite app_assoc. reflexivity.
Qed.
Lemma cycles_live n : forall ds s g v cr, Forall dead ds ->
  bit_run (repeat ACycle n) (BitObj v g (ds ++ [BTask (runnable s) s]) cr) =
  (map (fun k => OVal (snd (iter (S k) (s, g, v)))) (seq 0 n),
   let '(s', g', v') := iter n (s, g, v) in BitObj v' g' (ds ++ [BTask (runnable s') s']) cr).
Proof.
  induction n as [|n IH]; intros ds s g v cr D; [reflexivity|].
  cbn [repeat bit_run bit_step]. rewrite resumed_live by exact D. 
  pose proof (step_new s g v) as N. cbn [iter]. destruct (step (s, g, v)) as [[s' g'] v'] eqn:E. cbn [fst] in N.
  cbn [o_signal o_generator o_tasks o_cr]. rewrite map_app, map_dead by exact D. cbn [map t_state]. rewrite waits_runnable by exact N.
  rewrite IH by exact D. cbn [app seq map iter]. f_equal. rewrite ?E. f_equal.
  rewrite <- seq_shift, map_map. apply map_ext. intro k. cbn [iter]. rewrite ?E. reflexivity.
Qed.
Lemma cycles_dead n : forall ds g v cr, Forall dead ds ->
  bit_run (repeat ACycle n) (BitObj v g ds cr) = (map OVal (repeat v n), BitObj v g ds cr).
Proof.
  induction n as [|n IH]; intros ds g v cr D; [reflexivity|]. cbn [repeat bit_run bit_step]. unfold resumed. cbn [o_tasks o_generator o_signal o_cr].
  pose proof (resume_dead ds [] g v D) as E. rewrite app_nil_r in E. cbn [resume_all] in E. rewrite app_nil_r in E. rewrite E. cbn [o_signal o_generator o_tasks o_cr].
  rewrite map_dead by exact D. rewrite IH by exact D. reflexivity.
Qed.
Lemma update_last {A} (x y : A) l : update (length l) x (l ++ [y]) = l ++ [x].
Proof. induction l as [|a l IH]; [reflexivity|]. cbn [length app update]. rewrite IH. reflexivity. Qed.
Lemma stop_live ds r s g v : Forall dead ds -> (forall e, s = TEnd e -> r = false) ->
  exists ts, bit_step AStop (BitObj v g (ds ++ [BTask r s]) (Some (length ds))) = ([], BitObj v g ts (Some (length ds))) /\ Forall dead ts.
Proof.
  intros D Hr. cbn [bit_step o_cr o_tasks]. rewrite nth_error_app2, Nat.sub_diag by apply le_n. cbn [nth_error].
  assert (G : Forall dead (ds ++ [BTask false TKilled])) by (apply Forall_app; split; [exact D|constructor; [split; reflexivity|constructor]]).
  cbn [o_signal o_generator]. rewrite update_last.
  destruct s; try (eexists; split; [reflexivity|exact G]).
  eexists. split; [reflexivity|]. apply Forall_app. split; [exact D|]. constructor; [|constructor]. split; [eapply Hr; reflexivity|reflexivity].
Qed.

(** one session, from an object without live tasks *)
Lemma session_run se ds g v cr : Forall dead ds ->
  let k := s_cycles se + (if s_late se then 1 else 0) in
  exists ts cr', Forall dead ts /\
  bit_run (script se) (BitObj v g ds cr) =
  (let '(_, g', v') := iter k (TNew (s_generator se), g, v) in
   (map (fun k => OVal (snd (iter (S k) (TNew (s_generator se), g, v)))) (seq 0 (s_cycles se)) ++ map OVal (repeat v' (s_rest se)),
    BitObj v' g' ts cr')).
Proof.
  intros D k. unfold script. rewrite run_app. cbn [bit_run bit_step o_signal o_generator o_tasks]. rewrite run_app.
  change (BTask true (TNew (s_generator se))) with (BTask (runnable (TNew (s_generator se))) (TNew (s_generator se))). rewrite cycles_live by exact D.
  destruct (iter (s_cycles se) (TNew (s_generator se), g, v)) as [[s1 g1] v1] eqn:E1.
  assert (L : exists r s2 g2 v2, iter k (TNew (s_generator se), g, v) = (s2, g2, v2) /\ (forall e, s2 = TEnd e -> r = false) /\
    bit_run (if s_late se then [ATasks] else []) (BitObj v1 g1 (ds ++ [BTask (runnable s1) s1]) (Some (length ds))) =
      ([], BitObj v2 g2 (ds ++ [BTask r s2]) (Some (length ds)))).
  { subst k. rewrite iter_add, E1. destruct (s_late se).
    - cbn [bit_run bit_step]. rewrite resumed_live by exact D. cbn [iter]. destruct (step (s1, g1, v1)) as [[s2 g2] v2].
      exists false, s2, g2, v2. repeat split.
    - exists (runnable s1), s1, g1, v1. split; [reflexivity|]. split; [intros e ->; reflexivity|reflexivity]. }
  destruct L as (r & s2 & g2 & v2 & E2 & Hr & RL). rewrite E2.
  destruct (stop_live ds r s2 g2 v2 D Hr) as (ts & St & Dt). exists ts, (Some (length ds)). split; [exact Dt|].
  rewrite run_app, RL, run_app. cbn [bit_run]. rewrite St. rewrite cycles_dead by exact Dt. cbn [app]. rewrite <- ?app_assoc. reflexivity.
Qed.

Lemma sessions_run ss : forall ds g v cr, Forall dead ds ->
  fst (bit_run (flat_map script ss) (BitObj v g ds cr)) = map OVal (expected_wave g v ss).
Proof.
  induction ss as [|se ss IH]; intros ds g v cr D; [reflexivity|]. cbn [flat_map]. rewrite run_app.
  destruct (session_run se ds g v cr D) as (ts & cr' & Dt & ->).
  assert (T : forall v' g' (x : list bout), fst (let '(y, o2) := bit_run (flat_map script ss) (BitObj v' g' ts cr') in (x ++ y, o2)) = x ++ map OVal (expected_wave g' v' ss)).
  { intros v' g' x. specialize (IH ts g' v' cr' Dt). destruct (bit_run (flat_map script ss) (BitObj v' g' ts cr')) as [y o2]. cbn [fst] in *. rewrite IH. reflexivity. }
  cbn [expected_wave].
  destruct (s_cycles se + (if s_late se then 1 else 0)) as [|k'] eqn:K.
  - assert (s_cycles se = 0) by lia. rewrite H. cbn [seq map app iter]. rewrite T. rewrite <- map_app. reflexivity.
  - assert (GEN : forall gg, (match s_generator se with Some g0 => Some g0 | None => g end) = gg -> forall j,
             exists s, iter (S j) (TNew (s_generator se), g, v) = (s, match gg with Some g1 => Some (left_after (S j) g1) | None => None end, match gg with Some g1 => value_at g1 v j | None => v end)).
    { intros gg Eg j. cbn [iter step]. destruct (s_generator se) as [g0|]; [|destruct g as [g0|]]; cbn [tw_resume]; subst gg.
      - destruct (from_pair g0 v j) as (s & E & _). exists s. exact E.
      - destruct (from_pair g0 v j) as (s & E & _). exists s. exact E.
      - exists (TEnd (EUser 0)). apply iter_dead. reflexivity. }
    specialize (GEN _ eq_refl).
    destruct (GEN k') as (s & E). rewrite E, T.
    destruct (match s_generator se with Some g0 => Some g0 | None => g end) as [g1|].
    + rewrite !map_app, <- app_assoc. f_equal. rewrite map_map. apply map_ext. intro j. destruct (GEN j) as (sj & ->). reflexivity.
    + rewrite repeat_app, !map_app, <- !app_assoc. f_equal.
      transitivity (map (fun _ : nat => OVal v) (seq 0 (s_cycles se))); [apply map_ext; intro j; destruct (GEN j) as (sj & ->); reflexivity|].
      clear. generalize 0. induction (s_cycles se) as [|n IHn]; intro a; [reflexivity|]. cbn [seq map repeat]. f_equal. apply IHn.
Qed.

Lemma sessions_wave ss signal generator :
  fst (bit_run (flat_map script ss) (bit_construct signal generator)) = map OVal (expected_wave generator signal ss).
Proof. apply sessions_run. constructor. Qed.

(** ** starting a driver that is running *)
Lemma resumed_two s1 s2 g v cr :
  resumed (BitObj v g [BTask (runnable s1) s1; BTask (runnable s2) s2] cr) =
  let '(s1', g1, v1) := step (s1, g, v) in let '(s2', g2, v2) := step (s2, g1, v1) in
  BitObj v2 g2 [BTask false s1'; BTask false s2'] cr.
Proof.
  unfold resumed. cbn [o_tasks o_generator o_signal o_cr resume_all t_run t_state].
  assert (G : forall s g v, (if runnable s then let '(s', g, v) := tw_resume s g v in (BTask false s', g, v) else (BTask (runnable s) s, g, v)) =
              let '(s', g', v') := step (s, g, v) in (BTask false s', g', v')).
  { clear. intros s g v. destruct (runnable s) eqn:R; [reflexivity|]. rewrite step_dead by exact R. reflexivity. }
  rewrite G. destruct (step (s1, g, v)) as [[s1' g1] v1]. rewrite G. destruct (step (s2, g1, v1)) as [[s2' g2] v2]. reflexivity.
Qed.
(** both wait in the on phase *)
Lemma cycles_two n : forall a b n2 o2 g cr, (Z.of_nat n < a)%Z -> (Z.of_nat n < n2)%Z ->
  bit_run (repeat ACycle n) (BitObj L1 g [BTask true (TOn a b); BTask true (TOn n2 o2)] cr) =
  (map OVal (repeat L1 n), BitObj L1 g [BTask true (TOn (a - Z.of_nat n) b); BTask true (TOn (n2 - Z.of_nat n) o2)] cr).
Proof.
  induction n as [|n IH]; intros a b n2 o2 g cr H1 H2; [cbn [repeat bit_run map]; rewrite !Z.sub_0_r; reflexivity|].
  cbn [repeat bit_run bit_step]. pose proof (resumed_two (TOn a b) (TOn n2 o2) g L1 cr) as E. cbn [runnable step tw_resume] in E. rewrite E.
  destruct (Z.ltb_spec 1 a); [|lia]. destruct (Z.ltb_spec 1 n2); [|lia]. cbn [o_signal o_generator o_tasks o_cr map waits t_state].
  rewrite IH by lia. cbn [app map repeat]. do 3 f_equal; [|f_equal]; do 2 f_equal; lia.
Qed.
Lemma running_start signal stored a b r n2 o2 r2 j : (Z.of_nat j < a)%Z -> 0 < j -> (a < Z.of_nat j + n2)%Z -> (0 < b)%Z ->
  fst (bit_run ([AStart (Some ((a, b) :: r))] ++ repeat ACycle j ++ [AStart (Some ((n2, o2) :: r2))] ++ repeat ACycle (S (Z.to_nat a - j)))
        (bit_construct signal stored)) = map OVal (repeat L1 (Z.to_nat a) ++ [L0]).
Proof.
  intros Hj Hj0 Hn Hb. rewrite run_app. cbn [bit_run bit_step bit_construct o_signal o_generator o_tasks o_cr app length].
  rewrite run_app. pose proof (cycles_live j [] (TNew (Some ((a, b) :: r))) stored signal (Some 0) (Forall_nil _)) as C. cbn [app runnable] in C. rewrite C. clear C.
  destruct j as [|j]; [lia|].
  assert (I : forall k, (Z.of_nat k < a)%Z -> iter (S k) (TNew (Some ((a, b) :: r)), stored, signal) = (TOn (a - Z.of_nat k) b, Some r, L1)).
  { intros k Hk. cbn [iter step tw_resume tw_next tw_loop]. destruct (Z.ltb_spec 0 a); [|lia]. apply on_phase; lia. }
  rewrite I by lia. cbn [runnable].
  cbn [bit_run bit_step o_signal o_generator o_tasks o_cr app length].
  set (a' := (a - Z.of_nat j)%Z).
  replace (Z.to_nat a - S j) with (Z.to_nat (a' - 1)) by lia.
  assert (Ha' : (1 < a')%Z) by lia.
  assert (S1 : forall w, bit_run (repeat ACycle (S (Z.to_nat (a' - 1)))) w = let '(x, o1) := bit_step ACycle w in let '(y, o2) := bit_run (repeat ACycle (Z.to_nat (a' - 1))) o1 in (x ++ y, o2)) by reflexivity.
  rewrite S1. clear S1. cbn [bit_step].
  pose proof (resumed_two (TOn a' b) (TNew (Some ((n2, o2) :: r2))) (Some r) L1 (Some 1)) as E. cbn [runnable step tw_resume tw_next tw_loop] in E. rewrite E. clear E.
  destruct (Z.ltb_spec 1 a'); [|lia]. destruct (Z.ltb_spec 0 n2); [|lia]. cbn [o_signal o_generator o_tasks o_cr map waits t_state].
  replace (Z.to_nat (a' - 1)) with (Z.to_nat (a' - 2) + 1) by lia. rewrite repeat_app, run_app, cycles_two by lia.
  cbn [repeat bit_run bit_step].
  pose proof (resumed_two (TOn (a' - 1 - Z.of_nat (Z.to_nat (a' - 2))) b) (TOn (n2 - Z.of_nat (Z.to_nat (a' - 2))) o2) (Some r2) L1 (Some 1)) as E.
  cbn [runnable step tw_resume] in E. rewrite E. clear E.
  destruct (Z.ltb_spec 1 (a' - 1 - Z.of_nat (Z.to_nat (a' - 2)))); [lia|]. destruct (Z.ltb_spec 0 b); [|lia]. destruct (Z.ltb_spec 1 (n2 - Z.of_nat (Z.to_nat (a' - 2)))); [|lia].
  cbn [o_signal fst app]. 
  assert (W : map (fun k => OVal (snd (iter (S k) (TNew (Some ((a, b) :: r)), stored, signal)))) (seq 0 (S j)) = map OVal (repeat L1 (S j))).
  { transitivity (map (fun _ : nat => OVal L1) (seq 0 (S j))).
    - apply map_ext_in. intros k Hk. apply in_seq in Hk. rewrite I by lia. reflexivity.
    - generalize (S j) as n. clear. intro n. generalize 0. induction n as [|n IHn]; intro q; [reflexivity|]. cbn [seq map repeat]. f_equal. apply IHn. }
  rewrite W. change (OVal L1 :: map OVal (repeat L1 (Z.to_nat (a' - 2))) ++ [OVal L0]) with (map OVal [L1] ++ map OVal (repeat L1 (Z.to_nat (a' - 2))) ++ map OVal [L0]).
  rewrite <- !map_app. f_equal. rewrite app_assoc, app_assoc. f_equal. change [L1] with (repeat L1 1). rewrite <- !repeat_app. f_equal. lia.
Qed.

(** stop() before any start() *)
Lemma unstarted_cycles signal generator n r : bit_run (repeat ACycle n ++ r) (bit_construct signal generator)
  = (repeat (OVal signal) n ++ fst (bit_run r (bit_construct signal generator)), snd (bit_run r (bit_construct signal generator))).
Proof.
  induction n as [|n IH]; cbn [repeat app bit_run].
  - destruct (bit_run r _); reflexivity.
  - cbn [bit_step resumed resume_all bit_construct o_tasks o_generator o_signal o_cr map]. unfold bit_construct in IH. rewrite IH. reflexivity.
Qed.
Lemma stop_first signal generator m n :
  fst (bit_run (repeat ACycle m ++ [AStop] ++ repeat ACycle n) (bit_construct signal generator))
  = repeat (OVal signal) m ++ [ORaise EAttribute] ++ repeat (OVal signal) n.
Proof.
  rewrite unstarted_cycles. cbn [fst app]. f_equal. cbn [bit_run bit_step bit_construct o_cr]. 
  rewrite <- (app_nil_r (repeat ACycle n)). fold (bit_construct signal generator). rewrite unstarted_cycles.
  cbn [bit_run fst app]. rewrite app_nil_r. reflexivity.
Qed.
