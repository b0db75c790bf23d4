(** DrvUtilProof.v *)
From Verif Require Import BusModel BusSpec BusProof DrvUtilModel DrvUtilSpec DriverSpec DriverProof.
Local Open Scope list_scope.
Local Open Scope Z_scope.

(** ** BusDriver *)
Lemma busdriver_send_writes {V} (b : busobj V) tx sync :
  exists b', busdriver_send b tx sync = ((if sync then 1 else 0)%nat, Ok ([], b'))
    /\ b_signals b' = b_signals b.
Proof. eexists. split; [reflexivity|reflexivity]. Qed.
Lemma busdriver_send_returns : forall (V : Type) (b : bus) (tx : object V) sync,
  exists ws b', busdriver_send (bus_object b) tx sync = ((if sync then 1 else 0)%nat, Ok (ws, b'))
    /\ (ws = expected_writes b tx <-> expected_writes b tx = [])
    /\ b_signals b' = b
    /\ dict_get (b_attrs b') "value" = Some (PObj tx)
    /\ forall name, name <> "value"%string -> dict_get (b_attrs b') name = dict_get (b_attrs (bus_object b)) name.
Proof.
  intros V b tx sync. unfold busdriver_send, bus_setattr. cbn [existsb bus_data_descriptors String.eqb Ascii.eqb Bool.eqb orb].
  eexists _, _. split; [reflexivity|]. split; [split; congruence|]. split; [reflexivity|]. cbn [b_attrs]. split; [rewrite dict_get_set; reflexivity|].
  intros name H. rewrite dict_get_set. destruct (String.eqb_spec "value" name) as [E|_]; [congruence|reflexivity].
Qed.

(** ** BitDriver *)
Definition is_end (s : bitdrv) : bool := match s with BEnd _ => true | _ => false end.

(** what remains to be shown from a state *)
Definition todo (s : bitdrv) : list logic :=
  match s with
  | BOn n off g => repeat L1 (Z.to_nat n) ++ repeat L0 (Z.to_nat off) ++ waveform g
  | BOff n g => repeat L0 (Z.to_nat n) ++ waveform g
  | BEnd _ => []
  end.

Definition coherent (s : bitdrv * logic) : Prop :=
  match s with
  | (BOn n _ _, v) => 0 < n /\ v = L1
  | (BOff n _, v) => 0 < n /\ v = L0
  | (BEnd e, v) => e = ERuntime
  end.

Lemma repeat_nonpos {A} (a : A) z : z <= 0 -> repeat a (Z.to_nat z) = [].
Proof. intro H. replace (Z.to_nat z) with O by lia. reflexivity. Qed.

Lemma bd_loop_spec gen : forall v,
  coherent (bd_loop gen v) /\ todo (fst (bd_loop gen v)) = waveform gen
  /\ (is_end (fst (bd_loop gen v)) = true -> snd (bd_loop gen v) = match gen with [] => v | _ => L0 end).
Proof.
  induction gen as [|[on off] g IH]; intro v; cbn [bd_loop].
  - cbn. auto.
  - unfold waveform. cbn [flat_map fst snd]. fold (waveform g).
    destruct (0 <? on) eqn:E1.
    + cbn. split; [split; [lia|reflexivity]|]. split; [rewrite <- app_assoc; reflexivity|discriminate].
    + destruct (0 <? off) eqn:E2.
      * cbn. split; [split; [lia|reflexivity]|]. rewrite (repeat_nonpos L1 on) by lia. split; [reflexivity|discriminate].
      * destruct (IH L0) as [A [B C]]. rewrite (repeat_nonpos L1 on), (repeat_nonpos L0 off) by lia. cbn.
        split; [exact A|]. split; [exact B|]. intro X. rewrite C by exact X. destruct g; reflexivity.
Qed.

Lemma bd_edge_spec s v : coherent (s, v) ->
  coherent (bd_edge (s, v))
  /\ match todo s with
     | [] => bd_edge (s, v) = (s, v)
     | b :: r => v = b /\ todo (fst (bd_edge (s, v))) = r
     end.
Proof.
  destruct s as [n off g|n g|e]; cbn [coherent todo].
  - intros [Hn ->]. replace (Z.to_nat n) with (S (Z.to_nat (n - 1))) by lia. cbn [repeat app].
    cbn [bd_edge]. destruct (1 <? n) eqn:E.
    + cbn. split; [split; [lia|reflexivity]|]. auto.
    + replace (Z.to_nat (n - 1)) with O by lia. cbn [repeat app].
      destruct (0 <? off) eqn:E2.
      * cbn. split; [split; [lia|reflexivity]|]. auto.
      * rewrite repeat_nonpos by lia. destruct (bd_loop_spec g L0) as [A [B _]]. auto.
  - intros [Hn ->]. replace (Z.to_nat n) with (S (Z.to_nat (n - 1))) by lia. cbn [repeat app].
    cbn [bd_edge]. destruct (1 <? n) eqn:E.
    + cbn. split; [split; [lia|reflexivity]|]. auto.
    + replace (Z.to_nat (n - 1)) with O by lia. cbn [repeat app].
      destruct (bd_loop_spec g L0) as [A [B _]]. auto.
  - intros ->. cbn. auto.
Qed.

Lemma bd_wave_spec n : forall s v, coherent (s, v) ->
  (n <= length (todo s))%nat ->
  bd_wave n (s, v) = firstn n (todo s)
  /\ coherent (bd_after n (s, v)) /\ todo (fst (bd_after n (s, v))) = skipn n (todo s).
Proof.
  induction n as [|n IH]; intros s v C L; [cbn; auto|].
  destruct (bd_edge_spec s v C) as [C' T]. destruct (todo s) as [|b r] eqn:E; [cbn in L; lia|].
  destruct T as [-> T]. cbn [bd_wave bd_after firstn skipn snd].
  destruct (bd_edge (s, b)) as [s' v'] eqn:E'. cbn [fst] in T.
  destruct (IH s' v' C') as [A [B D]]; [rewrite T; cbn in L; lia|].
  rewrite A, D, T. auto.
Qed.

Lemma bd_end_stays n : forall e v, bd_after n (BEnd e, v) = (BEnd e, v) /\ bd_wave n (BEnd e, v) = repeat v n.
Proof.
  induction n as [|n IH]; intros e v; [auto|]. cbn. destruct (IH e v) as [-> ->]. auto.
Qed.

(** not ended while something remains; ended (with the signal at 0) when nothing remains *)
Lemma bd_end_val s v : coherent (s, v) -> (is_end s = true -> v = L0) ->
  is_end (fst (bd_edge (s, v))) = true -> snd (bd_edge (s, v)) = L0.
Proof.
  destruct s as [n off g|n g|e]; cbn [coherent is_end bd_edge].
  - intros [_ ->] _. destruct (1 <? n); [discriminate|]. destruct (0 <? off); [discriminate|].
    intro X. destruct (bd_loop_spec g L0) as [_ [_ C]]. rewrite C by exact X. destruct g; reflexivity.
  - intros [_ ->] _. destruct (1 <? n); [discriminate|].
    intro X. destruct (bd_loop_spec g L0) as [_ [_ C]]. rewrite C by exact X. destruct g; reflexivity.
  - intros _ H _. cbn. auto.
Qed.

Lemma todo_nil_end s v : coherent (s, v) -> todo s = [] -> is_end s = true.
Proof.
  destruct s as [n off g|n g|e]; cbn; auto; intros [H _];
    replace (Z.to_nat n) with (S (Z.to_nat (n - 1))) by lia; discriminate.
Qed.

Lemma bd_after_end n : forall s v, coherent (s, v) -> (is_end s = true -> v = L0) ->
  (n <= length (todo s))%nat ->
  (is_end (fst (bd_after n (s, v))) = true -> snd (bd_after n (s, v)) = L0).
Proof.
  induction n as [|n IH]; intros s v C E L; [exact E|].
  destruct (bd_edge_spec s v C) as [C' T].
  pose proof (bd_end_val s v C E) as E'. cbn [bd_after].
  destruct (bd_edge (s, v)) as [s' v'] eqn:X. apply IH; auto.
  destruct (todo s) as [|b r]; [cbn in L; lia|]. destruct T as [_ T]. cbn in T. rewrite T. cbn in L. lia.
Qed.

Lemma bitdriver_waveform gen stored v0 n :
  let s := bd_start (Some gen) stored v0 in
  gen <> [] ->
  bd_wave n s = firstn n (waveform gen ++ repeat L0 n)
  /\ (fst (bd_after n s) = BEnd ERuntime <-> (length (waveform gen) <= n)%nat).
Proof.
  cbn zeta. intro NE. cbn [bd_start].
  destruct (bd_loop_spec gen v0) as [C [T E0]].
  destruct (bd_loop gen v0) as [s v] eqn:S. cbn [fst snd] in *.
  assert (E : is_end s = true -> v = L0) by (intro X; rewrite E0 by exact X; destruct gen; congruence).
  destruct (le_lt_dec n (length (waveform gen))) as [L|L].
  - rewrite <- T in L. destruct (bd_wave_spec n s v C L) as [A [B D]].
    rewrite T in *. rewrite A. split.
    + rewrite firstn_app. replace (n - length (waveform gen))%nat with O by lia.
      cbn. rewrite app_nil_r. reflexivity.
    + split.
      * intro X. rewrite X in D. cbn in D. symmetry in D.
        assert (LL := f_equal (@length _) D). rewrite skipn_length in LL. cbn in LL. lia.
      * intro G. rewrite skipn_all2 in D by exact G.
        destruct (bd_after n (s, v)) as [s' v']. cbn [fst] in *. pose proof (todo_nil_end s' v' B D) as I.
        destruct s'; try discriminate. cbn in B. congruence.
  - set (m := length (waveform gen)) in *.
    assert (W : forall a b (s : bitdrv * logic), bd_wave (a + b) s = bd_wave a s ++ bd_wave b (bd_after a s)).
    { clear. induction a as [|a IH]; intros b s; [reflexivity|]. cbn. rewrite IH. reflexivity. }
    assert (F : forall a b (s : bitdrv * logic), bd_after (a + b) s = bd_after b (bd_after a s)).
    { clear. induction a as [|a IH]; intros b s; [reflexivity|]. cbn. apply IH. }
    assert (Lm : (m <= length (todo s))%nat) by (rewrite T; lia).
    destruct (bd_wave_spec m s v C Lm) as [A [B D]].
    pose proof (bd_after_end m s v C E Lm) as EV.
    rewrite T in A, D. assert (FA : firstn m (waveform gen) = waveform gen) by apply firstn_all.
    assert (SA : skipn m (waveform gen) = []) by apply skipn_all. rewrite FA in A. rewrite SA in D.
    replace n with (m + (n - m))%nat by lia. rewrite W, F, A.
    destruct (bd_after m (s, v)) as [s' v']. cbn [fst snd] in *.
    pose proof (todo_nil_end s' v' B D) as I. specialize (EV I). subst v'.
    destruct s'; try discriminate. cbn in B. subst e.
    destruct (bd_end_stays (n - m) ERuntime L0) as [-> ->]. split.
    + rewrite firstn_app. fold m. rewrite firstn_all2 by (fold m; lia). f_equal.
      replace (m + (n - m) - m)%nat with (n - m)%nat by lia.
      replace (m + (n - m))%nat with ((n - m) + m)%nat by lia.
      rewrite repeat_app, firstn_app, repeat_length.
      rewrite firstn_all2 by (rewrite repeat_length; lia).
      replace (n - m - (n - m))%nat with O by lia. cbn. rewrite app_nil_r. reflexivity.
    + split; [intros _; lia|reflexivity].
Qed.

Lemma bitdriver_empty stored v0 n :
  bd_wave n (bd_start (Some []) stored v0) = repeat v0 n
  /\ fst (bd_start (Some []) stored v0) = BEnd ERuntime.
Proof. cbn. split; [apply bd_end_stays|reflexivity]. Qed.

(** ** valid generator *)
Lemma next_pair_spec gen : forall off,
  match real_groups gen with
  | [] => v_on (next_pair gen off) = OnTrue /\ v_gen (next_pair gen off) = Some []
  | (on, off') :: r =>
      exists g, next_pair gen off = Valid (OnInt on) off' (Some g) /\ real_groups g = r /\ on <> 0
         /\ (forall p, In p g -> In p gen)
  end.
Proof.
  induction gen as [|[on off'] g IH]; intro off; cbn [next_pair real_groups filter fst].
  - auto.
  - destruct (on =? 0) eqn:E; cbn [negb].
    + specialize (IH off'). fold (real_groups g). destruct (real_groups g) as [|[o f] r]; [exact IH|].
      destruct IH as [g' [A [B [C D]]]]. exists g'. split; [exact A|]. split; [exact B|]. split; [exact C|].
      intros p Hp. right. auto.
    + exists g. split; [reflexivity|]. split; [reflexivity|]. split; [lia|]. intros p Hp. right. exact Hp.
Qed.

Lemma gaps_true n : forall off g, gaps n (Valid OnTrue off g) = repeat O n.
Proof. induction n as [|n IH]; intros off g; [reflexivity|]. cbn. f_equal. apply IH. Qed.

Lemma gaps_none n : gaps n (set_valid_generator None) = repeat O n.
Proof. apply gaps_true. Qed.

Lemma grouped_length first groups n : (S n <= length (grouped first groups n))%nat.
Proof.
  revert first. induction groups as [|[on off] r IH]; intro first; cbn.
  - rewrite repeat_length. lia.
  - rewrite app_length. specialize (IH (Z.to_nat off)). lia.
Qed.

(** k words left in the current group *)
Lemma gaps_group n : forall k off g m, (n <= m)%nat ->
  (forall p, In p g -> 0 <= fst p) ->
  gaps n (Valid (OnInt (Z.of_nat k)) off (Some g))
  = firstn n (repeat O k ++ grouped (Z.to_nat off) (real_groups g) m).
Proof.
  induction n as [|n IH]; intros k off g m Lm NN; [reflexivity|].
  cbn [gaps]. unfold throttle. cbn [v_on truthy].
  destruct k as [|k].
  - replace (Z.of_nat 0 =? 0) with true by lia. cbn [negb].
    unfold next_valids. cbn [v_gen v_off].
    pose proof (next_pair_spec g off) as NP. destruct (real_groups g) as [|[on off'] r] eqn:RG.
    + destruct NP as [A B]. destruct (next_pair g off) as [on' off'' g']. cbn in A, B. subst.
      cbn [v_on repeat app grouped firstn]. f_equal. rewrite gaps_true.
      replace m with (n + (m - n))%nat by lia. rewrite repeat_app, firstn_app, repeat_length.
      rewrite firstn_all2 by (rewrite repeat_length; lia).
      replace (n - n)%nat with O by lia. cbn. rewrite app_nil_r. reflexivity.
    + destruct NP as [g' [-> [B [C D]]]]. cbn [v_on v_off v_gen].
      replace (on =? 0) with false by lia. cbn [repeat app grouped firstn]. f_equal.
      assert (P : 0 < on).
      { assert (In (on, off') (real_groups g)) as I by (rewrite RG; left; reflexivity).
        unfold real_groups in I. apply filter_In in I. destruct I as [I _]. specialize (NN _ I). cbn in NN. lia. }
      replace (on - 1) with (Z.of_nat (Z.to_nat on - 1)) by lia.
      rewrite (IH _ _ g' m) by (auto; lia). rewrite B. reflexivity.
  - replace (Z.of_nat (S k) =? 0) with false by lia. cbn [negb v_on v_off v_gen].
    replace (Z.of_nat (S k) =? 0) with false by lia. cbn [repeat app firstn]. f_equal.
    replace (Z.of_nat (S k) - 1) with (Z.of_nat k) by lia. apply IH; [lia|exact NN].
Qed.

Lemma gaps_spec n gen : (forall p, In p gen -> 0 <= fst p) ->
  gaps n (set_valid_generator (Some gen)) = firstn n (grouped O (real_groups gen) n).
Proof.
  intro NN. unfold set_valid_generator, next_valids. cbn [v_gen v_off].
  pose proof (next_pair_spec gen 0) as NP. destruct (real_groups gen) as [|[on off'] r] eqn:RG.
  - destruct NP as [A B]. destruct (next_pair gen 0) as [on' off'' g']. cbn in A, B. subst.
    rewrite gaps_true. cbn [grouped].
    change (O :: repeat O n) with (repeat O (S n)). replace (S n) with (n + 1)%nat by lia.
    rewrite repeat_app, firstn_app, repeat_length, firstn_all2 by (rewrite repeat_length; lia).
    replace (n - n)%nat with O by lia. cbn. rewrite app_nil_r. reflexivity.
  - destruct NP as [g' [-> [B [C D]]]].
    assert (P : 0 < on).
    { assert (In (on, off') (real_groups gen)) as I by (rewrite RG; left; reflexivity).
      unfold real_groups in I. apply filter_In in I. destruct I as [I _]. specialize (NN _ I). cbn in NN. lia. }
    replace on with (Z.of_nat (Z.to_nat on)) at 1 by lia.
    rewrite (gaps_group n _ _ g' n) by auto. rewrite B. cbn [grouped].
    replace (Z.to_nat on) with (S (Z.to_nat on - 1)) at 1 by lia. reflexivity.
Qed.

Lemma gaps_negative n : forall on off g, on < 0 -> gaps n (Valid (OnInt on) off g) = repeat O n.
Proof.
  induction n as [|n IH]; intros on off g H; [reflexivity|].
  cbn [gaps]. unfold throttle. cbn [v_on truthy]. replace (on =? 0) with false by lia. cbn [negb v_on v_off v_gen].
  replace (on =? 0) with false by lia. cbn [repeat]. f_equal. apply IH. lia.
Qed.

(** ** socket *)
Section Sock.
Context (EAGAIN EWOULDBLOCK : Z).
Notation sock_poll := (sock_poll EAGAIN EWOULDBLOCK).
Notation would_block := (would_block EAGAIN EWOULDBLOCK).

Lemma sock_poll_running rs : Forall (fun r => chunk r \/ would_block r) rs ->
  forall rest, sock_poll (rs ++ rest) = (chunks rs ++ fst (sock_poll rest), snd (sock_poll rest)).
Proof.
  induction 1 as [|r rs H _ IH]; intro rest; [cbn; destruct (DrvUtilModel.sock_poll _ _ rest); reflexivity|].
  destruct r as [[|b l]|e]; cbn in H.
  - tauto.
  - cbn [app DrvUtilModel.sock_poll chunks flat_map]. rewrite IH. cbn. reflexivity.
  - cbn [app DrvUtilModel.sock_poll chunks flat_map].
    destruct H as [[]|H]. replace ((e =? EAGAIN) || (e =? EWOULDBLOCK)) with true by lia.
    rewrite IH. reflexivity.
Qed.

Lemma sock_poll_data rs : Forall (fun r => chunk r \/ would_block r) rs ->
  sock_poll rs = (chunks rs, SRunning)
  /\ (forall later, sock_poll (rs ++ SData [] :: later) = (chunks rs, SClosed))
  /\ (forall e later, ~ would_block (SError e) ->
        sock_poll (rs ++ SError e :: later) = (chunks rs, SRaised e)).
Proof.
  intro H. pose proof (sock_poll_running rs H) as R. split; [|split].
  - rewrite <- (app_nil_r rs) at 1. rewrite R. cbn. rewrite app_nil_r. reflexivity.
  - intro later. rewrite R. cbn. rewrite app_nil_r. reflexivity.
  - intros e later N. rewrite R. cbn in N |- *.
    replace ((e =? EAGAIN) || (e =? EWOULDBLOCK)) with false by lia. cbn. rewrite app_nil_r. reflexivity.
Qed.
End Sock.

(** everything the attachment appends is taken by the send thread in order *)
Lemma socket_to_driver beh (acts : list (action bytes)) cs :
  passive beh -> appends_of acts = map chunk_item cs ->
  never_cleared (log (run bytes beh acts drv_init)) ->
  let d := run bytes beh acts drv_init in
  started (log d) ++ sendq d = map chunk_item cs.
Proof.
  intros P A NC. cbn zeta.
  pose proof (run_appended beh acts P drv_init) as X. cbn in X. rewrite A in X.
  pose proof (run_exact beh acts NC) as Y. 
  assert (NR : forall i, ~ In (VReject i) (log (run bytes beh acts drv_init))).
  { apply run_no_reject. rewrite X. apply Forall_forall. intros i Hi.
    apply in_map_iff in Hi. destruct Hi as [b [<- _]]. reflexivity. }
  assert (ST : forall l : list (ev bytes), (forall i, ~ In (VReject i) l) -> taken l = started l).
  { clear. induction l as [|e l IH]; intro N; [reflexivity|].
    unfold taken, started in *. cbn.
    rewrite IH by (intros i H; apply (N i); right; exact H).
    destruct e; try reflexivity. exfalso. apply (N i). left. reflexivity. }
  rewrite <- ST by exact NR. rewrite <- Y. exact X.
Qed.
