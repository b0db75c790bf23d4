(** XgLatProof.v -- when an XGMII monitor delivers the frames of any transmitter. *)
From Verif Require Import Base CompatModel BitsLemmas XgModel XgSpec XgProof XgMonProof XgTopProof XgRxSpec XgRxProof XgLatSpec.
Local Open Scope list_scope.

Section Lat.
Context (n : nat) (crc32 : bytes -> Z) (Hn : 1 <= n).
Notation next := (next crc32).
Notation lanes_at := (lanes_at crc32).
Definition picks (e pos : nat) (x : place) : list bytes := map snd (filter (fun y => heard n (fst y) && ended_by e y) (starts_at pos x)).

Lemma picks_skip e k : forall pos x, (forall i, i < k -> at_start (Nat.iter i next x) <> None -> heard n (pos + i) = false) ->
  picks e pos x = picks e (pos + k) (Nat.iter k next x).
Proof.
  induction k as [|k IH]; intros pos x H; [now rewrite Nat.add_0_r|].
  rewrite (IH pos x) by (intros i Hi; apply H; lia). unfold picks. rewrite (starts_next n crc32 Hn).
  replace (pos + S k) with (S (pos + k)) by lia. change (Nat.iter (S k) next x) with (next (Nat.iter k next x)).
  specialize (H k ltac:(lia)). destruct (at_start (Nat.iter k next x)) as [p|]; [|reflexivity].
  cbn [app filter fst]. rewrite H by discriminate. reflexivity.
Qed.
Lemma picks_start e pos x p : at_start x = Some p -> heard n pos = true ->
  picks e pos x = (if ended_by e (pos, p) then [p] else []) ++ picks e (S pos) (next x).
Proof. intros A H. unfold picks. rewrite (starts_next n crc32 Hn), A. cbn [app filter fst]. rewrite H. cbn [andb]. destruct (ended_by e (pos, p)); reflexivity. Qed.
Lemma picks_frame e pos q fs t : picks e pos (Some q, fs, t) = picks e (pos + (length q + 1)) (None, fs, t).
Proof.
  rewrite (picks_skip e (length q + 1) pos (Some q, fs, t)), (iter_frame n crc32 Hn); [reflexivity|].
  intros i Hi A. rewrite (iter_data n crc32 Hn) in A by lia. exfalso. apply A. reflexivity.
Qed.
Lemma positions_from fs : forall pos, Forall (fun y => pos <= fst y) (positions pos fs).
Proof.
  induction fs as [|[g p] r IH]; intro pos; [constructor|]. cbn [positions]. constructor; [cbn [fst]; lia|].
  eapply Forall_impl; [|apply IH]. intros y H. cbv beta in H. lia.
Qed.
Lemma picks_after e pos x : e <= pos -> picks e pos x = [].
Proof.
  intro L. assert (F : Forall (fun y => pos <= fst y) (starts_at pos x)).
  { destruct x as [[[q|] fs] t]; cbn [starts_at]; [|apply positions_from]. eapply Forall_impl; [|apply positions_from]. intros y H. cbv beta in H. lia. }
  unfold picks. induction F as [|y r Y _ IH]; [reflexivity|]. cbn [filter]. replace (ended_by e y) with false; [rewrite andb_false_r; exact IH|].
  symmetry. unfold ended_by. apply Nat.ltb_ge. lia.
Qed.

Lemma ended_traffic later e : forall m lss x pos, length lss <= m -> Forall (fun w => length w = n) lss -> concat lss ++ later = lanes_at x -> good x -> pos mod n = 0 ->
  e = pos + n * length lss -> frames n lss (map (fun p => (body crc32 p, 253%Z)) (picks e pos x)).
Proof.
  induction m as [|m IH]; intros lss x pos L F E G P Ee.
  { destruct lss; [|cbn in L; lia]. cbn [length] in Ee. rewrite picks_after by lia. constructor. }
  destruct lss as [|w lss].
  { cbn [length] in Ee. rewrite picks_after by lia. constructor. }
  pose proof (Forall_inv F) as Lw. apply Forall_inv_tail in F. cbn [length] in L, Ee. cbn [concat] in E. rewrite <- app_assoc in E. symmetry in E.
  assert (LO : forall i, i < n -> is_start (nth_error w i) <-> exists p, at_start (Nat.iter i next x) = Some p).
  { intros i Hi. apply (lane_of n crc32 Hn x w (concat lss ++ later) i E). unfold lane in *. lia. }
  assert (Pm : forall i, i < n -> (pos + i) mod n = i).
  { intros i Hi. rewrite Nat.add_mod by lia. rewrite P. cbn [Nat.add]. rewrite Nat.mod_mod by lia. apply Nat.mod_small. exact Hi. }
  assert (HB : (exists h p, h < n /\ heard n (pos + h) = true /\ begins n w (skipn (S h) w) /\ at_start (Nat.iter h next x) = Some p /\
                 forall i, i < h -> at_start (Nat.iter i next x) <> None -> heard n (pos + i) = false)
             \/ (no_start n w /\ forall i, i < n -> at_start (Nat.iter i next x) <> None -> heard n (pos + i) = false)).
  { destruct (at_start (Nat.iter 0 next x)) as [p|] eqn:A0.
    - left. exists 0, p. split; [lia|]. split; [unfold heard; rewrite Pm by lia; reflexivity|]. split; [left; split; [apply LO; [lia|eauto]|reflexivity]|].
      split; [exact A0|]. intros i Hi. lia.
    - assert (N0 : ~ is_start (nth_error w 0)) by (intro C; apply LO in C; [destruct C as [p C]; congruence|lia]).
      destruct (Nat.eq_dec n 8) as [E8|N8].
      + destruct (at_start (Nat.iter 4 next x)) as [p|] eqn:A4.
        * left. exists 4, p. split; [lia|]. split; [unfold heard; rewrite Pm by lia; rewrite E8; reflexivity|].
          split; [right; split; [exact N0|]; split; [exact E8|]; split; [apply LO; [lia|eauto]|reflexivity]|]. split; [exact A4|].
          intros i Hi A. apply heard_no. rewrite Pm by lia. split; [intros ->; congruence|lia].
        * right. split; [split; [exact N0|]; intros _ C; apply LO in C; [destruct C as [p C]; congruence|lia]|].
          intros i Hi A. apply heard_no. rewrite Pm by lia. split; [intros ->; congruence|intros _ ->; congruence].
      + right. split; [split; [exact N0|]; intro C; contradiction|]. intros i Hi A. apply heard_no. rewrite Pm by lia. split; [intros ->; congruence|contradiction]. }
  destruct HB as [(h & p & Hh & Hd & B & A & Hs)|[NS Hs]].
  - (* a frame *)
    rewrite (picks_skip e h pos x Hs), (picks_start e _ _ p A Hd).
    pose proof (good_iter crc32 h x G) as Gh. destruct (Nat.iter h next x) as [[q fs] t] eqn:Ex. destruct q as [q|]; [discriminate|]. destruct fs as [|[[|g] p'] r]; try discriminate.
    cbn [at_start] in A. injection A as ->. cbn [XgRxProof.next].
    assert (Er : skipn (S h) w ++ concat lss ++ later = map data (body crc32 p) ++ TERMINATE :: traffic crc32 r t).
    { pose proof (lanes_iter n crc32 Hn (S h) x) as X. change (Nat.iter (S h) next x) with (next (Nat.iter h next x)) in X. rewrite Ex in X. cbn [XgRxProof.next XgRxProof.lanes_at] in X. rewrite X, E.
      rewrite skipn_app. replace (S h - length w) with 0 by (unfold lane in *; lia). reflexivity. }
    destruct (scan_frame lss (skipn (S h) w)) as [[q' Hq]|(mid & ws & q & c & junk & last & -> & C1 & C3 & C4)].
    { (* the frame has not ended *)
      assert (Lq : length (skipn (S h) w ++ concat lss) <= length (body crc32 p)).
      { rewrite app_assoc, Hq in Er. rewrite Hq, map_length. clear - Er. revert Er. generalize (body crc32 p). intro b. revert b.
        induction q' as [|y q' IH]; intros [|z b] X; cbn [map app length] in *; try lia; [discriminate|]. injection X as _ X. specialize (IH b X). lia. }
      rewrite app_length, skipn_length, (concat_length n Hn _ F) in Lq. pose proof (body_length n crc32 Hn p) as Lb.
      replace (ended_by e (pos + h, p)) with false by (symmetry; unfold ended_by; cbn [fst snd]; apply Nat.ltb_ge; unfold lane in *; lia).
      cbn [app]. rewrite picks_frame, picks_after by (unfold lane in *; lia). cbn [map]. exact (frames_open n w (skipn (S h) w) lss q' B Hq). }
    rewrite concat_app, <- app_assoc, app_assoc, C1, <- app_assoc in Er. cbn [app] in Er.
    destruct (unique_data _ _ _ _ _ _ Er) as (-> & -> & C2). symmetry in C2. clear Er.
    apply Forall_app in F. destruct F as [Fm Fw]. cbn [good tl] in Gh.
    rewrite picks_frame.
    assert (Ln : length last <= n).
    { destruct C3 as [[_ ->]|[mid' ->]]; [rewrite skipn_length; unfold lane in *; lia|]. apply Forall_app in Fm. destruct Fm as [_ Fm]. apply Forall_inv in Fm. unfold lane in *; lia. }
    assert (Tot : n * length mid + n = S h + (length (body crc32 p) + 1) + length junk).
    { pose proof (f_equal (@length _) C1) as X. rewrite !app_length, map_length, skipn_length, (concat_length n Hn _ Fm) in X. cbn [length] in X. unfold lane in *. lia. }
    set (pos1 := S (pos + h) + (length (body crc32 p) + 1)) in *.
    assert (Pj : (pos1 + length junk) mod n = 0).
    { replace (pos1 + length junk) with (pos + (length mid + 1) * n) by (unfold pos1; lia). rewrite Nat.mod_add by lia. exact P. }
    assert (Jl : forall i, i < length junk -> (pos1 + i) mod n = n - length junk + i).
    { intros i Hi. assert (D : exists z, pos1 + length junk = z * n) by (exists ((pos1 + length junk) / n); pose proof (Nat.div_mod (pos1 + length junk) n ltac:(lia)); lia).
      destruct D as [[|z] D]; [lia|]. replace (pos1 + i) with ((n - length junk + i) + z * n) by lia. rewrite Nat.mod_add by lia. apply Nat.mod_small. lia. }
    rewrite app_length in Ee.
    replace (ended_by e (pos + h, p)) with true by (symmetry; unfold ended_by; cbn [fst snd]; pose proof (body_length n crc32 Hn p); apply Nat.ltb_lt; nia).
    rewrite (picks_skip e (length junk) pos1 (None, r, t)).
    + cbn [app map]. apply frames_frame with (rest := skipn (S h) w) (last := last) (junk := junk); auto.
      apply IH.
      * rewrite app_length in L. lia.
      * exact Fw.
      * rewrite (lanes_iter n crc32 Hn). cbn [XgRxProof.lanes_at]. rewrite C2, skipn_app, skipn_all, Nat.sub_diag. reflexivity.
      * apply good_iter. cbn [good]. destruct r; [constructor|]. exact (Forall_inv_tail Gh).
      * exact Pj.
      * unfold pos1. lia.
    + intros i Hi At. pose proof (start_late n crc32 Hn r t i Gh At). apply heard_no. rewrite Jl by exact Hi. lia.
  - apply frames_skip; [exact NS|]. rewrite (picks_skip e n pos x Hs). apply IH; [lia|exact F| | | |lia].
    + rewrite (lanes_iter n crc32 Hn), E, skipn_app, skipn_all2 by (unfold lane in *; lia). replace (n - length w) with 0 by (unfold lane in *; lia). reflexivity.
    + apply good_iter. exact G.
    + rewrite Nat.add_mod by lia. rewrite P, Nat.mod_same by lia. apply Nat.mod_0_l. lia.
Qed.
End Lat.
