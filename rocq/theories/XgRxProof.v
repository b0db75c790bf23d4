(** XgRxProof.v -- an XGMII monitor on the traffic of any transmitter. *)
From Verif Require Import Base CompatModel BitsLemmas XgModel XgSpec XgProof XgMonProof XgTopProof XgRxSpec.
Local Open Scope list_scope.

Section Rx.
Context (n : nat) (crc32 : bytes -> Z) (Hn : 1 <= n).

(** a place in the traffic: inside a frame, with the data left, or between frames *)
Definition place : Type := (option bytes * list (nat * bytes) * nat).
Definition lanes_at (x : place) : list lane :=
  let '(q, fs, t) := x in match q with None => traffic crc32 fs t | Some q => map data q ++ TERMINATE :: traffic crc32 fs t end.
Definition starts_at (pos : nat) (x : place) : list (nat * bytes) :=
  let '(q, fs, _) := x in match q with None => positions pos fs | Some q => positions (pos + length q + 1) fs end.
Definition good (x : place) : Prop :=
  let '(q, fs, _) := x in match q with None => Forall (fun f => 4 <= fst f) (tl fs) | Some _ => Forall (fun f => 4 <= fst f) fs end.
Definition next (x : place) : place :=
  match x with
  | (None, [], t) => (None, [], t - 1)
  | (None, (S g, p) :: r, t) => (None, (g, p) :: r, t)
  | (None, (0, p) :: r, t) => (Some (body crc32 p), r, t)
  | (Some (_ :: q), fs, t) => (Some q, fs, t)
  | (Some [], fs, t) => (None, fs, t)
  end.
Definition at_start (x : place) : option bytes := match x with (None, (0, p) :: _, _) => Some p | _ => None end.
Definition hears (pos : nat) (x : place) : list bytes := map snd (filter (fun y => heard n (fst y)) (starts_at pos x)).

Lemma body_length p : length (body crc32 p) = 7 + length p + 4.
Proof. unfold body, le32. cbn [app length]. rewrite app_length. cbn [map length]. lia. Qed.
Lemma lanes_next x : lanes_at (next x) = tl (lanes_at x).
Proof.
  destruct x as [[[[|b q]|] fs] t]; cbn [next lanes_at]; try reflexivity.
  destruct fs as [|[[|g] p] r]; cbn [lanes_at traffic]; try reflexivity.
  destruct t as [|t]; [reflexivity|]. cbn [repeat tl]. now replace (S t - 1) with t by lia.
Qed.
Lemma lanes_iter k x : lanes_at (Nat.iter k next x) = skipn k (lanes_at x).
Proof.
  induction k as [|k IH]; [reflexivity|]. change (Nat.iter (S k) next x) with (next (Nat.iter k next x)). rewrite lanes_next, IH.
  assert (T : forall (l : list lane), tl (skipn k l) = skipn (S k) l); [|apply T].
  clear. induction k as [|k IH]; intros [|a l]; try reflexivity. cbn [skipn]. rewrite IH. destruct l; reflexivity.
Qed.
Lemma good_next x : good x -> good (next x).
Proof.
  destruct x as [[[[|b q]|] fs] t]; cbn [next good]; auto.
  - intro H. destruct fs; [constructor|]. exact (Forall_inv_tail H).
  - destruct fs as [|[[|g] p] r]; cbn [good tl]; auto.
Qed.
Lemma good_iter k x : good x -> good (Nat.iter k next x).
Proof. intro G. induction k as [|k IH]; [exact G|]. apply good_next. exact IH. Qed.
Lemma starts_next pos x : starts_at pos x = match at_start x with Some p => [(pos, p)] | None => [] end ++ starts_at (S pos) (next x).
Proof.
  destruct x as [[[[|b q]|] fs] t]; cbn [next starts_at at_start app length].
  - f_equal. lia.
  - f_equal. lia.
  - destruct fs as [|[[|g] p] r]; cbn [starts_at positions app]; [reflexivity| |].
    + rewrite body_length. rewrite Nat.add_0_r. f_equal. f_equal. lia.
    + f_equal; [f_equal; lia|f_equal; lia].
Qed.
Lemma head_start x : hd_error (lanes_at x) = Some START <-> exists p, at_start x = Some p.
Proof.
  destruct x as [[[[|b q]|] fs] t]; cbn [lanes_at at_start map app hd_error].
  - split; [discriminate|intros [p H]; discriminate].
  - split; [discriminate|intros [p H]; discriminate].
  - destruct fs as [|[[|g] p] r]; cbn [traffic repeat app hd_error].
    + split; [destruct t; discriminate|intros [p H]; discriminate].
    + split; [intros _; eauto|reflexivity].
    + split; [discriminate|intros [p' H]; discriminate].
Qed.

Lemma hears_skip k : forall pos x, (forall i, i < k -> at_start (Nat.iter i next x) <> None -> heard n (pos + i) = false) ->
  hears pos x = hears (pos + k) (Nat.iter k next x).
Proof.
  induction k as [|k IH]; intros pos x H; [now rewrite Nat.add_0_r|].
  rewrite (IH pos x) by (intros i Hi; apply H; lia). unfold hears. rewrite starts_next.
  replace (pos + S k) with (S (pos + k)) by lia. change (Nat.iter (S k) next x) with (next (Nat.iter k next x)).
  specialize (H k ltac:(lia)). destruct (at_start (Nat.iter k next x)) as [p|]; [|reflexivity].
  cbn [app filter fst]. rewrite H by discriminate. reflexivity.
Qed.
Lemma hears_start pos x p : at_start x = Some p -> heard n pos = true -> hears pos x = p :: hears (S pos) (next x).
Proof. intros A H. unfold hears. rewrite starts_next, A. cbn [app filter fst]. rewrite H. reflexivity. Qed.
Lemma iter_data q : forall fs t k, k <= length q -> Nat.iter k next (Some q, fs, t) = (Some (skipn k q), fs, t).
Proof.
  intros fs t k. induction k as [|k IH]; intro L; [reflexivity|]. change (Nat.iter (S k) next (Some q, fs, t)) with (next (Nat.iter k next (Some q, fs, t))).
  rewrite IH by lia. assert (E : skipn k q = nth k q 0%Z :: skipn (S k) q).
  { clear - L. revert k L. induction q as [|b q IH]; intros k L; [cbn in L; lia|]. destruct k; [reflexivity|]. cbn [skipn nth]. apply IH. cbn in L. lia. }
  rewrite E. reflexivity.
Qed.
Lemma iter_frame q fs t : Nat.iter (length q + 1) next (Some q, fs, t) = (None, fs, t).
Proof.
  replace (length q + 1) with (S (length q)) by lia. change (next (Nat.iter (length q) next (Some q, fs, t)) = (None, fs, t)).
  rewrite iter_data, skipn_all by lia. reflexivity.
Qed.
Lemma hears_frame pos q fs t : hears pos (Some q, fs, t) = hears (pos + (length q + 1)) (None, fs, t).
Proof.
  rewrite (hears_skip (length q + 1) pos (Some q, fs, t)), iter_frame; [reflexivity|].
  intros i Hi A. rewrite iter_data in A by lia. exfalso. apply A. reflexivity.
Qed.
(** the first frame is not before its gap *)
Lemma start_late fs t i : Forall (fun f => 4 <= fst f) fs -> at_start (Nat.iter i next (None, fs, t)) <> None -> 4 <= i.
Proof.
  intros F A. destruct (Nat.le_gt_cases 4 i) as [|L]; [assumption|]. exfalso. apply A.
  destruct fs as [|[g p] r].
  - assert (E : forall k, exists t', Nat.iter k next (None, [], t) = (None, [], t')).
    { induction k as [|k [t' E]]; [exists t; reflexivity|]. exists (t' - 1). change (next (Nat.iter k next (None, [], t)) = (None, [], t' - 1)). rewrite E. reflexivity. }
    destruct (E i) as [t' ->]. reflexivity.
  - apply Forall_inv in F. cbn [fst] in F. do 4 (destruct g as [|g]; [lia|]). do 4 (destruct i as [|i]; [reflexivity|]). lia.
Qed.

Lemma nth_skipn {X} (l : list X) i : nth_error l i = hd_error (skipn i l).
Proof. revert l. induction i as [|i IH]; intros [|a l]; try reflexivity. cbn [nth_error skipn]. apply IH. Qed.
Lemma lane_of x w r i : lanes_at x = w ++ r -> i < length w -> is_start (nth_error w i) <-> exists p, at_start (Nat.iter i next x) = Some p.
Proof.
  intros E L. rewrite <- head_start, lanes_iter, <- nth_skipn, E. unfold is_start. rewrite nth_error_app1 by exact L. reflexivity.
Qed.
(** data up to a control character, in words *)
Lemma unique_data p q c d (a b : list lane) : map data p ++ (c, true) :: a = map data q ++ (d, true) :: b -> p = q /\ c = d /\ a = b.
Proof.
  revert q. induction p as [|x p IH]; intros [|y q] E; cbn in E; try discriminate.
  - injection E as -> ->. auto.
  - injection E as -> E. destruct (IH q E) as (-> & -> & ->). auto.
Qed.
Lemma no_control p q c (b : list lane) : map data p <> map data q ++ (c, true) :: b.
Proof. revert q. induction p as [|x p IH]; intros [|y q] E; cbn in E; try discriminate. injection E as -> E. exact (IH q E). Qed.
Lemma cut mids first q tl : Forall (fun w => length w = n) mids -> first ++ concat mids = map data q ++ TERMINATE :: tl ->
  exists mid ws junk last, mids = mid ++ ws /\ first ++ concat mid = map data q ++ TERMINATE :: junk /\ tl = junk ++ concat ws /\
    (mid = [] /\ last = first \/ exists mid', mid = mid' ++ [last]) /\ length junk < length last.
Proof.
  intros _ E. destruct (scan_frame mids first) as [[p H]|(mid & ws & p & c & junk & last & H1 & H2 & H3 & H4)].
  - rewrite H in E. destruct (no_control _ _ _ _ E).
  - exists mid, ws, junk, last. subst mids. rewrite concat_app, app_assoc, H2, <- app_assoc in E. cbn [app] in E.
    destruct (unique_data _ _ _ _ _ _ E) as (-> & -> & <-). auto.
Qed.
Lemma concat_length (lss : list (list lane)) : Forall (fun w => length w = n) lss -> length (concat lss) = n * length lss.
Proof. induction 1 as [|w r E _ IH]; [cbn; lia|]. cbn [concat length]. rewrite app_length, E, IH. lia. Qed.

Lemma heard_no pos : heard n pos = false <-> pos mod n <> 0 /\ (n = 8 -> pos mod n <> 4).
Proof.
  unfold heard. rewrite orb_false_iff, andb_false_iff, !Nat.eqb_neq. split; intros [A B]; (split; [exact A|]); [|destruct (Nat.eq_dec n 8); auto].
  intro E. destruct B; auto.
Qed.

Lemma heard_traffic : forall m lss x pos, length lss <= m -> Forall (fun w => length w = n) lss -> concat lss = lanes_at x -> good x -> pos mod n = 0 ->
  frames n lss (map (fun p => (body crc32 p, 253%Z)) (hears pos x)).
Proof.
  induction m as [|m IH]; intros lss x pos L F E G P.
  { destruct lss; [|cbn in L; lia]. cbn [concat] in E. destruct x as [[[q|] fs] t]; [destruct q; discriminate|]. destruct fs as [|[[|g] p] r]; [|discriminate|discriminate].
    constructor. }
  destruct lss as [|w lss].
  { cbn [concat] in E. destruct x as [[[q|] fs] t]; [destruct q; discriminate|]. destruct fs as [|[[|g] p] r]; [|discriminate|discriminate]. constructor. }
  pose proof (Forall_inv F) as Lw. apply Forall_inv_tail in F. cbn [length] in L. cbn [concat] in E. symmetry in E.
  assert (LO : forall i, i < n -> is_start (nth_error w i) <-> exists p, at_start (Nat.iter i next x) = Some p).
  { intros i Hi. apply (lane_of x w (concat lss) i E). unfold lane in *. lia. }
  assert (Pm : forall i, i < n -> (pos + i) mod n = i).
  { intros i Hi. rewrite Nat.add_mod by lia. rewrite P. cbn [Nat.add]. rewrite Nat.mod_mod by lia. apply Nat.mod_small. exact Hi. }
  assert (HB : (exists h p, h < n /\ heard n (pos + h) = true /\ begins n w (skipn (S h) w) /\ at_start (Nat.iter h next x) = Some p /\
                 forall i, i < h -> at_start (Nat.iter i next x) <> None -> heard n (pos + i) = false)
             \/ (no_start n w /\ forall i, i < n -> at_start (Nat.iter i next x) <> None -> heard n (pos + i) = false)).
  { destruct (at_start (Nat.iter 0 next x)) as [p|] eqn:A0.
    - left. exists 0, p. split; [lia|]. split; [unfold heard; rewrite Pm by lia; reflexivity|]. split; [left; split; [apply LO; [lia|eauto]|reflexivity]|].
      split; [exact A0|]. intros i Hi. lia.
    - assert (N0 : ~ is_start (nth_error w 0)) by (intro C; apply LO in C; [destruct C as [p C]; congruence|lia]).
      destruct (Nat.eq_dec n 8) as [E8|N8].
      + destruct (at_start (Nat.iter 4 next x)) as [p|] eqn:A4.
        * left. exists 4, p. split; [lia|]. split; [unfold heard; rewrite Pm by lia; rewrite E8; reflexivity|].
          split; [right; split; [exact N0|]; split; [exact E8|]; split; [apply LO; [lia|eauto]|reflexivity]|]. split; [exact A4|].
          intros i Hi A. apply heard_no. rewrite Pm by lia. split; [intros ->; congruence|lia].
        * right. split; [split; [exact N0|]; intros _ C; apply LO in C; [destruct C as [p C]; congruence|lia]|].
          intros i Hi A. apply heard_no. rewrite Pm by lia. split; [intros ->; congruence|intros _ ->; congruence].
      + right. split; [split; [exact N0|]; intro C; contradiction|]. intros i Hi A. apply heard_no. rewrite Pm by lia. split; [intros ->; congruence|contradiction]. }
  destruct HB as [(h & p & Hh & Hd & B & A & Hs)|[NS Hs]].
  - (* a frame *)
    rewrite (hears_skip h pos x Hs), (hears_start _ _ p A Hd).
    pose proof (good_iter h x G) as Gh. destruct (Nat.iter h next x) as [[q fs] t] eqn:Ex. destruct q as [q|]; [discriminate|]. destruct fs as [|[[|g] p'] r]; try discriminate.
    cbn [at_start] in A. injection A as ->. cbn [next].
    assert (Er : skipn (S h) w ++ concat lss = map data (body crc32 p) ++ TERMINATE :: traffic crc32 r t).
    { pose proof (lanes_iter (S h) x) as X. change (Nat.iter (S h) next x) with (next (Nat.iter h next x)) in X. rewrite Ex in X. cbn [next lanes_at] in X. rewrite X, E.
      rewrite skipn_app. replace (S h - length w) with 0 by (unfold lane in *; lia). reflexivity. }
    destruct (cut lss _ _ _ F Er) as (mid & ws & junk & last & -> & C1 & C2 & C3 & C4).
    apply Forall_app in F. destruct F as [Fm Fw]. cbn [good tl] in Gh.
    rewrite hears_frame.
    assert (Ln : length last <= n).
    { destruct C3 as [[_ ->]|[mid' ->]]; [rewrite skipn_length; unfold lane in *; lia|]. apply Forall_app in Fm. destruct Fm as [_ Fm]. apply Forall_inv in Fm. unfold lane in *; lia. }
    assert (Tot : n * length mid + n = S h + (length (body crc32 p) + 1) + length junk).
    { pose proof (f_equal (@length _) C1) as X. rewrite !app_length, map_length, skipn_length, (concat_length _ Fm) in X. cbn [length] in X. unfold lane in *. lia. }
    set (pos1 := S (pos + h) + (length (body crc32 p) + 1)) in *.
    assert (Pj : (pos1 + length junk) mod n = 0).
    { replace (pos1 + length junk) with (pos + (length mid + 1) * n) by (unfold pos1; lia). rewrite Nat.mod_add by lia. exact P. }
    assert (Jl : forall i, i < length junk -> (pos1 + i) mod n = n - length junk + i).
    { intros i Hi. assert (D : exists z, pos1 + length junk = z * n) by (exists ((pos1 + length junk) / n); pose proof (Nat.div_mod (pos1 + length junk) n ltac:(lia)); lia).
      destruct D as [[|z] D]; [lia|]. replace (pos1 + i) with ((n - length junk + i) + z * n) by lia. rewrite Nat.mod_add by lia. apply Nat.mod_small. lia. }
    rewrite (hears_skip (length junk) pos1 (None, r, t)).
    + cbn [map]. apply frames_frame with (rest := skipn (S h) w) (last := last) (junk := junk); auto.
      apply IH.
      * rewrite app_length in L. lia.
      * exact Fw.
      * rewrite lanes_iter. cbn [lanes_at]. rewrite C2, skipn_app, skipn_all, Nat.sub_diag. reflexivity.
      * apply good_iter. cbn [good]. destruct r; [constructor|]. exact (Forall_inv_tail Gh).
      * exact Pj.
    + intros i Hi At. pose proof (start_late r t i Gh At). apply heard_no. rewrite Jl by exact Hi. lia.
  - apply frames_skip; [exact NS|]. rewrite (hears_skip n pos x Hs). apply IH; [lia|exact F| | |].
    + rewrite lanes_iter, E, skipn_app, skipn_all2 by (unfold lane in *; lia). replace (n - length w) with 0 by (unfold lane in *; lia). reflexivity.
    + apply good_iter. exact G.
    + rewrite Nat.add_mod by lia. rewrite P, Nat.mod_same by lia. apply Nat.mod_0_l. lia.
Qed.
End Rx.

(** what the monitor makes of a frame of the traffic *)
Lemma body_delivered crc32 p es : 60 <= length p -> report crc32 (body crc32 p, 253%Z) es -> es = [Deliver p].
Proof.
  intros L R. assert (Lb : 71 <= length (body crc32 p)) by (rewrite (body_length 1 crc32 (le_n 1)); lia).
  inversion R as [H|H E|H L'|e H L' P E1 E2|e e' payload crc W E1 E2 E3 E4]; subst; cbn [fst snd] in *.
  - congruence.
  - rewrite E in Lb. cbn in Lb. lia.
  - lia.
  - destruct (P (p ++ le32 (crc32 p))). reflexivity.
  - destruct W as (_ & W & Lc & _). cbn [fst] in W. unfold body in W. apply app_inv_head in W.
    assert (Lq : length (p ++ le32 (crc32 p)) = length (payload ++ crc)) by (rewrite W; reflexivity).
    rewrite !app_length, Lc in Lq. change (length (le32 (crc32 p))) with 4 in Lq.
    assert (X : p = payload /\ le32 (crc32 p) = crc).
    { clear - W Lq. assert (L : length p = length payload) by lia. clear Lq. revert W. generalize (le32 (crc32 p)). intro c. revert payload L.
      induction p as [|x p IH]; intros [|y q] L W; try discriminate; [auto|]. cbn [app] in W. injection W as -> W. cbn [length] in L.
      destruct (IH q ltac:(lia) W) as [-> ->]. auto. }
    destruct X as [<- X]. rewrite (E2 Lb), (E3 (eq_sym X)). reflexivity.
Qed.
Lemma all_delivered crc32 ps evs : Forall (fun p => 60 <= length p) ps ->
  Forall2 (report crc32) (map (fun p => (body crc32 p, 253%Z)) ps) evs -> concat evs = map Deliver ps.
Proof.
  revert evs. induction ps as [|p ps IH]; intros evs F R; inversion R as [|a es b evs' R1 R2]; subst; [reflexivity|].
  cbn [concat map]. rewrite (body_delivered _ _ _ (Forall_inv F) R1), (IH _ (Forall_inv_tail F) R2). reflexivity.
Qed.
