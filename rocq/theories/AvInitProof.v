(** AvInitProof.v -- C127. *)
From Verif Require Import Base Async BitsLemmas CompatModel CompatSpec AvMemModel AvMemSpec AvMemProof AvMemThm AvInitSpec.
Local Open Scope list_scope.

Section Init.
Context (c : am_cfg).
Notation world := (world am_state am_in am_out).

Lemma do_response_head s o tr l : fit_resp c (hd RNone (a_resp s)) ->
  do_response c (World s PActive o tr l : world) =
  (Done tt, World (set_resp (tl (a_resp s)) s) PActive (answer_out c o (hd RNone (a_resp s))) tr l).
Proof.
  intro F. unfold do_response, bind at 1, get. cbn [st]. destruct (a_resp s) as [|[| |v] r] eqn:E; cbn [hd fit_resp] in F.
  1-3: unfold modify, bind, get, put, drive, answer_out; cbn [st ph out trace ins tl hd]; destruct (m_rdv c); reflexivity.
  rewrite create_int by exact F.
  unfold modify, bind, get, put, drive, answer_out, of_res, ret. cbn [st ph out trace ins tl hd]. destruct (m_rdv c); reflexivity.
Qed.
Lemma create_unfit v : ~ (0 <= v < 2 ^ Z.of_nat (m_width c))%Z -> create_binary (BInt v) (m_width c) false = Err EValue.
Proof.
  intro N. unfold create_binary, logicarray_of_int. destruct (Nat.eqb_spec (m_width c) 1) as [E|E].
  - rewrite E in N. change (2 ^ Z.of_nat 1)%Z with 2%Z in N. cbn [logic_of]. destruct v as [|[q|q|]|q]; try reflexivity; exfalso; apply N; lia.
  - destruct (andb _ _) eqn:B; [|reflexivity]. exfalso. apply N. lia.
Qed.
Lemma do_response_bad s o tr l : ~ fit_resp c (hd RNone (a_resp s)) ->
  do_response c (World s PActive o tr l : world) = (Exn EValue, World (set_resp (tl (a_resp s)) s) PActive o tr l).
Proof.
  intro F. unfold do_response, bind at 1, get. cbn [st]. destruct (a_resp s) as [|[| |v] r] eqn:E; cbn [hd fit_resp] in F; try (exfalso; exact (F Logic.I)).
  rewrite create_unfit by exact F. unfold modify, bind, get, put, of_res, raise. cbn [st ph out trace ins tl]. reflexivity.
Qed.

Lemma body_head s p o tr i0 i l : m_bc c = false -> m_latmin c <= m_latmax c ->
  fit_resp c (hd RNone (a_resp s)) -> well_formed c i ->
  respond_body c (World s p o tr (i0 :: i :: l) : world) =
  let s1 := set_resp (tl (a_resp s)) s in
  (Done tt, World (after_cycle c s1 i) PReadOnly (answer_out c o (hd RNone (a_resp s))) (tr ++ [(i0, o)]) (i :: l)).
Proof.
  intros Hbc Hlat F [W1 W2]. unfold respond_body. unfold bind at 1. cbn [edge ins st out trace].
  rewrite (bind_done _ _ _ _ _ (do_response_head s o _ _ F)). cbn zeta.
  set (s1 := set_resp (tl (a_resp s)) s). set (o1 := answer_out c o _).
  unfold bind at 1. cbn [readonly ph ins st out trace]. unfold bind at 1. cbn [sample ph input ins].
  unfold burstread, burstwrite. rewrite Hbc, andb_false_r. cbn [andb].
  assert (R : (if m_readable c && is_one (v_read i) then simple_read c else ret tt)
              (World s1 PReadOnly o1 (tr ++ [(i0, o)]) (i :: l) : world)
              = (Done tt, World (after_read_req c s1 i) PReadOnly o1 (tr ++ [(i0, o)]) (i :: l))).
  { unfold after_read_req, is_one. fold (reads c i). destruct (reads c i) eqn:E; [|reflexivity].
    unfold simple_read, randint. replace (m_latmin c <=? m_latmax c) with true by (symmetry; apply Nat.leb_le, Hlat).
    unfold bind, draw, bind, get, put, ret, modify, bind, get, put, sample, toint, ret.
    cbn [st ph out trace ins input a_mem a_resp a_rnd a_pos set_resp]. rewrite (num_of _ (W1 (or_introl eq_refl))).
    cbn [st ph out trace ins input a_mem a_resp a_rnd a_pos set_resp]. unfold latency. rewrite Nat.add_0_r. reflexivity. }
  rewrite (bind_done _ _ _ _ _ R). unfold bind at 1. cbn [sample ph input ins].
  unfold after_cycle, is_one. fold (writes c i). cbn zeta. set (s2 := after_read_req c s1 i). unfold mem_after.
  destruct (writes c i) eqn:E; [|rewrite set_mem_same; reflexivity].
  destruct (W2 eq_refl) as (Wd & _ & Wb). unfold simple_write, bind, sample, toint, ret, modify, bind, get, put.
  cbn [st ph out trace ins input]. rewrite (num_of _ (W1 (or_intror eq_refl))), (num_of _ Wd).
  destruct (m_be c) eqn:B.
  - rewrite (num_of _ (Wb eq_refl)). cbn [st ph out trace ins input]. unfold store_word. rewrite merge_correct. reflexivity.
  - reflexivity.
Qed.

(** the responses taken from the queue in a run *)
Fixpoint heads (s : am_state) (l : list am_in) : list resp :=
  hd RNone (a_resp s) ::
  match l with [] => [] | i :: r => heads (after_cycle c (set_resp (tl (a_resp s)) s) i) r end.
Lemma heads_length l : forall s, length (heads s l) = S (length l).
Proof. induction l as [|i l IH]; intro s; [reflexivity|]. cbn [heads length]. rewrite IH. reflexivity. Qed.
Lemma after_mem s i : a_mem (after_cycle c (set_resp (tl (a_resp s)) s) i) = mem_after c (a_mem s) i.
Proof. unfold after_cycle, after_read_req. cbn zeta. destruct (reads c i); reflexivity. Qed.

Lemma run_good l : m_bc c = false -> m_latmin c <= m_latmax c -> Forall (well_formed c) l ->
  forall fuel s p o tr i0, length l < fuel -> Forall (fit_resp c) (heads s l) ->
  exists p' o', respond c fuel (World s p o tr (i0 :: l) : world) =
    (Susp, World (snd (cycles c s o l)) p' o' (tr ++ combine (i0 :: l) (o :: fst (cycles c s o l))) []).
Proof.
  intros Hbc Hlat W. induction W as [|i l Wi W IH]; intros fuel s p o tr i0 Hf Fq; cbn [heads] in Fq; inversion_clear Fq as [|? ? F1 F2].
  - destruct fuel as [|fuel]; [cbn in Hf; lia|]. exists PActive, (answer_out c o (hd RNone (a_resp s))).
    unfold respond. apply loop_susp. unfold respond_body. rewrite bind_assoc. unfold bind at 1. cbn [edge ins st out trace].
    rewrite bind_assoc, (bind_done _ _ _ _ _ (do_response_head s o _ _ F1)). reflexivity.
  - destruct fuel as [|fuel]; [cbn in Hf; lia|]. cbn [length] in Hf.
    pose proof (body_head s p o tr i0 i l Hbc Hlat F1 Wi) as B. cbn zeta in B.
    assert (B' : (respond_body c ;; ret (inl tt)) (World s p o tr (i0 :: i :: l) : world) =
      (Done (inl tt : unit + unit), World (after_cycle c (set_resp (tl (a_resp s)) s) i) PReadOnly
                 (answer_out c o (hd RNone (a_resp s))) (tr ++ [(i0, o)]) (i :: l))).
    { rewrite (bind_done _ _ _ _ _ B). reflexivity. }
    destruct (IH fuel (after_cycle c (set_resp (tl (a_resp s)) s) i) PReadOnly (answer_out c o (hd RNone (a_resp s)))
                 (tr ++ [(i0, o)]) i ltac:(lia) F2) as (p' & o' & E).
    exists p', o'. unfold respond in *. rewrite (loop_step _ _ _ _ _ _ B'), E. cbn [cycles].
    destruct (cycles c (after_cycle c _ i) _ l) as [os s']. cbn [fst snd combine]. rewrite <- app_assoc. reflexivity.
Qed.

Lemma run_bad h : m_bc c = false -> m_latmin c <= m_latmax c -> forall l fuel s p o tr i0 r rest,
  Forall (well_formed c) l -> length l < fuel -> heads s l = h ++ r :: rest -> Forall (fit_resp c) h -> ~ fit_resp c r ->
  exists w, respond c fuel (World s p o tr (i0 :: l) : world) = (Exn EValue, w) /\
    trace w = tr ++ firstn (S (length h)) (combine (i0 :: l) (o :: fst (cycles c s o l))) /\
    a_mem (st w) = fold_left (mem_after c) (firstn (length h) l) (a_mem s).
Proof.
  intros Hbc Hlat. induction h as [|x h IH]; intros l fuel s p o tr i0 r rest W Hf E F N; (destruct fuel as [|fuel]; [lia|]).
  - assert (Hr : hd RNone (a_resp s) = r) by (destruct l; cbn [heads app] in E; congruence). rewrite <- Hr in N.
    eexists. unfold respond. cbn [loop]. unfold respond_body. unfold bind at 1 2 3. cbn [edge ins st out trace].
    unfold bind at 1. rewrite (do_response_bad s o _ _ N). split; [reflexivity|]. cbn [trace st length firstn].
    split; [|reflexivity]. destruct l; reflexivity.
  - destruct l as [|i l]; cbn [heads app] in E; [inversion E; destruct h; discriminate|].
    assert (Hr : hd RNone (a_resp s) = x) by congruence. assert (E' : heads (after_cycle c (set_resp (tl (a_resp s)) s) i) l = h ++ r :: rest) by congruence.
    inversion_clear F as [|? ? F1 F2]. inversion_clear W as [|? ? Wi Wl]. rewrite <- Hr in F1. cbn [length] in Hf.
    pose proof (body_head s p o tr i0 i l Hbc Hlat F1 Wi) as B. cbn zeta in B.
    assert (B' : (respond_body c ;; ret (inl tt)) (World s p o tr (i0 :: i :: l) : world) =
      (Done (inl tt : unit + unit), World (after_cycle c (set_resp (tl (a_resp s)) s) i) PReadOnly
                 (answer_out c o (hd RNone (a_resp s))) (tr ++ [(i0, o)]) (i :: l))).
    { rewrite (bind_done _ _ _ _ _ B). reflexivity. }
    destruct (IH l fuel (after_cycle c (set_resp (tl (a_resp s)) s) i) PReadOnly (answer_out c o (hd RNone (a_resp s)))
                 (tr ++ [(i0, o)]) i r rest Wl ltac:(lia) E' F2 N) as (w & Ew & T & M).
    exists w. unfold respond in *. rewrite (loop_step _ _ _ _ _ _ B'), Ew. split; [reflexivity|].
    rewrite T, M, after_mem. cbn [cycles length]. destruct (cycles c (after_cycle c _ i) _ l) as [os s'] eqn:Ec. cbn [fst].
    rewrite <- app_assoc. split; reflexivity.
Qed.

(** ** the responses against the scheduled values *)
Definition resp_value (r : resp) : option (option Z) :=
  match r with RNone => None | RX => Some None | RVal v => Some (Some v) end.
Fixpoint queuedv (k : nat) (q : list resp) : list (nat * option Z) :=
  match q with
  | [] => []
  | r :: q => match resp_value r with Some w => [(k, w)] | None => [] end ++ queuedv (S k) q
  end.
Lemma queuedv_app k q q' : queuedv k (q ++ q') = queuedv k q ++ queuedv (k + length q) q'.
Proof.
  revert k. induction q as [|r q IH]; intro k; cbn [app queuedv length]; [rewrite Nat.add_0_r; reflexivity|].
  rewrite IH, app_assoc. replace (S k + length q) with (k + S (length q)) by lia. reflexivity.
Qed.
Lemma queuedv_pad k q n : queuedv k (pad q n) = queuedv k q.
Proof.
  unfold pad. rewrite queuedv_app. assert (forall j a, queuedv a (repeat RNone j) = []) as ->.
  { induction j as [|j IH]; intro a; [reflexivity|]. apply IH. }
  apply app_nil_r.
Qed.
Lemma queuedv_ge k q t v : In (t, v) (queuedv k q) -> k <= t < k + length q.
Proof.
  revert k. induction q as [|r q IH]; intros k H; [contradiction|]. cbn [queuedv length] in *.
  apply in_app_or in H. destruct H as [H|H].
  - destruct (resp_value r); [|contradiction]. destruct H as [H|[]]. inversion H; subst. lia.
  - apply IH in H. lia.
Qed.
Lemma due_ge l : forall k free m d t v, In (t, v) (due_values c k free m d l) -> k < t /\ free <= t.
Proof.
  induction l as [|i l IH]; intros k free m d t v H; [contradiction|]. cbn [due_values] in H. destruct (reads c i).
  - destruct H as [H|H]; [inversion H; subst; lia|]. apply IH in H. lia.
  - apply IH in H. lia.
Qed.
Lemma due_free l : forall k free free' m d, Nat.max (k + 1) free = Nat.max (k + 1) free' ->
  due_values c k free m d l = due_values c k free' m d l.
Proof.
  induction l as [|i l IH]; intros k free free' m d H; [reflexivity|]. cbn [due_values]. destruct (reads c i).
  - replace (Nat.max (k + 1 + d 0) free') with (Nat.max (k + 1 + d 0) free) by lia. reflexivity.
  - apply IH. lia.
Qed.
Lemma due_ext l : forall k free m d d', (forall j, d j = d' j) -> due_values c k free m d l = due_values c k free m d' l.
Proof.
  induction l as [|i l IH]; intros k free m d d' Hd; [reflexivity|]. cbn [due_values].
  destruct (reads c i); [|apply IH; assumption]. rewrite (Hd 0). f_equal. apply IH. intro j. apply Hd.
Qed.
Lemma mem_resp_value m a : resp_value (mem_resp m a) = Some (m a).
Proof. unfold mem_resp. destruct (m a); reflexivity. Qed.

Lemma heads_due l : forall s k j v, j <= length l ->
  (nth_error (heads s l) j = Some (RVal v) <->
   In (S k + j, Some v) (queuedv (S k) (a_resp s) ++ due_values c (S k) (S k + length (a_resp s)) (a_mem s) (latency c s) l)).
Proof.
  assert (H0 : forall l s k v, hd RNone (a_resp s) = RVal v <->
    In (S k, Some v) (queuedv (S k) (a_resp s) ++ due_values c (S k) (S k + length (a_resp s)) (a_mem s) (latency c s) l)).
  { clear l. intros l s k v. rewrite in_app_iff. destruct (a_resp s) as [|r q]; cbn [hd queuedv].
    - split; [discriminate|]. intros [[]|H]. apply due_ge in H. lia.
    - rewrite in_app_iff. split.
      + intros ->. left. left. left. reflexivity.
      + intros [[H|H]|H].
        * destruct r as [| |z]; cbn [resp_value] in H; [contradiction| |]; destruct H as [H|[]]; inversion H. reflexivity.
        * apply queuedv_ge in H. lia.
        * apply due_ge in H. lia. }
  induction l as [|i l IH]; intros s k j v Hj.
  - cbn [length] in Hj. replace j with 0 by lia. rewrite Nat.add_0_r, <- (H0 [] s k v). cbn [heads nth_error]. split; congruence.
  - destruct j as [|j]; [rewrite Nat.add_0_r, <- (H0 (i :: l) s k v); cbn [heads nth_error]; split; congruence|].
    cbn [heads nth_error length] in *. set (s1 := set_resp (tl (a_resp s)) s) in *.
    rewrite (IH (after_cycle c s1 i) (S k) j v ltac:(lia)). replace (S (S k) + j) with (S k + S j) by lia.
    assert (Q : In (S k + S j, Some v) (queuedv (S k) (a_resp s)) <-> In (S k + S j, Some v) (queuedv (S (S k)) (tl (a_resp s)))).
    { destruct (a_resp s) as [|r q]; [reflexivity|]. cbn [queuedv tl]. rewrite in_app_iff.
      split; [intros [H|H]; [|exact H]|intro H; right; exact H]. destruct (resp_value r); [|contradiction].
      destruct H as [H|[]]. inversion H. lia. }
    rewrite !in_app_iff. rewrite Q. unfold after_cycle, after_read_req. cbn zeta. cbn [due_values].
    assert (L : S k + length (a_resp s) = S (S k) + length (tl (a_resp s)) \/ a_resp s = []).
    { destruct (a_resp s); [right; reflexivity|left; cbn [length tl]; lia]. }
    assert (Fr : Nat.max (S k + 1 + latency c s 0) (S k + length (a_resp s)) = S (S k) + Nat.max (length (tl (a_resp s))) (latency c s 0)).
    { destruct L as [L|L]; [lia|]. rewrite L. cbn [tl length]. lia. }
    destruct (reads c i).
    + cbn [a_resp a_mem set_mem]. unfold enqueue. rewrite queuedv_app, queuedv_pad, pad_length. cbn [queuedv]. rewrite mem_resp_value, app_nil_r.
      rewrite in_app_iff. rewrite Fr. cbn [a_resp a_mem s1 set_resp].
      rewrite (due_ext l (S (S k)) _ (mem_after c (a_mem s) i) (fun j => latency c s (S j))
                 (latency c (set_mem (mem_after c (a_mem s) i) (AmState (a_mem s) (pad (tl (a_resp s)) (latency c s1 0) ++ [mem_resp (a_mem s) (num (v_addr i))]) (a_rnd s1) (S (a_pos s1)))))).
      2:{ intro n. unfold latency. cbn [a_rnd a_pos set_mem s1 set_resp]. rewrite Nat.add_succ_r. reflexivity. }
      change (latency c s1 0) with (latency c s 0).
      replace (S (S k) + length (pad (tl (a_resp s)) (latency c s 0) ++ [mem_resp (a_mem s) (num (v_addr i))]))
        with (S (S (S k) + Nat.max (length (tl (a_resp s))) (latency c s 0)))
        by (rewrite app_length, pad_length; cbn [length]; lia).
      cbn [In]. tauto.
    + cbn [a_resp a_mem set_mem s1 set_resp].
      rewrite (due_free l (S (S k)) (S k + length (a_resp s)) (S (S k) + length (tl (a_resp s)))).
      2:{ destruct L as [L|L]; [lia|]. rewrite L. cbn [tl length]. lia. }
      reflexivity.
Qed.

(** the words of [answers] are those values *)
Lemma answers_values l : forall k free m d,
  answers c k free m d l = map (fun x => (fst x, match snd x with None => xs (m_width c) | Some v => zbits (m_width c) v end)) (due_values c k free m d l).
Proof.
  induction l as [|i l IH]; intros k free m d; [reflexivity|]. cbn [answers due_values]. destruct (reads c i); [|apply IH].
  cbn [map fst snd]. rewrite IH. reflexivity.
Qed.

Lemma fit_iff r : fit_resp c r <-> forall v, r = RVal v -> (0 <= v < 2 ^ Z.of_nat (m_width c))%Z.
Proof.
  destruct r as [| |z]; cbn [fit_resp]; split; intros H; try (intros v E; discriminate E); try exact Logic.I.
  - intros v E. inversion E; subst. exact H.
  - apply H. reflexivity.
Qed.
Lemma fits_before s l t : a_resp s = [] -> t <= S (length l) ->
  (forall t' v, In (t', v) (due_values c 1 1 (a_mem s) (latency c s) l) -> t' < t -> fits c v) ->
  Forall (fit_resp c) (firstn (t - 1) (heads s l)).
Proof.
  intros Hr Ht F. apply Forall_forall. intros r Hin. apply In_nth_error in Hin. destruct Hin as [j Hj].
  assert (Lj : j < t - 1) by (assert (X : nth_error (firstn (t - 1) (heads s l)) j <> None) by congruence; apply nth_error_Some in X; rewrite firstn_length in X; lia).
  assert (Hh : nth_error (heads s l) j = Some r).
  { rewrite <- Hj, <- (firstn_skipn (t - 1) (heads s l)) at 1. apply nth_error_app1. rewrite firstn_length, heads_length. lia. }
  apply fit_iff. intros v ->. apply (heads_due l s 0 j v ltac:(lia)) in Hh. rewrite Hr in Hh. cbn [queuedv app length] in Hh. change (1 + 0) with 1 in Hh.
  exact (F _ _ Hh ltac:(lia) v eq_refl).
Qed.

Lemma contents_thm fuel s p o i0 l t v : m_bc c = false -> m_latmin c <= m_latmax c ->
  Forall (well_formed c) l -> length l < fuel -> a_resp s = [] ->
  In (t, v) (due_values c 1 1 (a_mem s) (latency c s) l) -> t <= S (length l) -> ~ fits c v ->
  (forall t' v', In (t', v') (due_values c 1 1 (a_mem s) (latency c s) l) -> t' < t -> fits c v') ->
  exists w, respond c fuel (World s p o [] (i0 :: l) : world) = (Exn EValue, w) /\
    map fst (trace w) = firstn t (i0 :: l) /\ a_mem (st w) = fold_left (mem_after c) (firstn (t - 1) l) (a_mem s).
Proof.
  intros Hb Hl W Hf Hr Hin Ht N F. pose proof (due_ge _ _ _ _ _ _ _ Hin) as [G _].
  destruct v as [z|]; [|exfalso; apply N; intros z E; discriminate E].
  assert (Hh : nth_error (heads s l) (t - 1) = Some (RVal z)).
  { apply (heads_due l s 0 (t - 1) z ltac:(lia)). rewrite Hr. cbn [queuedv app length]. change (1 + 0) with 1. replace (1 + (t - 1)) with t by lia. exact Hin. }
  apply nth_error_split in Hh. destruct Hh as (h & rest & Eh & Lh).
  assert (Fh : Forall (fit_resp c) h).
  { pose proof (fits_before s l t Hr Ht F) as X. rewrite Eh, <- Lh, firstn_app, Nat.sub_diag, firstn_all in X. cbn [firstn] in X. rewrite app_nil_r in X. exact X. }
  assert (Nz : ~ fit_resp c (RVal z)).
  { intro X. apply N. intros z' E. inversion E; subst. exact X. }
  destruct (run_bad h Hb Hl l fuel s p o [] i0 (RVal z) rest W Hf Eh Fh Nz) as (w & Ew & T & M).
  exists w. split; [exact Ew|]. rewrite T, M, Lh. split; [|reflexivity]. cbn [app]. replace (S (t - 1)) with t by lia.
  rewrite <- firstn_map, map_fst_combine; [reflexivity|]. cbn [length]. rewrite cycles_length. reflexivity.
Qed.

Lemma init_thm fuel s p o i0 l : m_bc c = false -> m_latmin c <= m_latmax c ->
  Forall (well_formed c) l -> length l < fuel -> a_resp s = [] ->
  (forall t v, In (t, v) (due_values c 1 1 (a_mem s) (latency c s) l) -> t <= S (length l) -> fits c v) ->
  exists w, respond c fuel (World s p o [] (i0 :: l) : world) = (Susp, w) /\
    map fst (trace w) = i0 :: l /\ a_mem (st w) = fold_left (mem_after c) l (a_mem s) /\
    forall t i i' prev cur, nth_error (trace w) t = Some (i, prev) -> nth_error (trace w) (S t) = Some (i', cur) ->
      due c (answers c 1 1 (a_mem s) (latency c s) l) (S t) prev cur.
Proof.
  intros Hb Hl W Hf Hr F.
  assert (Fh : Forall (fit_resp c) (heads s l)).
  { apply Forall_forall. intros r Hin. apply In_nth_error in Hin. destruct Hin as [j Hj].
    assert (Lj : j < S (length l)) by (rewrite <- (heads_length l s); apply nth_error_Some; congruence).
    apply fit_iff. intros v ->. apply (heads_due l s 0 j v ltac:(lia)) in Hj. rewrite Hr in Hj. cbn [queuedv app length] in Hj. change (1 + 0) with 1 in Hj.
    exact (F _ _ Hj ltac:(lia) v eq_refl). }
  destruct (run_good l Hb Hl W fuel s p o [] i0 Hf Fh) as (p1 & o1 & E1).
  eexists. split; [exact E1|]. cbn [trace app st].
  assert (L : length (i0 :: l) = length (o :: fst (cycles c s o l))) by (cbn [length]; rewrite cycles_length; reflexivity).
  split; [apply map_fst_combine; exact L|]. split; [apply cycles_mem|]. intros t i i' prev cur H1 H2.
  apply (map_nth_error snd) in H1, H2. rewrite map_snd_combine in H1, H2 by exact L. cbn [snd] in *.
  pose proof (cycles_due c l s o 0 t prev cur H1 H2) as D. rewrite Hr in D. exact D.
Qed.

(** ** an empty range of latencies *)
Lemma body_noread s p o tr i0 i l : m_bc c = false ->
  a_resp s = [] -> well_formed c i -> reads c i = false ->
  respond_body c (World s p o tr (i0 :: i :: l) : world) =
  (Done tt, World (set_mem (mem_after c (a_mem s) i) s) PReadOnly (answer_out c o RNone) (tr ++ [(i0, o)]) (i :: l)).
Proof.
  intros Hbc Hr [W1 W2] Er. unfold respond_body. unfold bind at 1. cbn [edge ins st out trace].
  rewrite (bind_done _ _ _ _ _ (do_response_head s o _ _ ltac:(rewrite Hr; exact Logic.I))). rewrite Hr. cbn [tl hd].
  assert (S1 : set_resp [] s = s) by (destruct s; cbn in *; subst; reflexivity). rewrite S1.
  set (o1 := answer_out c o _).
  unfold bind at 1. cbn [readonly ph ins st out trace]. unfold bind at 1. cbn [sample ph input ins].
  unfold burstread, burstwrite. rewrite Hbc, andb_false_r. cbn [andb]. unfold is_one. fold (reads c i). rewrite Er.
  unfold bind at 1. cbn [ret sample ph input ins]. unfold bind at 1. cbn [sample ph input ins]. fold (writes c i). unfold mem_after.
  destruct (writes c i) eqn:E; [|rewrite set_mem_same; reflexivity].
  destruct (W2 eq_refl) as (Wd & _ & Wb). unfold simple_write, bind, sample, toint, ret, modify, bind, get, put.
  cbn [st ph out trace ins input]. rewrite (num_of _ (W1 (or_intror eq_refl))), (num_of _ Wd).
  destruct (m_be c) eqn:B.
  - rewrite (num_of _ (Wb eq_refl)). cbn [st ph out trace ins input]. unfold store_word. rewrite merge_correct. reflexivity.
  - reflexivity.
Qed.
Lemma latency_thm pre : m_bc c = false -> m_latmax c < m_latmin c -> forall fuel s p o tr i0 i post,
  Forall (fun x => well_formed c x /\ reads c x = false) pre -> reads c i = true -> length pre < fuel -> a_resp s = [] ->
  exists w, respond c fuel (World s p o tr (i0 :: pre ++ i :: post) : world) = (Exn EValue, w) /\
    map fst (trace w) = map fst tr ++ i0 :: pre /\ a_mem (st w) = fold_left (mem_after c) pre (a_mem s).
Proof.
  intros Hbc Hlat. induction pre as [|x pre IH]; intros fuel s p o tr i0 i post F Ri Hf Hr; (destruct fuel as [|fuel]; [cbn in Hf; lia|]).
  - eexists. unfold respond. cbn [loop app]. unfold respond_body. unfold bind at 1 2 3. cbn [edge ins st out trace].
    unfold bind at 1. rewrite (do_response_head s o _ _ ltac:(rewrite Hr; exact Logic.I)).
    unfold bind at 1. cbn [readonly ph ins st out trace]. unfold bind at 1. cbn [sample ph input ins].
    unfold burstread. rewrite Hbc, andb_false_r. unfold is_one. fold (reads c i). rewrite Ri.
    unfold bind at 1, simple_read, randint. replace (m_latmin c <=? m_latmax c) with false by (symmetry; apply Nat.leb_gt, Hlat).
    unfold bind at 1, raise. split; [reflexivity|]. cbn [trace st a_mem set_resp]. rewrite map_app. split; reflexivity.
  - inversion_clear F as [|? ? [Wx Rx] Fp]. cbn [app length fold_left] in *.
    pose proof (body_noread s p o tr i0 x (pre ++ i :: post) Hbc Hr Wx Rx) as B.
    assert (B' : (respond_body c ;; ret (inl tt)) (World s p o tr (i0 :: x :: pre ++ i :: post) : world) =
      (Done (inl tt : unit + unit), World (set_mem (mem_after c (a_mem s) x) s) PReadOnly
                 (answer_out c o RNone) (tr ++ [(i0, o)]) (x :: pre ++ i :: post))).
    { rewrite (bind_done _ _ _ _ _ B). reflexivity. }
    destruct (IH fuel (set_mem (mem_after c (a_mem s) x) s) PReadOnly (answer_out c o RNone) (tr ++ [(i0, o)]) x i post Fp Ri ltac:(lia) Hr) as (w & Ew & T & M).
    exists w. unfold respond in *. rewrite (loop_step _ _ _ _ _ _ B'), Ew. split; [reflexivity|]. rewrite T, M, map_app, <- app_assoc. split; reflexivity.
Qed.
End Init.
