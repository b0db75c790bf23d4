(** AvUndefProof.v -- the Avalon memory and requests with undefined operands. *)
From Verif Require Import Base Async BitsLemmas CompatModel CompatSpec AvMemModel AvMemSpec AvMemProof AvMemThm AvUndefSpec.
Local Open Scope list_scope.

Section Undef.
Context (c : am_cfg).
Notation world := (world am_state am_in am_out).

Lemma unres b : resolvable b = false -> bval b = None.
Proof.
  intro H. destruct (bval b) as [z|] eqn:E; [|reflexivity]. assert (R : resolvable b = true) by (apply bval_resolvable; exists z; exact E). congruence.
Qed.
Lemma toint_cases b (w : world) : toint b w = (match bval b with Some z => Done z | None => Exn EValue end, w).
Proof. unfold toint. destruct (bval b); reflexivity. Qed.

Lemma simple_read_raises s o tr i l : m_latmin c <= m_latmax c -> resolvable (v_addr i) = false ->
  exists s', simple_read c (World s PReadOnly o tr (i :: l) : world) = (Exn EValue, World s' PReadOnly o tr (i :: l)) /\ a_mem s' = a_mem s.
Proof.
  intros Hlat H. unfold simple_read, randint. replace (m_latmin c <=? m_latmax c) with true by (symmetry; apply Nat.leb_le, Hlat).
  unfold bind, draw, bind, get, put, ret, modify, bind, get, put, sample, toint, ret.
  cbn [st ph out trace ins input a_mem a_resp a_rnd a_pos set_resp]. rewrite (unres _ H). eexists. split; reflexivity.
Qed.
Lemma simple_read_ok s o tr i l : m_latmin c <= m_latmax c -> resolvable (v_addr i) = true ->
  exists s', simple_read c (World s PReadOnly o tr (i :: l) : world) = (Done tt, World s' PReadOnly o tr (i :: l)) /\ a_mem s' = a_mem s.
Proof.
  intros Hlat H. unfold simple_read, randint. replace (m_latmin c <=? m_latmax c) with true by (symmetry; apply Nat.leb_le, Hlat).
  unfold bind, draw, bind, get, put, ret, modify, bind, get, put, sample, toint, ret.
  cbn [st ph out trace ins input a_mem a_resp a_rnd a_pos set_resp]. rewrite (num_of _ H). eexists. split; reflexivity.
Qed.
Lemma simple_write_raises s o tr i l : (resolvable (v_addr i) && resolvable (v_wdata i) && (negb (m_be c) || resolvable (v_be i)))%bool = false ->
  simple_write c (World s PReadOnly o tr (i :: l) : world) = (Exn EValue, World s PReadOnly o tr (i :: l)).
Proof.
  intro H. unfold simple_write. unfold bind at 1. cbn [sample ph input ins]. unfold bind at 1. rewrite toint_cases.
  destruct (resolvable (v_addr i)) eqn:Ea; [rewrite (num_of _ Ea)|rewrite (unres _ Ea); reflexivity]. cbn iota beta.
  unfold bind at 1. rewrite toint_cases. destruct (resolvable (v_wdata i)) eqn:Ed; [rewrite (num_of _ Ed)|rewrite (unres _ Ed); reflexivity]. cbn iota beta.
  destruct (m_be c); cbn [negb orb andb] in H; [|discriminate]. unfold bind at 1. rewrite toint_cases, (unres _ H). reflexivity.
Qed.

Lemma body_raises s p o tr i0 i l : m_bc c = false -> m_latmin c <= m_latmax c -> Forall (fit_resp c) (a_resp s) -> undefined_operand c i ->
  exists w, respond_body c (World s p o tr (i0 :: i :: l) : world) = (Exn EValue, w) /\ a_mem (st w) = a_mem s /\
    trace w = tr ++ [(i0, o)] /\ out w = answer_out c o (hd RNone (a_resp s)) /\ ins w = i :: l.
Proof.
  intros Hbc Hlat F U. unfold respond_body. unfold bind at 1. cbn [edge ins st out trace].
  rewrite (bind_done _ _ _ _ _ (do_response_spec c s o _ _ F)).
  set (s1 := set_resp (tl (a_resp s)) s). set (o1 := answer_out c o _).
  unfold bind at 1. cbn [readonly ph ins st out trace]. unfold bind at 1. cbn [sample ph input ins].
  unfold burstread, burstwrite. rewrite Hbc, andb_false_r. cbn [andb]. unfold is_one. fold (reads c i).
  destruct (reads c i && negb (resolvable (v_addr i)))%bool eqn:R.
  - apply andb_true_iff in R. destruct R as [-> R]. apply negb_true_iff in R.
    destruct (simple_read_raises s1 o1 (tr ++ [(i0, o)]) i l Hlat R) as (s' & E & M). unfold bind at 1. rewrite E. eexists. split; [reflexivity|].
    cbn [st trace out]. rewrite M. repeat split.
  - assert (G : exists s', (if reads c i then simple_read c else ret tt) (World s1 PReadOnly o1 (tr ++ [(i0, o)]) (i :: l) : world)
                = (Done tt, World s' PReadOnly o1 (tr ++ [(i0, o)]) (i :: l)) /\ a_mem s' = a_mem s).
    { destruct (reads c i); [|exists s1; split; reflexivity]. cbn [andb] in R. apply negb_false_iff in R. exact (simple_read_ok s1 o1 _ i l Hlat R). }
    destruct G as (s' & E & M). rewrite (bind_done _ _ _ _ _ E). unfold bind at 1. cbn [sample ph input ins]. fold (writes c i).
    assert (W : writes c i = true /\ (resolvable (v_addr i) && resolvable (v_wdata i) && (negb (m_be c) || resolvable (v_be i)))%bool = false).
    { destruct U as [[[U|U] Ua]|[U Uw]].
      - rewrite U, Ua in R. discriminate.
      - split; [exact U|]. rewrite Ua. reflexivity.
      - split; [exact U|]. destruct Uw as [Ud|[Ub Ue]].
        + rewrite Ud, andb_false_r. reflexivity.
        + rewrite Ub, Ue. cbn. apply andb_false_r. }
    destruct W as [-> W]. rewrite (simple_write_raises _ _ _ _ _ W). eexists. split; [reflexivity|]. cbn [st trace out]. rewrite M. repeat split.
Qed.

(** up to the last of some well-formed cycles *)
Lemma run_prefix pre : m_bc c = false -> m_latmin c <= m_latmax c -> Forall (well_formed c) pre ->
  forall fuel s p o tr i0 i rest, Forall (fit_resp c) (a_resp s) -> fitting c (a_mem s) ->
  exists s' p' o' tr' i1, respond c (length pre + fuel) (World s p o tr (i0 :: pre ++ i :: rest) : world) = respond c fuel (World s' p' o' tr' (i1 :: i :: rest)) /\
    Forall (fit_resp c) (a_resp s') /\ a_mem s' = fold_left (mem_after c) pre (a_mem s) /\ map fst tr' ++ [i1] = map fst tr ++ i0 :: pre.
Proof.
  intros Hbc Hlat W. induction W as [|x pre Wi W IH]; intros fuel s p o tr i0 i rest Fq Fm.
  - exists s, p, o, tr, i0. repeat split; assumption.
  - cbn [length Nat.add app fold_left].
    pose proof (body_spec c s p o tr i0 x (pre ++ i :: rest) Hbc Hlat Fq Wi) as B. cbn zeta in B.
    assert (B' : (respond_body c ;; ret (inl tt)) (World s p o tr (i0 :: x :: pre ++ i :: rest) : world) =
      (Done (inl tt : unit + unit), World (after_cycle c (set_resp (tl (a_resp s)) s) x) PReadOnly
                 (answer_out c o (hd RNone (a_resp s))) (tr ++ [(i0, o)]) (x :: pre ++ i :: rest))).
    { rewrite (bind_done _ _ _ _ _ B). reflexivity. }
    destruct (inv_after c s x Wi Fq Fm) as [Fq' Fm'].
    destruct (IH fuel (after_cycle c (set_resp (tl (a_resp s)) s) x) PReadOnly (answer_out c o (hd RNone (a_resp s)))
                 (tr ++ [(i0, o)]) x i rest Fq' Fm') as (s' & p' & o' & tr' & i1 & E & H1 & H2 & H3).
    exists s', p', o', tr', i1. unfold respond in *. rewrite (loop_step _ _ _ _ _ _ B'), E. split; [reflexivity|]. split; [exact H1|]. split.
    + rewrite H2. f_equal. unfold after_cycle, after_read_req. cbn zeta. destruct (reads c x); reflexivity.
    + rewrite H3, map_app, <- app_assoc. reflexivity.
Qed.

Lemma undefined_word_thm fuel s p o i0 pre i post : m_bc c = false -> m_latmin c <= m_latmax c ->
  Forall (well_formed c) pre -> undefined_operand c i -> length pre < fuel -> a_resp s = [] -> fitting c (a_mem s) ->
  exists w, respond c fuel (World s p o [] (i0 :: pre ++ i :: post) : world) = (Exn EValue, w) /\
    map fst (trace w) = i0 :: pre /\ a_mem (st w) = fold_left (mem_after c) pre (a_mem s).
Proof.
  intros Hbc Hlat W U Hf Hr Fm. destruct (run_prefix pre Hbc Hlat W (fuel - length pre) s p o [] i0 i post ltac:(rewrite Hr; constructor) Fm) as (s' & p' & o' & tr' & i1 & E & H1 & H2 & H3).
  replace (length pre + (fuel - length pre)) with fuel in E by lia. rewrite E. clear E.
  destruct (fuel - length pre) as [|f] eqn:Ef; [lia|].
  destruct (body_raises s' p' o' tr' i1 i post Hbc Hlat H1 U) as (w & E & M & T & _). exists w.
  unfold respond. cbn [loop]. unfold bind. rewrite E. split; [reflexivity|]. split; [|rewrite M; exact H2].
  rewrite T, map_app. exact H3.
Qed.

Lemma survives_thm fuel s p o i0 l : m_bc c = false -> m_latmin c <= m_latmax c ->
  Forall (well_formed c) l -> length l < fuel -> a_resp s = [] -> fitting c (a_mem s) ->
  exists w, respond c fuel (World s p o [] (i0 :: l) : world) = (Susp, w) /\ map fst (trace w) = i0 :: l /\
    a_mem (st w) = fold_left (mem_after c) l (a_mem s).
Proof.
  intros Hb Hl W Hf Hr Fm.
  destruct (run_cycles c l Hb Hl W fuel s p o [] i0 Hf ltac:(rewrite Hr; constructor) Fm) as (p1 & o1 & E1).
  eexists. split; [exact E1|]. cbn [trace app st]. split; [|apply cycles_mem].
  apply map_fst_combine. cbn [length]. rewrite cycles_length. reflexivity.
Qed.

(** bursts, on an idle memory *)
Lemma burst_body s p o tr cur q l : burst_bus c -> a_resp s = [] ->
  exists o1, respond_body c (World s p o tr (cur :: q :: l) : world) =
   ((if is_one (v_read q) then burst_read c else ret tt) ;; i <- sample ;; (if is_one (v_write i) then burst_write c else ret tt))
     (World s PReadOnly o1 (tr ++ [(cur, o)]) (q :: l)).
Proof.
  intros (B1 & B2 & B3 & B4 & B5 & B6 & _) Hr. unfold respond_body. unfold bind at 1. cbn [edge ins st out trace].
  rewrite (bind_done _ _ _ _ _ (do_response_spec c s o _ _ ltac:(rewrite Hr; constructor))).
  unfold bind at 1. cbn [readonly ph ins st out trace]. unfold bind at 1. cbn [sample ph input ins].
  unfold burstread, burstwrite. rewrite B1, B2, B3, B5, Hr. cbn [andb tl hd]. exists (answer_out c o RNone). destruct s as [m r d n]. cbn [set_resp a_mem a_rnd a_pos] in *. cbn in Hr. subst r. reflexivity.
Qed.
Lemma undefined_burst_read_thm fuel s p o tr cur q l : burst_bus c -> a_resp s = [] -> v_read q = L1 ->
  (resolvable (v_addr q) = false \/ resolvable (v_bcount q) = false) ->
  exists w, respond c (S fuel) (World s p o tr (cur :: q :: l) : world) = (Exn EValue, w) /\ trace w = tr ++ [(cur, o)] /\ a_mem (st w) = a_mem s.
Proof.
  intros B Hr Hq U. destruct (burst_body s p o tr cur q l B Hr) as (o1 & E). destruct B as (_ & _ & _ & _ & _ & _ & B7).
  assert (Hd : (dsize c =? 0) = false) by (apply Nat.eqb_neq; unfold dsize; intro H; apply Nat.div_small_iff in H; lia).
  unfold respond. cbn [loop]. unfold bind at 1. unfold bind at 1. rewrite E, Hq. cbn [is_one logic_eqb].
  assert (R : burst_read c (World s PReadOnly o1 (tr ++ [(cur, o)]) (q :: l) : world) = (Exn EValue, World s PReadOnly o1 (tr ++ [(cur, o)]) (q :: l))).
  { unfold burst_read. unfold bind at 1. cbn [sample ph input ins]. unfold bind at 1. rewrite toint_cases.
    destruct (resolvable (v_addr q)) eqn:Ea; [rewrite (num_of _ Ea)|rewrite (unres _ Ea); reflexivity]. destruct U as [U|U]; [discriminate|]. cbn iota beta.
    rewrite Hd. unfold bind at 1. cbn [ret]. cbn zeta. unfold bind at 1. rewrite toint_cases, (unres _ U). reflexivity. }
  unfold bind at 1. rewrite R. eexists. repeat split.
Qed.
End Undef.
