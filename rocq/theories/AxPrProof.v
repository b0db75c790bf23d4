(** AxPrProof.v -- AXI accesses one after the other on a memory (C138). *)
From Verif Require Import Base Async BitsLemmas CompatModel PktModel HandshakeSpec Handshake AxiModel AxiSpec AxiDataProof AxiReadProof AxiChanProof AxiRunProof AxiTopProof AxcSpec AxcWriteProof AxPrSpec.
Local Open Scope list_scope.

Lemma cells_ext (m m' : Z -> bits) a n : (forall x, m x = m' x) -> cells m a n = cells m' a n.
Proof. intro H. unfold cells. induction (rev (seq 0 n)) as [|k r IH]; [reflexivity|]. cbn [flat_map]. rewrite H, IH. reflexivity. Qed.
Lemma read_words_ext b (m m' : nat -> Z -> bits) a size n : (forall j x, m j x = m' j x) -> read_words b m a size n = read_words b m' a size n.
Proof.
  intro H. destruct b; cbn [read_words]; unfold fixed_words, incr_words, wrap_words; apply map_ext; intro j; apply cells_ext; intro x; apply H.
Qed.

Section Program.
Context (c : axi_cfg).

Lemma okay_beats l : Forall (okay_in c) l -> Forall (fun i => r_beat i = true -> r_beat_ok c i) l.
Proof. apply Forall_impl. intros i [_ H] B. destruct (H B) as [H1 H2]. split; [exact H1|]. rewrite H2. discriminate. Qed.
Lemma okay_first_bad l : Forall (okay_in c) l -> first_bad (map rresp_of (filter r_beat l)) = None.
Proof.
  intro H. unfold first_bad. induction H as [|i r [_ H] _ IH]; [reflexivity|]. cbn [filter]. destruct (r_beat i) eqn:B; [|exact IH].
  cbn [map find]. unfold rresp_of at 1. rewrite (proj2 (H eq_refl)). cbn. exact IH.
Qed.

(** a read waits, or all its cycles are there *)
Lemma read_cases (sync : bool) (l : list axi_in) : Forall (okay_in c) l ->
  (exists pre : list axi_in, length pre = min (length l) (if sync then 1 else 0) /\
    ((exists w, l = pre ++ w /\ Forall (fun i => ar_accepts i = false) w) \/
     (exists w h seg, l = pre ++ w ++ h :: seg /\ Forall (fun i => ar_accepts i = false) w /\ ar_accepts h = true /\
        Forall (fun i => r_final c i = false) seg /\ Forall (fun i => r_beat i = true -> r_beat_ok c i) seg))) \/
  (exists pre w h seg f tl, read_cycles c sync l pre w h seg f tl).
Proof.
  intro H. set (n := if sync then 1 else 0).
  assert (E : l = firstn n l ++ skipn n l) by (symmetry; apply firstn_skipn).
  assert (L : length (firstn n l) = min (length l) n) by (rewrite firstn_length; apply Nat.min_comm).
  assert (H1 : Forall (okay_in c) (skipn n l)) by (rewrite E in H; apply Forall_app in H; apply H).
  pose proof (span_app ar_accepts (skipn n l)) as Sa. pose proof (span_fst ar_accepts (skipn n l)) as Sf.
  destruct (span ar_accepts (skipn n l)) as [w [|h r]] eqn:Es; cbn [fst snd] in *.
  - left. exists (firstn n l). split; [exact L|]. left. exists w. rewrite app_nil_r in Sa. subst w. auto.
  - assert (Hh : ar_accepts h = true) by (apply (span_snd ar_accepts (skipn n l) h r); rewrite Es; reflexivity).
    rewrite <- Sa in H1. apply Forall_app in H1. destruct H1 as [_ H1]. inversion H1; subst. clear H1. rename H4 into H1.
    pose proof (span_app (r_final c) r) as Ta. pose proof (span_fst (r_final c) r) as Tf.
    destruct (span (r_final c) r) as [seg [|f tl]] eqn:Et; cbn [fst snd] in *.
    + left. exists (firstn n l). split; [exact L|]. right. exists w, h, seg. rewrite app_nil_r in Ta. subst r. rewrite Sa.
      split; [exact E|]. repeat split; auto. apply okay_beats. exact H1.
    + right. exists (firstn n l), w, h, seg, f, tl.
      assert (Hf : r_final c f = true) by (apply (span_snd (r_final c) r f tl); rewrite Et; reflexivity).
      constructor; auto.
      * rewrite Ta, Sa. exact E.
      * rewrite L. fold n. apply Nat.min_r. unfold n. destruct sync; [|lia].
        destruct l; [|cbn [length]; lia]. cbn [n skipn] in Sa. destruct w; discriminate.
      * apply okay_beats. rewrite <- Ta in H1. change (f :: tl) with ([f] ++ tl) in H1. rewrite app_assoc in H1. apply Forall_app in H1. apply H1.
Qed.

(** what the slave sees of a complete read *)
Lemma read_seen req o o' pre w h seg f : aw_offered o = false -> aw_offered req = true -> aw_offered o' = false ->
  Forall (fun i => ar_accepts i = false) w -> ar_accepts h = true ->
  let t := held o pre ++ held req (w ++ [h]) ++ held o' (seg ++ [f]) in
  transfers aw_offered ar_accepts t = [req] /\ after_request t = seg ++ [f].
Proof.
  intros H1 H2 H3 Hw Hh t. unfold t. split.
  - rewrite !transfers_app, held_app, !transfers_app.
    rewrite (transfers_idle aw_offered ar_accepts o pre H1), (transfers_wait aw_offered ar_accepts req w Hw), (transfers_idle aw_offered ar_accepts o' _ H3).
    rewrite app_nil_r. exact (transfers_one aw_offered ar_accepts h req H2 Hh).
  - induction pre as [|i r IH]; [|cbn [held map app after_request]; rewrite H1; exact IH]. cbn [held map app].
    induction Hw as [|i r Hi Hw IH].
    + cbn [held map app after_request]. rewrite H2, Hh. cbn [andb]. apply held_fst.
    + cbn [held map app after_request]. rewrite Hi, andb_false_r. exact IH.
Qed.

Lemma program_array fuel : forall prog p oa ow o l ms ma, axi_bus c -> Forall (access_ok c) prog -> p <> PReadOnly ->
  aw_offered oa = false -> w_offered ow = false -> aw_offered o = false -> length l < fuel -> Forall (okay_in c) l ->
  (forall x, ms x = ma x) ->
  let '(ss, e) := axi_program c fuel prog p oa ow o l in
  memory_slave c ms ss ->
  exists m', array c ma (firstn (length ss) prog) (map st_result ss) m' /\ (forall x, fold_left (slave_step c) ss ms x = m' x) /\
    match e with Done _ => length ss = length prog | Susp => True | _ => False end.
Proof.
  induction prog as [|x prog IH]; intros p oa ow o l ms ma Hb Hok Hp Ha Hw Ho Hf Hl Hm.
  { cbn [axi_program]. intros _. exists ma. split; [constructor|]. split; [exact Hm|reflexivity]. }
  inversion Hok as [|? ? Hx Hr]; subst. destruct x as [a|a]; cbn [axi_program].
  - destruct Hx as [Hx|[(Lg & Fa & Be & La & Ob) Hs]].
    + rewrite (rejected_write c fuel a p oa ow l Hb Hx). cbn [wr_result wr_aw wr_w wr_aw_out wr_w_out wr_rest].
      pose proof (IH p oa ow o l ms ma Hb Hr Hp Ha Hw Ho Hf Hl Hm) as R.
      destruct (axi_program c fuel prog p oa ow o l) as [ss e]. intros [_ S].
      destruct (R S) as (m' & R1 & R2 & R3). exists m'. cbn [length firstn map st_result fold_left]. split; [apply array_no_write; assumption|].
      split; [exact R2|]. destruct e; auto.
    + assert (W : write_ok c fuel a p oa ow l).
      { assert (L1 : 1 <= length (wa_value a)) by (destruct Lg as [_ [Lg _]]; destruct (wa_burst a); cbn in Lg; lia).
        constructor; auto; [intros _; exact Hp|]. destruct La; [left; assumption|right; lia]. }
      pose proof (channels_thm c fuel a p oa ow l W) as (beats & _ & _ & M1 & M2 & _ & _ & Cd & Cs). cbv zeta in *.
      pose proof (write_stored c fuel a p oa ow l ms W) as St. cbv zeta in St.
      pose proof (response_thm c fuel a p oa ow l W) as Rt. cbv zeta in Rt.
      set (r := axi_write c fuel a p oa ow l) in *.
      destruct (wr_result r) as [u|e|  |] eqn:Er; cycle 2.
      { intros _. exists ma. split; [constructor|]. split; [exact Hm|exact I]. }
      { exfalso. destruct (Rt ltac:(discriminate)) as (dn & nr & i & tl & _ & _ & _ & _ & E & _). unfold response_outcome in E.
        destruct (bval (g_bresp i)) as [v|]; [destruct (v =? 0)%Z|]; discriminate. }
      2: { exfalso. destruct (Rt ltac:(discriminate)) as (dn & nr & i & tl & El & _ & _ & Bi & E & _). unfold response_outcome in E.
           assert (Oi : okay_in c i) by (rewrite El in Hl; apply Forall_app in Hl; destruct Hl as [_ Hl]; apply Forall_app in Hl; destruct Hl as [_ Hl]; inversion Hl; assumption).
           rewrite (proj1 Oi Bi) in E. discriminate. }
      destruct (Rt ltac:(discriminate)) as (dn & nr & i & tl & El & _ & _ & Bi & E & Rr).
      destruct (Cd ltac:(discriminate)) as (C1 & C2 & C3 & C4).
      assert (Oi : okay_in c i) by (rewrite El in Hl; apply Forall_app in Hl; destruct Hl as [_ Hl]; apply Forall_app in Hl; destruct Hl as [_ Hl]; inversion Hl; assumption).
      rewrite (proj1 Oi Bi) in Rr.
      assert (Ob' : x_full c = true \/ (length (wa_value a) = 1 /\ wa_burst a = INCR /\ wa_size a = None)).
      { destruct Ob as [Ob|(O1 & O2 & O3)]; [left; exact Ob|right; split; [lia|split; assumption]]. }
      destruct (St Ob' Hs ltac:(discriminate)) as (req & T & _ & _ & S).
      assert (Pa : (match wr_aw r with [] => p | _ => PActive end) <> PReadOnly) by (destruct (wr_aw r); [exact Hp|discriminate]).
      assert (Lr : length (wr_rest r) < fuel) by (rewrite Rr; rewrite El, !app_length in Hf; cbn [length] in Hf; lia).
      assert (Fr : Forall (okay_in c) (wr_rest r)).
      { rewrite Rr. rewrite El in Hl. apply Forall_app in Hl. destruct Hl as [_ Hl]. apply Forall_app in Hl. destruct Hl as [_ Hl]. inversion Hl; assumption. }
      pose (m1 := slave_store c req (transfers w_offered w_accepts (wr_w r)) ms).
      pose proof (IH _ (wr_aw_out r) (wr_w_out r) o (wr_rest r) m1
        (written (wa_burst a) (wa_address a) (size_or (x_bytes c) (wa_size a)) (wa_value a) (wa_be a) ma) Hb Hr Pa C3 C4 Ho Lr Fr) as R.
      destruct (axi_program c fuel prog _ (wr_aw_out r) (wr_w_out r) o (wr_rest r)) as [ss e].
      cbn [memory_slave]. unfold slave_step at 1. cbn [st_aw st_w]. rewrite T. fold m1. intros [_ Sv].
      destruct (R ltac:(intro x; unfold m1; rewrite S; apply written_ext; exact Hm) Sv) as (m' & R1 & R2 & R3). exists m'.
      cbn [length firstn map st_result fold_left]. destruct u. split; [apply array_write; assumption|].
      split; [|destruct e; auto]. unfold slave_step at 2. cbn [st_aw st_w]. rewrite T. exact R2.
  - destruct Hx as [Hx|[(Lg & Fa & Ob) Hs]].
    + rewrite (proj1 (rejected_read c fuel a (World tt p o [] l) Hb Hx)). cbn [ph out ins trace].
      pose proof (IH p oa ow o l ms ma Hb Hr Hp Ha Hw Ho Hf Hl Hm) as R.
      destruct (axi_program c fuel prog p oa ow o l) as [ss e]. intros [_ S].
      destruct (R S) as (m' & R1 & R2 & R3). exists m'. cbn [length firstn map st_result fold_left]. split; [apply array_no_read; assumption|].
      split; [exact R2|]. destruct e; auto.
    + assert (W : read_ok c fuel a p l) by (constructor; auto; intros _; exact Hp).
      destruct (read_cases (ra_sync a) l Hl) as [(pre & Lp & Wt)|(pre & w & h & seg & f & tl & RC)].
      * pose proof (proj1 (read_waits c fuel a tt p o [] l pre W Lp Wt)) as E.
        destruct (axi_read c fuel a (World tt p o [] l)) as [x w]. cbn [fst] in E. subst x. intros _.
        exists ma. split; [constructor|]. split; [exact Hm|exact I].
      * set (req := ax_request c o (ra_address a) (ra_length a) (ra_burst a) (size_or (x_bytes c) (ra_size a))).
        pose proof (read_seen req o (ax_set_valid L0 req) pre w h seg f Ho eq_refl eq_refl (rc_wait _ _ _ _ _ _ _ _ _ RC) (rc_ack _ _ _ _ _ _ _ _ _ RC)) as [T1 T2]. cbv zeta in T1, T2.
        assert (Hl2 : Forall (okay_in c) (seg ++ [f]) /\ Forall (okay_in c) tl /\ length tl < fuel).
        { pose proof (rc_all _ _ _ _ _ _ _ _ _ RC) as E. rewrite E in Hl, Hf. apply Forall_app in Hl. destruct Hl as [_ Hl]. apply Forall_app in Hl. destruct Hl as [_ Hl].
          inversion Hl as [|? ? _ Hl']; subst. change (f :: tl) with ([f] ++ tl) in Hl'. rewrite app_assoc in Hl'. apply Forall_app in Hl'. destruct Hl' as [A B].
          rewrite !app_length in Hf. cbn [length] in Hf. rewrite app_length in Hf. cbn [length] in Hf. repeat split; auto. lia. }
        destruct Hl2 as (Hl1 & Hl2 & Hf2).
        pose proof (read_memory c fuel a tt p o [] l pre w h seg f tl (fun _ x => zbits 8 (ms x)) W RC Ob Hs (fun _ _ => eq_refl)) as RM. cbv zeta in RM. fold req in RM. cbn [app] in RM.
        pose proof (read_thm c fuel a tt p o [] l pre w h seg f tl W RC) as RT. cbv zeta in RT. fold req in RT. cbn [app] in RT.
        set (t := held o pre ++ held req (w ++ [h]) ++ held (ax_set_valid L0 req) (seg ++ [f])) in *.
        assert (Ex : exists x, axi_read c fuel a (World tt p o [] l) = (x, World tt PActive (ax_set_valid L0 req) t tl) /\ x <> Susp /\ x <> Fuel).
        { destruct RT as (words & _ & R1 & R2). destruct (Z.eq_dec (Z.of_nat (length (filter r_beat (seg ++ [f])))) (ra_length a)) as [Eq|Ne].
          - eexists. split; [apply (proj2 (R2 Eq))|]. split; destruct (first_bad _); discriminate.
          - eexists. split; [apply (proj2 (R1 Ne))|]. split; discriminate. }
        destruct Ex as (x & Ex & N1 & N2). rewrite Ex. cbn [ph out ins trace].
        pose proof (IH PActive oa ow (ax_set_valid L0 req) tl ms ma Hb Hr ltac:(discriminate) Ha Hw eq_refl Hf2 Hl2 Hm) as R.
        destruct (axi_program c fuel prog PActive oa ow (ax_set_valid L0 req) tl) as [ss e].
        destruct x as [ws|ex| |]; try contradiction; cbn [memory_slave st_ar]; rewrite T1, T2; intros [SR Sv].
        -- specialize (SR req eq_refl). destruct (RM SR) as [_ RM2]. specialize (RM2 (okay_first_bad _ Hl1)). rewrite RM2 in Ex. injection Ex as <-.
           destruct (R Sv) as (m' & R1 & R2 & R3). exists m'. cbn [length firstn map st_result fold_left]. split.
           ++ rewrite (read_words_ext _ _ (fun _ x => zbits 8 (ma x))) by (intros; rewrite Hm; reflexivity). apply array_read; assumption.
           ++ split; [exact R2|]. destruct e; auto.
        -- exfalso. specialize (SR req eq_refl). destruct (RM SR) as [_ RM2]. specialize (RM2 (okay_first_bad _ Hl1)). rewrite RM2 in Ex. discriminate.
Qed.
End Program.
