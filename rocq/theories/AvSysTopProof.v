(** AvSysTopProof.v -- the master and the memory together. *)
From Verif Require Import Base Async BitsLemmas CompatModel CompatSpec MMModel MMSpec MMProof AvMemModel AvMemSpec AvMemProof AvSysSpec AvSysProof.
Local Open Scope list_scope.

Lemma num_zbits n z : fits n z -> num (zbits n z) = z.
Proof. intro H. unfold num. rewrite bval_fits by exact H. reflexivity. Qed.
Lemma num_ones n : num (repeat L1 n) = (2 ^ Z.of_nat n - 1)%Z.
Proof.
  unfold num. assert (E : bval (repeat L1 n) = Some (2 ^ Z.of_nat n - 1)%Z); [|rewrite E; reflexivity].
  induction n as [|n IH]; [reflexivity|]. cbn [repeat bval]. rewrite IH, repeat_length. f_equal. rewrite Nat2Z.inj_succ, Z.pow_succ_r by lia. lia.
Qed.
Lemma Forall2_app_split {A B} (P : A -> B -> Prop) x1 x2 y1 y2 : length x1 = length y1 ->
  Forall2 P (x1 ++ x2) (y1 ++ y2) -> Forall2 P x1 y1 /\ Forall2 P x2 y2.
Proof.
  revert y1. induction x1 as [|a x1 IH]; intros [|b y1] E H; try discriminate; [split; [constructor|exact H]|].
  cbn [app] in H. inversion H; subst. destruct (IH y1) as [H1 H2]; [injection E; auto|assumption|]. split; [constructor|]; assumption.
Qed.
Lemma Forall2_nth {A B} (P : A -> B -> Prop) x y : Forall2 P x y -> forall n a, nth_error x n = Some a -> exists b, nth_error y n = Some b /\ P a b.
Proof.
  induction 1 as [|? ? ? ? H _ IH]; intros [|n] a0 E; try discriminate.
  - injection E as <-. eexists. split; [reflexivity|exact H].
  - exact (IH n a0 E).
Qed.
Lemma Forall2_prefix {A B} (P : A -> B -> Prop) (Q : A -> Prop) (S : B -> Prop) x y n : (forall a b, P a b -> S b -> Q a) ->
  Forall2 P x y -> Forall S (firstn n y) -> Forall Q (firstn n x).
Proof.
  intros K H. revert n. induction H as [|? ? ? ? H _ IH]; intros [|n] F; rewrite ?firstn_nil, ?firstn_O; try constructor.
  - rewrite firstn_cons in F. inversion F; subst. eapply K; eauto.
  - rewrite firstn_cons in F. inversion F; subst. apply IH. assumption.
Qed.

Section Joint.
Context (c : mm_cfg) (mc : am_cfg).

(** a read whose request was accepted: nothing but the request has been on the bus before *)
Lemma read_head fuel ops a o p tr i0 ia l R r w : 2 <= fuel -> a_read c = true -> fits (a_width c) a -> Forall (op_fits c) ops -> quiet c o ->
  length l < fuel -> grants c ia ->
  mm_all c fuel (MMRead a :: ops) (MW false p o tr (i0 :: ia :: l)) = (r, w) -> history w = tr ++ R ->
  exists X, R = (i0, o) :: (ia, read_request c o a) :: X.
Proof.
  intros Hf Hr Ha Fs Q Hl G. cbn [mm_all]. assert (Hp : true = false -> p <> PReadOnly) by discriminate.
  assert (K : forall (w : world bool mm_in mm_out) X, history w = tr ++ held o [i0] ++ held (read_request c o a) [ia] ++ X -> history w = tr ++ R ->
          exists X, R = (i0, o) :: (ia, read_request c o a) :: X).
  { intros w0 X E1 E2. rewrite E1 in E2. apply app_inv_head in E2. exists X. rewrite <- E2. reflexivity. }
  destruct (data_shape c l) as [[H1 H2]|(lat & iv & r' & -> & [D|B])].
  - pose proof (read_susp_data c fuel a true o p tr [i0] [] ia l Hf Hl Hr Ha eq_refl Hp (Forall_nil _) G H1 H2) as E. cbn [app] in E. rewrite (bind_susp _ _ _ _ E).
    intros [= <- <-]. apply K with (X := held (after_read c o) l). unfold history. cbn [trace out ins held map]. rewrite app_nil_r. reflexivity.
  - rewrite app_length in Hl. cbn [length] in Hl.
    pose proof (read_done c fuel a true o p tr [i0] [] ia lat iv r' Hf ltac:(lia) Hr Ha eq_refl Hp (Forall_nil _) G D) as E. cbn [app] in E. rewrite (bind_done _ _ _ _ _ E).
    intro Er. assert (Es : forall (w : world bool mm_in mm_out), snd ((ds <- mm_all c fuel ops;; ret (i_rdata iv :: ds)) w) = snd (mm_all c fuel ops w)).
    { intro w0. unfold bind. destruct (mm_all c fuel ops w0) as [[?| ? | | ] ?]; reflexivity. }
    apply (f_equal snd) in Er. rewrite Es in Er. cbn [snd] in Er. subst w.
    destruct (all_sane c fuel ops Hf Fs (after_read c o) PReadOnly (tr ++ held o [i0] ++ held (read_request c o a) [ia] ++ held (after_read c o) lat) (iv :: r') (after_read_quiet c o Q)) as (R' & E1 & _).
    { cbn [length]. lia. }
    apply K with (X := held (after_read c o) lat ++ R'). rewrite E1, <- !app_assoc. reflexivity.
  - destruct (read_start c fuel a true o p tr [i0] (ia :: lat ++ iv :: r') Hr Ha eq_refl Hp) as (p' & Hp' & E). cbn [app] in E.
    rewrite app_length in Hl. cbn [length] in Hl.
    assert (E2 : mm_read c fuel a true (MW false p o tr (i0 :: ia :: lat ++ iv :: r')) =
       (Exn EValue, MW true PReadOnly (after_read c o) (tr ++ held o [i0] ++ held (read_request c o a) [ia] ++ held (after_read c o) lat) (iv :: r'))).
    { rewrite E. erewrite bind_done by (apply (request_done c) with (waits := []); [exact Hf|exact Hp'|constructor|exact G]). cbn [app].
      change (_ ;; _ ;; _ ;; _ ;; _) with (drive (q_set_read L0) ;; set_be_none c ;; mm_when (a_cs c) (drive (q_set_cs L0)) ;; drive (q_set_addr (xs (a_width c))) ;; data_phase c fuel).
      rewrite after_request, data_bad by (try assumption; lia). rewrite <- !app_assoc. reflexivity. }
    rewrite (bind_exn _ _ _ _ _ E2). intros [= <- <-]. apply K with (X := held (after_read c o) (lat ++ iv :: r')).
    unfold history. cbn [trace out ins]. rewrite (held_app _ lat), <- !app_assoc. reflexivity.
Qed.

Hypothesis Hb : same_bus c mc.

Notation drv := (sees_master c).
Notation obs := (sees_memory c).
Lemma drv_quiet o b : quiet c o -> drv o b -> quiet_in mc b.
Proof using.
  intros [R W _ _] [D1 D2 _ _ _]. unfold quiet_in, reads, writes. rewrite D1, D2, R, W. cbn [logic_eqb]. rewrite !andb_false_r. split; reflexivity.
Qed.
Lemma drv_quiets o (l : list mm_in) B : quiet c o -> Forall2 (fun x b => drv (snd x) b) (held o l) B -> Forall (quiet_in mc) B.
Proof using.
  intro Q. revert B. induction l as [|i l IH]; intros B H; inversion H; subst; constructor.
  - eapply drv_quiet; eauto.
  - apply IH. assumption.
Qed.
Lemma write_mem o b a v m : quiet c o -> fits (a_width c) a -> fits (d_width c) v -> drv (write_request c o a v) b ->
  reads mc b = false /\ mem_after mc m b = mupd m a v.
Proof using Hb.
  intros [R W _ _] Ha Hv [D1 D2 D3 D4 D5]. cbn [write_request q_read q_write q_addr q_wdata q_be] in *.
  split; [unfold reads; rewrite D1, R; cbn [logic_eqb]; apply andb_false_r|].
  unfold mem_after, writes. rewrite D2, (proj2 (sb_write _ _ Hb)). cbn [logic_eqb andb]. rewrite D3, D4, !num_zbits by assumption.
  pose proof (sb_be _ _ Hb) as E. destruct (a_be c) as [n|].
  - destruct E as [-> Ew]. f_equal. rewrite D5 by discriminate. rewrite num_ones. unfold merged.
    replace (m_width mc / 8)%nat with n by (rewrite Ew, Nat.mul_comm, Nat.div_mul; lia).
    rewrite (map_ext_in _ (fun k => lane k v)).
    + rewrite from_lanes, pow256. apply Z.mod_small. unfold fits in Hv. rewrite (sb_width _ _ Hb), Ew, Nat2Z.inj_mul in Hv. exact Hv.
    + intros k Hk. apply in_seq in Hk. replace (2 ^ Z.of_nat n - 1)%Z with (Z.ones (Z.of_nat n)) by (rewrite Z.ones_equiv; lia).
      rewrite Z.ones_spec_low by lia. reflexivity.
  - rewrite E. reflexivity.
Qed.
Lemma read_mem o b a m : quiet c o -> fits (a_width c) a -> drv (read_request c o a) b ->
  reads mc b = true /\ num (v_addr b) = a /\ mem_after mc m b = m.
Proof using Hb.
  intros [R W _ _] Ha [D1 D2 D3 D4 D5]. cbn [read_request q_read q_write q_addr q_wdata q_be] in *.
  split; [unfold reads; rewrite D1, (proj2 (sb_read _ _ Hb)); reflexivity|]. split; [rewrite D3; apply num_zbits, Ha|].
  unfold mem_after, writes. rewrite D2, W. cbn [logic_eqb]. rewrite andb_false_r. reflexivity.
Qed.
Lemma all_grant s om B l : (a_wait c = true -> w_wait om = L0) -> Forall2 obs l (fst (cycles mc s om B)) -> Forall (grants c) l.
Proof using.
  intros Hw H. pose proof (cycles_wait mc B s om) as F. induction H as [|i y l ys [O _ _] _ IH]; [constructor|]. inversion F; subst. constructor; [|apply IH; assumption].
  intro E. rewrite (O E), H1. exact (Hw E).
Qed.

(** the first cycles of a read, seen from the memory *)
Lemma mem_read s om b0 b1 a B : length (a_resp s) <= 1 -> quiet_in mc b0 -> reads mc b1 = true -> num (v_addr b1) = a -> (forall m, mem_after mc m b1 = m) ->
  m_latmin mc <= m_latmax mc ->
  exists s1 o1 d, (forall B, fst (adv mc s om (b0 :: b1 :: B)) = fst (adv mc s1 o1 B) /\ snd (adv mc s om (b0 :: b1 :: B)) = snd (adv mc s1 o1 B)) /\
    a_mem s1 = a_mem s /\ a_resp s1 = repeat RNone d ++ [mem_resp (a_mem s) a] /\ m_latmin mc <= d <= m_latmax mc /\ w_wait o1 = w_wait om /\
    exists y0 y1, fst (cycles mc s om (b0 :: b1 :: B)) = y0 :: y1 :: fst (cycles mc s1 o1 B).
Proof using.
  intros Hq Q R A M Hlat. 
  set (s0 := set_resp (tl (a_resp s)) s). set (o0 := answer_out mc om (hd RNone (a_resp s))).
  assert (R0 : a_resp s0 = []) by (unfold s0; cbn [set_resp a_resp]; destruct (a_resp s) as [|? [|]]; try reflexivity; cbn [length] in Hq; lia).
  exists (after_cycle mc (set_resp (tl (a_resp s0)) s0) b1), (answer_out mc o0 (hd RNone (a_resp s0))), (latency mc (set_resp (tl (a_resp s0)) s0) 0).
  split; [intro B'; cbn [adv]; fold s0 o0; rewrite (after_quiet mc s0 b0) by exact Q; split; reflexivity|].
  split.
  { unfold after_cycle. cbn zeta. cbn [set_mem a_mem]. rewrite M. unfold after_read_req. rewrite R. reflexivity. }
  split.
  { unfold after_cycle. cbn zeta. cbn [set_mem a_resp]. unfold after_read_req. rewrite R. cbn [a_resp set_resp a_mem]. unfold enqueue, pad. rewrite A.
    rewrite R0. cbn [tl]. cbn [length app]. rewrite ?Nat.sub_0_r. reflexivity. }
  split.
  { unfold latency. cbn [set_resp a_rnd a_pos]. pose proof (Nat.mod_upper_bound (a_rnd s0 (a_pos s0 + 0)) (S (m_latmax mc - m_latmin mc))). lia. }
  split; [rewrite answer_wait; unfold o0; apply answer_wait|].
  exists o0, (answer_out mc o0 (hd RNone (a_resp s0))). rewrite !cycles_cons. cbn [fst]. fold s0 o0. rewrite (after_quiet mc s0 b0) by exact Q. reflexivity.
Qed.

Hypothesis Hlat : m_latmin mc <= m_latmax mc.
Lemma init_quiet o : quiet c (mm_init c o).
Proof using Hb.
  constructor; unfold mm_init; cbn [q_read q_write q_be q_cs].
  - rewrite (proj1 (sb_read _ _ Hb)). reflexivity.
  - rewrite (proj1 (sb_write _ _ Hb)). reflexivity.
  - intros n ->. reflexivity.
  - intros ->. reflexivity.
Qed.
Lemma wf_sane o b : sane c o -> sees_master c o b -> well_formed mc b.
Proof using Hb.
  intros [S1 S2] [D1 D2 D3 D4 D5]. unfold well_formed, reads, writes. rewrite D1, D2, D3, D4.
  assert (K : forall x y, x && logic_eqb y L1 = true -> y = L1) by (intros [] []; cbn; congruence).
  split; [intros [H|H]; apply K in H; apply S1; auto|]. intro H. apply K in H. destruct (S2 H) as (T1 & T2 & T3).
  split; [exact T1|]. split; [rewrite <- (sb_width _ _ Hb); exact T2|]. intro E. pose proof (sb_be _ _ Hb) as X. destruct (a_be c) as [n|]; [|congruence].
  rewrite D5 by discriminate. apply (T3 n eq_refl).
Qed.
Lemma combine_snd {A B} (x : list A) (y : list B) : length x = length y -> map snd (combine x y) = y.
Proof using.
  revert y. induction x as [|a x IH]; intros [|b y] E; try discriminate; [reflexivity|]. cbn [combine map snd]. f_equal. apply IH. injection E; auto.
Qed.
Lemma Forall2_map_l {A B C} (P : B -> C -> Prop) (f : A -> B) x y : Forall2 P (map f x) y -> Forall2 (fun a b => P (f a) b) x y.
Proof using. revert y. induction x as [|a x IH]; intros y H; inversion H; subst; constructor; auto. Qed.

Lemma start fuel ops s y0 l r m' : Forall (op_fits c) ops -> 2 <= fuel -> length l < fuel -> a_resp s = [] -> fitting mc (a_mem s) ->
  connected c mc fuel ops s y0 l r m' ->
  exists p oM wM R B, quiet c oM /\ mm_all c fuel ops (MW false p oM [] l) = (r, wM) /\ history wM = [] ++ R /\ map fst R = l /\
    Forall2 (fun x b => sees_master c (snd x) b) R B /\ Forall2 (sees_memory c) l (fst (cycles mc s (am_init mc y0) B)) /\
    m' = a_mem (snd (cycles mc s (am_init mc y0) B)).
Proof using Hb Hlat.
  intros F Hf Hl Hq Hfit [(p & p' & o & lm & wM & rm & wm & EM & Em & HD & HO & Emem)].
  destruct (all_sane c fuel ops Hf F (mm_init c o) p [] l (init_quiet o) Hl) as (R & ER & Hh & El & Hs). rewrite EM in ER. cbn [snd] in ER.
  exists p, (mm_init c o), wM, R, lm. split; [apply init_quiet|]. split; [exact EM|]. split; [exact ER|]. split; [exact El|].
  rewrite ER in HD. cbn [app] in HD.
  assert (HD' : Forall2 (fun x b => sees_master c (snd x) b) R lm) by (apply Forall2_map_l; exact HD). split; [exact HD'|].
  assert (W : Forall (well_formed mc) lm).
  { clear - HD Hs Hb. induction HD as [|? ? ? ? D _ IH]; [constructor|]. inversion Hs; subst. constructor; [eapply wf_sane; eauto|auto]. }
  assert (Ll : length lm = length l) by (rewrite <- El, map_length; symmetry; apply (Forall2_len _ _ _ HD')).
  destruct lm as [|b0 lm].
  { assert (l = []) by (destruct l; [reflexivity|discriminate]). subst l. split; [rewrite H; constructor|].
    assert (Ew : st wm = s).
    { destruct fuel as [|fuel]; [lia|]. unfold respond in Em. cbn in Em. inversion Em. reflexivity. }
    rewrite Emem, Ew. reflexivity. }
  destruct l as [|i0 l]; [discriminate|]. injection Ll as Ll. inversion W as [|? ? W0 W1]; subst.
  destruct (run_cycles mc lm (sb_bc _ _ Hb) Hlat W1 fuel s p' (am_init mc y0) [] b0) as (p2 & o2 & E).
  { cbn [length] in Hl. lia. } { rewrite Hq. constructor. } { exact Hfit. }
  rewrite E in Em. inversion Em; subst rm wm. unfold history in HO. cbn [trace out ins held map app] in HO. rewrite app_nil_r, combine_snd in HO.
  2:{ cbn [length]. rewrite cycles_length. reflexivity. }
  (* the first cycle: the queue is empty and the request lines are idle *)
  assert (E0 : answer_out mc (am_init mc y0) RNone = am_init mc y0).
  { unfold answer_out, am_init. destruct (m_rdv mc); reflexivity. }
  assert (Es : set_resp [] s = s) by (destruct s; cbn in *; subst; reflexivity).
  destruct R as [|x R]; [discriminate|]. inversion HD' as [|? ? ? ? D0 _]; subst.
  assert (Qb : quiet_in mc b0) by (eapply drv_quiet; [|exact D0]; rewrite Hh; apply init_quiet).
  rewrite cycles_cons. cbn [fst snd]. rewrite Hq. cbn [tl hd]. rewrite E0, Es, after_quiet by exact Qb. split; [exact HO|reflexivity].
Qed.

Hypothesis Hrdv : a_rdv c = false -> m_latmax mc = 0.

Lemma joint fuel ops : 2 <= fuel -> Forall (op_fits c) ops -> forall s om p oM tr l B R r w,
  quiet c oM -> length (a_resp s) <= 1 -> (a_wait c = true -> w_wait om = L0) -> length l < fuel ->
  mm_all c fuel ops (MW false p oM tr l) = (r, w) -> history w = tr ++ R -> map fst R = l ->
  Forall2 (fun x b => drv (snd x) b) R B -> Forall2 obs l (fst (cycles mc s om B)) ->
  (r = Susp \/ r = Done (values_read mc (a_mem s) ops)) /\
  (cycles_needed mc ops <= length l -> r = Done (values_read mc (a_mem s) ops)) /\
  (forall v, r = Done v -> a_mem (snd (cycles mc s om B)) = memory_after (a_mem s) ops).
Proof using Hb Hlat Hrdv.
  intros Hf. induction 1 as [|op ops F Fs IH]; intros s om p oM tr l B R r w Q Hq Hw Hl Er Eh El HD HO.
  - inversion Er; subst r w. cbn [values_read memory_after cycles_needed]. unfold history in Eh. cbn [trace out ins] in Eh. apply app_inv_head in Eh.
    split; [right; reflexivity|]. split; [reflexivity|]. intros v _. rewrite cycles_mem. apply mem_quiet. subst R. exact (drv_quiets _ _ _ Q HD).
  - pose proof (all_grant _ _ _ _ Hw HO) as HG.
    destruct op as [a|a v]; cbn [op_fits] in F; cbn [values_read memory_after cycles_needed].
    + destruct F as [Hr Ha]. assert (Hp : true = false -> p <> PReadOnly) by discriminate.
      destruct l as [|i0 [|ia l]].
      { cbn [mm_all] in Er. assert (E : exists w', mm_read c fuel a true (MW false p oM tr []) = (Susp, w')) by (unfold mm_read; rewrite Hr; eexists; reflexivity).
        destruct E as [w' E]. rewrite (bind_susp _ _ _ _ E) in Er. inversion Er. split; [left; reflexivity|]. split; [cbn [length]; lia|discriminate]. }
      { cbn [mm_all] in Er. destruct (read_susp_req c fuel a true oM p tr [i0] [] Hf Hr Ha eq_refl Hp (Forall_nil _)) as [p' E]. cbn [app] in E. rewrite (bind_susp _ _ _ _ E) in Er. inversion Er.
        split; [left; reflexivity|]. split; [cbn [length]; lia|discriminate]. }
      inversion HG as [|? ? G0 HG1]; subst. inversion HG1 as [|? ? G1 HG2]; subst. clear HG HG1.
      destruct (read_head fuel ops a oM p tr i0 ia l R r w Hf Hr Ha Fs Q ltac:(cbn [length] in Hl; lia) G1 Er Eh) as [X ->].
      inversion HD as [|? b0 ? B1 D0 HD1]; subst B. inversion HD1 as [|? b1 ? B2 D1 HD2]; subst B1. clear HD HD1. cbn [snd] in D0, D1.
      cbn [map fst] in El. injection El as El.
      destruct (read_mem _ _ _ (a_mem s) Q Ha D1) as (M1 & M2 & _).
      assert (M3 : forall m, mem_after mc m b1 = m) by (intro m; exact (proj2 (proj2 (read_mem _ _ _ m Q Ha D1)))).
      destruct (mem_read s om b0 b1 a B2 Hq (drv_quiet _ _ Q D0) M1 M2 M3 Hlat) as (s1 & o1 & d & EA & Em1 & Eq1 & Hd & Ew1 & y0 & y1 & EC).
      rewrite EC in HO. apply (Forall2_app_split obs [i0; ia] l [y0; y1]) in HO; [|reflexivity]. destruct HO as [_ HO2]. clear El.
      destruct (cycles_queue mc (word mc (a_mem s) a) (mem_resp (a_mem s) a) d (mem_resp_word mc _ _) s1 o1 B2 [] Eq1) as [C1 C2].
      assert (V : m_rdv mc = true -> Forall (fun i => i_rdv i = L0) (firstn d l)).
      { intro V. eapply Forall2_prefix; [|exact HO2|exact C1]. intros i y [_ O _] E. rewrite (sb_rdv _ _ Hb) in V. rewrite (O V). apply E. rewrite (sb_rdv _ _ Hb). exact V. }
      rewrite (sb_rdv _ _ Hb) in V, C2. cbn [mm_all] in Er. cbn [length] in Hl.
      destruct (Nat.le_gt_cases (length l) d) as [Hc|Hc].
      * assert (E : exists w', mm_read c fuel a true (MW false p oM tr (i0 :: ia :: l)) = (Susp, w')).
        { eexists. apply (read_susp_data c fuel a true oM p tr [i0] [] ia l Hf ltac:(lia) Hr Ha eq_refl Hp (Forall_nil _) G1).
          - intro Ev. rewrite <- (firstn_all2 l Hc). exact (V Ev).
          - intro Ev. pose proof (Hrdv Ev). destruct l; [reflexivity|cbn [length] in Hc; lia]. }
        destruct E as [w' E]. rewrite (bind_susp _ _ _ _ E) in Er. inversion Er. split; [left; reflexivity|]. split; [cbn [length]; lia|discriminate].
      * destruct (nth_error l d) as [iv|] eqn:Ei; [|apply nth_error_None in Ei; lia].
        destruct (nth_error_split l d Ei) as (lat & l' & El & Ed).
        destruct (Forall2_nth _ _ _ HO2 d iv Ei) as (yv & Ey & [_ Ov Odat]). destruct (C2 yv Ey) as [Yv Yd].
        assert (Ef : firstn d l = lat) by (rewrite El, firstn_app, <- Ed, firstn_all, Nat.sub_diag, firstn_O; apply app_nil_r).
        rewrite Ef in V.
        assert (HDt : has_data c lat iv).
        { split; intro Ev; [split; [exact (V Ev)|rewrite (Ov Ev); exact (Yv Ev)]|]. pose proof (Hrdv Ev). destruct lat; [reflexivity|cbn [length] in Ed; lia]. }
        assert (Ll : length l = d + S (length l')) by (rewrite El, app_length; cbn [length]; lia).
        pose proof (read_done c fuel a true oM p tr [i0] [] ia lat iv l' Hf ltac:(lia) Hr Ha eq_refl Hp (Forall_nil _) G1 HDt) as E. cbn [app] in E.
        rewrite El, (bind_done _ _ _ _ _ E) in Er.
        destruct (mm_all c fuel ops (MW false PReadOnly (after_read c oM) (tr ++ held oM [i0] ++ held (read_request c oM a) [ia] ++ held (after_read c oM) lat) (iv :: l'))) as [r2 w2] eqn:E2.
        assert (Ew : w2 = w /\ r = match r2 with Done ds => Done (i_rdata iv :: ds) | Exn e => Exn e | Susp => Susp | Fuel => Fuel end).
        { unfold bind in Er. rewrite E2 in Er. destruct r2; inversion Er; split; reflexivity. }
        destruct Ew as [-> ->].
        destruct (all_sane c fuel ops Hf Fs (after_read c oM) PReadOnly (tr ++ held oM [i0] ++ held (read_request c oM a) [ia] ++ held (after_read c oM) lat) (iv :: l') (after_read_quiet c oM Q) ltac:(cbn [length]; lia)) as (R' & ER & _ & Ef' & _).
        rewrite E2 in ER. cbn [snd] in ER.
        assert (EX : X = held (after_read c oM) lat ++ R').
        { rewrite ER, <- !app_assoc in Eh. apply app_inv_head in Eh. cbn [held map app] in Eh. inversion Eh. reflexivity. }
        rewrite EX in HD2. apply Forall2_app_inv_l in HD2. destruct HD2 as (BL & B' & HDL & HD' & ->).
        pose proof (drv_quiets _ _ _ (after_read_quiet c oM Q) HDL) as QL.
        assert (LBL : length BL = d) by (apply Forall2_len in HDL; unfold held in HDL; rewrite map_length in HDL; lia).
        destruct (adv_quiet mc BL QL s1 o1) as (A1 & A2 & A3).
        destruct (cycles_app mc BL s1 o1 B') as [K1 K2]. rewrite K1, El in HO2.
        apply Forall2_app_split in HO2; [|rewrite cycles_length; lia]. destruct HO2 as [_ HO'].
        rewrite LBL, Eq1, skipn_app, repeat_length, Nat.sub_diag, skipn_all2, skipn_O in A2 by (rewrite repeat_length; lia). cbn [app] in A2.
        destruct (cycles_app mc [b0; b1] s om (BL ++ B')) as [_ K3]. cbn [app] in K3.
        destruct (EA []) as [EA1 EA2]. rewrite EA1, EA2 in K3. cbn [adv fst snd] in K3.
        destruct (IH (fst (adv mc s1 o1 BL)) (snd (adv mc s1 o1 BL)) PReadOnly (after_read c oM) (tr ++ held oM [i0] ++ held (read_request c oM a) [ia] ++ held (after_read c oM) lat) (iv :: l') B' R' r2 w (after_read_quiet c oM Q)) as (I1 & I2 & I3).
        { rewrite A2. cbn [length]. lia. }
        { intro Ew. rewrite A3, Ew1. exact (Hw Ew). }
        { cbn [length]. lia. }
        { exact E2. } { exact ER. } { exact Ef'. } { exact HD'. } { exact HO'. }
        rewrite A1, Em1 in I1, I2, I3. rewrite Odat, Yd. split; [|split].
        -- destruct I1 as [->| ->]; [left|right]; reflexivity.
        -- cbn [length]. rewrite Ll. intro HN. rewrite I2 by (cbn [length]; lia). reflexivity.
        -- intros v Ev. rewrite K3, K2. destruct r2; inversion Ev. eapply I3. reflexivity.
    + destruct F as (Hwr & Ha & Hv).
      destruct l as [|i0 [|ia l]].
      { cbn [mm_all] in Er. assert (E : exists w', mm_write c fuel a v (MW false p oM tr []) = (Susp, w')) by (unfold mm_write; rewrite Hwr; eexists; reflexivity).
        destruct E as [w' E]. rewrite (bind_susp _ _ _ _ E) in Er. inversion Er. split; [left; reflexivity|]. split; [cbn [length]; lia|discriminate]. }
      { cbn [mm_all] in Er. destruct (write_susp c fuel a v oM p tr i0 [] Hf Hwr Ha Hv (Forall_nil _)) as [p' E]. rewrite (bind_susp _ _ _ _ E) in Er. inversion Er.
        split; [left; reflexivity|]. split; [cbn [length]; lia|discriminate]. }
      inversion HG as [|? ? G0 HG1]; subst. inversion HG1 as [|? ? G1 HG2]; subst. clear HG HG1. cbn [length] in Hl.
      pose proof (write_done c fuel a v oM p tr i0 [] ia l Hf Hwr Ha Hv (Forall_nil _) G1) as E. cbn [app] in E. cbn [mm_all] in Er. rewrite (bind_done _ _ _ _ _ E) in Er.
      destruct (all_sane c fuel ops Hf Fs (after_write c oM) PActive (tr ++ (i0, oM) :: held (write_request c oM a v) [ia]) l (after_write_quiet c oM Q) ltac:(lia)) as (R' & ER & _ & Ef' & _).
      rewrite Er in ER. cbn [snd] in ER.
      assert (EX : R = (i0, oM) :: (ia, write_request c oM a v) :: R').
      { rewrite ER, <- !app_assoc in Eh. apply app_inv_head in Eh. rewrite <- Eh. reflexivity. }
      subst R. inversion HD as [|? b0 ? B1 D0 HD1]; subst B. inversion HD1 as [|? b1 ? B2 D1 HD2]; subst B1. clear HD HD1. cbn [snd] in D0, D1.
      destruct (write_mem _ _ _ _ (a_mem s) Q Ha Hv D1) as [M1 M2].
      destruct (cycles_app mc [b0; b1] s om B2) as [K1 K2]. cbn [app] in K1, K2. rewrite K1 in HO.
      change (i0 :: ia :: l) with ([i0; ia] ++ l) in HO. apply Forall2_app_split in HO; [|rewrite cycles_length; reflexivity]. destruct HO as [_ HO'].
      set (s2 := fst (adv mc s om [b0; b1])) in *. set (o2 := snd (adv mc s om [b0; b1])) in *.
      assert (S2 : a_mem s2 = mupd (a_mem s) a v /\ a_resp s2 = [] /\ w_wait o2 = w_wait om).
      { unfold s2, o2. cbn [adv fst snd]. rewrite (after_quiet mc _ b0) by (eapply drv_quiet; eauto). rewrite !answer_wait.
        unfold after_cycle. cbn zeta. cbn [set_mem a_mem a_resp]. unfold after_read_req. rewrite M1. cbn [a_mem set_resp a_resp].
        split; [exact M2|]. split; [|reflexivity]. destruct (a_resp s) as [|? [|]]; try reflexivity. cbn [length] in Hq. lia. }
      destruct S2 as (S2 & S3 & S4).
      destruct (IH s2 o2 PActive (after_write c oM) (tr ++ (i0, oM) :: held (write_request c oM a v) [ia]) l B2 R' r w (after_write_quiet c oM Q)) as (I1 & I2 & I3).
      { rewrite S3. cbn [length]. lia. }
      { intro Ew. rewrite S4. exact (Hw Ew). }
      { lia. }
      { exact Er. } { exact ER. } { exact Ef'. } { exact HD2. } { exact HO'. }
      rewrite S2 in I1, I2, I3. rewrite K2. split; [exact I1|]. split; [|exact I3]. cbn [length]. intro HN. apply I2. lia.
Qed.

Lemma system_thm fuel ops s y0 l r m' : Forall (op_fits c) ops -> 2 <= fuel -> length l < fuel -> a_resp s = [] -> fitting mc (a_mem s) ->
  connected c mc fuel ops s y0 l r m' ->
  (r = Susp \/ r = Done (values_read mc (a_mem s) ops)) /\
  (cycles_needed mc ops <= length l -> r = Done (values_read mc (a_mem s) ops)) /\
  (forall v, r = Done v -> m' = memory_after (a_mem s) ops).
Proof using Hb Hlat Hrdv.
  intros F Hf Hl Hq Hfit H. destruct (start fuel ops s y0 l r m' F Hf Hl Hq Hfit H) as (p & oM & wM & R & B & Q & EM & ER & El & HD & HO & ->).
  apply (joint fuel ops Hf F s (am_init mc y0) p oM [] l B R r wM); try assumption.
  - rewrite Hq. cbn [length]. lia.
  - intro Ew. unfold am_init. cbn [w_wait]. rewrite (sb_bc _ _ Hb), (sb_wait _ _ Hb), Ew. reflexivity.
Qed.
End Joint.

(** without readdatavalid, and with any latency, the master reads too early *)
Lemma early_thm c mc fuel a s y0 l r m' : same_bus c mc -> 1 <= m_latmin mc <= m_latmax mc -> a_rdv c = false ->
  fits (a_width c) a -> 2 <= fuel -> length l < fuel -> a_resp s = [] -> fitting mc (a_mem s) ->
  connected c mc fuel [MMRead a] s y0 l r m' -> 3 <= length l -> r = Done [w_data y0].
Proof.
  intros Hb Hlat Hv Ha Hf Hl Hq Hfit H Hn. pose proof (proj1 (sb_read _ _ Hb)) as Hr.
  destruct (start c mc Hb ltac:(lia) fuel [MMRead a] s y0 l r m' (Forall_cons (MMRead a) (conj Hr Ha) (Forall_nil _)) Hf Hl Hq Hfit H) as (p & oM & wM & R & B & Q & EM & ER & El & HD & HO & ->).
  assert (HG : Forall (grants c) l).
  { eapply all_grant; [|exact HO]. intro Ew. unfold am_init. cbn [w_wait]. rewrite (sb_bc _ _ Hb), (sb_wait _ _ Hb), Ew. reflexivity. }
  destruct l as [|i0 [|ia [|iv l]]]; try (cbn [length] in Hn; lia). inversion HG as [|? ? _ HG1]; subst. inversion HG1 as [|? ? G1 _]; subst. cbn [length] in Hl.
  destruct (read_head c fuel [] a oM p [] i0 ia (iv :: l) R r wM Hf Hr Ha (Forall_nil _) Q ltac:(cbn [length]; lia) G1 EM ER) as [X ->].
  inversion HD as [|? b0 ? B1 D0 HD1]; subst. inversion HD1 as [|? b1 ? B2 D1 HD2]; subst. cbn [snd] in D0, D1.
  assert (M3 : forall m, mem_after mc m b1 = m) by (intro m; exact (proj2 (proj2 (read_mem c mc Hb _ _ _ m Q Ha D1)))).
  destruct (read_mem c mc Hb _ _ _ (a_mem s) Q Ha D1) as (M1 & M2 & _).
  destruct (mem_read mc s (am_init mc y0) b0 b1 a B2 ltac:(rewrite Hq; cbn [length]; lia) (drv_quiet c mc _ _ Q D0) M1 M2 M3 ltac:(lia)) as (s1 & o1 & d & EA & _ & Eq1 & Hd & _ & z0 & z1 & EC).
  assert (Ed : w_data o1 = w_data y0).
  { destruct (EA []) as [_ E]. cbn [adv snd] in E. rewrite <- E, (after_quiet mc _ b0) by (exact (drv_quiet c mc _ _ Q D0)).
    cbn [set_resp a_resp]. rewrite Hq. cbn [tl hd]. unfold answer_out, am_init. destruct (m_rdv mc); reflexivity. }
  rewrite EC in HO. inversion HO as [|? ? ? ? _ HO1]; subst. inversion HO1 as [|? ? ? ? _ HO2]; subst.
  destruct B2 as [|b2 B2]; [inversion HO2|]. rewrite cycles_cons in HO2. inversion HO2 as [|? ? ? ? [_ _ O2] _]; subst.
  destruct d as [|d]; [lia|]. rewrite Eq1 in O2. cbn [repeat app hd] in O2.
  assert (E2 : i_rdata iv = w_data y0) by (rewrite O2; unfold answer_out; destruct (m_rdv mc); exact Ed).
  pose proof (read_done c fuel (num (v_addr b1)) true oM p [] [i0] [] ia [] iv l Hf ltac:(cbn [length]; lia) Hr Ha eq_refl ltac:(discriminate) (Forall_nil _) G1) as E. cbn [app] in E.
  cbn [mm_all] in EM. rewrite (bind_done _ _ _ _ _ (E ltac:(split; intro; [congruence|reflexivity]))) in EM. cbn in EM. inversion EM. rewrite E2. reflexivity.
Qed.

