(** AxLvProof.v -- an AXI4 write ends with every slave that keeps serving (C140). *)
From Verif Require Import Base Async BitsLemmas CompatModel PktModel HandshakeSpec Handshake AxiModel AxiSpec AxiDataProof AxiReadProof AxiChanProof AxiTopProof AxLatSpec AxLatProof TmSpec TmProof AxTmProof AxLvSpec.
Local Open Scope list_scope.

(** ** one channel, cycle by cycle *)
Section Chan.
Context {TI : Type} (acc : TI -> bool) (d : nat).
Notation on_time := (on_time acc).

Lemma step1 g m i l v rest : on_time (g :: repeat d m) (i :: l) v rest -> exists b v', v = b :: v' /\
  ((exists g', g = S g' /\ on_time (g' :: repeat d m) l v' rest) \/
   (g = 0 /\ acc i = false /\ on_time (0 :: repeat d m) l v' rest) \/
   (g = 0 /\ acc i = true /\ ((m = 0 /\ v' = [] /\ rest = Some l) \/ exists m', m = S m' /\ on_time (d :: repeat d m') l v' rest))).
Proof.
  intro H; inversion H as [|g' gs' idle' waits' i' l' v2 r2 L' F' A' H2 E1 E2 E3 E4|g' gs' idle' waits' L' F' E1 E2 E3 E4|g' gs' l' L' E1 E2 E3 E4]; clear H; subst g' gs'.
  - destruct idle' as [|j idle']; cbn [app length] in *.
    + subst g. cbn [repeat app]. destruct waits' as [|j waits']; cbn [app length Nat.add repeat] in *.
      * injection E2 as -> ->. eexists. eexists. split; [reflexivity|]. right. right. split; [reflexivity|]. split; [exact A'|].
        destruct m as [|m]; cbn [repeat] in H2.
        -- left. inversion H2; subst. auto.
        -- right. exists m. auto.
      * injection E2 as -> <-. inversion F'; subst. eexists. eexists. split; [reflexivity|]. right. left. split; [reflexivity|]. split; [assumption|].
        apply (ot_word acc 0 _ [] waits'); auto.
    + injection E2 as -> <-. subst g. cbn [repeat app]. eexists. eexists. split; [reflexivity|]. left. eexists. split; [reflexivity|]. apply ot_word; auto.
  - destruct idle' as [|j idle']; cbn [app length] in *.
    + subst g waits'. inversion F'; subst. cbn [repeat app length]. eexists. eexists. split; [reflexivity|]. right. left. split; [reflexivity|]. split; [assumption|].
      apply (ot_waiting acc 0 _ [] l); auto.
    + injection E2 as -> <-. subst g. cbn [repeat app]. eexists. eexists. split; [reflexivity|]. left. eexists. split; [reflexivity|]. apply ot_waiting; auto.
  - subst. cbn [length repeat] in *. destruct g as [|g]; [lia|]. eexists. eexists. split; [reflexivity|]. left. eexists. split; [reflexivity|]. apply ot_gap. lia.
Qed.

Lemma adv j : forall g m l v rest, on_time (g :: repeat d m) l v rest -> j <= length l ->
  length v <= j \/ exists g' m' v', on_time (g' :: repeat d m') (skipn j l) v' rest /\ length v = j + length v' /\
    (m' < m /\ g' <= d \/ m' = m /\ g' = g - j).
Proof.
  induction j as [|j IH]; intros g m l v rest H L.
  - right. exists g, m, v. split; [exact H|]. split; [reflexivity|]. right. split; [reflexivity|lia].
  - destruct l as [|i l]; [cbn in L; lia|]. cbn [length skipn] in *.
    destruct (step1 _ _ _ _ _ _ H) as (b & v1 & -> & St). cbn [length].
    assert (Go : forall g1 m1, on_time (g1 :: repeat d m1) l v1 rest -> (m1 < m /\ g1 <= d \/ m1 = m /\ g1 = g - 1) ->
      S (length v1) <= S j \/ exists g' m' v', on_time (g' :: repeat d m') (skipn j l) v' rest /\ S (length v1) = S j + length v' /\ (m' < m /\ g' <= d \/ m' = m /\ g' = g - S j)).
    { intros g1 m1 H1 C. destruct (IH _ _ _ _ _ H1 ltac:(lia)) as [E|(g' & m' & v' & H' & E & C')]; [left; lia|]. right. exists g', m', v'. split; [exact H'|]. split; lia. }
    destruct St as [(g1 & -> & H1)|[(-> & _ & H1)|(-> & _ & [(-> & -> & _)|(m1 & -> & H1)])]].
    + apply (Go _ _ H1). right. split; [reflexivity|lia].
    + apply (Go _ _ H1). right. split; [reflexivity|lia].
    + left. cbn. lia.
    + apply (Go _ _ H1). left. split; lia.
Qed.

Lemma nth_skip {A} u (l : list A) x : u < length l -> skipn u l = nth u l x :: skipn (S u) l.
Proof. revert l. induction u as [|u IH]; intros [|a l] L; cbn [length] in L; try lia; [reflexivity|]. cbn [skipn nth]. rewrite (IH l) by lia. reflexivity. Qed.

(** an acceptance after the delay takes a word *)
Lemma decrease x u E g m l v rest : on_time (g :: repeat d m) l v rest -> g <= d -> d <= u -> u < E -> E <= length l ->
  u < length v -> acc (nth u l x) = true ->
  length v <= E \/ exists g' m' v', on_time (g' :: repeat d m') (skipn E l) v' rest /\ length v = E + length v' /\ m' < m /\ g' <= d.
Proof.
  intros H G Du Ue El Uv A. destruct (adv u _ _ _ _ _ H ltac:(lia)) as [C|(g1 & m1 & v1 & H1 & L1 & C1)]; [lia|].
  rewrite (nth_skip u l x) in H1 by lia. destruct (step1 _ _ _ _ _ _ H1) as (b & v2 & -> & St). cbn [length] in L1.
  assert (SK : skipn (E - u - 1) (skipn (S u) l) = skipn E l).
  { rewrite skipn_skipn. f_equal. lia. }
  assert (LS : E - u - 1 <= length (skipn (S u) l)) by (rewrite skipn_length; lia).
  assert (Go : forall g2 m2, on_time (g2 :: repeat d m2) (skipn (S u) l) v2 rest -> m2 < m -> g2 <= d ->
    length v <= E \/ exists g' m' v', on_time (g' :: repeat d m') (skipn E l) v' rest /\ length v = E + length v' /\ m' < m /\ g' <= d).
  { intros g2 m2 H2 M2 G2. destruct (adv (E - u - 1) _ _ _ _ _ H2 LS) as [Q|(g' & m' & v' & H' & L' & C')]; [left; lia|].
    rewrite SK in H'. right. exists g', m', v'. split; [exact H'|]. lia. }
  destruct St as [(g2 & -> & H2)|[(-> & F & H2)|(-> & _ & [(-> & -> & _)|(m2 & -> & H2)])]].
  - destruct C1 as [[C1 C2]|[-> C2]]; [|lia]. apply (Go _ _ H2); lia.
  - congruence.
  - left. cbn in L1. lia.
  - apply (Go _ _ H2); lia.
Qed.
End Chan.

(** ** both channels see the same cycles *)
Lemma held_cycles {TO} (o : TO) (tr : list (axi_in * TO)) ins l n : map fst tr ++ ins = l -> length tr <= n ->
  map fst (tr ++ held o (firstn (n - length tr) ins)) = firstn n l.
Proof.
  intros <- L. rewrite map_app, held_fst, firstn_app, (firstn_all2 (map fst tr)) by (rewrite map_length; lia). rewrite map_length. reflexivity.
Qed.

Lemma same_cycles c fuel a p oa ow l : write_any c fuel a p oa ow l ->
  map fst (wr_aw (axi_write c fuel a p oa ow l)) = map fst (wr_w (axi_write c fuel a p oa ow l)) /\ (wr_result (axi_write c fuel a p oa ow l) = Susp -> wr_rest (axi_write c fuel a p oa ow l) = []).
Proof.
  intros [Hb Hl Ha Nb Hp Hoa How Hf].
  destruct (legal_facts c _ _ _ _ Hb Hl) as (Ec & Ps & Ls & Hn & _).
  destruct (beats_exist c _ _ _ _ (wa_value a) (wa_be a) Hb Hl eq_refl Nb) as (beats & Eb & Lb & Fb).
  assert (Bn : beats <> []) by (destruct beats; [cbn [length] in Lb; lia|discriminate]).
  pose proof (tx_result _ _ _ _ _ _ _ _ _ _
    (aw_tx c fuel (wa_address a) (Z.of_nat (length (wa_value a))) (wa_burst a) (size_or (x_bytes c) (wa_size a)) (wa_alat a) (wa_sync a) tt p oa [] l
       Ha Hn Ps Ls Hp Hoa (free_nil _ _) Hf) ltac:(intros ? ? [_ H]; exact (handshake_free _ _ _ H))) as TA.
  pose proof (data_taken c fuel (wa_address a) (wa_value a) (wa_burst a) (size_or (x_bytes c) (wa_size a)) (wa_dlat a) (wa_be a) (wa_sync a) beats p ow l Eb Fb Bn Hp How Hf) as TW.
  unfold axi_write. rewrite Ec.
  destruct (send_write_address c fuel (wa_address a) (Z.of_nat (length (wa_value a))) (wa_burst a) (size_or (x_bytes c) (wa_size a)) (wa_alat a) (wa_sync a) (World tt p oa [] l)) as [ra va].
  destruct (send_write_data c fuel (wa_address a) (wa_value a) (wa_burst a) (size_or (x_bytes c) (wa_size a)) (wa_dlat a) (wa_be a) (wa_sync a) (World tt p ow [] l)) as [rw vw].
  destruct TA as (IA & SA & TA). destruct TW as [Fi [RW (t & E1 & IW & TW)]]. cbn [app] in E1. subst t.
  assert (LA : length (trace va) + length (ins va) = length l) by (rewrite <- IA, app_length, map_length; reflexivity).
  assert (LW : length (trace vw) + length (ins vw) = length l) by (rewrite <- IW, app_length, map_length; reflexivity).
  assert (SU : map fst (trace va ++ held (out va) (ins va)) = map fst (trace vw ++ held (out vw) (ins vw))).
  { rewrite !map_app, !held_fst, IA, IW. reflexivity. }
  destruct ra as [[]|e| |]; try contradiction; destruct RW as [[-> Ho]|[-> Hi]]; [|split; [exact SU|reflexivity]..].
  set (rest := if length (ins va) <=? length (ins vw) then ins va else ins vw).
  assert (Lr : length rest < fuel) by (unfold rest; destruct (_ <=? _); lia).
  destruct (response_spec fuel rest tt PActive tt [] ltac:(discriminate) Lr) as [p' E].
  assert (Su : fst (write_response (TO := unit) fuel (World tt PActive tt [] rest)) = Susp -> ins (snd (write_response (TO := unit) fuel (World tt PActive tt [] rest))) = []).
  { rewrite E. destruct (span b_valid rest) as [nr [|i r']]; [reflexivity|]. destruct (bval (g_bresp i)) as [v|]; [destruct (v =? 0)%Z|]; discriminate. }
  clear E. unfold rest in *. clear rest. destruct (write_response fuel _) as [rb vb]. cbn [wr_aw wr_w wr_result wr_rest fst snd] in *. split; [|exact Su].
  rewrite (held_cycles _ _ _ l _ IA), (held_cycles _ _ _ l _ IW); [reflexivity|..]; destruct (Nat.leb_spec (length (ins va)) (length (ins vw))); lia.
Qed.

(** ** the slave's steps are counted *)
Section Live.
Context (l : list axi_in) (x0 : axi_in) (d D N : nat) (va vw : list bool) (ra rw : option (list axi_in)) (t0 : nat).
Definition pend_a (t a : nat) : Prop := (a = 0 /\ length va <= t) \/
  exists v', a = 1 /\ on_time aw_accepts [0] (skipn t l) v' ra /\ length va = t + length v'.
Definition pend_w (t b : nat) : Prop := (b = 0 /\ length vw <= t) \/
  exists g m v', b = S m /\ g <= d /\ on_time w_accepts (g :: repeat d m) (skipn t l) v' rw /\ length vw = t + length v'.
Hypothesis NL : N <= length l.
Hypothesis Ans : forall t, t0 <= t -> t + D <= N -> exists u, t <= u < t + D /\
  ((u < length va /\ aw_accepts (nth u l x0) = true) \/ (u < length vw /\ w_accepts (nth u l x0) = true) \/ N <= u + 1).

Lemma nth_skipn' {A} n u (l0 : list A) x : nth u (skipn n l0) x = nth (n + u) l0 x.
Proof. revert l0. induction n as [|n IH]; intros [|y l0]; try reflexivity; [destruct u; reflexivity|]. cbn [skipn Nat.add nth]. apply IH. Qed.

Lemma pend_a_later t a j : t + j <= length l -> pend_a t a -> exists a', a' <= a /\ pend_a (t + j) a'.
Proof.
  intros L [[-> H]|(v' & -> & O & E)]; [exists 0; split; [lia|]; left; split; [reflexivity|lia]|].
  destruct (adv aw_accepts 0 j 0 0 _ _ _ O ltac:(rewrite skipn_length; lia)) as [Q|(g & m & v2 & O2 & L2 & C)].
  - exists 0. split; [lia|]. left. split; [reflexivity|lia].
  - assert (m = 0 /\ g = 0) as [-> ->] by lia. exists 1. split; [lia|]. right. exists v2. split; [reflexivity|]. rewrite skipn_skipn in O2. split; [exact O2|lia].
Qed.
Lemma pend_w_later t b j : t + j <= length l -> pend_w t b -> exists b', b' <= b /\ pend_w (t + j) b'.
Proof.
  intros L [[-> H]|(g & m & v' & -> & G & O & E)]; [exists 0; split; [lia|]; left; split; [reflexivity|lia]|].
  destruct (adv w_accepts d j _ _ _ _ _ O ltac:(rewrite skipn_length; lia)) as [Q|(g' & m' & v2 & O2 & L2 & C)].
  - exists 0. split; [lia|]. left. split; [reflexivity|lia].
  - exists (S m'). split; [lia|]. right. exists g', m', v2. split; [reflexivity|]. rewrite skipn_skipn in O2. split; [lia|]. split; [exact O2|lia].
Qed.

Lemma live k : forall t a b, a + b <= k -> pend_a t a -> pend_w t b -> t0 <= t -> N <= t + (k + 1) * (d + D).
Proof.
  induction k as [|k IH]; intros t a b K Pa Pw T.
  all: destruct (Nat.le_gt_cases N (t + (d + D))) as [Q|Q]; [nia|].
  all: destruct (Ans (t + d) ltac:(lia) ltac:(lia)) as (u & U & C).
  - exfalso. assert (a = 0 /\ b = 0) as [-> ->] by lia. destruct Pa as [[_ Pa]|(v' & Y & _)]; [|discriminate]. destruct Pw as [[_ Pw]|(g & m & v' & Y & _)]; [|discriminate].
    destruct C as [[C _]|[[C _]|C]]; lia.
  - destruct C as [[C A]|[[C A]|C]]; [| |nia].
    + destruct Pa as [[_ Pa]|(v' & -> & O & E)]; [lia|].
      assert (Z : length v' <= d + D).
      { destruct (decrease aw_accepts 0 x0 (u - t) (d + D) 0 0 _ _ _ O (le_n 0) ltac:(lia) ltac:(lia) ltac:(rewrite skipn_length; lia) ltac:(lia)) as [Z|(g & m & v2 & _ & _ & M & _)]; [|exact Z|lia].
        rewrite nth_skipn'. replace (t + (u - t)) with u by lia. exact A. }
      destruct (pend_w_later t b (d + D) ltac:(lia) Pw) as (b' & B & Pw').
      assert (N <= t + (d + D) + (k + 1) * (d + D)); [|lia].
      apply (IH (t + (d + D)) 0 b'); [lia|left; split; [reflexivity|lia]|exact Pw'|lia].
    + destruct Pw as [[_ Pw]|(g & m & v' & -> & G & O & E)]; [lia|].
      destruct (pend_a_later t a (d + D) ltac:(lia) Pa) as (a' & A' & Pa').
      assert (N <= t + (d + D) + (k + 1) * (d + D)); [|lia].
      destruct (decrease w_accepts d x0 (u - t) (d + D) g m _ _ _ O G ltac:(lia) ltac:(lia) ltac:(rewrite skipn_length; lia) ltac:(lia)) as [Z|(g' & m' & v2 & O2 & L2 & M & G2)].
      * rewrite nth_skipn'. replace (t + (u - t)) with u by lia. exact A.
      * apply (IH (t + (d + D)) a' 0); [lia|exact Pa'|left; split; [reflexivity|lia]|lia].
      * apply (IH (t + (d + D)) a' (S m')); [lia|exact Pa'| |lia]. right. exists g', m', v2. rewrite skipn_skipn in O2. split; [reflexivity|]. split; [exact G2|]. split; [exact O2|lia].
Qed.
End Live.

(** ** the whole write *)
Lemma nth_rep {A} (x : A) n u y : u < n -> nth u (repeat x n) y = x.
Proof. revert u. induction n as [|n IH]; intros [|u] H; try lia; [reflexivity|]. cbn. apply IH. lia. Qed.
Lemma nth_rep' {A} (x : A) n u : nth u (repeat x n) x = x.
Proof. revert u. induction n as [|n IH]; intros [|u]; try reflexivity. cbn. apply IH. Qed.

(** when a channel is up *)
Definition up (g e u : nat) : bool := (g <=? u) && (u <? e).
Lemma up_shape g e n u : nth u (repeat false (Nat.min g e) ++ repeat true (e - g) ++ repeat false n) false = up g e u.
Proof.
  unfold up. destruct (Nat.leb_spec g u); destruct (Nat.ltb_spec u e); cbn [andb].
  - rewrite app_nth2; rewrite repeat_length; [|lia]. rewrite app_nth1; [|rewrite repeat_length; lia]. apply nth_rep. lia.
  - rewrite app_nth2; rewrite repeat_length; [|lia]. rewrite app_nth2; rewrite repeat_length; [|lia]. apply nth_rep'.
  - destruct (Nat.lt_ge_cases u (Nat.min g e)); [rewrite app_nth1 by (rewrite repeat_length; lia); apply nth_rep'|]. lia.
  - destruct (Nat.lt_ge_cases u (Nat.min g e)); [rewrite app_nth1 by (rewrite repeat_length; lia); apply nth_rep'|].
    rewrite app_nth2; rewrite repeat_length; [|lia]. rewrite app_nth2; rewrite repeat_length; [|lia]. apply nth_rep'.
Qed.

Lemma time_reach {TI} (acc : TI -> bool) g d m l v rest : on_time acc (g :: repeat d m) l v rest -> g < length l -> g < length v.
Proof.
  intros H L. inversion H as [|g' gs' idle' waits' i' l' v2 r2 L' F' A' H2 E1 E2 E3 E4|g' gs' idle' waits' L' F' E1 E2 E3 E4|g' gs' l' L' E1 E2 E3 E4]; clear H; subst.
  - rewrite !app_length, !repeat_length. lia.
  - rewrite !app_length, !repeat_length in *. lia.
  - lia.
Qed.
Lemma one_shape {TI} (acc : TI -> bool) g l v rest : on_time acc [g] l v rest -> v = repeat false (Nat.min g (length v)) ++ repeat true (length v - g).
Proof.
  intro H. pose proof (time_first acc g 0 l v rest H) as T. destruct rest as [r|].
  - destruct T as (m & -> & _). rewrite app_length, !repeat_length, Nat.min_l by lia. do 2 f_equal. lia.
  - destruct T as [-> _]. rewrite app_length, !repeat_length. replace (Nat.min g (Nat.min g (length l) + (length l - g))) with (Nat.min g (length l)) by lia.
    do 2 f_equal. lia.
Qed.

Lemma bus_maps (aw : list (axi_in * ax_out)) w : map fst aw = map fst w ->
  map fst (bus_of aw w) = map fst aw /\ map awvalid (bus_of aw w) = map ax_on aw /\ map wvalid (bus_of aw w) = map w_on w.
Proof.
  revert w. induction aw as [|[i o] aw IH]; intros [|[j q] w] E; try discriminate; [auto|]. cbn [map fst] in E. injection E as -> E.
  destruct (IH w E) as (A & B & C). unfold bus_of in *. cbn [combine map fst snd]. rewrite A, B, C. auto.
Qed.

Lemma nth_first {A} n u (l : list A) y : u < n -> nth u (firstn n l) y = nth u l y.
Proof. revert n l. induction u as [|u IH]; intros [|n] [|x l] L; try lia; try reflexivity. cbn. apply IH. lia. Qed.
Lemma existsb_at {A} (f : A -> bool) (l : list A) u y : u < length l -> f (nth u l y) = true -> existsb f l = true.
Proof. intros L H. apply existsb_exists. exists (nth u l y). split; [apply nth_In; exact L|exact H]. Qed.

Lemma write_live c fuel a p oa ow l D : write_any c fuel a p oa ow l ->
  let r := axi_write c fuel a p oa ow l in
  let bound := (if wa_sync a then 1 else 0) + Nat.max (wa_alat a) (wa_dlat a) + 1 + (length (wa_value a) + 2) * (wa_dlat a + D) in
  serves_within D (bus_of (wr_aw r) (wr_w r)) ->
  length (wr_aw r) <= bound /\ (bound < length l -> wr_result r <> Susp).
Proof.
  intros H r bound V.
  destruct (same_cycles c fuel a p oa ow l H) as [Ef Es]. fold r in Ef, Es.
  destruct (write_time c fuel a p oa ow l H) as (va & ra & vw & rw & Oa & Ow & Ma & Mw & C). fold r in Ma, Mw, C.
  assert (Er : map fst (wr_w r) ++ wr_rest r = l).
  { destruct H as [H1 H2 H3 H4 H5 H6 H7 H8]. destruct (write_taken c fuel a p oa ow l H1 H2 H3 H4 H5 H6 H7 H8) as (beats & _ & _ & A & _). exact A. }
  assert (Hn : 1 <= length (wa_value a)).
  { destruct H as [Hb Hl _ _ _ _ _ _]. destruct (legal_facts c _ _ _ _ Hb Hl) as (_ & _ & _ & Hn & _). lia. }
  change (if wa_sync a then 1 else 0) with (b2n (wa_sync a)) in bound. set (x := b2n (wa_sync a)) in *.
  assert (G : length (wr_aw r) <= bound).
  2:{ split; [exact G|]. intros B S. rewrite (Es S), app_nil_r in Er. rewrite <- Er, <- Ef, map_length in B. lia. }
  set (N := length (wr_aw r)) in *. set (tr := bus_of (wr_aw r) (wr_w r)) in *.
  destruct (bus_maps _ _ Ef) as (B1 & B2 & B3). fold tr in B1, B2, B3.
  assert (LT : length tr = N) by (transitivity (length (map fst tr)); [symmetry; apply map_length|rewrite B1; apply map_length]).
  assert (LW : length (wr_w r) = N) by (unfold N; rewrite <- (map_length fst (wr_w r)), <- Ef, map_length; reflexivity).
  assert (NL : N + length (wr_rest r) = length l) by (rewrite <- Er, <- Ef, app_length, map_length; reflexivity).
  set (d := wa_dlat a) in *. set (n := length (wa_value a)) in *.
  set (y0 := nth 0 tr (AxiIn L0 L0 L0 [] L0 L0 [] [] L0, (oa, ow))).
  assert (UA : forall u, awvalid (nth u tr y0) = true -> u < N -> up (x + wa_alat a) (length va) u = true).
  { intros u E L. rewrite <- (up_shape _ _ (N - length va)), app_assoc, <- (one_shape _ _ _ _ _ Oa). fold N in Ma. rewrite <- Ma, <- B2.
    rewrite (nth_indep _ false (awvalid y0)) by (rewrite map_length; lia). rewrite map_nth. exact E. }
  assert (UA' : forall u, u < N -> up (x + wa_alat a) (length va) u = true -> awvalid (nth u tr y0) = true).
  { intros u L E. rewrite <- (up_shape _ _ (N - length va)), app_assoc, <- (one_shape _ _ _ _ _ Oa) in E. fold N in Ma. rewrite <- Ma, <- B2 in E.
    rewrite (nth_indep _ false (awvalid y0)) in E by (rewrite map_length; lia). rewrite map_nth in E. exact E. }
  assert (UW : forall u, u < N -> wvalid (nth u tr y0) = up (x + d) (length vw) u).
  { intros u L. rewrite <- (up_shape _ _ (length (wr_w r) - length vw)), <- Mw, <- B3.
    rewrite (nth_indep _ false (wvalid y0)) by (rewrite map_length; lia). rewrite map_nth. reflexivity. }
  assert (FI : forall u i, u < N -> fst (nth u tr y0) = nth u l i).
  { intros u i L. rewrite <- Er, <- Ef, <- B1, app_nth1 by (rewrite map_length; lia). rewrite (nth_indep _ i (fst y0)) by (rewrite map_length; lia). rewrite map_nth. reflexivity. }
  set (t0 := x + Nat.max (wa_alat a) d + 1) in *.
  destruct (Nat.le_gt_cases N t0) as [Q|Q]; [unfold bound; lia|].
  pose proof (time_reach _ _ 0 0 _ _ _ Oa ltac:(lia)) as RA. pose proof (time_reach _ _ _ _ _ _ _ Ow ltac:(lia)) as RW.
  assert (Pa : exists k, k <= 1 /\ pend_a l va ra t0 k).
  { destruct (adv aw_accepts 0 t0 _ 0 _ _ _ Oa ltac:(lia)) as [Z|(g & m & v' & O & L & Cc)].
    - exists 0. split; [lia|left; auto].
    - assert (m = 0 /\ g = 0) as [-> ->] by lia. exists 1. split; [lia|]. right. exists v'. auto. }
  assert (Pw : exists k, k <= n /\ pend_w l d vw rw t0 k).
  { destruct (adv w_accepts d t0 _ _ _ _ _ Ow ltac:(lia)) as [Z|(g & m & v' & O & L & Cc)].
    - exists 0. split; [lia|left; auto].
    - exists (S m). split; [lia|]. right. exists g, m, v'. split; [reflexivity|]. split; [lia|auto]. }
  destruct Pa as (ka & Ka & Pa). destruct Pw as (kw & Kw & Pw).
  assert (Fin : N <= t0 + (1 + n + 1) * (d + D)); [|unfold bound; lia].
  refine (live l (fst y0) d D N va vw ra rw t0 _ _ (1 + n) t0 ka kw _ Pa Pw (le_n _)); [lia| |lia].
  intros t Tt TN.
  assert (W : existsb serves (firstn D (skipn t tr)) = true).
  { apply (V (firstn t tr) (firstn D (skipn t tr)) (skipn D (skipn t tr))).
    - rewrite firstn_skipn, firstn_skipn. reflexivity.
    - rewrite firstn_length, skipn_length. lia.
    - apply (existsb_at _ _ (x + wa_alat a) y0); [rewrite firstn_length; lia|]. rewrite nth_first by lia. apply UA'; [lia|]. unfold up. rewrite (proj2 (Nat.leb_le _ _) (le_n _)). apply Nat.ltb_lt. exact RA.
    - apply (existsb_at _ _ (x + d) y0); [rewrite firstn_length; lia|]. rewrite nth_first by lia. rewrite UW by lia. unfold up. rewrite (proj2 (Nat.leb_le _ _) (le_n _)). apply Nat.ltb_lt. exact RW. }
  apply existsb_exists in W. destruct W as (y & I & Sv). apply (In_nth _ _ y0) in I. destruct I as (j & J & Ey).
  rewrite firstn_length, skipn_length in J. rewrite nth_first, nth_skipn' in Ey by lia. exists (t + j). split; [lia|].
  set (u := t + j) in *. assert (Lu : u < N) by lia. subst y. unfold serves in Sv. rewrite (FI u (fst y0) Lu) in Sv.
  destruct (awvalid (nth u tr y0)) eqn:EA; cbn [andb orb negb] in Sv.
  { destruct (aw_accepts (nth u l (fst y0))) eqn:EE.
    - left. split; [|reflexivity]. specialize (UA u EA Lu). unfold up in UA. apply andb_prop in UA. apply Nat.ltb_lt. apply UA.
    - destruct (wvalid (nth u tr y0)) eqn:EW; cbn [andb orb negb] in Sv; [|discriminate]. right. left.
      rewrite UW in EW by exact Lu. unfold up in EW. apply andb_prop in EW. split; [apply Nat.ltb_lt; apply EW|]. rewrite Bool.orb_false_r in Sv. exact Sv. }
  destruct (wvalid (nth u tr y0)) eqn:EW; cbn [andb orb negb] in Sv.
  { right. left. rewrite UW in EW by exact Lu. unfold up in EW. apply andb_prop in EW. split; [apply Nat.ltb_lt; apply EW|]. rewrite Bool.orb_false_r in Sv. exact Sv. }
  right. right.
  assert (Da : length va <= u).
  { destruct (Nat.le_gt_cases (length va) u) as [Z|Z]; [exact Z|]. rewrite UA' in EA; [discriminate|exact Lu|]. unfold up. apply andb_true_intro. split; [apply Nat.leb_le; lia|apply Nat.ltb_lt; exact Z]. }
  assert (Dw : length vw <= u).
  { destruct (Nat.le_gt_cases (length vw) u) as [Z|Z]; [exact Z|]. rewrite UW in EW by exact Lu. exfalso. revert EW. unfold up. rewrite (proj2 (Nat.leb_le _ _)), (proj2 (Nat.ltb_lt _ _)) by lia. discriminate. }
  pose proof (time_length _ _ _ _ _ Oa) as TA. pose proof (time_length _ _ _ _ _ Ow) as TW.
  destruct ra as [la|]; [|lia]. destruct rw as [lw|]; [|lia]. destruct TA as [-> TA]. destruct TW as [-> TW]. rewrite !skipn_length in C.
  set (e := Nat.max (length va) (length vw)).
  replace (if length l - length va <=? length l - length vw then skipn (length va) l else skipn (length vw) l) with (skipn e l) in C
    by (unfold e; destruct (Nat.leb_spec (length l - length va) (length l - length vw)); f_equal; lia).
  cbv zeta in C. assert (Bu : nth (u - e) (skipn e l) (fst y0) = nth u l (fst y0)) by (rewrite nth_skipn'; f_equal; unfold e; lia).
  destruct C as [[F _]|(nr & i & r' & E1 & F & Bi & _ & E2)].
  - exfalso. rewrite Forall_forall in F. specialize (F (nth (u - e) (skipn e l) (fst y0))). rewrite Bu, Sv in F. specialize (F ltac:(rewrite <- Bu; apply nth_In; rewrite skipn_length; lia)). discriminate.
  - assert (Ln : length nr <= u - e).
    { destruct (Nat.le_gt_cases (length nr) (u - e)) as [Z|Z]; [exact Z|exfalso]. rewrite E1, app_nth1 in Bu by exact Z. rewrite Forall_forall in F. specialize (F _ (nth_In _ (fst y0) Z)). rewrite Bu, Sv in F. discriminate. }
    pose proof (f_equal (@length _) E1) as E3. rewrite skipn_length, app_length in E3. cbn [length] in E3.
    assert (length r' <= length (wr_rest r)) by (rewrite E2; destruct (bval (g_bresp i)); cbn [length]; lia). lia.
Qed.

Lemma bus_outs (aw : list (axi_in * ax_out)) w : map fst aw = map fst w ->
  map (fun y => fst (snd y)) (bus_of aw w) = map snd aw /\ map (fun y => snd (snd y)) (bus_of aw w) = map snd w.
Proof.
  revert w. induction aw as [|[i o] aw IH]; intros [|[j q] w] E; try discriminate; [auto|]. cbn [map fst] in E. injection E as -> E.
  destruct (IH w E) as (A & B). unfold bus_of in *. cbn [combine map fst snd]. rewrite A, B. auto.
Qed.
Lemma write_cycles c fuel a p oa ow l : write_any c fuel a p oa ow l ->
  let r := axi_write c fuel a p oa ow l in
  map fst (bus_of (wr_aw r) (wr_w r)) ++ wr_rest r = l /\
  map (fun y => fst (snd y)) (bus_of (wr_aw r) (wr_w r)) = map snd (wr_aw r) /\
  map (fun y => snd (snd y)) (bus_of (wr_aw r) (wr_w r)) = map snd (wr_w r).
Proof.
  intros H r. destruct (same_cycles c fuel a p oa ow l H) as [Ef _]. fold r in Ef. destruct (bus_maps _ _ Ef) as (B1 & _ & _).
  split; [|apply bus_outs; exact Ef]. rewrite B1, Ef.
  destruct H as [H1 H2 H3 H4 H5 H6 H7 H8]. destruct (write_taken c fuel a p oa ow l H1 H2 H3 H4 H5 H6 H7 H8) as (beats & _ & _ & A & _). exact A.
Qed.
