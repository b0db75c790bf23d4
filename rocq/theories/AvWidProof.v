(** AvWidProof.v -- lemmas for AvWidProp.v. *)
From Verif Require Import Base BitsLemmas Async CompatModel AvSigModel AvSigProof AvWidModel AvWidSpec.
Local Open Scope list_scope.

(** ** nothing is ever answered *)
Section Silent.
Context (c : am_cfg) (rw : nat) (d : bits).
Hypothesis W2 : 2 <= m_width c.
Hypothesis Ne : rw <> m_width c.
Definition quiet (o : am_out) : Prop := w_data o = d /\ w_valid o <> L1.
Notation ks := (keeps (TS := am_state) (TI := am_in) quiet).

Lemma created_len v b : create_binary (BInt v) (m_width c) false = Ok b -> length b = m_width c.
Proof using W2.
  clear Ne. unfold create_binary, logicarray_of_int. destruct (Nat.eqb_spec (m_width c) 1); [lia|].
  destruct (_ && _); [|discriminate]. intro E. injection E as <-. apply zbits_length.
Qed.
Lemma put_fails b : length b = m_width c -> put_data rw b = raise EValue.
Proof using Ne. clear W2. intro L. unfold put_data. destruct (Nat.eqb_spec (length b) rw); [lia|reflexivity]. Qed.
Lemma ks_if {A} (b : bool) (m1 m2 : M am_state am_in am_out A) : ks m1 -> ks m2 -> ks (if b then m1 else m2).
Proof. destruct b; auto. Qed.
Lemma ks_raised {A B} e (k : A -> M am_state am_in am_out B) : ks (bind (raise e) k).
Proof. intros w H. exact H. Qed.
Lemma ks_modify f : ks (modify f).
Proof. unfold modify. apply keeps_bind; [apply keeps_get|]. intro. apply keeps_put. Qed.
Lemma ks_wait v : ks (drive (w_set_wait v)).
Proof. apply keeps_drive. intros [a b e] [H1 H2]. split; assumption. Qed.
Lemma ks_response : ks (wid_response c rw).
Proof.
  unfold wid_response. apply keeps_bind; [apply keeps_get|]. intro s. destruct (a_resp s) as [|[| |v] r].
  1,2: apply keeps_bind; [apply ks_modify|]; intros _; apply ks_if; [|apply keeps_ret];
    apply keeps_drive; intros [a b e] [H1 H2]; split; [exact H1|discriminate].
  - apply keeps_bind; [apply ks_modify|]. intros _. rewrite put_fails by apply repeat_length. apply ks_raised.
  - apply keeps_bind; [apply ks_modify|]. intros _.
    destruct (create_binary (BInt v) (m_width c) false) as [b|e] eqn:E; [|apply ks_raised].
    intros w H. unfold bind at 1. cbn [of_res ret]. rewrite put_fails by exact (created_len v b E). exact H.
Qed.
Lemma ks_sample : ks sample.
Proof. intros w H. unfold sample. destruct (ph w), (rev (trace w)) as [|[? ?] ?]; try exact H; apply keeps_input; exact H. Qed.
Lemma ks_toint b : ks (toint b).
Proof. unfold toint. destruct (bval b); [apply keeps_ret|apply keeps_raise]. Qed.
Lemma ks_need {A} b (m : M am_state am_in am_out A) : ks m -> ks (need b m).
Proof. intro H. destruct b; [exact H|apply keeps_raise]. Qed.
Lemma ks_draw : ks draw.
Proof. unfold draw. apply keeps_bind; [apply keeps_get|]. intro. apply keeps_bind; [apply keeps_put|]. intro. apply keeps_ret. Qed.
Lemma ks_randint lo hi : ks (randint lo hi).
Proof. unfold randint. apply ks_if; [|apply keeps_raise]. apply keeps_bind; [apply ks_draw|]. intro. apply keeps_ret. Qed.
Lemma ks_coin : ks coin.
Proof. unfold coin. apply keeps_bind; [apply ks_draw|]. intro. apply keeps_ret. Qed.
Ltac kk := repeat first
  [ match goal with |- keeps _ (match ?x with Some _ => _ | None => _ end) => destruct x end | apply keeps_ret | apply keeps_raise | apply keeps_get | apply keeps_put | apply keeps_of_res | apply keeps_edge | apply keeps_readonly
  | apply keeps_midstep | apply keeps_edges | apply ks_sample | apply ks_toint | apply ks_modify | apply ks_wait | apply ks_response
  | apply ks_randint | apply ks_coin | apply ks_need | apply ks_if | apply keeps_for; intro | apply keeps_bind; [|intro] ].
Lemma ks_wait_write_rest : ks (fun w =>
          let '(a, b) := span nzero (ins w) in
          match a, b with
          | _, [] => (Susp, World (st w) PActive (out w) (trace w ++ held (out w) a) [])
          | _, _ => (Done tt, World (st w) PMid (out w) (trace w ++ held (out w) a) b)
          end).
Proof.
  intros w [H1 H2]. destruct (span nzero (ins w)) as [l1 [|b r]]; destruct l1 as [|i0 l1];
    split; cbn; auto; apply Forall_app; (split; [exact H2|]); unfold held; apply Forall_forall; intros x Hx;
    cbn in Hx; try contradiction; try (destruct Hx as [<-|Hx]; [exact H1|]); apply in_map_iff in Hx; destruct Hx as (? & <- & _); exact H1.
Qed.
Lemma ks_respond fuel : ks (wid_respond c rw fuel).
Proof.
  unfold wid_respond. apply keeps_loop. intros []. apply keeps_bind; [|intro; apply keeps_ret].
  unfold wid_respond_body, wid_burst_read, simple_read, burst_write, simple_write. kk; apply ks_wait_write_rest.
Qed.
Lemma silent fuel w : unanswered d w -> unanswered d (snd (wid_respond c rw fuel w)).
Proof.
  intro H. assert (A : always quiet w).
  { split; [apply H; left; reflexivity|]. apply Forall_forall. intros x Hx. apply H. right. now apply in_map. }
  destruct (ks_respond fuel w A) as [B C]. intros o [<-|Ho]; [exact B|]. apply in_map_iff in Ho.
  destruct Ho as (x & <- & Hx). rewrite Forall_forall in C. exact (C x Hx).
Qed.
End Silent.

(** ** equal widths *)
Lemma bind_ext {S I O A B} (m m' : M S I O A) (k k' : A -> M S I O B) :
  (forall w, m w = m' w) -> (forall a w, k a w = k' a w) -> forall w, bind m k w = bind m' k' w.
Proof. intros H K w. unfold bind. rewrite H. destruct (m' w) as [[a|e| |] w1]; auto. Qed.
Lemma for_ext {S I O A} (f g : A -> M S I O unit) l : (forall a w, f a w = g a w) -> forall w, for_each f l w = for_each g l w.
Proof. intro H. induction l as [|a l IH]; intro w; [reflexivity|]. apply bind_ext; auto. Qed.
Lemma response_same c w : 2 <= m_width c -> wid_response c (m_width c) w = do_response c w.
Proof.
  intro W2. unfold wid_response, do_response. apply bind_ext; [reflexivity|]. intros s w1.
  destruct (a_resp s) as [|[| |v] r]; try reflexivity.
  - apply bind_ext; [reflexivity|]. intros _ w2. apply bind_ext; [|reflexivity]. intro w3.
    unfold put_data, xs. rewrite repeat_length, Nat.eqb_refl. reflexivity.
  - apply bind_ext; [reflexivity|]. intros _ w2.
    destruct (create_binary (BInt v) (m_width c) false) as [b|e] eqn:E; [|reflexivity].
    cbn [of_res]. unfold bind at 1 3. cbn [ret]. unfold put_data.
    rewrite (created_len c W2 v b E), Nat.eqb_refl. reflexivity.
Qed.
Lemma respond_same c fuel w : 2 <= m_width c -> wid_respond c (m_width c) fuel w = respond c fuel w.
Proof.
  intro W2. unfold wid_respond, respond. apply loop_eq. intros [] w1. apply bind_ext; [|reflexivity]. clear w1.
  unfold wid_respond_body, respond_body. apply bind_ext; [reflexivity|]. intros _.
  apply bind_ext; [intro; now apply response_same|]. intros _.
  apply bind_ext; [reflexivity|]. intros _. apply bind_ext; [reflexivity|]. intros i.
  apply bind_ext; [|reflexivity]. destruct (m_readable c && is_one (v_read i)); [|reflexivity].
  destruct (burstread c); [|reflexivity]. unfold wid_burst_read, burst_read.
  apply bind_ext; [reflexivity|]. intro j. apply bind_ext; [reflexivity|]. intro a. apply bind_ext; [reflexivity|]. intros _.
  cbn zeta. apply bind_ext; [reflexivity|]. intro n. destruct (m_be c), (m_wait c); try reflexivity. cbn [need].
  do 6 (apply bind_ext; [reflexivity|]; intros _). apply for_ext. intros x w2.
  unfold wid_burst_beat, burst_beat. apply bind_ext; [reflexivity|]. intros s w3. cbn zeta. apply bind_ext; [reflexivity|]. intros _ w4.
  apply bind_ext; [reflexivity|]. intros _ w5. now apply response_same.
Qed.

(** ** nobody reads *)
Section Unread.
Context (c : am_cfg) (rw : nat).
Definition idle (w : world am_state am_in am_out) : Prop :=
  Forall (fun r => r = RNone) (a_resp (st w)) /\ no_reads w.
Definition pres {A} (m : M am_state am_in am_out A) : Prop := forall w, idle w -> idle (snd (m w)).
Lemma pres_bind {A B} (m : M am_state am_in am_out A) (k : A -> M am_state am_in am_out B) :
  pres m -> (forall a, pres (k a)) -> pres (bind m k).
Proof.
  intros H K w I. specialize (H w I). unfold bind. destruct (m w) as [[a|e| |] w1]; try exact H. apply K, H.
Qed.
Lemma pres_ret {A} (a : A) : pres (ret a). Proof. intros w H. exact H. Qed.
Lemma pres_raise {A} e : pres (@raise _ _ _ A e). Proof. intros w H. exact H. Qed.
Lemma pres_get : pres get. Proof. intros w H. exact H. Qed.
Lemma pres_res {A} (r : res A) : pres (of_res r). Proof. destruct r; intros w H; exact H. Qed.
Lemma pres_drive f : pres (drive f). Proof. intros w H. unfold drive. destruct (ph w); exact H. Qed.
Lemma pres_edge : pres edge.
Proof.
  intros w [H1 H2]. unfold edge. destruct (ins w) as [|i r] eqn:E; [split; [exact H1|exact H2]|]. split; [exact H1|].
  intros j Hj. apply H2. rewrite E. cbn in Hj. rewrite map_app, <- app_assoc in Hj. exact Hj.
Qed.
Lemma pres_readonly : pres readonly.
Proof. intros w [H1 H2]. unfold readonly. destruct (ph w), (ins w) eqn:E; split; cbn; auto; unfold no_reads; cbn; rewrite <- E; exact H2. Qed.
Lemma pres_mid : pres midstep.
Proof. intros w [H1 H2]. unfold midstep. destruct (ins w) eqn:E; split; cbn; auto; unfold no_reads; cbn; rewrite <- E; exact H2. Qed.
Lemma pres_if {A} (b : bool) (m1 m2 : M am_state am_in am_out A) : pres m1 -> pres m2 -> pres (if b then m1 else m2).
Proof. destruct b; auto. Qed.
Lemma pres_for {X} (f : X -> M am_state am_in am_out unit) l : (forall x, pres (f x)) -> pres (for_each f l).
Proof. intro H. induction l; [apply pres_ret|]. apply pres_bind; auto. Qed.
Lemma pres_input : pres input. Proof. intros w H. unfold input. destruct (ins w); exact H. Qed.
Lemma pres_sample : pres sample.
Proof. intros w H. unfold sample. destruct (ph w), (rev (trace w)) as [|[? ?] ?]; try exact H; apply pres_input; exact H. Qed.
Lemma pres_toint b : pres (toint b).
Proof. unfold toint. destruct (bval b); [apply pres_ret|apply pres_raise]. Qed.
Lemma pres_need {A} b (m : M am_state am_in am_out A) : pres m -> pres (need b m).
Proof. intro H. destruct b; [exact H|apply pres_raise]. Qed.
Lemma pres_draw : pres draw.
Proof. intros w H. exact H. Qed.
Lemma pres_mem f : pres (modify (fun s => set_mem (f s) s)).
Proof. intros w H. exact H. Qed.
Lemma pres_randint lo hi : pres (randint lo hi).
Proof. unfold randint. apply pres_if; [|apply pres_raise]. apply pres_bind; [apply pres_draw|]. intro. apply pres_ret. Qed.
Lemma pres_coin : pres coin.
Proof. unfold coin. apply pres_bind; [apply pres_draw|]. intro. apply pres_ret. Qed.
Ltac pp := repeat first
  [ apply pres_ret | apply pres_raise | apply pres_get | apply pres_res | apply pres_edge | apply pres_readonly | apply pres_mid
  | apply pres_drive | apply pres_sample | apply pres_toint | apply pres_mem | apply pres_randint | apply pres_coin
  | apply pres_need | apply pres_if | apply pres_for; intro | apply pres_bind; [|intro] ].
Lemma pres_wait_write_rest : pres (fun w =>
          let '(a, b) := span nzero (ins w) in
          match a, b with
          | _, [] => (Susp, World (st w) PActive (out w) (trace w ++ held (out w) a) [])
          | _, _ => (Done tt, World (st w) PMid (out w) (trace w ++ held (out w) a) b)
          end).
Proof.
  intros w [H1 H2]. pose proof (span_app nzero (ins w)) as S.
  destruct (span nzero (ins w)) as [l1 l2]. cbn in S.
  assert (G : forall p, idle (World (st w) p (out w) (trace w ++ held (out w) l1) l2)).
  { intro p. split; [exact H1|]. intros i Hi. apply H2. cbn in Hi.
    rewrite map_app, held_fst, <- app_assoc in Hi. rewrite <- S. exact Hi. }
  destruct l1, l2; exact (G _).
Qed.
Lemma pres_write : pres (if burstwrite c then burst_write c else simple_write c).
Proof. unfold burst_write, simple_write. pp; apply pres_wait_write_rest. Qed.
Lemma idle_response w : idle w -> wid_response c rw w = do_response c w /\ idle (snd (do_response c w)).
Proof.
  intros [H1 H2]. destruct w as [[m r rnd pos] p o tr l]. cbn in H1.
  unfold wid_response, do_response, bind at 1 3, get. cbn [st a_resp].
  assert (G : forall r', Forall (fun r => r = RNone) r' ->
    idle (snd ((modify (set_resp r') ;; (if m_rdv c then drive (w_set_valid L0) else ret tt)) (World (AmState m r rnd pos) p o tr l)))).
  { intros r' Hr. unfold bind, modify, bind, get, put. cbn. destruct (m_rdv c); [|split; [exact Hr|exact H2]].
    apply pres_drive. split; [exact Hr|exact H2]. }
  inversion H1 as [|x r' -> Hr]; subst; (split; [reflexivity|]); [exact (G [] H1)|exact (G r' Hr)].
Qed.
Lemma sampled w i w' : idle w -> sample w = (Done i, w') -> v_read i <> L1 /\ idle w'.
Proof.
  intros [H1 H2] E. assert (X : In i (map fst (trace w) ++ ins w) /\ w' = w).
  { unfold sample, input in E. destruct (ph w); [destruct (rev (trace w)) as [|[j o] t] eqn:R; [discriminate|]|
      destruct (ins w) eqn:L; [discriminate|]|destruct (ins w) eqn:L; [discriminate|]]; injection E as <- <-; (split; [|reflexivity]).
    - apply in_or_app. left. apply in_map_iff. exists (j, o). split; [reflexivity|]. apply in_rev. rewrite R. left. reflexivity.
    - apply in_or_app. right. rewrite ?L. left. reflexivity.
    - apply in_or_app. right. rewrite ?L. left. reflexivity. }
  destruct X as [X ->]. split; [exact (H2 i X)|split; assumption].
Qed.
Definition same_at {A} (m1 m2 : M am_state am_in am_out A) (w : world am_state am_in am_out) : Prop :=
  m1 w = m2 w /\ idle (snd (m2 w)).
Lemma same_bind {A B} (m1 m2 : M am_state am_in am_out A) (k1 k2 : A -> M am_state am_in am_out B) w :
  same_at m1 m2 w -> (forall a w', m2 w = (Done a, w') -> idle w' -> same_at (k1 a) (k2 a) w') ->
  same_at (bind m1 k1) (bind m2 k2) w.
Proof.
  intros [E I] K. unfold same_at, bind. rewrite E. destruct (m2 w) as [[a|e| |] w']; try (split; [reflexivity|exact I]).
  exact (K a w' eq_refl I).
Qed.
Lemma same_pres {A} (m : M am_state am_in am_out A) w : pres m -> idle w -> same_at m m w.
Proof. intros P I. split; [reflexivity|exact (P w I)]. Qed.
Lemma idle_body w : idle w -> wid_respond_body c rw w = respond_body c w /\ idle (snd (respond_body c w)).
Proof.
  intro I. apply same_bind; [apply same_pres; [apply pres_edge|exact I]|]. intros _ w1 _ I1.
  apply same_bind; [exact (idle_response w1 I1)|]. intros _ w2 _ I2.
  apply same_bind; [apply same_pres; [apply pres_readonly|exact I2]|]. intros _ w3 _ I3.
  apply same_bind; [apply same_pres; [apply pres_sample|exact I3]|]. intros i w4 Sm _.
  destruct (sampled w3 i w4 I3 Sm) as [N I4].
  assert (is_one (v_read i) = false) as -> by (unfold is_one; destruct (v_read i); try reflexivity; congruence).
  rewrite andb_false_r. apply same_bind; [apply same_pres; [apply pres_ret|exact I4]|]. intros _ w5 _ I5.
  apply same_pres; [|exact I5]. apply pres_bind; [apply pres_sample|]. intro k.
  apply pres_if; [apply pres_write|apply pres_ret].
Qed.
Lemma idle_respond fuel : forall w, idle w -> wid_respond c rw fuel w = respond c fuel w.
Proof.
  induction fuel as [|f IH]; intros w I; [reflexivity|]. unfold wid_respond, respond. cbn [loop]. unfold bind.
  destruct (idle_body w I) as [-> I1]. destruct (respond_body c w) as [[[]|e| |] w1]; [|reflexivity..].
  exact (IH w1 I1).
Qed.
End Unread.

(** ** the first read ends it *)
Lemma wid_next c rw f w w' : wid_respond_body c rw w = (Done tt, w') -> wid_respond c rw (S f) w = wid_respond c rw f w'.
Proof. intro H. unfold wid_respond. cbn [loop]. unfold bind. rewrite H. reflexivity. Qed.
Lemma wid_exn c rw f w e w' : wid_respond_body c rw w = (Exn e, w') -> wid_respond c rw (S f) w = (Exn e, w').
Proof. intro H. unfold wid_respond. cbn [loop]. unfold bind. rewrite H. reflexivity. Qed.
Lemma ends c rw s p o i0 i1 i2 i3 l fuel a :
  2 <= m_width c -> rw <> m_width c -> m_readable c = true -> m_bc c = false -> m_latmin c = 1 -> m_latmax c = 1 ->
  a_resp s = [] -> v_read i1 = L1 -> bval (v_addr i1) = Some a -> v_write i1 <> L1 -> v_read i2 <> L1 -> v_write i2 <> L1 ->
  exists w, wid_respond c rw (4 + fuel) (World s p o [] (i0 :: i1 :: i2 :: i3 :: l)) = (Exn EValue, w)
    /\ ins w = i3 :: l /\ a_mem (st w) = a_mem s.
Proof.
  intros W2 Ne R B La Lb E N A Nw N2 Nw2. destruct s as [m r rnd pos]. cbn in E. subst r.
  pose (o1 := if m_rdv c then w_set_valid L0 o else o).
  assert (Nz : forall i, v_write i <> L1 -> is_one (v_write i) = false).
  { intros i H. unfold is_one. destruct (v_write i); try reflexivity. congruence. }
  assert (S1 : wid_respond_body c rw (World (AmState m [] rnd pos) p o [] (i0 :: i1 :: i2 :: i3 :: l))
          = (Done tt, World (AmState m [RNone; mem_resp m a] rnd (S pos)) PReadOnly o1 [(i0, o)] (i1 :: i2 :: i3 :: l))).
  { unfold wid_respond_body, wid_response, simple_read, randint, burstread.
    rewrite R, B, La, Lb. rewrite andb_false_r. unfold o1. destruct (m_rdv c);
      unfold bind, modify, draw, sample, toint, bind; cbn -[bval]; rewrite N; cbn -[bval]; rewrite A; cbn -[bval];
      rewrite (Nz i1 Nw), andb_false_r; reflexivity. }
  pose (o2 := if m_rdv c then w_set_valid L0 o1 else o1).
  assert (S2 : wid_respond_body c rw (World (AmState m [RNone; mem_resp m a] rnd (S pos)) PReadOnly o1 [(i0, o)] (i1 :: i2 :: i3 :: l))
          = (Done tt, World (AmState m [mem_resp m a] rnd (S pos)) PReadOnly o2 [(i0, o); (i1, o1)] (i2 :: i3 :: l))).
  { assert (Nr : is_one (v_read i2) = false) by (unfold is_one; destruct (v_read i2); try reflexivity; congruence).
    unfold wid_respond_body, wid_response. unfold o2. destruct (m_rdv c);
      unfold bind, modify, sample, bind; cbn -[bval]; rewrite Nr, andb_false_r; cbn; rewrite (Nz i2 Nw2), andb_false_r; reflexivity. }
  assert (S3 : exists w, wid_respond_body c rw (World (AmState m [mem_resp m a] rnd (S pos)) PReadOnly o2 [(i0, o); (i1, o1)] (i2 :: i3 :: l))
          = (Exn EValue, w) /\ ins w = i3 :: l /\ a_mem (st w) = m).
  { unfold wid_respond_body, wid_response, mem_resp. destruct (m a) as [v|].
    - unfold bind, modify, bind; cbn -[create_binary].
      destruct (create_binary (BInt v) (m_width c) false) as [b|e] eqn:C; cbn -[create_binary].
      + rewrite (put_fails c rw Ne b (created_len c W2 v b C)). cbn. eexists. split; [reflexivity|]. auto.
      + unfold create_binary, logicarray_of_int in C. destruct (Nat.eqb_spec (m_width c) 1); [lia|].
        destruct (_ && _); [discriminate|]. injection C as <-. eexists. split; [reflexivity|]. auto.
    - unfold bind, modify, bind; cbn. rewrite (put_fails c rw Ne (xs (m_width c)) (repeat_length _ _)). cbn.
      eexists. split; [reflexivity|]. auto. }
  destruct S3 as (w & S3 & D1 & D2). exists w. split; [|auto].
  etransitivity; [exact (wid_next c rw (3 + fuel) _ _ S1)|].
  etransitivity; [exact (wid_next c rw (2 + fuel) _ _ S2)|]. exact (wid_exn c rw (1 + fuel) _ _ _ S3).
Qed.
