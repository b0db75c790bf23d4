(** AvSurvProof.v -- a burst memory survives all bursts of defined, aligned operands. *)
From Verif Require Import Base Async BitsLemmas CompatModel CompatSpec AvMemModel AvMemSpec AvMemProof AvMemThm AvBurstProof AvUndefSpec AvUndefProof.
Local Open Scope list_scope.

Section Surv.
Context (c : am_cfg).
Hypothesis Hbus : burst_bus c.
Notation world := (world am_state am_in am_out).
Notation M := (M am_state am_in am_out).

Definition Inv (n : nat) (w : world) : Prop :=
  Forall (defined_aligned c) (ins w) /\ Forall (defined_aligned c) (map fst (trace w)) /\
  Forall (fit_resp c) (a_resp (st w)) /\ whole_words c (a_mem (st w)) /\ length (ins w) <= n.
Definition hoare {A} (P : world -> Prop) (m : M A) (Q : A -> world -> Prop) : Prop := forall w, P w ->
  match m w with
  | (Done a, w') => Q a w'
  | (Susp, _) => True
  | (Exn e, _) => e = ERuntime /\ p_wait (m_props c) = true
  | (Fuel, _) => False
  end.
Notation J n := (fun w => Inv n w /\ ph w <> PReadOnly).

Lemma h_bind {A B} P (m : M A) (k : A -> M B) Q R : hoare P m Q -> (forall a, hoare (Q a) (k a) R) -> hoare P (bind m k) R.
Proof using. intros H1 H2 w Hw. specialize (H1 w Hw). unfold bind. destruct (m w) as [[a|e| |] w']; try exact H1. exact (H2 a w' H1). Qed.
Lemma h_ret {A} (a : A) P : hoare P (ret a) (fun _ => P).
Proof using. intros w Hw. exact Hw. Qed.
Lemma h_post {A} P (m : M A) (Q Q' : A -> world -> Prop) : hoare P m Q -> (forall a w, Q a w -> Q' a w) -> hoare P m Q'.
Proof using. intros H HQ w Hw. specialize (H w Hw). destruct (m w) as [[a|e| |] w']; try exact H. apply HQ, H. Qed.
Lemma h_pre {A} (P P' : world -> Prop) (m : M A) Q : hoare P m Q -> (forall w, P' w -> P w) -> hoare P' m Q.
Proof using. intros H HP w Hw. exact (H w (HP w Hw)). Qed.
Lemma h_edge n : hoare (Inv n) edge (fun _ => J n).
Proof using.
  intros [s p o tr [|i l]] (H1 & H2 & H3 & H4 & H5); [exact I|]. cbn [edge ins st ph out trace] in *. inversion H1; subst. split; [|discriminate].
  unfold Inv. cbn [ins trace st]. split; [assumption|]. split; [rewrite map_app; apply Forall_app; split; [exact H2|constructor; [assumption|constructor]]|].
  split; [exact H3|]. split; [exact H4|]. cbn [length] in H5. lia.
Qed.
Lemma h_edge_dec n : hoare (Inv (S n)) edge (fun _ => J n).
Proof using.
  intros [s p o tr [|i l]] (H1 & H2 & H3 & H4 & H5); [exact I|]. cbn [edge ins st ph out trace] in *. inversion H1; subst. split; [|discriminate].
  unfold Inv. cbn [ins trace st]. split; [assumption|]. split; [rewrite map_app; apply Forall_app; split; [exact H2|constructor; [assumption|constructor]]|].
  split; [exact H3|]. split; [exact H4|]. cbn [length] in H5. lia.
Qed.
Lemma h_midstep n : hoare (Inv n) midstep (fun _ => J n).
Proof using. intros [s p o tr [|i l]] H; [exact I|]. cbn [midstep ins]. split; [exact H|discriminate]. Qed.
Lemma h_readonly n : hoare (J n) readonly (fun _ => Inv n).
Proof using. intros [s p o tr [|i l]] [H Hp]; cbn [readonly ph ins st out trace] in *; destruct p; try contradiction (Hp eq_refl); try exact I; exact H. Qed.
Lemma h_drive n f : hoare (J n) (drive f) (fun _ => J n).
Proof using. intros [s p o tr l] [H Hp]. cbn [drive ph] in *. destruct p; try contradiction (Hp eq_refl); (split; [exact H|discriminate]). Qed.
(** in the ReadOnly phase, too, where it raises if there are wait states *)
Lemma h_drive_any n f : p_wait (m_props c) = true -> hoare (Inv n) (drive f) (fun _ => J n).
Proof using. intros Hw [s p o tr l] H. cbn [drive ph] in *. destruct p; try (split; [reflexivity|exact Hw]); (split; [exact H|discriminate]). Qed.
Lemma h_sample n (P : world -> Prop) : (forall w, P w -> Inv n w) -> hoare P sample (fun i w => P w /\ defined_aligned c i).
Proof using.
  intros HP w Hw. destruct (HP w Hw) as (H1 & H2 & _). unfold sample.
  assert (G : match input w with (Done a, w') => P w' /\ defined_aligned c a | (Susp, _) => True | (Exn e, _) => e = ERuntime /\ p_wait (m_props c) = true | (Fuel, _) => False end).
  { unfold input. destruct (ins w) as [|i l]; [exact I|]. inversion H1; subst. split; assumption. }
  destruct (ph w); try exact G. destruct (rev (trace w)) as [|[i o] r] eqn:E; [exact I|]. split; [exact Hw|].
  rewrite Forall_forall in H2. apply H2. change i with (fst (i, o)). apply in_map. apply in_rev. rewrite E. left. reflexivity.
Qed.
Lemma h_toint P b : resolvable b = true -> hoare P (toint b) (fun z w => P w /\ z = num b).
Proof using. intros H w Hw. rewrite toint_cases, (num_of _ H). split; [exact Hw|reflexivity]. Qed.
Lemma h_edges n k : hoare (J n) (edges k) (fun _ => J n).
Proof using. induction k as [|k IH]; [intros w Hw; exact Hw|]. cbn [edges]. apply (h_bind _ _ _ (fun _ => J n)); [|intros []; exact IH]. apply (h_pre (Inv n)); [apply h_edge|]. intros w [H _]. exact H. Qed.
Lemma h_for {X} P (body : X -> M unit) l : (forall x, hoare P (body x) (fun _ => P)) -> hoare P (for_each body l) (fun _ => P).
Proof using. intro H. induction l as [|x l IH]; [intros w Hw; exact Hw|]. cbn [for_each]. apply (h_bind _ _ _ (fun _ => P)); [apply H|]. intros []. exact IH. Qed.
Lemma h_modify n (R : phase -> Prop) f : (forall s, Forall (fit_resp c) (a_resp s) -> whole_words c (a_mem s) -> Forall (fit_resp c) (a_resp (f s)) /\ whole_words c (a_mem (f s))) ->
  hoare (fun w => Inv n w /\ R (ph w)) (modify f) (fun _ w => Inv n w /\ R (ph w)).
Proof using.
  intros Hf [s p o tr l] [(H1 & H2 & H3 & H4 & H5) Hp]. unfold modify, bind, get, put. cbn [st ph out trace ins] in *.
  destruct (Hf s H3 H4) as [F1 F2]. split; [|exact Hp]. unfold Inv. cbn [st trace ins]. auto.
Qed.
Lemma h_draw n (R : phase -> Prop) : hoare (fun w => Inv n w /\ R (ph w)) draw (fun _ w => Inv n w /\ R (ph w)).
Proof using. intros [s p o tr l] [H Hp]. unfold draw, bind, get, put, ret. cbn [st ph out trace ins]. split; [exact H|exact Hp]. Qed.
Lemma h_randint n (R : phase -> Prop) k : hoare (fun w => Inv n w /\ R (ph w)) (randint 0 k) (fun _ w => Inv n w /\ R (ph w)).
Proof using. unfold randint. cbn [Nat.leb]. eapply h_bind; [apply h_draw|]. intro r. apply h_ret. Qed.
Lemma h_coin n (R : phase -> Prop) : hoare (fun w => Inv n w /\ R (ph w)) coin (fun _ w => Inv n w /\ R (ph w)).
Proof using. unfold coin. eapply h_bind; [apply h_draw|]. intro r. apply h_ret. Qed.

(** ** the parts of the memory *)
Lemma h_response n : hoare (J n) (do_response c) (fun _ => J n).
Proof using.
  intros [s p o tr l] [(H1 & H2 & H3 & H4 & H5) Hp]. cbn [st ph out trace ins] in *.
  assert (E : do_response c (World s p o tr l) = (Done tt, World (set_resp (tl (a_resp s)) s) p (answer_out c o (hd RNone (a_resp s))) tr l)).
  { pose proof (do_response_spec c s o tr l H3) as D. revert D. unfold do_response, bind, get, modify, bind, get, put, drive, of_res, ret, raise. cbn [st ph out trace ins].
    destruct p; try contradiction (Hp eq_refl); [intro D; exact D|].
    destruct (a_resp s) as [|[| |v] r]; cbn [tl hd answer_out]; try (destruct (m_rdv c); intros _; reflexivity).
    destruct (create_binary (BInt v) (m_width c) false) as [b|e]; cbn [st ph out trace ins]; [|discriminate].
    destruct (m_rdv c); intro D; inversion D; reflexivity. }
  rewrite E. split; [|exact Hp]. unfold Inv. cbn [st trace ins a_resp a_mem set_resp]. repeat (split; [assumption|]). split; [|split; assumption].
  destruct H3; [constructor|assumption].
Qed.

Lemma dpos : 0 < dsize c.
Proof using Hbus. destruct Hbus as (_ & _ & _ & _ & _ & _ & H). unfold dsize. apply Nat.div_str_pos. lia. Qed.
Lemma d_pow : (2 ^ (8 * Z.of_nat (dsize c)) <= 2 ^ Z.of_nat (m_width c))%Z.
Proof using. apply Z.pow_le_mono_r; [lia|]. unfold dsize. pose proof (Nat.mul_div_le (m_width c) 8). lia. Qed.
Lemma word_at_ok m a k : (forall x v, m x = Some v -> is_byte v) -> (forall j, j < k -> m (a + Z.of_nat j)%Z <> None) ->
  exists v, word_at m a k = Ok v /\ (0 <= v < 2 ^ (8 * Z.of_nat k))%Z.
Proof using.
  intro B. revert a. induction k as [|k IH]; intros a H; [exists 0%Z; split; [reflexivity|lia]|]. cbn [word_at].
  destruct (m a) as [v|] eqn:E; [|exfalso; apply (H 0); [lia|rewrite Z.add_0_r; exact E]].
  destruct (IH (a + 1)%Z) as (r & -> & Hr). { intros j Hj. replace (a + 1 + Z.of_nat j)%Z with (a + Z.of_nat (S j))%Z by lia. apply H. lia. }
  cbn [rbind]. eexists. split; [reflexivity|]. apply B in E. unfold is_byte in E. rewrite Z.shiftl_mul_pow2 by lia.
  replace (8 * Z.of_nat (S k))%Z with (8 * Z.of_nat k + 8)%Z by lia. rewrite Z.pow_add_r by lia. change (2 ^ 8)%Z with 256%Z in *. lia.
Qed.
Lemma same_word a j : (a mod Z.of_nat (dsize c) = 0)%Z -> j < dsize c -> ((a + Z.of_nat j) / Z.of_nat (dsize c) = a / Z.of_nat (dsize c))%Z.
Proof using.
  intros Ha Hj. assert (P : (0 < Z.of_nat (dsize c))%Z) by lia. pose proof (Z.div_mod a (Z.of_nat (dsize c)) ltac:(lia)) as D. rewrite Ha in D.
  symmetry. apply (Z.div_unique_pos _ _ _ (Z.of_nat j)); lia.
Qed.
Lemma fit_word v : (0 <= v < 2 ^ (8 * Z.of_nat (dsize c)))%Z -> fit_resp c (RVal v).
Proof using. intro H. pose proof d_pow. unfold fit_resp. lia. Qed.
Lemma h_beat n addr count : hoare (J n) (burst_beat c addr count) (fun _ => J n).
Proof using Hbus.
  unfold burst_beat. set (a := ((addr + Z.of_nat count) * Z.of_nat (dsize c))%Z).
  apply (h_bind _ _ _ (fun s w => J n w /\ whole_words c (a_mem s))).
  { intros w Hw. cbn [get]. split; [exact Hw|]. destruct Hw as [(_ & _ & _ & H & _) _]. exact H. }
  intro s. apply (h_bind _ _ _ (fun _ => J n)).
  2: { intros []. apply (h_bind _ _ _ (fun _ => J n)); [|intros []; apply h_response].
       apply (h_pre (Inv n)); [apply h_edge|]. intros w [H _]. exact H. }
  assert (Ha : (a mod Z.of_nat (dsize c) = 0)%Z) by (unfold a; apply Z.mod_mul; pose proof dpos; lia).
  assert (G : forall r, fit_resp c r -> hoare (J n) (modify (fun s => set_resp (a_resp s ++ [r]) s)) (fun _ => J n)).
  { intros r Hr. apply (h_modify n (fun p => p <> PReadOnly)). intros s' F W. split; [|exact W]. cbn [a_resp set_resp]. apply Forall_app. split; [exact F|].
    apply Forall_cons; [exact Hr|apply Forall_nil]. }
  intros w [Hw [H4 H4']]. destruct (a_mem s a) as [v0|] eqn:Em.
  - destruct (word_at_ok (a_mem s) a (dsize c) H4) as (v & -> & Hv).
    { intros j Hj Hn. rewrite (H4' (a + Z.of_nat j)%Z a) in Em; [discriminate|apply same_word; assumption|exact Hn]. }
    exact (G (RVal v) (fit_word v Hv) w Hw).
  - exact (G RX I w Hw).
Qed.
Lemma h_burst_read n : hoare (Inv n) (burst_read c) (fun _ => Inv n).
Proof using Hbus.
  unfold burst_read. destruct Hbus as (_ & _ & _ & Hwt & _ & Hbe & _). pose proof dpos as Hd.
  apply (h_bind _ _ _ (fun i w => Inv n w /\ defined_aligned c i)); [apply (h_sample n); auto|]. intro i.
  intros w [Hw (D1 & D2 & D3 & D4)]. revert w Hw.
  apply (h_bind _ _ _ (fun _ => Inv n)); [eapply h_post; [apply h_toint, D1|intros a w [H _]; exact H]|]. intro a.
  apply (h_bind _ _ _ (fun _ => Inv n)). { destruct (Nat.eqb_spec (dsize c) 0); [lia|]. apply h_ret. } intros [].
  apply (h_bind _ _ _ (fun _ => Inv n)); [eapply h_post; [apply h_toint, D4|intros z w [H _]; exact H]|]. intro z.
  rewrite Hbe, Hwt. cbn [need].
  apply (h_bind _ _ _ (fun _ => J n)); [apply h_midstep|]. intros [].
  apply (h_bind _ _ _ (fun _ => J n)); [apply h_drive|]. intros [].
  apply (h_bind _ _ _ (fun _ => J n)); [apply (h_pre (Inv n)); [apply h_edge|intros w [H _]; exact H]|]. intros [].
  apply (h_bind _ _ _ (fun _ => J n)); [apply (h_pre (Inv n)); [apply h_edge|intros w [H _]; exact H]|]. intros [].
  apply (h_bind _ _ _ (fun _ => J n)); [apply h_drive|]. intros [].
  apply (h_bind _ _ _ (fun _ => J n)); [apply h_edges|]. intros [].
  apply (h_post _ _ (fun _ => J n)); [apply (h_for (J n)); intro x; apply h_beat|]. intros u w H. exact (proj1 H).
Qed.
Lemma h_weak {A} n (m : M A) : hoare (Inv n) m (fun _ => J n) -> hoare (Inv n) m (fun _ => Inv n).
Proof using. intro H. apply (h_post _ _ _ _ H). intros a w [G _]. exact G. Qed.
Lemma hm {A} n (m : M A) : hoare (fun w => Inv n w /\ True) m (fun _ w => Inv n w /\ True) -> hoare (Inv n) m (fun _ => Inv n).
Proof using. intro H. apply (h_post _ _ (fun _ w => Inv n w /\ True)); [apply (h_pre _ _ _ _ H); auto|]. intros a w G. exact (proj1 G). Qed.
Lemma h_waitrequest n : hoare (Inv n) (waitrequest c) (fun _ => Inv n).
Proof using Hbus.
  unfold waitrequest. destruct (p_wait (m_props c)) eqn:Ew; [|apply h_ret]. destruct Hbus as (_ & _ & _ & Hwt & _).
  apply (h_bind _ _ _ (fun _ => Inv n)); [apply hm, (h_coin n (fun _ => True))|]. intro h.
  apply (h_bind _ _ _ (fun _ => Inv n)).
  - destruct h; [|apply h_weak, h_midstep].
    apply (h_bind _ _ _ (fun _ => Inv n)); [apply hm, (h_randint n (fun _ => True))|]. intro k. apply h_for. intro x.
    apply (h_bind _ _ _ (fun _ => Inv n)); [apply h_weak, h_drive_any, Ew|]. intros []. apply h_weak, h_edge.
  - intros []. rewrite Hwt. cbn [need]. apply h_weak, h_drive_any, Ew.
Qed.
Lemma h_wait_write n : hoare (Inv n) wait_write (fun _ => Inv n).
Proof using.
  unfold wait_write. apply (h_bind _ _ _ (fun _ => Inv n)). { eapply h_post; [apply (h_sample n); auto|]. intros i w [H _]. exact H. }
  intro i. destruct (nzero i); [apply h_ret|]. apply (h_bind _ _ _ (fun _ => Inv n)); [apply h_weak, h_midstep|]. intros [].
  intros w (H1 & H2 & H3 & H4 & H5). destruct (span nzero (ins w)) as [a b] eqn:E. pose proof (span_app nzero (ins w)) as Ea. rewrite E in Ea. cbn [fst snd] in Ea.
  rewrite <- Ea in H1, H5. apply Forall_app in H1 as [Ha Hb]. rewrite app_length in H5.
  assert (G : b <> [] -> Inv n (World (st w) PMid (out w) (trace w ++ held (out w) a) b)).
  { intros _. unfold Inv. cbn [st ins trace]. split; [exact Hb|]. split; [rewrite map_app, held_fst; apply Forall_app; split; assumption|]. repeat (split; [assumption|]). lia. }
  destruct a, b; try exact I; apply G; discriminate.
Qed.
Lemma store_whole m a d : (a mod Z.of_nat (dsize c) = 0)%Z -> whole_words c m -> whole_words c (store_bytes m a d (dsize c)).
Proof using Hbus.
  intros Ha [B W]. pose proof dpos as P. split.
  - intros x v. rewrite store_bytes_spec. destruct (_ && _)%bool; [|apply B]. intro H. injection H as <-. apply lane_byte.
  - intros x y Hxy. rewrite !store_bytes_spec.
    assert (G : forall z, ((a <=? z) && (z <? a + Z.of_nat (dsize c)))%Z = (z / Z.of_nat (dsize c) =? a / Z.of_nat (dsize c))%Z).
    { intro z. assert (Q : (0 < Z.of_nat (dsize c))%Z) by lia.
      pose proof (Z.div_mod a (Z.of_nat (dsize c)) ltac:(lia)) as D. rewrite Ha in D.
      pose proof (Z.div_mod z (Z.of_nat (dsize c)) ltac:(lia)) as D2. pose proof (Z.mod_pos_bound z _ Q) as D3.
      set (k := Z.of_nat (dsize c)) in *. set (qa := (a / k)%Z) in *. set (qz := (z / k)%Z) in *. set (rz := (z mod k)%Z) in *. clearbody k qa qz rz. clear - Q D D2 D3.
      destruct (Z.eqb_spec qz qa) as [->|Hn]; [apply andb_true_iff; split; [apply Z.leb_le|apply Z.ltb_lt]; lia|].
      apply andb_false_iff. destruct (Z.lt_ge_cases qz qa); [left; apply Z.leb_gt; nia|right; apply Z.ltb_ge; nia]. }
    rewrite !G, Hxy. destruct (_ =? _)%Z; [discriminate|]. apply W, Hxy.
Qed.
Lemma h_write_beat n a k : (a mod Z.of_nat (dsize c) = 0)%Z -> hoare (Inv n) (write_beat c a k) (fun _ => Inv n).
Proof using Hbus.
  intro Ha. unfold write_beat. apply (h_bind _ _ _ (fun _ => Inv n)); [apply h_wait_write|]. intros [].
  apply (h_bind _ _ _ (fun _ => Inv n)); [apply h_weak, h_midstep|]. intros [].
  apply (h_bind _ _ _ (fun i w => Inv n w /\ defined_aligned c i)); [apply (h_sample n); auto|]. intro i.
  intros w [Hw (D1 & D2 & D3 & D4)]. revert w Hw.
  assert (T : hoare (Inv n) (toint (v_wdata i)) (fun _ => Inv n)) by (eapply h_post; [apply h_toint, D3|intros z w [H _]; exact H]).
  apply (h_bind _ _ _ (fun _ => Inv n)).
  { destruct (_ =? 0); [apply h_ret|]. apply (h_bind _ _ _ (fun _ => Inv n)); [exact T|]. intro d. apply hm, (h_modify n (fun _ => True)).
    intros s F W. split; [exact F|]. apply store_whole; [|exact W]. rewrite Nat2Z.inj_mul, Z.mod_add; [exact Ha|]. pose proof dpos. lia. }
  intros []. apply (h_bind _ _ _ (fun _ => Inv n)); [exact T|]. intros _.
  apply (h_bind _ _ _ (fun _ => Inv n)); [apply h_weak, h_edge|]. intros []. apply h_waitrequest.
Qed.
Lemma h_burst_write n : hoare (Inv n) (burst_write c) (fun _ => Inv n).
Proof using Hbus.
  unfold burst_write. destruct Hbus as (_ & _ & _ & Hwt & _ & Hbe & _). pose proof dpos as Hd.
  apply (h_bind _ _ _ (fun _ => Inv n)); [apply h_waitrequest|]. intros [].
  apply (h_bind _ _ _ (fun i w => Inv n w /\ defined_aligned c i)); [apply (h_sample n); auto|]. intro i.
  intros w [Hw (D1 & D2 & D3 & D4)]. revert w Hw.
  apply (h_bind _ _ _ (fun a w => Inv n w /\ a = num (v_addr i))); [apply h_toint, D1|]. intro a.
  intros w [Hw ->]. revert w Hw.
  apply (h_bind _ _ _ (fun _ => Inv n)). { destruct (Nat.eqb_spec (dsize c) 0); [lia|]. apply h_ret. } intros [].
  rewrite Hbe. cbn [need].
  apply (h_bind _ _ _ (fun _ => Inv n)); [eapply h_post; [apply h_toint, D4|intros z w [H _]; exact H]|]. intro z.
  apply (h_bind _ _ _ (fun _ => Inv n)); [apply h_for; intro x; apply h_write_beat, D2|]. intros [].
  destruct (p_wait (m_props c)) eqn:E; [apply h_weak, h_drive_any, E|apply h_ret].
Qed.
Lemma h_body n : hoare (Inv (S n)) (respond_body c) (fun _ => Inv n).
Proof using Hbus.
  unfold respond_body.
  assert (R : burstread c = true) by (destruct Hbus as (R & W & V & _ & Bc & _); unfold burstread; rewrite R, Bc, V; reflexivity).
  assert (W : burstwrite c = true) by (destruct Hbus as (_ & _ & _ & _ & Bc & _); exact Bc).
  apply (h_bind _ _ _ (fun _ => J n)); [apply h_edge_dec|]. intros [].
  apply (h_bind _ _ _ (fun _ => J n)); [apply h_response|]. intros [].
  apply (h_bind _ _ _ (fun _ => Inv n)); [apply h_readonly|]. intros [].
  apply (h_bind _ _ _ (fun _ => Inv n)). { eapply h_post; [apply (h_sample n); auto|]. intros i w [H _]. exact H. } intro i.
  apply (h_bind _ _ _ (fun _ => Inv n)). { destruct (_ && _)%bool; [rewrite R; apply h_burst_read|apply h_ret]. } intros [].
  apply (h_bind _ _ _ (fun _ => Inv n)). { eapply h_post; [apply (h_sample n); auto|]. intros i' w [H _]. exact H. } intro i'.
  destruct (_ && _)%bool; [rewrite W; apply h_burst_write|apply h_ret].
Qed.
Lemma h_respond fuel : forall n, n < fuel -> hoare (Inv n) (respond c fuel) (fun _ _ => False).
Proof using Hbus.
  induction fuel as [|f IH]; intros n Hn; [lia|]. unfold respond. cbn [loop]. destruct n as [|n].
  - intros w (_ & _ & _ & _ & H5). unfold respond_body. unfold bind, edge. destruct (ins w); [exact I|cbn in H5; lia].
  - apply (h_bind _ _ _ (fun r w => Inv n w /\ r = inl tt)).
    + apply (h_bind _ _ _ (fun _ => Inv n)); [apply h_body|]. intros [] w Hw. split; [exact Hw|reflexivity].
    + intros r w [Hw ->]. exact (IH n ltac:(lia) w Hw).
Qed.
End Surv.

Lemma survives_burst c fuel s0 p o ins0 : burst_bus c -> Forall (defined_aligned c) ins0 -> whole_words c (a_mem s0) -> a_resp s0 = [] -> length ins0 < fuel ->
  exists w, respond c fuel (World s0 p o [] ins0) = (Susp, w) \/
            (p_wait (m_props c) = true /\ respond c fuel (World s0 p o [] ins0) = (Exn ERuntime, w)).
Proof.
  intros HB HI HM HR HF. pose proof (h_respond c HB fuel (length ins0) HF (World s0 p o [] ins0)) as H.
  assert (I0 : Inv c (length ins0) (World s0 p o [] ins0)).
  { unfold Inv. cbn [st trace ins map]. rewrite HR. split; [exact HI|]. split; [constructor|]. split; [constructor|]. split; [exact HM|]. lia. }
  specialize (H I0). destruct (respond c fuel _) as [[[]|e| |] w]; [contradiction|destruct H as [-> H]; eauto|eauto|contradiction].
Qed.
