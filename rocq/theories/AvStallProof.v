(** AvStallProof.v -- bounds on the wait states of AvalonMemory. *)
From Verif Require Import Base Async BitsLemmas CompatModel CompatSpec AvMemModel AvMemSpec AvMemProof AvBurstProof AvStallSpec.
Local Open Scope list_scope.

(** ** runs *)
Section Runs.
Context {X : Type} (P : X -> bool).
Definition tailrun (tr : list X) : nat := fold_left (fun n x => if P x then S n else 0) tr 0.
Lemma tailrun_snoc tr x : tailrun (tr ++ [x]) = if P x then S (tailrun tr) else 0.
Proof. unfold tailrun. rewrite fold_left_app. reflexivity. Qed.
Lemma tailrun_app mid : forall tr, Forall (fun x => P x = true) mid -> length mid <= tailrun (tr ++ mid).
Proof.
  induction mid as [|x mid IH] using rev_ind; intros tr F; [cbn; lia|].
  apply Forall_app in F. destruct F as [F Fx]. inversion Fx as [|? ? Hx _]; subst.
  rewrite app_assoc, tailrun_snoc, Hx, app_length. cbn [length]. specialize (IH tr F). lia.
Qed.
Definition okruns (B : nat) (tr : list X) : Prop := forall pre post, tr = pre ++ post -> tailrun pre <= B.
Lemma okruns_nil B : okruns B [].
Proof. intros pre post E. symmetry in E. apply app_eq_nil in E. destruct E as [-> _]. cbn. lia. Qed.
Lemma okruns_snoc B tr x : okruns B tr -> tailrun (tr ++ [x]) <= B -> okruns B (tr ++ [x]).
Proof.
  intros O H pre post E. destruct post as [|y post] using rev_ind.
  - rewrite app_nil_r in E. subst. exact H.
  - rewrite app_assoc in E. apply app_inj_tail in E. destruct E as [E _]. exact (O _ _ E).
Qed.
Lemma okruns_tail B tr : okruns B tr -> tailrun tr <= B.
Proof. intro O. apply (O tr []). symmetry. apply app_nil_r. Qed.
Lemma okruns_at_most B (Q : X -> Prop) tr : (forall x, Q x -> P x = true) -> okruns B tr -> at_most Q B tr.
Proof.
  intros QP O pre mid post E F. etransitivity; [|apply (O (pre ++ mid) post); rewrite E, app_assoc; reflexivity].
  apply tailrun_app. apply Forall_impl with (2 := F). exact QP.
Qed.
End Runs.

Section Stall.
Context (c : am_cfg).
Notation world := (world am_state am_in am_out).
Notation M := (M am_state am_in am_out).
Notation maxw := (p_maxwait (m_props c)).
Variable P : am_in * am_out -> bool.
Variable B : nat.
Hypothesis PW : forall x, P x = true -> w_wait (snd x) = L1.

Notation tail w := (tailrun P (trace w)).
Definition I (w : world) : Prop := okruns P B (trace w) /\ Forall some_beats (ins w).
(** from a world in [Pre], [m] keeps the bound, and ends in [Q] if it ends normally *)
Definition ht {A} (Pre : world -> Prop) (m : M A) (Q : A -> world -> Prop) : Prop :=
  forall w, Pre w -> okruns P B (trace (snd (m w))) /\
    forall a, fst (m w) = Done a -> Q a (snd (m w)).

Lemma ht_bind {A C} (Pre : world -> Prop) (Q : A -> world -> Prop) (R : C -> world -> Prop) (m : M A) (f : A -> M C) :
  ht Pre m Q -> (forall a, ht (Q a) (f a) R) -> ht Pre (bind m f) R.
Proof.
  intros Hm Hf w Hw. destruct (Hm w Hw) as [O D]. unfold bind. destruct (m w) as [[a|e| |] w'] eqn:E; cbn [fst snd] in O, D.
  - apply (Hf a w'). apply D. reflexivity.
  - cbn [fst snd]. split; [exact O|]. discriminate.
  - cbn [fst snd]. split; [exact O|]. discriminate.
  - cbn [fst snd]. split; [exact O|]. discriminate.
Qed.
Lemma ht_conseq {A} (Pre Pre' : world -> Prop) (Q Q' : A -> world -> Prop) (m : M A) :
  ht Pre m Q -> (forall w, Pre' w -> Pre w) -> (forall a w, Q a w -> Q' a w) -> ht Pre' m Q'.
Proof. intros H HP HQ w Hw. destruct (H w (HP w Hw)) as [O D]. split; [exact O|]. intros a E. apply HQ, D, E. Qed.
Lemma ht_pure {A} (phi : Prop) (Pre : world -> Prop) (m : M A) (Q : A -> world -> Prop) :
  (phi -> ht Pre m Q) -> ht (fun w => phi /\ Pre w) m Q.
Proof. intros H w [F Hw]. exact (H F w Hw). Qed.
Lemma ht_ret {A} (Pre : world -> Prop) (a : A) : (forall w, Pre w -> I w) -> ht Pre (ret a) (fun b w => b = a /\ Pre w).
Proof. intros H w Hw. cbn [ret fst snd]. split; [apply (H w Hw)|]. intros b E. injection E as <-. split; [reflexivity|exact Hw]. Qed.
Lemma ht_raise {A} (Pre : world -> Prop) e (Q : A -> world -> Prop) : (forall w, Pre w -> I w) -> ht Pre (raise e) Q.
Proof. intros H w Hw. cbn [raise fst snd]. split; [apply (H w Hw)|]. discriminate. Qed.
Lemma ht_get (Pre : world -> Prop) : (forall w, Pre w -> I w) -> ht Pre get (fun _ w => Pre w).
Proof. intros H w Hw. cbn. split; [apply (H w Hw)|]. intros _ _. exact Hw. Qed.

(** predicates that depend on the bus only *)
Definition busonly (Pre : world -> Prop) : Prop := forall s p o t i s', Pre (World s p o t i) -> Pre (World s' p o t i).
Lemma ht_put (Pre : world -> Prop) s : busonly Pre -> (forall w, Pre w -> I w) -> ht Pre (put s) (fun _ w => Pre w).
Proof. intros HB H [s0 p o t i] Hw. cbn. split; [apply (H _ Hw)|]. intros _ _. exact (HB _ _ _ _ _ _ Hw). Qed.
Lemma ht_modify (Pre : world -> Prop) f : busonly Pre -> (forall w, Pre w -> I w) -> ht Pre (modify f) (fun _ w => Pre w).
Proof. intros HB H. unfold modify. eapply ht_bind; [apply ht_get, H|]. intro s. apply ht_put; assumption. Qed.
Lemma ht_toint (Pre : world -> Prop) b : (forall w, Pre w -> I w) -> ht Pre (toint b) (fun z w => bval b = Some z /\ Pre w).
Proof.
  intros H. unfold toint. destruct (bval b) as [z|]; [|apply ht_raise, H].
  eapply ht_conseq; [apply (ht_ret Pre z H)| |]; [tauto|]. intros a w [-> K]. split; [reflexivity|exact K].
Qed.
Lemma ht_of_res {A} (Pre : world -> Prop) (r : res A) : (forall w, Pre w -> I w) -> ht Pre (of_res r) (fun _ w => Pre w).
Proof.
  intros H. destruct r as [a|e]; cbn [of_res]; [|apply ht_raise, H].
  eapply ht_conseq; [apply (ht_ret Pre a H)| |]; [tauto|]. intros b w [_ K]. exact K.
Qed.
Lemma ht_draw (Pre : world -> Prop) : busonly Pre -> (forall w, Pre w -> I w) -> ht Pre draw (fun _ w => Pre w).
Proof.
  intros HB H. unfold draw. eapply ht_bind; [apply ht_get, H|]. intro s.
  eapply ht_bind; [apply ht_put; assumption|]. intros ?.
  eapply ht_conseq; [apply (ht_ret Pre _ H)| |]; [tauto|]. intros b w [_ K]. exact K.
Qed.
Lemma ht_randint (Pre : world -> Prop) lo hi : busonly Pre -> (forall w, Pre w -> I w) ->
  ht Pre (randint lo hi) (fun n w => n <= hi /\ Pre w).
Proof.
  intros HB H. unfold randint. destruct (Nat.leb_spec lo hi); [|apply ht_raise, H].
  eapply ht_bind; [apply ht_draw; assumption|]. intro r.
  eapply ht_conseq; [apply (ht_ret Pre _ H)| |]; [tauto|]. intros b w [-> K]. split; [|exact K].
  pose proof (Nat.mod_upper_bound r (S (hi - lo)) ltac:(lia)). clear - H0 H1. lia.
Qed.
Lemma ht_coin (Pre : world -> Prop) : busonly Pre -> (forall w, Pre w -> I w) -> ht Pre coin (fun _ w => Pre w).
Proof.
  intros HB H. unfold coin. eapply ht_bind; [apply ht_draw; assumption|]. intro r.
  eapply ht_conseq; [apply (ht_ret Pre _ H)| |]; [tauto|]. intros b w [_ K]. exact K.
Qed.
Lemma ht_if {A} (Pre : world -> Prop) (b : bool) (m m' : M A) Q :
  (b = true -> ht Pre m Q) -> (b = false -> ht Pre m' Q) -> ht Pre (if b then m else m') Q.
Proof. destruct b; auto. Qed.

(** ** driving and waiting *)
(** [S r v]: the run so far is at most [r] long; [v]: waitrequest is low *)
Definition Sr (r : nat) (v : bool) (w : world) : Prop := I w /\ tail w <= r /\ (v = true -> w_wait (out w) = L0).
Lemma Sr_I r v w : Sr r v w -> I w. Proof. intros [H _]. exact H. Qed.
Lemma Sr_bus r v : busonly (Sr r v). Proof. intros s p o t i s' H. exact H. Qed.
Lemma Sr_le r r' v w : r <= r' -> Sr r v w -> Sr r' v w.
Proof. intros L (H & T & V). split; [exact H|]. split; [lia|exact V]. Qed.

Lemma ht_drive_wait (Pre : world -> Prop) l r v : (forall w, Pre w -> Sr r v w) ->
  ht Pre (drive (w_set_wait l)) (fun _ w => Sr r (logic_eqb l L0) w /\ ph w <> PReadOnly).
Proof.
  intros HP w Hw. destruct (HP w Hw) as (H & T & V). destruct w as [s p o t i]. unfold drive. cbn [ph].
  assert (K : Sr r (logic_eqb l L0) (World s p (w_set_wait l o) t i)).
  { split; [exact H|]. split; [exact T|]. cbn [out w_set_wait w_wait]. destruct l; try discriminate; reflexivity. }
  destruct p; cbn [fst snd trace st out ins]; (split; [apply H|]); try discriminate; intros _ _; (split; [exact K|discriminate]).
Qed.
Lemma ht_drive_other (Pre : world -> Prop) f : (forall w, Pre w -> I w) ->
  (forall s p o t i, Pre (World s p o t i) -> Pre (World s p (f o) t i)) ->
  ht Pre (drive f) (fun _ w => Pre w).
Proof.
  intros H HF w Hw. destruct w as [s p o t i]. unfold drive. cbn [ph]. pose proof (H _ Hw) as [O _].
  destruct p; cbn [fst snd trace st out ins]; (split; [exact O|]); try discriminate; intros _ _; apply HF, Hw.
Qed.
Lemma P_low o i : w_wait o = L0 -> P (i, o) = false.
Proof. intro H. destruct (P (i, o)) eqn:E; [|reflexivity]. apply PW in E. cbn [snd] in E. congruence. Qed.
(** an edge: the run grows at most by one, and ends if waitrequest is low or the
    cycle is not counted *)
Lemma ht_edge_high (Pre : world -> Prop) r v : S r <= B -> (forall w, Pre w -> Sr r v w) ->
  ht Pre edge (fun _ w => Sr (S r) v w /\ ph w = PActive).
Proof.
  intros L HP w Hw. destruct (HP w Hw) as ((O & N) & T & V). destruct w as [s p o t i]. cbn [trace ins out] in *.
  unfold edge. cbn [ins st out trace]. destruct i as [|x i]; cbn [fst snd trace]; [split; [exact O|discriminate]|].
  assert (T' : tailrun P (t ++ [(x, o)]) <= S r) by (rewrite tailrun_snoc; destruct (P (x, o)); lia).
  assert (O' : okruns P B (t ++ [(x, o)])) by (apply okruns_snoc; [exact O|lia]).
  split; [exact O'|]. intros _ _. inversion N; subst. split; [|reflexivity].
  split; [split; assumption|]. split; [exact T'|exact V].
Qed.
Lemma ht_edge_low (Pre : world -> Prop) r : (forall w, Pre w -> Sr r true w) ->
  ht Pre edge (fun _ w => Sr 0 true w /\ ph w = PActive).
Proof.
  intros HP w Hw. destruct (HP w Hw) as ((O & N) & T & V). destruct w as [s p o t i]. cbn [trace ins out] in *.
  unfold edge. cbn [ins st out trace]. destruct i as [|x i]; cbn [fst snd trace]; [split; [exact O|discriminate]|].
  assert (T' : tailrun P (t ++ [(x, o)]) <= 0) by (rewrite tailrun_snoc, (P_low _ x (V eq_refl)); lia).
  assert (O' : okruns P B (t ++ [(x, o)])) by (apply okruns_snoc; [exact O|lia]).
  split; [exact O'|]. intros _ _. inversion N; subst. split; [|reflexivity].
  split; [split; assumption|]. split; [exact T'|exact V].
Qed.
Lemma ht_midstep (Pre : world -> Prop) : (forall w, Pre w -> I w) ->
  (forall s p p' o t i, Pre (World s p o t i) -> Pre (World s p' o t i)) ->
  ht Pre midstep (fun _ w => Pre w /\ ph w = PMid).
Proof.
  intros H HF w Hw. destruct w as [s p o t i]. unfold midstep. cbn [ins]. pose proof (H _ Hw) as [O _].
  destruct i; cbn [fst snd trace st out]; (split; [exact O|]); try discriminate. intros _ _. split; [|reflexivity].
  eapply HF, Hw.
Qed.
Lemma ht_sample (Pre : world -> Prop) : (forall w, Pre w -> I w) ->
  ht Pre sample (fun i w => Pre w /\ (ph w <> PActive -> exists l, ins w = i :: l)).
Proof.
  intros H w Hw. pose proof (H _ Hw) as [O _]. unfold sample.
  assert (K : ph w <> PActive -> okruns P B (trace (snd (input w))) /\
    forall a, fst (input w) = Done a -> Pre (snd (input w)) /\ (ph (snd (input w)) <> PActive -> exists l, ins (snd (input w)) = a :: l)).
  { intros ?. unfold input. destruct (ins w) as [|i l] eqn:E; cbn [fst snd]; (split; [exact O|]); [discriminate|].
    intros a Ea. injection Ea as <-. split; [exact Hw|]. intros ?. rewrite E. eauto. }
  destruct (ph w) eqn:Ep.
  - destruct (rev (trace w)) as [|[i o] r]; cbn [fst snd]; (split; [exact O|]); [discriminate|].
    intros a Ea. split; [exact Hw|]. intro N. congruence.
  - apply K. discriminate.
  - apply K. discriminate.
Qed.

Definition low_or (v : bool) (w : world) : Prop := v = true -> w_wait (out w) = L0.

(** ** _waitrequest *)
Lemma ht_wait_cycles l : maxw <= B -> forall r, r + length l <= maxw ->
  ht (Sr r false) (for_each (fun _ : nat => drive (w_set_wait L1) ;; edge) l) (fun _ w => Sr maxw false w).
Proof.
  intro LB. induction l as [|x l IH]; intros r L; cbn [for_each].
  - eapply ht_conseq; [apply (ht_ret (Sr r false) tt (Sr_I r false))|tauto|]. intros a w [_ K]. eapply Sr_le; [|exact K].
    cbn [length] in L. lia.
  - cbn [length] in L. eapply ht_bind.
    + eapply ht_bind; [apply (ht_drive_wait _ L1 r false); tauto|]. intros ?.
      apply (ht_edge_high _ r false); [lia|]. intros w [K _]. exact K.
    + intros ?. eapply ht_conseq; [apply (IH (S r)); lia| |]; [|tauto]. intros w [K _]. exact K.
Qed.
(** after a cycle with waitrequest low *)
Lemma ht_waitrequest : maxw <= B ->
  ht (Sr 0 true) (waitrequest c) (fun _ w => Sr maxw true w).
Proof.
  intro LB. unfold waitrequest. apply ht_if; intro Ep.
  - eapply ht_bind; [apply ht_coin; [apply Sr_bus|apply Sr_I]|]. intro h.
    eapply (ht_bind _ (fun _ w => Sr maxw false w)).
    + destruct h.
      * eapply ht_bind; [apply ht_randint; [apply Sr_bus|apply Sr_I]|]. intro n. cbn beta.
        apply ht_pure; intro L. eapply ht_conseq; [apply (ht_wait_cycles (seq 0 n) LB 0)| |].
        { rewrite seq_length. exact L. }
        { intros w (H & T & _). split; [exact H|]. split; [exact T|discriminate]. }
        { tauto. }
      * eapply ht_conseq; [apply (ht_midstep (Sr 0 true))| |].
        { apply Sr_I. } { intros s p p' o t i H. exact H. } { tauto. }
        { intros a w [(H & T & _) _]. split; [exact H|]. split; [lia|discriminate]. }
    + intros ?. unfold need. apply ht_if; intros ?; [|apply ht_raise, Sr_I].
      eapply ht_conseq; [apply (ht_drive_wait (Sr maxw false) L0 maxw false); tauto|tauto|]. intros ? w [K _]. exact K.
  - eapply ht_conseq; [apply (ht_ret (Sr 0 true) tt (Sr_I 0 true))|tauto|]. intros a w [_ K]. eapply Sr_le; [|exact K]. lia.
Qed.
(** in the ReadOnly phase: it goes on only if there is no wait *)
Definition head_is (i : am_in) (w : world) : Prop := exists l, ins w = i :: l.
Lemma ht_waitrequest_ro r i :
  ht (fun w => Sr r (negb (p_wait (m_props c))) w /\ ph w = PReadOnly /\ head_is i w) (waitrequest c)
     (fun _ w => Sr r true w /\ ph w <> PActive /\ head_is i w).
Proof.
  set (Pre := fun w : world => Sr r (negb (p_wait (m_props c))) w /\ ph w = PReadOnly /\ head_is i w).
  assert (PI : forall w, Pre w -> I w) by (intros w [K _]; exact (Sr_I _ _ _ K)).
  assert (PB : busonly Pre) by (intros s p o t j s' H; exact H).
  unfold waitrequest. apply ht_if; intro Ep.
  - eapply ht_bind; [apply ht_coin; assumption|]. intro h.
    destruct h.
    + eapply (ht_bind _ (fun _ => Pre)).
      * eapply ht_bind; [apply ht_randint; assumption|]. intro n. cbn beta.
        destruct n as [|n]; cbn [seq for_each].
        { apply ht_pure; intros _. eapply ht_conseq; [apply (ht_ret Pre tt PI)|tauto|]. intros ? w [_ K]. exact K. }
        { intros w [_ K]. assert (Hp : ph w = PReadOnly) by apply K. unfold bind, drive. rewrite Hp. cbn [fst snd].
          split; [apply (PI w K)|discriminate]. }
      * intros ?. unfold need. apply ht_if; intros ?; [|apply ht_raise, PI].
        intros w K. assert (Hp : ph w = PReadOnly) by apply K. unfold drive. rewrite Hp. cbn [fst snd].
        split; [apply (PI w K)|discriminate].
    + eapply (ht_bind _ (fun _ w => (Sr r false w /\ head_is i w) /\ ph w = PMid)).
      * eapply ht_conseq; [apply (ht_midstep (fun w => Sr r false w /\ head_is i w))| |].
        { intros w [K _]. exact (Sr_I _ _ _ K). } { intros s p p' o t j H. exact H. }
        { intros w ((H & T & _) & _ & Hd). split; [|exact Hd]. split; [exact H|]. split; [exact T|discriminate]. }
        { intros ? w K. exact K. }
      * intros ?. unfold need. apply ht_if; intros ?; [|apply ht_raise; intros w [[K _] _]; exact (Sr_I _ _ _ K)].
        intros w [[K Hd] Hp]. destruct w as [s p o t j]. cbn [ph] in Hp. subst p. cbn [drive ph st out trace ins fst snd].
        destruct K as (Hi & T & _). split; [apply Hi|]. intros ? _. split; [|split; [discriminate|exact Hd]].
        split; [exact Hi|]. split; [exact T|]. intros ?. reflexivity.
  - eapply ht_conseq; [apply (ht_ret Pre tt PI)|tauto|]. intros a w [_ (K & Hp & Hd)]. rewrite Ep in K.
    split; [exact K|]. split; [congruence|exact Hd].
Qed.

(** ** the beats of a write burst *)
Lemma span_parts {A} (f : A -> bool) l : forall a b, span f l = (a, b) -> l = a ++ b.
Proof.
  induction l as [|x l IH]; intros a b E; cbn [span] in E; [injection E as <- <-; reflexivity|].
  destruct (f x); [injection E as <- <-; reflexivity|]. destruct (span f l) as [a' b'] eqn:Es. injection E as <- <-.
  cbn [app]. f_equal. apply IH. reflexivity.
Qed.
Lemma held_low o l : w_wait o = L0 -> forall t, okruns P B t ->
  okruns P B (t ++ held o l) /\ tailrun P (t ++ held o l) <= tailrun P t.
Proof.
  intro V. induction l as [|x l IH] using rev_ind; intros t O; [cbn [held map]; rewrite app_nil_r; split; [exact O|lia]|].
  destruct (IH t O) as [O' T']. unfold held in *. rewrite map_app, app_assoc. cbn [map].
  assert (E : tailrun P ((t ++ map (fun i => (i, o)) l) ++ [(x, o)]) = 0) by (rewrite tailrun_snoc, (P_low o x V); reflexivity).
  split; [apply okruns_snoc; [exact O'|lia]|lia].
Qed.
Lemma ht_wait_write r : ht (Sr r true) wait_write (fun _ w => Sr r true w).
Proof.
  unfold wait_write. eapply ht_bind; [apply ht_sample, Sr_I|]. intro i. apply ht_if; intros ?.
  - eapply ht_conseq; [apply (ht_ret (Sr r true) tt (Sr_I r true))| |]; [tauto|]. intros a w [_ K]. exact K.
  - eapply ht_bind; [eapply ht_conseq; [apply (ht_midstep (Sr r true))| |]|].
    { apply Sr_I. } { intros s p p' o t j Hx. exact Hx. } { intros w [K _]. exact K. } { intros ? w K. exact K. }
    intros u w [((O & N) & T & V) _]. destruct w as [s p o t l]. cbn [ins st out trace] in *.
    destruct (span nzero l) as [g b] eqn:Es. apply span_parts in Es.
    destruct (held_low o g (V eq_refl) t O) as [O' T'].
    destruct b as [|x b].
    + destruct g as [|y g]; cbn [fst snd trace]; (split; [exact O'|discriminate]).
    + assert (K : Sr r true (World s PMid o (t ++ held o g) (x :: b))).
      { split; [split; [exact O'|]|split; [cbn [trace]; lia|exact V]]. cbn [ins]. rewrite Es in N. apply Forall_app in N. apply N. }
      destruct g as [|y g]; cbn [fst snd trace]; (split; [exact O'|]); intros ? _; exact K.
Qed.
Lemma ht_write_beat r a k : maxw <= B -> ht (Sr r true) (write_beat c a k) (fun _ w => Sr maxw true w).
Proof.
  intro LB. unfold write_beat.
  eapply ht_bind; [apply ht_wait_write|]. intros ?.
  eapply ht_bind; [apply (ht_midstep (Sr r true)); [apply Sr_I|intros s p p' o t j Hx; exact Hx]|]. intros ?.
  eapply (ht_bind _ (fun _ => Sr r true)).
  { eapply ht_conseq; [apply (ht_sample (Sr r true)), Sr_I| |]; [intros w [K _]; exact K|intros i w [K _]; exact K]. }
  intro i.
  eapply (ht_bind _ (fun _ => Sr r true)).
  { apply ht_if; intros ?.
    - eapply ht_conseq; [apply (ht_ret (Sr r true) tt (Sr_I r true))|tauto|]. intros ? w [_ K]. exact K.
    - eapply (ht_bind _ (fun _ => Sr r true)).
      { eapply ht_conseq; [apply (ht_toint (Sr r true)), Sr_I|tauto|]. intros ? w [_ K]. exact K. }
      intros d. apply ht_modify; [apply Sr_bus|apply Sr_I]. }
  intros ?. eapply (ht_bind _ (fun _ => Sr r true)).
  { eapply ht_conseq; [apply (ht_toint (Sr r true)), Sr_I|tauto|]. intros ? w [_ K]. exact K. }
  intros ?. eapply (ht_bind _ (fun _ => Sr 0 true)).
  { eapply ht_conseq; [apply (ht_edge_low (Sr r true) r)|tauto|]; [tauto|]. intros ? w [K _]. exact K. }
  intros ?. apply ht_waitrequest, LB.
Qed.
Lemma ht_beats l a : maxw <= B -> forall r, (l = [] -> r <= maxw) ->
  ht (Sr r true) (for_each (write_beat c a) l) (fun _ w => Sr maxw true w).
Proof.
  intro LB. induction l as [|k l IH]; intros r L; cbn [for_each].
  - eapply ht_conseq; [apply (ht_ret (Sr r true) tt (Sr_I r true))|tauto|]. intros ? w [_ K]. eapply Sr_le; [|exact K].
    apply L. reflexivity.
  - eapply ht_bind; [apply ht_write_beat, LB|]. intros ?. apply IH. intros _. lia.
Qed.

(** ** write bursts *)
(** where an iteration of the loop begins: waitrequest is low, or the cycle is not
    counted, or the run is short *)
Definition never : bool := negb (m_bc c && p_wait (m_props c)).
Definition H0 (w : world) : Prop :=
  I w /\ low_or never w /\
  (w_wait (out w) = L0 \/ (exists i l, ins w = i :: l /\ forall o, P (i, o) = false) \/ tail w <= maxw).
Lemma write_body (Pre : world -> Prop) r (F : am_in -> Prop) : maxw <= B ->
  m_bc c = true ->
  (forall w, Pre w -> Sr r true w) ->
  (forall w i, Pre w -> (ph w <> PActive -> exists l, ins w = i :: l) -> F i) ->
  (forall i, F i -> bval (v_bcount i) <> Some 0%Z \/ r <= maxw) ->
  ht Pre (i <- sample ;; a <- toint (v_addr i) ;; (if dsize c =? 0 then raise EValue else ret tt) ;;
     need (m_be c) (n <- toint (v_bcount i) ;; for_each (write_beat c a) (seq 0 (Z.to_nat n)) ;;
       (if p_wait (m_props c) then drive (w_set_wait L1) else ret tt)))
     (fun _ w => H0 w).
Proof.
  intros LB Hb HP HF HN.
  assert (PI : forall w, Pre w -> I w) by (intros w K; apply HP in K; exact (Sr_I _ _ _ K)).
  eapply (ht_bind _ (fun i w => F i /\ Sr r true w)).
  { eapply ht_conseq; [apply (ht_sample Pre PI)|tauto|]. intros i w [K E]. split; [apply (HF w i K E)|apply HP, K]. }
  intro i. apply ht_pure. intro Fi. specialize (HN i Fi).
  eapply (ht_bind _ (fun _ => Sr r true)).
  { eapply ht_conseq; [apply (ht_toint (Sr r true)), Sr_I|tauto|]. intros ? w [_ K]. exact K. }
  intro a. eapply (ht_bind _ (fun _ => Sr r true)).
  { apply ht_if; intros ?; [apply ht_raise, Sr_I|].
    eapply ht_conseq; [apply (ht_ret (Sr r true) tt (Sr_I r true))|tauto|]. intros ? w [_ K]. exact K. }
  intros ?. unfold need. apply ht_if; intros ?; [|apply ht_raise, Sr_I].
  eapply ht_bind; [apply (ht_toint (Sr r true)), Sr_I|]. intro n. apply ht_pure. intro En.
  eapply ht_bind; [apply ht_beats; [exact LB|]|].
  { intro E. destruct HN as [HN|HN]; [|exact HN]. exfalso. rewrite En in HN.
    pose proof (bval_bound _ _ En) as Bn. apply f_equal with (f := @length nat) in E. rewrite seq_length in E. cbn [length] in E.
    apply HN. f_equal. clear - Bn E. lia. }
  intros ?. apply ht_if; intro Ep.
  - eapply ht_conseq; [apply (ht_drive_wait (Sr maxw true) L1 maxw true); tauto|tauto|].
    intros ? w [(K & T & _) _]. split; [exact K|]. split; [|right; right; exact T].
    unfold low_or, never. rewrite Hb, Ep. discriminate.
  - eapply ht_conseq; [apply (ht_ret (Sr maxw true) tt (Sr_I maxw true))|tauto|].
    intros ? w [_ (K & T & V)]. split; [exact K|]. split; [intros _; apply V; reflexivity|right; right; exact T].
Qed.
(** entered in the ReadOnly phase of the cycle that requests it *)
Lemma ht_burst_write_ro i : maxw <= B -> m_bc c = true -> v_write i = L1 -> some_beats i ->
  ht (fun w => Sr B (negb (p_wait (m_props c))) w /\ ph w = PReadOnly /\ head_is i w) (burst_write c) (fun _ w => H0 w).
Proof.
  intros LB Hb Hw Hs. unfold burst_write. eapply ht_bind; [apply ht_waitrequest_ro|]. intros ?.
  eapply (write_body _ B (fun j => j = i) LB Hb).
  - tauto.
  - intros w j (_ & Hp & l & Hd) E. destruct (E Hp) as (l' & E'). congruence.
  - intros j ->. left. apply Hs. right. exact Hw.
Qed.
(** entered right after a read burst *)
Lemma ht_burst_write_act : maxw <= B -> m_bc c = true ->
  ht (Sr 0 true) (burst_write c) (fun _ w => H0 w).
Proof.
  intros LB Hb. unfold burst_write. eapply ht_bind; [apply ht_waitrequest, LB|]. intros ?.
  eapply (write_body _ maxw (fun _ => True) LB Hb); [tauto|tauto|]. intros ? ?. right. lia.
Qed.

(** ** read bursts *)
Lemma ht_do_response (Pre : world -> Prop) : (forall w, Pre w -> I w) -> busonly Pre ->
  (forall s p o o' t i, w_wait o' = w_wait o -> Pre (World s p o t i) -> Pre (World s p o' t i)) ->
  ht Pre (do_response c) (fun _ w => Pre w).
Proof.
  intros PI PB PO. unfold do_response.
  assert (Dv : forall l, ht Pre (drive (w_set_valid l)) (fun _ w => Pre w)).
  { intro l. apply ht_drive_other; [exact PI|]. intros s p o t i. apply PO. reflexivity. }
  assert (Dd : forall l, ht Pre (drive (w_set_data l)) (fun _ w => Pre w)).
  { intro l. apply ht_drive_other; [exact PI|]. intros s p o t i. apply PO. reflexivity. }
  assert (Di : forall l, ht Pre (if m_rdv c then drive (w_set_valid l) else ret tt) (fun _ w => Pre w)).
  { intro l. apply ht_if; intros ?; [apply Dv|]. eapply ht_conseq; [apply (ht_ret Pre tt PI)|tauto|]. intros ? w [_ K]. exact K. }
  eapply ht_bind; [apply ht_get, PI|]. intro s.
  destruct (a_resp s) as [|[| |v] r].
  - eapply ht_bind; [apply ht_modify; assumption|]. intros ?. apply Di.
  - eapply ht_bind; [apply ht_modify; assumption|]. intros ?. apply Di.
  - eapply ht_bind; [apply ht_modify; assumption|]. intros ?. eapply ht_bind; [apply Dd|]. intros ?. apply Di.
  - eapply ht_bind; [apply ht_modify; assumption|]. intros ?. eapply ht_bind; [apply ht_of_res, PI|]. intro b.
    eapply ht_bind; [apply Dd|]. intros ?. apply Di.
Qed.
Lemma Sr_out r v s p o o' t i : w_wait o' = w_wait o -> Sr r v (World s p o t i) -> Sr r v (World s p o' t i).
Proof. intros E (H & T & V). split; [exact H|]. split; [exact T|]. cbn [out] in *. rewrite E. exact V. Qed.
Lemma ht_burst_beat r a k : ht (Sr r true) (burst_beat c a k) (fun _ w => Sr 0 true w).
Proof.
  unfold burst_beat. eapply ht_bind; [apply ht_get, Sr_I|]. intro s. cbv zeta.
  eapply (ht_bind _ (fun _ => Sr r true)).
  { destruct (a_mem s _).
    - eapply ht_bind; [apply ht_of_res, Sr_I|]. intros ?. apply ht_modify; [apply Sr_bus|apply Sr_I].
    - apply ht_modify; [apply Sr_bus|apply Sr_I]. }
  intros ?. eapply (ht_bind _ (fun _ => Sr 0 true)).
  { eapply ht_conseq; [apply (ht_edge_low (Sr r true) r)|tauto|]; [tauto|]. intros ? w [K _]. exact K. }
  intros ?. apply ht_do_response; [apply Sr_I|apply Sr_bus|intros; eapply Sr_out; eassumption].
Qed.
Lemma ht_read_beats l a : l <> [] -> forall r, ht (Sr r true) (for_each (burst_beat c a) l) (fun _ w => Sr 0 true w).
Proof.
  induction l as [|k l IH]; intros N r; [congruence|]. cbn [for_each].
  eapply ht_bind; [apply ht_burst_beat|]. intros ?. destruct l as [|k' l].
  - cbn [for_each]. eapply ht_conseq; [apply (ht_ret (Sr 0 true) tt (Sr_I 0 true))|tauto|]. intros ? w [_ K]. exact K.
  - apply IH. discriminate.
Qed.
Lemma ht_edges_low n : forall r, ht (Sr r true) (edges n) (fun _ w => Sr r true w).
Proof.
  induction n as [|n IH]; intro r; cbn [edges].
  - eapply ht_conseq; [apply (ht_ret (Sr r true) tt (Sr_I r true))|tauto|]. intros ? w [_ K]. exact K.
  - eapply ht_bind; [apply (ht_edge_low (Sr r true) r); tauto|]. intros ?.
    eapply ht_conseq; [apply (IH r)| |]; [|tauto]. intros w [K _]. eapply Sr_le; [|exact K]. lia.
Qed.

(** the bound leaves room for the two wait states of a read, or cycles with a read
    request are not counted *)
Hypothesis HB : maxw + 3 <= B \/ maxw + 1 <= B /\ forall x, P x = true -> v_read (fst x) <> L1.
Lemma HB1 : maxw + 1 <= B. Proof. destruct HB as [H|[H _]]; lia. Qed.

Lemma edge_read (v : bool) i : v_read i = L1 ->
  ht (fun w => Sr (maxw + 1) v w /\ head_is i w) edge (fun _ w => Sr (B - 1) v w).
Proof.
  intros R. destruct HB as [H|[H N]].
  - eapply ht_conseq; [apply (ht_edge_high (Sr (maxw + 1) v) (maxw + 1) v); [lia|tauto]| |].
    + intros w [K _]. exact K.
    + intros ? w [K _]. eapply Sr_le; [|exact K]. lia.
  - intros w [((O & Nz) & T & V) [l Hd]]. destruct w as [s p o t j]. cbn [trace ins out] in *. subst j.
    cbn [edge ins st out trace fst snd].
    assert (Pf : P (i, o) = false).
    { destruct (P (i, o)) eqn:E; [|reflexivity]. apply N in E. cbn [fst] in E. congruence. }
    assert (T' : tailrun P (t ++ [(i, o)]) <= 0) by (rewrite tailrun_snoc, Pf; lia).
    assert (O' : okruns P B (t ++ [(i, o)])) by (apply okruns_snoc; [exact O|lia]).
    split; [exact O'|]. intros ? _. inversion Nz; subst. split; [split; assumption|]. split; [cbn [trace]; lia|exact V].
Qed.
Lemma ht_burst_read i v : v_read i = L1 -> some_beats i ->
  ht (fun w => Sr (maxw + 1) v w /\ ph w = PReadOnly /\ head_is i w) (burst_read c) (fun _ w => Sr 0 true w).
Proof.
  intros R Hs. pose proof HB1 as B1. unfold burst_read.
  set (Pre := fun w : world => Sr (maxw + 1) v w /\ head_is i w).
  assert (PI : forall w, Pre w -> I w) by (intros w [K _]; exact (Sr_I _ _ _ K)).
  eapply (ht_bind _ (fun j w => j = i /\ Pre w)).
  { eapply ht_conseq; [apply (ht_sample (fun w => Sr (maxw + 1) v w /\ ph w = PReadOnly /\ head_is i w))|tauto|].
    - intros w [K _]. exact (Sr_I _ _ _ K).
    - intros j w [(K & Hp & Hd) E]. split; [|split; assumption]. destruct E as [l E]; [congruence|]. destruct Hd as [l' E']. congruence. }
  intro j. apply ht_pure. intros ->.
  eapply (ht_bind _ (fun _ => Pre)).
  { eapply ht_conseq; [apply (ht_toint Pre _ PI)|tauto|]. intros ? w [_ K]. exact K. }
  intro a. eapply (ht_bind _ (fun _ => Pre)).
  { apply ht_if; intros ?; [apply ht_raise, PI|].
    eapply ht_conseq; [apply (ht_ret Pre tt PI)|tauto|]. intros ? w [_ K]. exact K. }
  intros ?. cbv zeta. eapply ht_bind; [apply (ht_toint Pre _ PI)|]. intro n. apply ht_pure. intro En.
  unfold need. apply ht_if; intros ?; [|apply ht_raise, PI]. apply ht_if; intros ?; [|apply ht_raise, PI].
  eapply (ht_bind _ (fun _ => Pre)).
  { eapply ht_conseq; [apply (ht_midstep Pre PI)|tauto|]; [intros s p p' o t j H'; exact H'|]. intros ? w [K _]. exact K. }
  intros ?. eapply (ht_bind _ (fun _ w => Sr (maxw + 1) false w /\ head_is i w)).
  { intros w [K Hd]. destruct (ht_drive_wait (Sr (maxw + 1) v) L1 (maxw + 1) v (fun w K => K) w K) as [O D].
    split; [exact O|]. intros b E. split; [apply (D b E)|]. destruct w as [s p o t l]. destruct p; exact Hd || discriminate E. }
  intros ?. eapply ht_bind; [apply (edge_read false i R)|]. intros ?.
  eapply (ht_bind _ (fun _ => Sr B false)).
  { eapply ht_conseq; [apply (ht_edge_high (Sr (B - 1) false) (B - 1) false)|tauto|]; [lia|tauto|].
    intros ? w [K _]. eapply Sr_le; [|exact K]. lia. }
  intros ?. eapply (ht_bind _ (fun _ => Sr B true)).
  { eapply ht_conseq; [apply (ht_drive_wait (Sr B false) L0 B false)|tauto|]; [tauto|]. intros ? w [K _]. exact K. }
  intros ?. eapply ht_bind; [apply ht_edges_low|]. intros ?. apply ht_read_beats.
  intro E. apply f_equal with (f := @length nat) in E. rewrite seq_length in E. cbn [length] in E.
  pose proof (bval_bound _ _ En) as Bn. apply (Hs (or_introl R)). rewrite En. f_equal. clear - Bn E. lia.
Qed.

(** ** the loop *)
Hypothesis Wr : m_writeable c = true.
Hypothesis PWr : forall x, P x = true -> v_write (fst x) = L1.
Lemma P_nowrite i o : v_write i <> L1 -> P (i, o) = false.
Proof. intro N. destruct (P (i, o)) eqn:E; [|reflexivity]. apply PWr in E. contradiction. Qed.
(** the edge an iteration begins with *)
Lemma ht_first_edge : ht H0 edge (fun _ w => Sr (maxw + 1) never w).
Proof.
  pose proof HB1 as B1. intros w ((O & Nz) & V & D). destruct w as [s p o t l]. unfold low_or in V. cbn [trace ins out] in *.
  destruct l as [|i l]; cbn [edge ins st out trace fst snd]; [split; [exact O|discriminate]|].
  assert (T' : tailrun P (t ++ [(i, o)]) <= maxw + 1).
  { rewrite tailrun_snoc. destruct D as [D|[(i' & l' & E & D)|D]].
    - rewrite (P_low o i D). lia.
    - injection E as <- <-. rewrite D. lia.
    - destruct (P (i, o)); lia. }
  assert (O' : okruns P B (t ++ [(i, o)])) by (apply okruns_snoc; [exact O|lia]).
  split; [exact O'|]. intros ? _. inversion Nz; subst. split; [split; assumption|]. split; [exact T'|exact V].
Qed.
Lemma is_one_true x : is_one x = true -> x = L1.
Proof. destruct x; intro E; try discriminate; reflexivity. Qed.
Lemma ht_simple_read (Pre : world -> Prop) : (forall w, Pre w -> I w) -> busonly Pre -> ht Pre (simple_read c) (fun _ w => Pre w).
Proof.
  intros PI PB. unfold simple_read.
  eapply (ht_bind _ (fun _ => Pre)).
  { eapply ht_conseq; [apply (ht_randint Pre _ _ PB PI)|tauto|]. intros ? w [_ K]. exact K. }
  intros ?. eapply ht_bind; [apply ht_modify; assumption|]. intros ?.
  eapply (ht_bind _ (fun _ => Pre)).
  { eapply ht_conseq; [apply (ht_sample Pre PI)|tauto|]. intros ? w [K _]. exact K. }
  intro i. eapply (ht_bind _ (fun _ => Pre)).
  { eapply ht_conseq; [apply (ht_toint Pre _ PI)|tauto|]. intros ? w [_ K]. exact K. }
  intros ?. apply ht_modify; assumption.
Qed.
Lemma ht_simple_write (Pre : world -> Prop) : (forall w, Pre w -> I w) -> busonly Pre -> ht Pre (simple_write c) (fun _ w => Pre w).
Proof.
  intros PI PB. unfold simple_write.
  eapply (ht_bind _ (fun _ => Pre)).
  { eapply ht_conseq; [apply (ht_sample Pre PI)|tauto|]. intros ? w [K _]. exact K. }
  intro i. eapply (ht_bind _ (fun _ => Pre)).
  { eapply ht_conseq; [apply (ht_toint Pre _ PI)|tauto|]. intros ? w [_ K]. exact K. }
  intros ?. eapply (ht_bind _ (fun _ => Pre)).
  { eapply ht_conseq; [apply (ht_toint Pre _ PI)|tauto|]. intros ? w [_ K]. exact K. }
  intros ?. apply ht_if; intros ?; [|apply ht_modify; assumption].
  eapply (ht_bind _ (fun _ => Pre)).
  { eapply ht_conseq; [apply (ht_toint Pre _ PI)|tauto|]. intros ? w [_ K]. exact K. }
  intros ?. apply ht_modify; assumption.
Qed.
Lemma ht_or {A} (P1 P2 : world -> Prop) (m : M A) Q : ht P1 m Q -> ht P2 m Q -> ht (fun w => P1 w \/ P2 w) m Q.
Proof. intros K1 K2 w [H|H]; [apply K1|apply K2]; exact H. Qed.

Lemma ht_body : ht H0 (respond_body c) (fun _ w => H0 w).
Proof.
  pose proof HB1 as B1. unfold respond_body.
  eapply ht_bind; [apply ht_first_edge|]. intros ?.
  eapply ht_bind; [apply ht_do_response; [apply Sr_I|apply Sr_bus|intros; eapply Sr_out; eassumption]|]. intros ?.
  (* readonly *)
  eapply (ht_bind _ (fun _ w => Sr (maxw + 1) never w /\ ph w = PReadOnly)).
  { intros w K. destruct w as [s p o t l]. pose proof (Sr_I _ _ _ K) as [O _]. cbn [trace] in O. unfold readonly. cbn [ph ins st out trace].
    destruct p, l; cbn [fst snd trace]; (split; [exact O|]); try discriminate; intros ? _; (split; [exact K|reflexivity]). }
  intros ?.
  eapply (ht_bind _ (fun i w => some_beats i /\ (Sr (maxw + 1) never w /\ ph w = PReadOnly /\ head_is i w))).
  { eapply ht_conseq; [apply (ht_sample (fun w => Sr (maxw + 1) never w /\ ph w = PReadOnly))|intros ? K; exact K|].
    - intros w [K _]. exact (Sr_I _ _ _ K).
    - intros i w [[K Hp] E]. destruct E as [l E]; [congruence|]. pose proof (Sr_I _ _ _ K) as [_ Nz].
      split; [rewrite E in Nz; inversion Nz; assumption|]. split; [exact K|]. split; [exact Hp|]. exists l. exact E. }
  intro i. apply ht_pure. intro Hs.
  set (Ro := fun w : world => Sr (maxw + 1) never w /\ ph w = PReadOnly /\ head_is i w).
  assert (RI : forall w, Ro w -> I w) by (intros w [K _]; exact (Sr_I _ _ _ K)).
  assert (RB : busonly Ro) by (intros s p o t j s' H; exact H).
  (* the read *)
  eapply (ht_bind _ (fun _ w => Ro w \/ (m_bc c = true /\ Sr 0 true w))).
  { apply ht_if; intro Er.
    - apply andb_prop in Er. destruct Er as [_ Er]. apply is_one_true in Er. apply ht_if; intro Eb.
      + eapply ht_conseq; [apply (ht_burst_read i never Er Hs)|intros ? K; exact K|]. intros ? w K. right. split; [|exact K].
        unfold burstread in Eb. apply andb_prop in Eb. destruct Eb as [Eb _]. apply andb_prop in Eb. apply Eb.
      + eapply ht_conseq; [apply (ht_simple_read Ro RI RB)|intros ? K; exact K|]. intros ? w K. left. exact K.
    - eapply ht_conseq; [apply (ht_ret Ro tt RI)|intros ? K; exact K|]. intros ? w [_ K]. left. exact K. }
  intros ?.
  (* the write *)
  eapply (ht_bind _ (fun j w => (j = i /\ Ro w) \/ (m_bc c = true /\ Sr 0 true w))).
  { apply ht_or.
    - eapply ht_conseq; [apply (ht_sample Ro RI)|intros ? K; exact K|]. intros j w [K E]. left. split; [|exact K].
      destruct K as (_ & Hp & l' & E'). destruct E as [l E]; [congruence|]. congruence.
    - apply ht_pure. intro Hb. eapply ht_conseq; [apply (ht_sample (Sr 0 true)), Sr_I|intros ? K; exact K|]. intros j w [K _]. right. split; assumption. }
  intro j. apply ht_or.
  - apply ht_pure. intros ->. rewrite Wr. cbn [andb]. apply ht_if; intro Ew.
    + apply is_one_true in Ew. unfold burstwrite. apply ht_if; intro Hb.
      * eapply ht_conseq; [apply (ht_burst_write_ro i ltac:(lia) Hb Ew Hs)| |intros ? ? K; exact K].
        intros w ((H & T & V) & R). split; [|exact R]. split; [exact H|]. split; [exact (okruns_tail P B _ (proj1 H))|].
        unfold never in V. rewrite Hb in V. exact V.
      * eapply ht_conseq; [apply (ht_simple_write Ro RI RB)|intros ? K; exact K|]. intros ? w ((H & T & V) & _).
        split; [exact H|]. split; [exact V|]. left. apply V. unfold never. rewrite Hb. reflexivity.
    + eapply ht_conseq; [apply (ht_ret Ro tt RI)|intros ? K; exact K|]. intros ? w [_ ((H & T & V) & _ & l & Hd)].
      split; [exact H|]. split; [exact V|]. right. left. exists i, l. split; [exact Hd|]. intro o. apply P_nowrite.
      intro E. rewrite E in Ew. discriminate.
  - apply ht_pure. intro Hb. rewrite Wr. cbn [andb]. apply ht_if; intro Ew.
    + unfold burstwrite. rewrite Hb. apply (ht_burst_write_act ltac:(lia) Hb).
    + eapply ht_conseq; [apply (ht_ret (Sr 0 true) tt (Sr_I 0 true))|intros ? K; exact K|]. intros ? w [_ (H & T & V)].
      split; [exact H|]. split; [intros _; apply V; reflexivity|]. left. apply V. reflexivity.
Qed.
Lemma ht_respond fuel : ht H0 (respond c fuel) (fun _ _ => True).
Proof.
  unfold respond. induction fuel as [|n IH]; cbn [loop].
  - intros w [[O _] _]. cbn [fst snd]. split; [exact O|discriminate].
  - eapply (ht_bind _ (fun r w => (exists u, r = inl u) /\ H0 w)).
    { eapply ht_bind; [apply ht_body|]. intros ?.
      eapply ht_conseq; [apply (ht_ret H0 (inl tt))|intros ? K; exact K|]; [intros w [K _]; exact K|].
      intros r w [-> K]. split; [exists tt; reflexivity|exact K]. }
    intro r. apply ht_pure. intros [[] ->]. exact IH.
Qed.
End Stall.

Section Thm.
Context (c : am_cfg).
Notation world := (world am_state am_in am_out).
Lemma eqb_L1 a : logic_eqb a L1 = true <-> a = L1.
Proof. destruct a; split; intro E; try discriminate; reflexivity. Qed.
Lemma run_bound (P : am_in * am_out -> bool) B fuel s p o l : m_writeable c = true -> m_wait c = true -> 
  (forall x, P x = true -> stalled x) ->
  p_maxwait (m_props c) + 3 <= B \/ p_maxwait (m_props c) + 1 <= B /\ (forall x, P x = true -> v_read (fst x) <> L1) ->
  Forall some_beats l ->
  okruns P B (trace (snd (respond c fuel (World s p (am_init c o) [] l : world)))).
Proof.
  intros Wr Ww PS HB F.
  refine (proj1 (ht_respond c P B _ HB Wr _ fuel (World s p (am_init c o) [] l) _)).
  - intros x E. apply PS, E.
  - intros x E. apply PS, E.
  - split; [split; [apply okruns_nil|exact F]|]. split.
    + unfold low_or, never, am_init. cbn [out w_wait]. rewrite Ww. destruct (m_bc c), (p_wait (m_props c)); try discriminate; reflexivity.
    + right. right. cbn. lia.
Qed.
Lemma stall_thm fuel s p o l w r : m_writeable c = true -> m_wait c = true -> Forall some_beats l ->
  respond c fuel (World s p (am_init c o) [] l : world) = (r, w) ->
  at_most stalled_write (p_maxwait (m_props c) + 1) (trace w) /\ at_most stalled (p_maxwait (m_props c) + 3) (trace w).
Proof.
  intros Wr Ww F E. split.
  - pose (P := fun x : am_in * am_out => logic_eqb (v_write (fst x)) L1 && logic_eqb (w_wait (snd x)) L1 && negb (logic_eqb (v_read (fst x)) L1)).
    apply (okruns_at_most P).
    + intros x [[A1 A2] A3]. unfold P. rewrite A1, A2. destruct (logic_eqb (v_read (fst x)) L1) eqn:E3; [|reflexivity].
      apply eqb_L1 in E3. contradiction.
    + replace w with (snd (respond c fuel (World s p (am_init c o) [] l : world))) by (rewrite E; reflexivity).
      apply run_bound; [exact Wr|exact Ww| | |exact F].
      * intros x Px. apply andb_prop in Px. destruct Px as [Px _]. apply andb_prop in Px. split; apply eqb_L1; apply Px.
      * right. split; [lia|]. intros x Px. apply andb_prop in Px. destruct Px as [_ Px]. intro Er. rewrite Er in Px. discriminate.
  - pose (P := fun x : am_in * am_out => logic_eqb (v_write (fst x)) L1 && logic_eqb (w_wait (snd x)) L1).
    apply (okruns_at_most P).
    + intros x [A1 A2]. unfold P. rewrite A1, A2. reflexivity.
    + replace w with (snd (respond c fuel (World s p (am_init c o) [] l : world))) by (rewrite E; reflexivity).
      apply run_bound; [exact Wr|exact Ww| | |exact F].
      * intros x Px. apply andb_prop in Px. split; apply eqb_L1; apply Px.
      * left. lia.
Qed.
End Thm.
