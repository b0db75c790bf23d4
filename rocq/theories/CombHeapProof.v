(** CombHeapProof.v -- the walk over the tree that it changes ends, and nothing is lost. *)
From Verif Require Import CombHeapModel CombSpec CombHeapSpec.
From Coq Require Import Lia Arith Wellfounded.
Local Open Scope list_scope.
Local Notation length := List.length.
Definition SUITE := "testsuite".

(** ** lexicographic order *)
Definition lex (k : nat) (f g : nat -> nat) : Prop :=
  exists r, r < k /\ f r < g r /\ forall r', r' < r -> f r' = g r'.
Lemma lex_wf k : well_founded (lex k).
Proof.
  induction k as [|k IH].
  - intros f. constructor. intros g (r & H & _). lia.
  - assert (A : forall n f, f 0 = n -> Acc (lex (S k)) f).
    { induction n as [n IHn] using lt_wf_ind. intros f F.
      remember (fun r => f (S r)) as f' eqn:E. revert f F E.
      induction f' as [f' IHf] using (well_founded_induction IH). intros f F E.
      constructor. intros g (r & R & L & M). destruct r as [|r].
      - apply (IHn (g 0)); [lia|reflexivity].
      - apply (IHf (fun r => g (S r))); [|rewrite (M 0) by lia; exact F|reflexivity].
        subst f'. exists r. split; [lia|]. split; [exact L|]. intros r' Q. apply M. lia. }
    intros f. exact (A (f 0) f eq_refl).
Qed.

(** ** positions in a list *)
Fixpoint pos (n : nat) (l : list nat) : nat :=
  match l with [] => 0 | x :: l => if Nat.eqb x n then 0 else S (pos n l) end.
Lemma pos_in n l : In n l <-> pos n l < length l.
Proof.
  induction l as [|x l IH]; cbn [pos In List.length]; [lia|].
  destruct (Nat.eqb_spec x n); [split; [lia|tauto]|]. rewrite IH. split; [intros [?|?]; [congruence|lia]|right; lia].
Qed.
Lemma pos_le n l : pos n l <= length l.
Proof. induction l as [|x l IH]; cbn [pos List.length]; [lia|]. destruct (Nat.eqb x n); lia. Qed.
Lemma pos_app_in n l l' : In n l -> pos n (l ++ l') = pos n l.
Proof.
  induction l as [|x l IH]; intros I; [destruct I|]. cbn [pos app].
  destruct (Nat.eqb_spec x n); [reflexivity|]. rewrite IH; [reflexivity|]. destruct I; [congruence|assumption].
Qed.
Lemma pos_app_notin n l l' : ~ In n l -> pos n (l ++ l') = length l + pos n l'.
Proof.
  induction l as [|x l IH]; intros I; [reflexivity|]. cbn [pos app List.length].
  destruct (Nat.eqb_spec x n); [subst; cbn in I; tauto|]. rewrite IH by (cbn in I; tauto). lia.
Qed.
Lemma pos_last n l : ~ In n l -> pos n (l ++ [n]) = length l.
Proof. intros I. rewrite pos_app_notin by exact I. cbn [pos]. rewrite Nat.eqb_refl. lia. Qed.

(** ** objects *)
Lemma extend_length h n l : length (extend_obj h n l) = length h.
Proof. revert n. induction h as [|o h IH]; intros [|n]; cbn [extend_obj List.length]; try reflexivity. rewrite IH. reflexivity. Qed.
Lemma extend_same h n l m : o_tag (obj (extend_obj h n l) m) = o_tag (obj h m) /\ o_attrs (obj (extend_obj h n l) m) = o_attrs (obj h m).
Proof.
  unfold obj. revert n m. induction h as [|o h IH]; intros [|n] [|m]; cbn [extend_obj nth o_tag o_attrs]; try (split; reflexivity).
  apply IH.
Qed.
Lemma extend_other h n l m : m <> n -> kids (extend_obj h n l) m = kids h m.
Proof.
  unfold kids, obj. revert n m. induction h as [|o h IH]; intros [|n] [|m] H; cbn [extend_obj nth]; try reflexivity; [congruence|].
  apply IH. congruence.
Qed.
Lemma extend_at h n l : n < length h -> kids (extend_obj h n l) n = kids h n ++ l.
Proof.
  unfold kids, obj. revert n. induction h as [|o h IH]; intros [|n] H; cbn [extend_obj nth List.length o_children] in *; try lia; [reflexivity|].
  apply IH. lia.
Qed.

Lemma opt_eqb_refl a : opt_eqb a a = true.
Proof. destruct a; cbn; [apply String.eqb_refl|reflexivity]. Qed.
Lemma opt_eqb_eq a b : opt_eqb a b = true -> a = b.
Proof. destruct a, b; cbn; try discriminate; [|reflexivity]. intros H. apply String.eqb_eq in H. congruence. Qed.

Lemma find_in h r n z : find_existing h r n = Some z -> In z r /\ hget h z "name" = hget h n "name" /\ hget h z "package" = hget h n "package".
Proof.
  induction r as [|e r IH]; cbn [find_existing]; [discriminate|]. intros H.
  destruct (opt_eqb _ _ && opt_eqb _ _) eqn:B.
  - injection H as <-. apply andb_prop in B as [B1 B2]. apply opt_eqb_eq in B1, B2. split; [left; reflexivity|split; assumption].
  - destruct (IH H) as (I & K). split; [right; exact I|exact K].
Qed.
Lemma find_app h r r' n z : find_existing h r n = Some z -> find_existing h (r ++ r') n = Some z.
Proof.
  induction r as [|e r IH]; cbn [find_existing app]; [discriminate|]. destruct (opt_eqb _ _ && opt_eqb _ _); [auto|exact IH].
Qed.
Lemma find_self h r n : find_existing h r n = None -> find_existing h (r ++ [n]) n = Some n.
Proof.
  induction r as [|e r IH]; cbn [find_existing app].
  - intros _. rewrite !opt_eqb_refl. reflexivity.
  - destruct (opt_eqb _ _ && opt_eqb _ _); [discriminate|exact IH].
Qed.
Lemma find_heap h h' r n : (forall m, o_attrs (obj h' m) = o_attrs (obj h m)) -> find_existing h' r n = find_existing h r n.
Proof.
  intros A. assert (G : forall m k, hget h' m k = hget h m k) by (intros; unfold hget; rewrite A; reflexivity).
  induction r as [|e r IH]; cbn [find_existing]; [reflexivity|]. rewrite !G, IH. reflexivity.
Qed.

Section Walk.
Variable h0 : heap.
Let N := length h0.
Hypothesis rng : forall a c, In c (kids h0 a) -> c < N.
Hypothesis forest : forall a b c, In c (kids h0 a) -> In c (kids h0 b) -> a = b.

Record inv (h : heap) (result seen fin : list nat) : Prop := {
  v_len : length h = N;
  v_same : forall n, o_tag (obj h n) = o_tag (obj h0 n) /\ o_attrs (obj h n) = o_attrs (obj h0 n);
  v_nodup : NoDup seen;
  v_srng : forall n, In n seen -> n < N;
  v_fin : incl fin seen;
  v_ord : forall a b, In b (kids h a) -> In a seen -> pos a seen < pos b seen;
  v_in : forall a b, In b (kids h a) -> In b seen -> In a seen;
  v_par : forall a a' b, In b (kids h a) -> In b (kids h a') -> In a seen -> In a' seen;
  v_old : forall a, ~ In a seen -> kids h a = kids h0 a;
  v_mono : forall a, incl (kids h0 a) (kids h a);
  v_new : forall a c, In c (kids h a) -> exists y, In c (kids h0 y) /\ (y = a \/ htag h0 a = SUITE /\ htag h0 y = SUITE);
  v_res : forall z, In z result -> In z seen /\ htag h0 z = SUITE;
  v_find : forall y, In y fin -> htag h0 y = SUITE ->
             exists z, find_existing h result y = Some z /\ pos z seen <= pos y seen /\ incl (kids h0 y) (kids h z) }.

Lemma inv_init : inv h0 [] [] [].
Proof.
  constructor; intros; try solve [exact eq_refl|split; reflexivity|constructor|destruct H|assumption|contradiction].
  - intros x Hx. exact Hx.
  - intros x Hx. exact Hx.
  - exists a. split; [assumption|left; reflexivity].
Qed.

Lemma inv_rng h r s f : inv h r s f -> forall a c, In c (kids h a) -> c < N.
Proof. intros V a c I. destruct (v_new _ _ _ _ V a c I) as (y & Y & _). exact (rng _ _ Y). Qed.

(** an element is reached for the first time *)
Lemma mark h r s f n : inv h r s f -> n < N -> ~ In n s -> (forall a, In n (kids h a) -> In a s) ->
  inv h r (s ++ [n]) f.
Proof.
  intros V R U P.
  assert (IS : forall x, In x (s ++ [n]) <-> In x s \/ x = n)
    by (intros x; rewrite in_app_iff; cbn; intuition congruence).
  constructor; try apply V.
  - rewrite <- (rev_involutive (s ++ [n])). apply NoDup_rev. rewrite rev_app_distr. cbn.
    constructor; [rewrite <- in_rev; exact U|]. apply NoDup_rev, V.
  - intros x I. apply IS in I as [I| ->]; [apply (v_srng _ _ _ _ V), I|exact R].
  - intros x I. apply IS. left. apply (v_fin _ _ _ _ V), I.
  - intros a b I A. apply IS in A as [A| ->].
    + rewrite (pos_app_in a) by exact A. pose proof (v_ord _ _ _ _ V a b I A) as O.
      destruct (in_dec Nat.eq_dec b s) as [B|B]; [rewrite pos_app_in by exact B; exact O|].
      rewrite pos_app_notin by exact B. apply pos_in in A. lia.
    + rewrite pos_last by exact U.
      assert (B : ~ In b s) by (intros B; apply U, (v_in _ _ _ _ V n b I B)).
      rewrite pos_app_notin by exact B. cbn [pos]. destruct (Nat.eqb_spec n b); [|lia].
      subst b. exfalso. apply U, P, I.
  - intros a b I B. apply IS. apply IS in B as [B| ->]; [left; exact (v_in _ _ _ _ V a b I B)|left; apply P, I].
  - intros a a' b I I' A. apply IS. apply IS in A as [A| ->]; [left; exact (v_par _ _ _ _ V a a' b I I' A)|].
    destruct (in_dec Nat.eq_dec a' s) as [A'|A']; [left; exact A'|right].
    apply (forest a' n b); [rewrite <- (v_old _ _ _ _ V a' A'); exact I'|rewrite <- (v_old _ _ _ _ V n U); exact I].
  - intros a A. apply (v_old _ _ _ _ V). intros B. apply A, IS. left; exact B.
  - intros z Z. destruct (v_res _ _ _ _ V z Z) as [A B]. split; [apply IS; left; exact A|exact B].
  - intros y Y S. destruct (v_find _ _ _ _ V y Y S) as (z & F & O & C). exists z. split; [exact F|]. split; [|exact C].
    assert (Z : In z s) by (apply (v_res _ _ _ _ V), (proj1 (find_in _ _ _ _ F))).
    rewrite !pos_app_in; [exact O|apply (v_fin _ _ _ _ V), Y|exact Z].
Qed.

(** what the loop body changes *)
Definition grows (h h' : heap) (n : nat) : Prop :=
  forall p, exists l, kids h' p = kids h p ++ l /\ incl l (kids h n).
Lemma visit_inv h r s f n : inv h r s f -> In n s ->
  (In n f \/ forall z, In z s -> pos z s <= pos n s) ->
  forall h' r', visit h r n = (h', r') -> inv h' r' s (n :: f) /\ grows h h' n.
Proof.
  intros V I LAST h' r' E. unfold visit in E.
  assert (T : htag h n = htag h0 n) by apply (v_same _ _ _ _ V).
  assert (FI : incl (n :: f) s) by (intros x [<-|X]; [exact I|apply (v_fin _ _ _ _ V), X]).
  assert (G0 : grows h h n) by (intros p; exists []; rewrite app_nil_r; split; [reflexivity|intros x []]).
  destruct (String.eqb_spec (htag h n) "testsuite") as [S|S].
  2:{ injection E as <- <-. split; [|exact G0]. constructor; try apply V; [exact FI|].
      intros y [<-|Y] Sy; [unfold SUITE in Sy; congruence|apply (v_find _ _ _ _ V); assumption]. }
  rewrite T in S. destruct (find_existing h r n) as [z|] eqn:F.
  - injection E as <- <-. destruct (find_in _ _ _ _ F) as (Zr & _). destruct (v_res _ _ _ _ V z Zr) as [Zs Zt].
    assert (Zn : pos z s <= pos n s).
    { destruct LAST as [L|L]; [|apply L, Zs]. destruct (v_find _ _ _ _ V n L S) as (z' & F' & O & _). congruence. }
    assert (ZN : z < length h) by (rewrite (v_len _ _ _ _ V); apply (v_srng _ _ _ _ V), Zs).
    assert (G : grows h (extend_obj h z (kids h n)) n).
    { intros p. destruct (Nat.eq_dec p z) as [->|D]; [rewrite extend_at by exact ZN; exists (kids h n); split; [reflexivity|apply incl_refl]|].
      rewrite extend_other by exact D. exists []. rewrite app_nil_r. split; [reflexivity|intros x []]. }
    assert (KI : forall a b, In b (kids (extend_obj h z (kids h n)) a) -> In b (kids h a) \/ a = z /\ In b (kids h n)).
    { intros a b B. destruct (Nat.eq_dec a z) as [->|D]; [rewrite extend_at in B by exact ZN; apply in_app_iff in B as [B|B]; auto|].
      rewrite extend_other in B by exact D. left; exact B. }
    split; [|exact G]. constructor.
    + rewrite extend_length. apply V.
    + intros m. destruct (extend_same h z (kids h n) m) as [-> ->]. apply V.
    + apply V.
    + apply V.
    + exact FI.
    + intros a b B A. apply KI in B as [B|[-> B]]; [apply (v_ord _ _ _ _ V); assumption|].
      pose proof (v_ord _ _ _ _ V n b B I). lia.
    + intros a b B Bs. apply KI in B as [B|[-> B]]; [exact (v_in _ _ _ _ V a b B Bs)|exact Zs].
    + intros a a' b B B' A. apply KI in B' as [B'|[-> B']]; [|exact Zs].
      apply KI in B as [B|[-> B]]; [exact (v_par _ _ _ _ V a a' b B B' A)|exact (v_par _ _ _ _ V n a' b B B' I)].
    + intros a A. rewrite extend_other by congruence. apply (v_old _ _ _ _ V), A.
    + intros a c C. destruct (G a) as (l & -> & _). apply in_app_iff. left. apply (v_mono _ _ _ _ V), C.
    + intros a c C. apply KI in C as [C|[-> C]]; [apply (v_new _ _ _ _ V), C|].
      destruct (v_new _ _ _ _ V n c C) as (y & Y & [->|[_ Ty]]); [exists n|exists y]; (split; [exact Y|right; split; [exact Zt|assumption]]).
    + apply V.
    + assert (FH : forall y, find_existing (extend_obj h z (kids h n)) r y = find_existing h r y)
        by (intros y; apply find_heap; intros m; apply extend_same).
      intros y [<-|Y] Sy.
      * exists z. rewrite FH. split; [exact F|]. split; [exact Zn|]. intros c C. rewrite extend_at by exact ZN.
        apply in_app_iff. right. apply (v_mono _ _ _ _ V), C.
      * destruct (v_find _ _ _ _ V y Y Sy) as (z' & F' & O & C). exists z'. rewrite FH. split; [exact F'|]. split; [exact O|].
        intros c Cc. destruct (G z') as (l & -> & _). apply in_app_iff. left. apply C, Cc.
  - injection E as <- <-. split; [|exact G0]. constructor; try apply V; [exact FI| |].
    + intros z Z. apply in_app_iff in Z as [Z|[<-|[]]]; [apply (v_res _ _ _ _ V), Z|split; [exact I|exact S]].
    + intros y [<-|Y] Sy.
      * exists n. split; [apply find_self, F|]. split; [lia|]. apply (v_mono _ _ _ _ V).
      * destruct (v_find _ _ _ _ V y Y Sy) as (z' & F' & O & C). exists z'. split; [apply find_app, F'|]. split; assumption.
Qed.

(** an element is reached, for the first time or again *)
Definition mk (n : nat) (s : list nat) : list nat := if in_dec Nat.eq_dec n s then s else s ++ [n].
Lemma mk_in n s x : In x (mk n s) <-> In x s \/ x = n.
Proof. unfold mk. destruct (in_dec Nat.eq_dec n s); [|rewrite in_app_iff; cbn]; intuition congruence. Qed.
Lemma inv_fin h r s f f' : inv h r s f -> incl f' f -> inv h r s f'.
Proof. intros V F. constructor; try apply V; [intros x X; apply (v_fin _ _ _ _ V), F, X|intros y Y; apply (v_find _ _ _ _ V), F, Y]. Qed.
Lemma reach_node h r s n h' r' : inv h r s s -> n < N -> (~ In n s -> forall a, In n (kids h a) -> In a s) ->
  visit h r n = (h', r') -> inv h' r' (mk n s) (mk n s) /\ grows h h' n.
Proof.
  intros V R P E. unfold mk. destruct (in_dec Nat.eq_dec n s) as [I|I].
  - destruct (visit_inv _ _ _ _ n V I (or_introl I) _ _ E) as [V' G]. split; [|exact G].
    apply (inv_fin _ _ _ _ _ V'). intros x X. right; exact X.
  - pose proof (mark _ _ _ _ n V R I (P I)) as V1.
    assert (In1 : In n (s ++ [n])) by (apply in_app_iff; right; left; reflexivity).
    assert (LAST : forall z, In z (s ++ [n]) -> pos z (s ++ [n]) <= pos n (s ++ [n])).
    { intros z Z. rewrite (pos_last n) by exact I. apply pos_in in Z. rewrite app_length in Z. cbn in Z. lia. }
    destruct (visit_inv _ _ _ _ n V1 In1 (or_intror LAST) _ _ E) as [V' G].
    split; [|exact G]. apply (inv_fin _ _ _ _ _ V'). intros x X. apply in_app_iff in X as [X|[<-|[]]]; [right; exact X|left; reflexivity].
Qed.

Definition pend (h : heap) (stack : list (nat * nat)) : list nat := flat_map (fun '(p, i) => skipn i (kids h p)) stack.
Definition covered (h : heap) (stack : list (nat * nat)) (s : list nat) : Prop :=
  (forall p i, In (p, i) stack -> In p s) /\
  forall a b, In a s -> In b (kids h0 a) -> In b s \/ exists i, In (a, i) stack /\ In b (skipn i (kids h a)).
Definition cnt (s l : list nat) (r : nat) : nat := length (filter (fun n => Nat.eqb (pos n s) r) l).

Lemma skipn_nth {T} (l : list T) i x : nth_error l i = Some x -> skipn i l = x :: skipn (S i) l.
Proof.
  revert l. induction i as [|i IH]; intros [|y l] E; cbn in E; try discriminate; [injection E as ->; reflexivity|].
  change (skipn (S i) (y :: l)) with (skipn i l). rewrite (IH l E). reflexivity.
Qed.
Lemma cnt_app s l l' r : cnt s (l ++ l') r = cnt s l r + cnt s l' r.
Proof. unfold cnt. rewrite filter_app, app_length. reflexivity. Qed.
Lemma cnt_zero s l r : (forall x, In x l -> pos x s <> r) -> cnt s l r = 0.
Proof.
  induction l as [|x l IH]; intros H; [reflexivity|]. unfold cnt in *. cbn [filter].
  destruct (Nat.eqb_spec (pos x s) r) as [E|_]; [exfalso; apply (H x); [left; reflexivity|exact E]|]. apply IH. intros y Y. apply H. right; exact Y.
Qed.
Lemma skipn_incl {T} i (l : list T) x : In x (skipn i l) -> In x l.
Proof. intros H. rewrite <- (firstn_skipn i l). apply in_app_iff. right; exact H. Qed.
Lemma cnt_grow s h h' c r stack : grows h h' c -> (forall b, In b (kids h c) -> pos c s < pos b s) -> r <= pos c s ->
  cnt s (pend h' stack) r = cnt s (pend h stack) r.
Proof.
  intros G O R. induction stack as [|[p i] stack IH]; [reflexivity|]. unfold pend in *. cbn [flat_map]. rewrite !cnt_app, IH. f_equal.
  destruct (G p) as (l & -> & L). rewrite skipn_app, cnt_app. rewrite (cnt_zero s (skipn _ l)); [lia|].
  intros x X. apply skipn_incl, L, O in X. lia.
Qed.

Lemma walk_more fuel stack h r out : walk fuel stack h r = Some out -> forall m, walk (fuel + m) stack h r = Some out.
Proof.
  revert stack h r. induction fuel as [|fuel IH]; intros stack h r E m; [discriminate|]. cbn [walk plus] in *.
  destruct stack as [|[p i] stack]; [exact E|]. destruct (nth_error (kids h p) i) as [c|]; [|apply IH, E].
  destruct (visit h r c) as [h' r']. apply IH, E.
Qed.

Definition ends (stack : list (nat * nat)) (h : heap) (r s : list nat) : Prop :=
  exists fuel h' r' s', walk fuel stack h r = Some (h', r') /\ inv h' r' s' s' /\ covered h' [] s' /\ incl s s'.
Lemma seen_le h r s f : inv h r s f -> length s <= N.
Proof.
  intros V. rewrite <- (seq_length N 0). apply NoDup_incl_length; [apply V|].
  intros x X. apply in_seq. pose proof (v_srng _ _ _ _ V x X). lia.
Qed.
Lemma walk_ends h r s stack : inv h r s s -> covered h stack s -> ends stack h r s.
Proof.
  remember (N - length s) as u eqn:U. revert h r s stack U.
  induction u as [u IHu] using lt_wf_ind. intros h r s stack U V C.
  remember (cnt s (pend h stack)) as f eqn:F.
  assert (F' : forall x, cnt s (pend h stack) x = f x) by (intros; subst; reflexivity). clear F.
  revert h r stack V C F'. induction f as [f IHf] using (well_founded_induction (lex_wf (S (length s)))). intros h r stack.
  remember (length stack) as m eqn:M. revert h r stack M. induction m as [|m IHm]; intros h r stack M V C F.
  { destruct stack; [|discriminate]. exists 1, h, r, s. split; [reflexivity|]. split; [exact V|]. split; [exact C|apply incl_refl]. }
  destruct stack as [|[p i] stack]; [discriminate|]. injection M as M. destruct C as [CS CC].
  destruct (nth_error (kids h p) i) as [c|] eqn:E.
  - destruct (visit h r c) as [h' r'] eqn:VI.
    assert (Ps : In p s) by (apply (CS p i); left; reflexivity).
    assert (Ck : In c (kids h p)) by (apply nth_error_In in E; exact E).
    destruct (reach_node h r s c h' r' V) as [V' G]; [exact (inv_rng _ _ _ _ V _ _ Ck)|intros _ a A; exact (v_par _ _ _ _ V p a c Ck A Ps)|exact VI|].
    assert (C' : covered h' ((c, 0) :: (p, S i) :: stack) (mk c s)).
    { split.
      - intros q j [X|[X|X]]; apply mk_in; [injection X as <- _; right; reflexivity|injection X as <- _; left; exact Ps|left; apply (CS q j); right; exact X].
      - intros a b A B. destruct (Nat.eq_dec a c) as [->|D].
        { right. exists 0. split; [left; reflexivity|]. cbn [skipn]. apply (v_mono _ _ _ _ V'), B. }
        apply mk_in in A as [A|A]; [|congruence].
        destruct (CC a b A B) as [X|(j & J & X)]; [left; apply mk_in; left; exact X|].
        destruct (G a) as (l & Gl & _). destruct J as [J|J].
        + injection J as <- <-. rewrite (skipn_nth _ _ _ E) in X. destruct X as [<-|X]; [left; apply mk_in; right; reflexivity|].
          right. exists (S i). split; [right; left; reflexivity|]. rewrite Gl, skipn_app. apply in_app_iff. left; exact X.
        + right. exists j. split; [right; right; exact J|]. rewrite Gl, skipn_app. apply in_app_iff. left; exact X. }
    assert (K : ends ((c, 0) :: (p, S i) :: stack) h' r' (mk c s)).
    { destruct (in_dec Nat.eq_dec c s) as [I|I].
      - assert (MK : mk c s = s) by (unfold mk; destruct (in_dec Nat.eq_dec c s); [reflexivity|contradiction]).
        rewrite MK in *. apply (IHf (cnt s (pend h' ((c, 0) :: (p, S i) :: stack)))); [|exact V'|exact C'|reflexivity].
        assert (O : forall b, In b (kids h c) -> pos c s < pos b s) by (intros b B; exact (v_ord _ _ _ _ V c b B I)).
        assert (PE : pend h ((p, i) :: stack) = c :: pend h ((p, S i) :: stack)) by (unfold pend; cbn [flat_map]; rewrite (skipn_nth _ _ _ E); reflexivity).
        assert (Q : forall x, x <= pos c s -> cnt s (pend h' ((c, 0) :: (p, S i) :: stack)) x = cnt s (pend h ((p, S i) :: stack)) x).
        { intros x X. change (pend h' ((c, 0) :: (p, S i) :: stack)) with (kids h' c ++ pend h' ((p, S i) :: stack)).
          rewrite cnt_app, (cnt_grow s h h' c x _ G O X). rewrite cnt_zero; [reflexivity|].
          intros b B. destruct (G c) as (l & Gl & Il). rewrite Gl in B. apply in_app_iff in B as [B|B]; [|apply Il in B]; apply O in B; lia. }
        exists (pos c s). pose proof (pos_le c s). split; [lia|]. rewrite Q by lia. rewrite <- F, PE.
        split; [unfold cnt; cbn [filter]; rewrite Nat.eqb_refl; cbn [List.length]; lia|].
        intros x X. rewrite Q by lia. rewrite <- F, PE. unfold cnt. cbn [filter]. destruct (Nat.eqb_spec (pos c s) x); [lia|reflexivity].
      - assert (MK : mk c s = s ++ [c]) by (unfold mk; destruct (in_dec Nat.eq_dec c s); [contradiction|reflexivity]).
        rewrite MK in *. pose proof (seen_le _ _ _ _ V') as SL. rewrite app_length in SL. cbn [List.length] in SL.
        eapply (IHu (N - length (s ++ [c]))); [rewrite app_length; cbn [List.length]; lia|reflexivity|exact V'|exact C']. }
    destruct K as (fuel & h2 & r2 & s2 & W & V2 & C2 & I2). exists (S fuel), h2, r2, s2.
    split; [cbn [walk]; rewrite E, VI; exact W|]. split; [exact V2|]. split; [exact C2|].
    intros x X. apply I2, mk_in. left; exact X.
  - assert (SK : skipn i (kids h p) = []) by (apply skipn_all2, nth_error_None, E).
    destruct (IHm h r stack M V) as (fuel & h2 & r2 & s2 & W & V2 & C2 & I2).
    + split; [intros q j X; apply (CS q j); right; exact X|]. intros a b A B. destruct (CC a b A B) as [X|(j & [J|J] & X)]; [left; exact X| |right; exists j; split; assumption].
      injection J as <- <-. rewrite SK in X. destruct X.
    + intros x. rewrite <- F. unfold pend. cbn [flat_map]. rewrite SK. reflexivity.
    + exists (S fuel), h2, r2, s2. split; [cbn [walk]; rewrite E; exact W|]. split; [exact V2|]. split; [exact C2|exact I2].
Qed.

(** the loop over the files *)
Lemma walk_files_more fuel roots h r out : walk_files fuel roots h r = Some out -> forall m, walk_files (fuel + m) roots h r = Some out.
Proof.
  revert h r. induction roots as [|x roots IH]; intros h r E m; [exact E|]. cbn [walk_files] in *.
  destruct (visit h r x) as [h1 r1]. destruct (walk fuel [(x, 0)] h1 r1) as [[h2 r2]|] eqn:W; [|discriminate].
  rewrite (walk_more _ _ _ _ _ W). apply IH, E.
Qed.
Lemma walk_files_ends roots h r s : (forall x, In x roots -> x < N /\ forall a, ~ In x (kids h0 a)) ->
  inv h r s s -> covered h [] s ->
  exists fuel h' r' s', walk_files fuel roots h r = Some (h', r') /\ inv h' r' s' s' /\ covered h' [] s' /\ incl s s' /\ incl roots s'.
Proof.
  revert h r s. induction roots as [|x roots IH]; intros h r s R V C.
  - exists 0, h, r, s. split; [reflexivity|]. split; [exact V|]. split; [exact C|]. split; [apply incl_refl|intros ? []].
  - cbn [walk_files]. destruct (visit h r x) as [h1 r1] eqn:VI. destruct (R x (or_introl eq_refl)) as [Rx Rn].
    destruct (reach_node h r s x h1 r1 V Rx) as [V1 G].
    { intros _ a A. destruct (v_new _ _ _ _ V a x A) as (y & Y & _). destruct (Rn y Y). } { exact VI. }
    destruct (walk_ends h1 r1 (mk x s) [(x, 0)] V1) as (f1 & h2 & r2 & s2 & W & V2 & C2 & I2).
    { split; [intros p i [E|[]]; injection E as <- _; apply mk_in; right; reflexivity|].
      intros a b A B. apply mk_in in A as [A| ->].
      - destruct C as [_ C]. destruct (C a b A B) as [X|(j & [] & _)]. left. apply mk_in. left; exact X.
      - right. exists 0. split; [left; reflexivity|]. cbn [skipn]. apply (v_mono _ _ _ _ V1), B. }
    destruct (IH h2 r2 s2 (fun y Y => R y (or_intror Y)) V2 C2) as (f2 & h3 & r3 & s3 & W3 & V3 & C3 & I3 & J3).
    exists (f1 + f2), h3, r3, s3. split.
    { rewrite (walk_more _ _ _ _ _ W). rewrite Nat.add_comm. apply walk_files_more, W3. }
    split; [exact V3|]. split; [exact C3|]. split.
    + intros y Y. apply I3, I2, mk_in. left; exact Y.
    + intros y [<-|Y]; [apply I3, I2, mk_in; right; reflexivity|apply J3, Y].
Qed.
End Walk.
