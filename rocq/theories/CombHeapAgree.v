(** CombHeapAgree.v -- without test suites inside each other, shared objects make no difference:
    the model of CombModel.v, in which elements are copied, gives the same report. *)
From Verif Require Import CombProof CombSpec CombHeapModel CombHeapSpec CombHeapProof CombHeapProof2.
From Coq Require Import Lia Arith.
Local Open Scope list_scope.
Local Notation length := List.length.

Definition plain (x : xml) : Prop := iter "testsuite" x = [].
Lemma plain_kids t a cs : plain (Elem t a cs) <-> t <> "testsuite" /\ Forall plain cs.
Proof.
  unfold plain. cbn [iter]. split.
  - intros H. apply app_eq_nil in H as [A B]. split; [intros ->; discriminate A|].
    apply Forall_forall. intros c C. destruct (iter "testsuite" c) eqn:E; [reflexivity|].
    assert (I : In x (flat_map (iter "testsuite") cs)) by (apply in_flat_map; exists c; rewrite E; split; [exact C|left; reflexivity]). rewrite B in I. destruct I.
  - intros [A B]. destruct (String.eqb_spec t "testsuite"); [contradiction|]. cbn. induction B as [|c cs C B IH]; [reflexivity|]. cbn [flat_map]. rewrite C. exact IH.
Qed.

Lemma obj_extend_other h n l m : m <> n -> obj (extend_obj h n l) m = obj h m.
Proof.
  unfold obj. revert n m. induction h as [|o h IH]; intros [|n] [|m] H; cbn [extend_obj nth]; try reflexivity; [congruence|].
  apply IH. congruence.
Qed.

(** the objects lo .. n are the element x *)
Fixpoint own (h : heap) (x : xml) (lo n : nat) : Prop :=
  match x with
  | Elem t a cs =>
      o_tag (obj h n) = t /\ o_attrs (obj h n) = a /\
      (fix owns (cs : list xml) (ids : list nat) (lo : nat) : Prop :=
         match cs, ids with
         | [], [] => lo = n
         | c :: cs, k :: ids => own h c lo k /\ owns cs ids (S k)
         | _, _ => False
         end) cs (kids h n) lo
  end.
Fixpoint owns (h : heap) (cs : list xml) (ids : list nat) (lo n : nat) : Prop :=
  match cs, ids with
  | [], [] => lo = n
  | c :: cs, k :: ids => own h c lo k /\ owns h cs ids (S k) n
  | _, _ => False
  end.
Lemma own_eq h t a cs lo n : own h (Elem t a cs) lo n <->
  o_tag (obj h n) = t /\ o_attrs (obj h n) = a /\ owns h cs (kids h n) lo n.
Proof.
  cbn [own]. assert (E : forall cs ids lo, (fix owns (cs : list xml) (ids : list nat) (lo : nat) : Prop :=
         match cs, ids with
         | [], [] => lo = n
         | c :: cs, k :: ids => own h c lo k /\ owns cs ids (S k)
         | _, _ => False
         end) cs ids lo <-> owns h cs ids lo n).
  { clear. induction cs as [|c cs IH]; intros [|k ids] lo; cbn [owns]; try tauto. rewrite IH. tauto. }
  rewrite E. tauto.
Qed.
Lemma owns_le_aux h cs : Forall (fun x => forall lo n, own h x lo n -> lo <= n) cs -> forall ids lo n, owns h cs ids lo n -> lo <= n.
Proof.
  induction 1 as [|c cs C _ IH]; intros [|k ids] lo n O; cbn [owns] in O; try tauto; [lia|]. destruct O as [O1 O2]. apply C in O1. apply IH in O2. lia.
Qed.
Lemma own_le h x : forall lo n, own h x lo n -> lo <= n.
Proof. induction x as [t a cs IH] using xml_ind2. intros lo n O. apply own_eq in O as (_ & _ & O). exact (owns_le_aux h cs IH _ _ _ O). Qed.
Lemma owns_le h cs ids lo n : owns h cs ids lo n -> lo <= n.
Proof. apply owns_le_aux. apply Forall_forall. intros x _. apply own_le. Qed.
Lemma own_frame h h' x : forall lo n, (forall m, lo <= m <= n -> obj h' m = obj h m) -> own h x lo n -> own h' x lo n.
Proof.
  induction x as [t a cs IH] using xml_ind2. intros lo n F O. pose proof (own_le _ _ _ _ O) as LE. apply own_eq in O as (T & A & O).
  apply own_eq. rewrite (F n) by lia. split; [exact T|]. split; [exact A|].
  unfold kids. rewrite (F n) by lia. fold (kids h n). revert lo LE F O. generalize (kids h n) as ids.
  induction IH as [|c cs C _ IHcs]; intros [|k ids] lo LE F O; cbn [owns] in *; try tauto. destruct O as [O1 O2].
  pose proof (own_le _ _ _ _ O1). pose proof (owns_le _ _ _ _ _ O2). split; [apply C; [intros m M; apply F; lia|exact O1]|].
  apply IHcs; [lia|intros m M; apply F; lia|exact O2].
Qed.
Lemma owns_frame h h' cs : forall ids lo n, (forall m, lo <= m < n -> obj h' m = obj h m) -> owns h cs ids lo n -> owns h' cs ids lo n.
Proof.
  induction cs as [|c cs IH]; intros [|k ids] lo n F O; cbn [owns] in *; try tauto. destruct O as [O1 O2].
  pose proof (own_le _ _ _ _ O1). pose proof (owns_le _ _ _ _ _ O2). split; [apply (own_frame h); [intros m M; apply F; lia|exact O1]|].
  apply IH; [intros m M; apply F; lia|exact O2].
Qed.
Lemma own_rep h x : forall lo n, own h x lo n -> rep h x n.
Proof.
  induction x as [t a cs IH] using xml_ind2. intros lo n O. apply own_eq in O as (T & A & O). constructor; [exact T|exact A|].
  revert lo O. generalize (kids h n) as ids. induction IH as [|c cs C _ IHcs]; intros [|k ids] lo O; cbn [owns] in O; try tauto; constructor.
  - exact (C _ _ (proj1 O)).
  - exact (IHcs _ _ (proj2 O)).
Qed.

(** parsing *)
Definition load_own (x : xml) : Prop := forall h, exists d n, load x h = (h ++ d, n) /\ own (h ++ d) x (length h) n /\ length (h ++ d) = S n.
Lemma load_all_own xs : Forall load_own xs -> forall h, exists d ids, load_all xs h = (h ++ d, ids) /\ owns (h ++ d) xs ids (length h) (length (h ++ d)).
Proof.
  induction 1 as [|x xs X _ IH]; intros h; cbn [load_all].
  - exists [], []. rewrite app_nil_r. split; reflexivity.
  - destruct (X h) as (d & n & E & O & L). rewrite E. destruct (IH (h ++ d)) as (d2 & ids & E2 & O2). rewrite E2.
    exists (d ++ d2), (n :: ids). rewrite app_assoc. split; [reflexivity|]. cbn [owns]. rewrite L in O2. split; [|exact O2].
    apply (own_frame (h ++ d)); [intros m M; apply obj_app; lia|exact O].
Qed.
Lemma load_own_ok x : load_own x.
Proof.
  induction x as [t a cs IH] using xml_ind2. intros h. destruct (load_all_own cs IH h) as (d & ids & E & O).
  rewrite load_eq, E. exists (d ++ [Obj t a ids]), (length (h ++ d)). rewrite app_assoc. split; [reflexivity|].
  split; [|rewrite app_length; cbn; lia]. apply own_eq. rewrite kids_last.
  unfold obj. rewrite app_nth2 by lia. rewrite Nat.sub_diag. cbn [nth o_tag o_attrs]. split; [reflexivity|]. split; [reflexivity|].
  apply (owns_frame (h ++ d)); [intros m M; apply obj_app; lia|exact O].
Qed.

(** ** the walk *)
(** what is in the result *)
Definition item (h : heap) (x : xml) (z : nat) : Prop := rep h x z /\ tag x = "testsuite" /\ Forall plain (children x).
Definition items (h : heap) (R : list xml) (result : list nat) (lo : nat) : Prop :=
  Forall2 (item h) R result /\ NoDup result /\ forall z, In z result -> z < lo.

Lemma rep_plain_extend h z l x : htag h z = "testsuite" -> plain x -> forall n, rep h x n -> rep (extend_obj h z l) x n.
Proof.
  intros Z. induction x as [t a cs IH] using xml_ind2. intros P n R. apply plain_kids in P as [P1 P2].
  destruct (rep_inv _ _ _ _ _ R) as (T & A & K).
  assert (NZ : n <> z) by (intros ->; unfold htag in Z; congruence).
  constructor; [rewrite (proj1 (extend_same h z l n)); exact T|rewrite (proj2 (extend_same h z l n)); exact A|].
  rewrite extend_other by exact NZ. clear - IH P2 K. revert IH P2. induction K as [|c k cs ks Rk K IHK]; intros IH P2; [constructor|].
  inversion IH; inversion P2; subst. constructor; [auto|apply IHK; assumption].
Qed.
Lemma reps_plain_extend h z l cs ks : htag h z = "testsuite" -> Forall plain cs -> Forall2 (rep h) cs ks -> Forall2 (rep (extend_obj h z l)) cs ks.
Proof.
  intros Z P F. revert P. induction F as [|c k cs ks R F IH]; intros P; [constructor|]. inversion P; subst.
  constructor; [apply rep_plain_extend; assumption|apply IH; assumption].
Qed.
Lemma item_extend h z l x z' : htag h z = "testsuite" -> z' <> z -> item h x z' -> item (extend_obj h z l) x z'.
Proof.
  intros Z D (R & T & P). split; [|split; assumption]. destruct x as [t a cs]. destruct (rep_inv _ _ _ _ _ R) as (T' & A & K).
  constructor; [rewrite (proj1 (extend_same h z l z')); exact T'|rewrite (proj2 (extend_same h z l z')); exact A|].
  rewrite extend_other by exact D. apply reps_plain_extend; assumption.
Qed.
Lemma item_tag h x z : item h x z -> htag h z = "testsuite".
Proof. intros (R & T & _). destruct x. destruct (rep_inv _ _ _ _ _ R) as (T' & _). cbn in T. unfold htag. congruence. Qed.

Lemma visit_suite h R result lo x n : items h R result lo -> lo <= n -> n < length h -> (forall z, In z result -> z < length h) ->
  rep h x n -> tag x = "testsuite" -> Forall plain (children x) ->
  exists h' r', visit h result n = (h', r') /\ items h' (add_suite R x) r' (S n) /\
    (forall m, lo <= m -> obj h' m = obj h m) /\ (forall m, htag h m <> "testsuite" -> obj h' m = obj h m) /\ length h' = length h /\
    (forall m, htag h' m = htag h m).
Proof.
  intros (F & ND & B) L LN LR Rx T P. destruct x as [t a cs]. cbn [tag children] in T, P. subst t. destruct (rep_inv _ _ _ _ _ Rx) as (Tn & An & Kn).
  unfold visit. unfold htag at 1. rewrite Tn. cbn [String.eqb Ascii.eqb Bool.eqb].
  assert (W : forall h2, (match find_existing h result n with None => (h, result ++ [n]) | Some e => (extend_obj h e (kids h n), result) end)
     = h2 -> exists r1 r2 R1 R2, result = r1 ++ r2 /\ R = R1 ++ R2 /\ Forall2 (item h) R1 r1 /\ Forall2 (item h) R2 r2 /\
       match find_existing h result n with
       | None => r2 = [] /\ add_suite R (Elem "testsuite" a cs) = R ++ [Elem "testsuite" a cs]
       | Some e => exists r3 x3 R3, r2 = e :: r3 /\ R2 = x3 :: R3 /\ add_suite R (Elem "testsuite" a cs) = R1 ++ extend x3 cs :: R3
       end).
  { intros h2 _. clear ND B LR. induction F as [|x z R result Ix F IH].
    - exists [], [], [], []. cbn. repeat (split; [constructor|]). split; reflexivity.
    - cbn [find_existing add_suite].
      assert (G : forall k, hget h z k = get x k) by (intros k; apply rep_get; apply Ix).
      rewrite !G, !(rep_get h _ n _ Rx).
      destruct (opt_eqb (get x "name") (get (Elem "testsuite" a cs) "name") && opt_eqb (get x "package") (get (Elem "testsuite" a cs) "package")).
      + exists [], (z :: result), [], (x :: R). split; [reflexivity|]. split; [reflexivity|]. split; [constructor|]. split; [constructor; assumption|].
        exists result, x, R. split; [reflexivity|]. split; reflexivity.
      + destruct IH as (r1 & r2 & R1 & R2 & -> & -> & F1 & F2 & K). exists (z :: r1), r2, (x :: R1), R2.
        split; [reflexivity|]. split; [reflexivity|]. split; [constructor; assumption|]. split; [exact F2|].
        destruct (find_existing h (r1 ++ r2) n) as [e|].
        * destruct K as (r3 & x3 & R3 & -> & -> & ->). exists r3, x3, R3. repeat split.
        * destruct K as [-> ->]. split; reflexivity. }
  destruct (W _ eq_refl) as (r1 & r2 & R1 & R2 & ER & EQ & F1 & F2 & K). clear W. change (htag h n =? "testsuite")%string with (o_tag (obj h n) =? "testsuite")%string.
  destruct (find_existing h result n) as [e|].
  - destruct K as (r3 & x3 & R3 & -> & -> & ->). eexists _, _. split; [reflexivity|].
    inversion F2 as [|? ? ? ? I3 F3]; subst.
    pose proof (NoDup_remove_2 _ _ _ ND) as NI. rewrite in_app_iff in NI. pose proof (item_tag _ _ _ I3) as Te.
    assert (EL : e < lo) by (apply B, in_app_iff; right; left; reflexivity).
    assert (FR : forall l1 L1, ~ In e l1 -> Forall2 (item h) L1 l1 -> Forall2 (item (extend_obj h e (kids h n))) L1 l1).
    { intros l1 L1 NE Q. induction Q as [|x z Lx lx Ix Q IHQ]; [constructor|]. constructor; [apply item_extend; [exact Te|intros ->; apply NE; left; reflexivity|exact Ix]|].
      apply IHQ. intros X; apply NE; right; exact X. }
    split; [|split; [|split; [|split]]].
    + split; [|split; [exact ND|intros z Z; specialize (B z Z); lia]]. apply Forall2_app; [apply FR; [tauto|exact F1]|].
      constructor; [|apply FR; [tauto|exact F3]]. destruct I3 as (Re & T3 & P3). destruct x3 as [t3 a3 c3]. cbn [tag children extend] in *.
      destruct (rep_inv _ _ _ _ _ Re) as (Te' & Ae & Ke). split; [|split; [exact T3|apply Forall_app; split; assumption]].
      constructor; [rewrite (proj1 (extend_same h e (kids h n) e)); exact Te'|rewrite (proj2 (extend_same h e (kids h n) e)); exact Ae|].
      rewrite extend_at by (apply LR, in_app_iff; right; left; reflexivity).
      apply Forall2_app; apply reps_plain_extend; assumption.
    + intros m M. apply obj_extend_other. lia.
    + intros m M. apply obj_extend_other. intros ->. contradiction.
    + apply extend_length.
    + intros m. unfold htag. apply extend_same.
  - destruct K as [-> ->]. eexists _, _. split; [reflexivity|]. split; [|repeat split].
    split; [|split].
    + apply Forall2_app; [exact F|]. constructor; [|constructor]. split; [exact Rx|]. split; [reflexivity|exact P].
    + apply NoDup_rev in ND. rewrite <- (rev_involutive (result ++ [n])). apply NoDup_rev. rewrite rev_app_distr. cbn.
      constructor; [|exact ND]. rewrite <- in_rev. intros Z. apply B in Z. lia.
    + intros z Z. apply in_app_iff in Z as [Z|[<-|[]]]; [apply B in Z; lia|lia].
Qed.

(** a walk over an element without test suites changes nothing *)
Lemma walk_skips cs : Forall (fun x => forall h lo n, own h x lo n -> plain x -> exists f, forall result stack fuel,
     visit h result n = (h, result) /\ walk (f + fuel) ((n, 0) :: stack) h result = walk fuel stack h result) cs ->
  forall h p done ids lo n, kids h p = done ++ ids -> owns h cs ids lo n -> Forall plain cs ->
  exists f, forall result stack fuel, walk (f + fuel) ((p, length done) :: stack) h result = walk fuel stack h result.
Proof.
  induction 1 as [|c cs C _ IH]; intros h p done ids lo n K O P.
  - destruct ids as [|k ids]; [|destruct O]. rewrite app_nil_r in K. exists 1. intros result stack fuel. cbn [walk plus].
    rewrite K, (proj2 (nth_error_None done (length done))) by lia. reflexivity.
  - destruct ids as [|k ids]; [destruct O|]. destruct O as [O1 O2]. inversion P as [|? ? Pc Pcs]; subst.
    destruct (C h lo k O1 Pc) as (f1 & W1).
    destruct (IH h p (done ++ [k]) ids (S k) n) as (f2 & W2); [rewrite <- app_assoc; exact K|exact O2|exact Pcs|].
    exists (S (f1 + f2)). intros result stack fuel. cbn [walk plus]. rewrite K, nth_error_app2, Nat.sub_diag by lia. cbn [nth_error].
    destruct (W1 result ((p, S (length done)) :: stack) (f2 + fuel)) as [V W]. rewrite V. rewrite <- Nat.add_assoc, W. rewrite app_length in W2. cbn [List.length] in W2.
    replace (S (length done)) with (length done + 1) by lia. apply W2.
Qed.
Lemma walk_skip x : forall h lo n, own h x lo n -> plain x -> exists f, forall result stack fuel,
  visit h result n = (h, result) /\ walk (f + fuel) ((n, 0) :: stack) h result = walk fuel stack h result.
Proof.
  induction x as [t a cs IH] using xml_ind2. intros h lo n O P. apply own_eq in O as (T & A & O). apply plain_kids in P as [P1 P2].
  destruct (walk_skips cs IH h n [] (kids h n) lo n eq_refl O P2) as (f & W). exists f. intros result stack fuel. split; [|apply W].
  unfold visit, htag. rewrite T. destruct (String.eqb_spec t "testsuite"); [contradiction|reflexivity].
Qed.

(** the suites of x have no suites in them *)
Definition flat (x : xml) : Prop := forall s, In s (iter "testsuite" x) -> Forall plain (children s).
Lemma flat_kids t a cs : flat (Elem t a cs) -> t <> "testsuite" -> Forall flat cs.
Proof.
  intros F _. apply Forall_forall. intros c C s S. apply F. cbn [iter]. apply in_app_iff. right. apply in_flat_map. exists c. auto.
Qed.

Definition processes (x : xml) : Prop := forall h lo n R result, own h x lo n -> flat x -> items h R result lo -> n < length h ->
  exists f h' r', (forall fuel stack, let '(h1, r1) := visit h result n in walk (f + fuel) ((n, 0) :: stack) h1 r1 = walk fuel stack h' r') /\
    items h' (fold_left add_suite (iter "testsuite" x) R) r' (S n) /\
    (forall m, n < m -> obj h' m = obj h m) /\ (forall m, htag h m <> "testsuite" -> obj h' m = obj h m) /\ length h' = length h /\
    (forall m, htag h' m = htag h m).
Lemma items_le h R result lo lo' : items h R result lo -> lo <= lo' -> items h R result lo'.
Proof. intros (A & B & C) L. split; [exact A|]. split; [exact B|]. intros z Z. specialize (C z Z). lia. Qed.
Lemma process_kids cs : Forall processes cs -> forall h p done ids lo n R result,
  kids h p = done ++ ids -> htag h p <> "testsuite" -> owns h cs ids lo n -> Forall flat cs -> items h R result lo -> n <= length h ->
  exists f h' r', (forall fuel stack, walk (f + fuel) ((p, length done) :: stack) h result = walk fuel stack h' r') /\
    items h' (fold_left add_suite (flat_map (iter "testsuite") cs) R) r' n /\
    (forall m, n <= m -> obj h' m = obj h m) /\ (forall m, htag h m <> "testsuite" -> obj h' m = obj h m) /\ length h' = length h /\
    (forall m, htag h' m = htag h m).
Proof.
  induction 1 as [|c cs C _ IH]; intros h p done ids lo n R result K Tp O FL IT LN.
  - destruct ids as [|k ids]; [|destruct O]. cbn in O. subst n. rewrite app_nil_r in K. exists 1, h, result.
    split; [|split; [exact IT|repeat split]]. intros fuel stack. cbn [walk plus].
    rewrite K, (proj2 (nth_error_None done (length done))) by lia. reflexivity.
  - destruct ids as [|k ids]; [destruct O|]. destruct O as [O1 O2]. inversion FL as [|? ? Fc Fcs]; subst.
    pose proof (owns_le _ _ _ _ _ O2) as KL.
    destruct (C h lo k R result O1 Fc IT) as (f1 & h1 & r1 & W1 & I1 & G1 & H1 & L1 & T1); [lia|].
    assert (P1 : obj h1 p = obj h p) by (apply H1, Tp).
    destruct (IH h1 p (done ++ [k]) ids (S k) n (fold_left add_suite (iter "testsuite" c) R) r1) as (f2 & h2 & r2 & W2 & I2 & G2 & H2 & L2 & T2).
    { unfold kids. rewrite P1, <- app_assoc. exact K. } { rewrite T1. exact Tp. }
    { apply (owns_frame h); [intros m M; apply G1; lia|exact O2]. } { exact Fcs. } { exact I1. } { lia. }
    exists (S (f1 + f2)), h2, r2. split.
    { intros fuel stack. cbn [walk plus]. rewrite K, nth_error_app2, Nat.sub_diag by lia. cbn [nth_error].
      specialize (W1 (f2 + fuel) ((p, S (length done)) :: stack)). destruct (visit h result k) as [hv rv].
      rewrite <- Nat.add_assoc, W1. rewrite app_length in W2. cbn [List.length] in W2.
      replace (S (length done)) with (length done + 1) by lia. apply W2. }
    cbn [flat_map]. rewrite fold_left_app. split; [exact I2|].
    split; [intros m M; rewrite G2, G1 by lia; reflexivity|].
    split; [intros m M; rewrite H2, H1 by (rewrite ?T1; exact M); reflexivity|]. split; [congruence|]. intros m. rewrite T2, T1. reflexivity.
Qed.
Lemma process x : processes x.
Proof.
  induction x as [t a cs IH] using xml_ind2. intros h lo n R result O FL IT LN. pose proof (own_le _ _ _ _ O) as LE.
  pose proof (own_rep _ _ _ _ O) as RP. pose proof O as O'. apply own_eq in O' as (T & A & OK).
  destruct (string_dec t "testsuite") as [->|NT].
  - assert (P : Forall plain cs) by (apply (FL (Elem "testsuite" a cs)); cbn [iter]; rewrite String.eqb_refl; left; reflexivity).
    destruct (visit_suite h R result lo (Elem "testsuite" a cs) n IT LE LN) as (h1 & r1 & V & I1 & G1 & H1 & L1 & T1);
      [intros z Z; destruct IT as (_ & _ & B); specialize (B z Z); lia|exact RP|reflexivity|exact P|].
    assert (SK : iter "testsuite" (Elem "testsuite" a cs) = [Elem "testsuite" a cs]).
    { cbn [iter]. rewrite String.eqb_refl. cbn [app]. f_equal. clear - P. induction P as [|c cs C P IHP]; [reflexivity|]. cbn [flat_map]. rewrite C. exact IHP. }
    assert (O1 : owns h1 cs (kids h1 n) lo n) by (unfold kids; rewrite (G1 n LE); apply (owns_frame h); [intros m M; apply G1; lia|exact OK]).
    destruct (walk_skips cs (proj2 (Forall_forall _ _) (fun x _ => walk_skip x)) h1 n [] (kids h1 n) lo n eq_refl O1 P) as (f & W).
    exists f, h1, r1. rewrite V, SK. split; [intros fuel stack; apply W|]. cbn [fold_left]. split; [exact I1|].
    split; [intros m M; apply G1; lia|]. split; [exact H1|]. split; assumption.
  - assert (V : visit h result n = (h, result)) by (unfold visit, htag; rewrite T; destruct (String.eqb_spec t "testsuite"); [contradiction|reflexivity]).
    destruct (process_kids cs IH h n [] (kids h n) lo n R result eq_refl) as (f & h1 & r1 & W & I1 & G1 & H1 & L1 & T1);
      [unfold htag; rewrite T; exact NT|exact OK|exact (flat_kids _ _ _ FL NT)|exact IT|lia|].
    exists f, h1, r1. rewrite V. split; [exact W|]. cbn [iter]. destruct (String.eqb_spec t "testsuite"); [contradiction|]. cbn [app].
    split; [apply (items_le _ _ _ _ _ I1); lia|]. split; [intros m M; apply G1; lia|]. split; [exact H1|]. split; assumption.
Qed.

Lemma process_files files : Forall flat files -> forall h roots lo hi R result, owns h files roots lo hi -> items h R result lo -> hi <= length h ->
  exists f h' r', walk_files f roots h result = Some (h', r') /\
    Forall2 (item h') (fold_left (fun result tree => fold_left add_suite (iter "testsuite" tree) result) files R) r'.
Proof.
  induction 1 as [|x files FX _ IH]; intros h [|n roots] lo hi R result O IT L; cbn [owns] in O; try tauto.
  - exists 0, h, result. split; [reflexivity|]. apply IT.
  - destruct O as [O1 O2]. pose proof (owns_le _ _ _ _ _ O2) as LE.
    destruct (process x h lo n R result O1 FX IT) as (f1 & h1 & r1 & W & I1 & G1 & _ & L1 & _); [lia|].
    destruct (IH h1 roots (S n) hi (fold_left add_suite (iter "testsuite" x) R) r1) as (f2 & h2 & r2 & W2 & F2);
      [apply (owns_frame h); [intros m M; apply G1; lia|exact O2]|exact I1|lia|].
    exists (f1 + 1 + f2), h2, r2. split; [|exact F2]. cbn [walk_files]. specialize (W 1 []).
    destruct (visit h result n) as [hv rv]. rewrite (walk_more _ _ _ _ (h1, r1)) by (rewrite W; reflexivity).
    rewrite Nat.add_comm. apply walk_files_more, W2.
Qed.

(** ** the report *)
Lemma F2_app_flat {T U V} (f : T -> list U) (g : V -> option (list nat)) (P : T -> V -> Prop) (Q : U -> nat -> Prop) xs ns L :
  (forall x n l, P x n -> g n = Some l -> Forall2 Q (f x) l) -> Forall2 P xs ns -> concat_opt g ns = Some L -> Forall2 Q (flat_map f xs) L.
Proof.
  intros H F. revert L. induction F as [|x n xs ns Pn F IH]; intros L E; cbn in E; [injection E as <-; constructor|].
  destruct (g n) as [l|] eqn:G; [|discriminate]. fold (concat_opt g ns) in E. destruct (concat_opt g ns) as [L'|]; [|discriminate]. injection E as <-.
  cbn [flat_map]. apply Forall2_app; [exact (H x n l Pn G)|apply IH; reflexivity].
Qed.
Lemma F2_len {T U} (P : T -> U -> Prop) l l' : Forall2 P l l' -> length l = length l'.
Proof. induction 1; cbn; congruence. Qed.
Lemma hiter_rep fuel h t : forall x n l, rep h x n -> hiter fuel h t n = Some l -> Forall2 (rep h) (iter t x) l.
Proof.
  induction fuel as [|fuel IH]; intros x n l R E; [discriminate|]. destruct x as [t' a cs]. destruct (rep_inv _ _ _ _ _ R) as (T & A & K).
  cbn [hiter] in E. destruct (concat_opt (hiter fuel h t) (kids h n)) as [L|] eqn:C; [|discriminate]. injection E as <-. cbn [iter].
  apply Forall2_app; [unfold htag; rewrite T; destruct (String.eqb t' t); [constructor; [exact R|constructor]|constructor]|].
  exact (F2_app_flat (iter t) (hiter fuel h t) (rep h) (rep h) cs (kids h n) L (fun x n l => IH x n l) K C).
Qed.
Lemma report_rep fuel set_rc h R result r : Forall2 (rep h) R result -> hreport fuel set_rc h result = Some r ->
  forall name, let e := Elem "testsuites" [("name", name)] R in
  lines r = report_lines e /\ suite_total r = List.length (iter "testsuite" e) /\
  case_total r = List.length (flat_map (iter "testcase") (iter "testsuite" e)).
Proof.
  intros F E name e. unfold hreport, hsuites, hcases in E. destruct (concat_opt (hiter fuel h "testsuite") result) as [ss|] eqn:S; [|discriminate].
  assert (FS : Forall2 (rep h) (flat_map (iter "testsuite") R) ss)
    by exact (F2_app_flat _ _ _ _ _ _ _ (fun x n l => hiter_rep fuel h "testsuite" x n l) F S).
  unfold report_lines. subst e. change (iter "testsuite" (Elem "testsuites" [("name", name)] R)) with (flat_map (iter "testsuite") R).
  match type of E with match ?X with _ => _ end = _ => destruct X as [cases|] eqn:C; [|discriminate] end.
  destruct (hlines fuel h cases) as [ls|] eqn:L; [|discriminate]. injection E as <-. cbn [lines suite_total case_total].
  pose proof (F2_len _ _ _ FS) as LEN. split; [|split; [symmetry; exact LEN|]]; clear S F LEN.
  - revert cases ls C L. induction FS as [|s n SS ss Rs FS IH]; intros cases ls C L.
    { cbn in C. injection C as <-. cbn in L. injection L as <-. reflexivity. }
    cbn in C. destruct (hiter fuel h "testcase" n) as [tcs|] eqn:HT; [|discriminate]. cbn in C.
    fold (concat_opt (fun s => option_map (map (pair s)) (hiter fuel h "testcase" s)) ss) in C.
    destruct (concat_opt _ ss) as [rest|] eqn:CR; [|discriminate]. injection C as <-. cbn [flat_map].
    assert (SP : forall a b L, hlines fuel h (a ++ b) = Some L -> exists x y, hlines fuel h a = Some x /\ hlines fuel h b = Some y /\ L = x ++ y).
    { clear. unfold hlines. induction a as [|[u c] a IH]; intros b L E; [exists [], L; auto|]. cbn [app] in E. unfold concat_opt in *. cbn [fold_right] in *.
      destruct (option_map _ (hiter fuel h "failure" c)) as [p|]; [|discriminate].
      destruct (fold_right _ _ (a ++ b)) as [q|] eqn:Q; [|discriminate]. destruct (IH b q Q) as (x & y & -> & -> & ->). injection E as <-.
      exists (p ++ x), y. rewrite app_assoc. auto. }
    destruct (SP _ _ _ L) as (x & y & Lx & Ly & ->). f_equal; [|exact (IH rest y eq_refl Ly)].
    pose proof (hiter_rep _ _ _ _ _ _ Rs HT) as FT. clear - FT Lx Rs. revert x Lx. induction FT as [|tc k TC ks Rk FT IHT]; intros x Lx.
    + cbn in Lx. injection Lx as <-. reflexivity.
    + cbn [map] in Lx. destruct (hiter fuel h "failure" k) as [fs|] eqn:HF; [|unfold hlines, concat_opt in Lx; cbn [fold_right] in Lx; rewrite HF in Lx; discriminate].
      unfold hlines, concat_opt in Lx. cbn [fold_right] in Lx. rewrite HF in Lx. cbn [option_map] in Lx.
      destruct (fold_right _ _ (map (pair n) ks)) as [q|] eqn:Q; [|discriminate]. injection Lx as <-. cbn [flat_map].
      f_equal; [|exact (IHT q Q)]. rewrite !(rep_get h s n _ Rs), !(rep_get h tc k _ Rk).
      pose proof (F2_len _ _ _ (hiter_rep _ _ _ _ _ _ Rk HF)) as LL. revert LL. generalize (iter "failure" tc) as l1. clear.
      intros l1. revert fs. induction l1 as [|y l1 IH]; intros [|z fs] E; try discriminate; [reflexivity|]. cbn [map]. f_equal. apply IH. injection E as E; exact E.
  - clear L. revert cases C. induction FS as [|s n SS ss Rs FS IH]; intros cases C; [cbn in C; injection C as <-; reflexivity|].
    cbn in C. destruct (hiter fuel h "testcase" n) as [tcs|] eqn:HT; [|discriminate]. cbn in C.
    fold (concat_opt (fun s => option_map (map (pair s)) (hiter fuel h "testcase" s)) ss) in C.
    destruct (concat_opt _ ss) as [rest|] eqn:CR; [|discriminate]. injection C as <-. cbn [flat_map].
    rewrite !app_length, map_length, (IH rest eq_refl), (F2_len _ _ _ (hiter_rep _ _ _ _ _ _ Rs HT)). reflexivity.
Qed.

Lemma case_total_eq e : testcase_count e = List.length (flat_map (iter "testcase") (iter "testsuite" e)).
Proof.
  unfold testcase_count. generalize (iter "testsuite" e) as l. intros l.
  assert (A : forall (q : list xml) n, fold_left (fun n _ => n + 1) q n = n + length q).
  { induction q as [|x q IH]; intros n; cbn [fold_left List.length]; [lia|]. rewrite IH. lia. }
  assert (B : forall n, fold_left (fun n ts => fold_left (fun n _ => n + 1) (iter "testcase" ts) n) l n = n + length (flat_map (iter "testcase") l)).
  { induction l as [|x l IH]; intros n; cbn [fold_left flat_map]; [cbn; lia|]. rewrite IH, A, app_length. lia. }
  apply (B 0).
Qed.

Lemma same_report files name set_rc h r f d ids : load_all files [] = (d, ids) -> walk_files f ids d [] = Some (h, r) ->
  Forall2 (rep h) (combine_files files) r -> let e := result_element name files in
  exists n, forall fuel, n <= fuel ->
  combine fuel set_rc files = Some (Report (report_lines e) (testsuite_count e) (testcase_count e) (return_code set_rc e)).
Proof.
  intros EL W FR e. destruct (combine_ok files set_rc) as (n0 & r0 & E & RC & _).
  assert (Q : hreport (f + n0) set_rc h r = Some r0).
  { specialize (E (f + n0) (Nat.le_add_l _ _)). unfold combine in E. rewrite EL, (walk_files_more _ _ _ _ _ W) in E. exact E. }
  destruct (report_rep _ _ _ _ _ _ FR Q name) as (Q1 & Q2 & Q3). exists n0. intros fuel L. rewrite (E fuel L). f_equal.
  destruct r0 as [ls ns nc c]. cbn [lines suite_total case_total code] in *. unfold return_code. rewrite rc_lines, case_total_eq. unfold testsuite_count.
  subst e. unfold result_element. rewrite <- Q1, <- Q2, <- Q3, RC. reflexivity.
Qed.

Lemma agree_thm files name set_rc : not_nested files -> let e := result_element name files in
  exists n, forall fuel, n <= fuel ->
  combine fuel set_rc files = Some (Report (report_lines e) (testsuite_count e) (testcase_count e) (return_code set_rc e)).
Proof.
  intros NN.
  assert (FL : Forall flat files).
  { apply Forall_forall. intros f F s S. apply Forall_forall. intros c C. apply (NN s); [apply in_flat_map; exists f; auto|exact C]. }
  destruct (load_all_own files (proj2 (Forall_forall _ _) (fun x _ => load_own_ok x)) []) as (d & ids & EL & O). cbn [app] in EL, O.
  destruct (process_files files FL d ids 0 (length d) [] [] O) as (f & h & r & W & F); [split; [constructor|split; [constructor|intros z []]]|lia|].
  fold (combine_files files) in F.
  assert (FR : Forall2 (rep h) (combine_files files) r) by (clear - F; induction F; constructor; [apply H|assumption]).
  exact (same_report files name set_rc h r f d ids EL W FR).
Qed.

(** ** suites inside suites, all of different names or packages: nothing is changed *)
Lemma find_absent h R result x n : Forall2 (rep h) R result -> rep h x n -> ~ In (key x) (map key R) -> find_existing h result n = None.
Proof.
  intros F Rx. induction F as [|y z R result Ry F IH]; intros NI; [reflexivity|]. cbn [find_existing map In] in *.
  rewrite !(rep_get h y z _ Ry), !(rep_get h x n _ Rx).
  destruct (opt_eqb (get y "name") (get x "name")) eqn:A; [|cbn [andb]; apply IH; tauto].
  destruct (opt_eqb (get y "package") (get x "package")) eqn:B; [|cbn [andb]; apply IH; tauto].
  exfalso. apply NI. left. unfold key. apply opt_eqb_eq in A, B. congruence.
Qed.
Definition passes (x : xml) : Prop := forall h n R result, rep h x n -> Forall2 (rep h) R result -> NoDup (map key (R ++ iter "testsuite" x)) ->
  exists f r', (forall fuel stack, let '(h1, r1) := visit h result n in walk (f + fuel) ((n, 0) :: stack) h1 r1 = walk fuel stack h r') /\
    Forall2 (rep h) (R ++ iter "testsuite" x) r'.
Lemma NoDup_pre {T} (a b : list T) : NoDup (a ++ b) -> NoDup a.
Proof. induction a as [|x a IH]; intros N; [constructor|]. cbn in N. inversion N; subst. constructor; [rewrite in_app_iff in *; tauto|auto]. Qed.
Lemma pass_kids cs : Forall passes cs -> forall h p done ids R result, kids h p = done ++ ids -> Forall2 (rep h) cs ids ->
  Forall2 (rep h) R result -> NoDup (map key (R ++ flat_map (iter "testsuite") cs)) ->
  exists f r', (forall fuel stack, walk (f + fuel) ((p, length done) :: stack) h result = walk fuel stack h r') /\
    Forall2 (rep h) (R ++ flat_map (iter "testsuite") cs) r'.
Proof.
  induction 1 as [|c cs C _ IH]; intros h p done ids R result K F FR ND.
  - inversion F; subst. rewrite app_nil_r in K. exists 1, result. cbn [flat_map]. rewrite app_nil_r. split; [|exact FR].
    intros fuel stack. cbn [walk plus]. rewrite K, (proj2 (nth_error_None done (length done))) by lia. reflexivity.
  - inversion F as [|? k ? ids' Rk F']; subst. cbn [flat_map] in *. rewrite app_assoc in *.
    destruct (C h k R result Rk FR) as (f1 & r1 & W1 & F1); [rewrite map_app in ND; exact (NoDup_pre _ _ ND)|].
    destruct (IH h p (done ++ [k]) ids' _ r1 ltac:(rewrite <- app_assoc; exact K) F' F1 ND) as (f2 & r2 & W2 & F2).
    exists (S (f1 + f2)), r2. split; [|exact F2]. intros fuel stack. cbn [walk plus]. rewrite K, nth_error_app2, Nat.sub_diag by lia. cbn [nth_error].
    specialize (W1 (f2 + fuel) ((p, S (length done)) :: stack)). destruct (visit h result k) as [hv rv].
    rewrite <- Nat.add_assoc, W1. rewrite app_length in W2. cbn [List.length] in W2.
    replace (S (length done)) with (length done + 1) by lia. apply W2.
Qed.
Lemma pass x : passes x.
Proof.
  induction x as [t a cs IH] using xml_ind2. intros h n R result Rx FR ND. destruct (rep_inv _ _ _ _ _ Rx) as (T & A & K).
  cbn [iter] in *. unfold visit, htag. rewrite T. destruct (String.eqb t "testsuite") eqn:TS.
  - cbn [app] in *. rewrite (find_absent h R result (Elem t a cs) n FR Rx).
    2:{ intros I. rewrite map_app in ND. cbn [map] in ND. apply NoDup_remove_2 in ND. apply ND, in_app_iff. left; exact I. }
    replace (R ++ Elem t a cs :: flat_map (iter "testsuite") cs) with ((R ++ [Elem t a cs]) ++ flat_map (iter "testsuite") cs) in * by (rewrite <- app_assoc; reflexivity).
    apply (pass_kids cs IH h n [] (kids h n) (R ++ [Elem t a cs]) (result ++ [n]) eq_refl K); [|exact ND].
    apply Forall2_app; [exact FR|constructor; [exact Rx|constructor]].
  - cbn [app] in *. exact (pass_kids cs IH h n [] (kids h n) R result eq_refl K FR ND).
Qed.
Lemma pass_files files : forall h roots R result, Forall2 (rep h) files roots -> Forall2 (rep h) R result ->
  NoDup (map key (R ++ suites files)) -> exists f r', walk_files f roots h result = Some (h, r') /\ Forall2 (rep h) (R ++ suites files) r'.
Proof.
  unfold suites. induction files as [|x files IH]; intros h roots R result F FR ND; inversion F as [|? n ? roots' Rx F']; subst; cbn [flat_map] in *.
  - exists 0, result. rewrite app_nil_r. split; [reflexivity|exact FR].
  - rewrite app_assoc in *. destruct (pass x h n R result Rx FR) as (f1 & r1 & W & F1); [rewrite map_app in ND; exact (NoDup_pre _ _ ND)|].
    destruct (IH h roots' _ r1 F' F1 ND) as (f2 & r2 & W2 & F2). exists (f1 + 1 + f2), r2. split; [|exact F2].
    cbn [walk_files]. specialize (W 1 []). destruct (visit h result n) as [hv rv]. rewrite (walk_more _ _ _ _ (h, r1)) by (rewrite W; reflexivity).
    rewrite Nat.add_comm. apply walk_files_more, W2.
Qed.
Lemma distinct_thm files name set_rc : NoDup (map key (suites files)) -> let e := result_element name files in
  exists n, forall fuel, n <= fuel ->
  combine fuel set_rc files = Some (Report (report_lines e) (testsuite_count e) (testcase_count e) (return_code set_rc e)).
Proof.
  intros ND. destruct (parsed files) as (h & roots & EL & T).
  destruct (pass_files files h roots [] [] (t_rep _ _ _ _ T) (Forall2_nil _) ND) as (f & r & W & F). cbn [app] in F.
  rewrite <- (distinct_result files ND) in F. exact (same_report files name set_rc h r f h roots EL W F).
Qed.
