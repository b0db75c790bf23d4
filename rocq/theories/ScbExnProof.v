(** ScbExnProof.v -- lemmas for C124. *)
From Verif Require Import Base ScoreboardModel ScoreboardSpec ScoreboardProof ScbCmpModel ScbCmpSpec ScbCmpProof ScbExnModel ScbExnSpec.
Local Open Scope list_scope.

Section Proofs.
Context {T : Type} (ty : T -> nat) (py_eq py_ne : T -> T -> res bool) (str : T -> res string)
        (report : T -> T -> res unit) (report_unexpected : T -> res unit).
Notation run := (x_run T ty py_eq py_ne str report report_unexpected).
Notation recv := (x_receive T ty py_eq py_ne str report report_unexpected).
Notation cmp := (x_compare T ty py_ne str report).
Notation find := (x_find T py_eq).
Notation agr := (agrees T ty py_ne str).
Notation rais := (compare_raises T ty py_ne str).
Notation allag := (all_agree T ty py_ne str).

Lemma xrun_snoc src imm strict depth h e : run src imm strict depth (h ++ [e]) =
  match e with Exp t => x_expect T (run src imm strict depth h) t
             | Got t => recv src imm strict depth (run src imm strict depth h) t end.
Proof. unfold x_run. rewrite fold_left_app. reflexivity. Qed.

Lemma cmp_cases imm strict n t e :
  (agr strict t e /\ cmp imm strict n t e = (n, Ok tt))
  \/ (exists x, rais strict t e x /\ cmp imm strict n t e = (n, Err x))
  \/ (~ agr strict t e /\ (forall x, ~ rais strict t e x) /\ fst (cmp imm strict n t e) = S n).
Proof.
  unfold x_compare, agrees, compare_raises. destruct strict; cbn [andb].
  - destruct (Nat.eqb_spec (ty t) (ty e)) as [E|E]; cbn [negb].
    + destruct (py_ne t e) as [[|]|x]; [right; right|left; auto|right; left; eauto].
      split; [intros (_ & C); discriminate|]. split; [intros x (_ & C); discriminate|reflexivity].
    + right; right. split; [tauto|]. split; [intros x (C & _); tauto|reflexivity].
  - destruct (str t) as [a|x]; cbn [rbind]; [|right; left; exists x; auto].
    destruct (str e) as [b|x]; cbn [rbind]; [|right; left; exists x; eauto 6].
    destruct (String.eqb_spec a b) as [<-|N]; cbn [negb]; [left; eauto|].
    right; right. split; [intros (c & [= <-] & [= <-]); congruence|].
    split; [intros x [C|(_ & C)]; discriminate|reflexivity].
Qed.

Lemma find_bound n : forall l t i, find n l t = Ok (Some i) -> i < length l.
Proof.
  induction n as [|n IH]; intros [|e l] t i; cbn; try discriminate.
  destruct (py_eq e t) as [[|]|x]; cbn [rbind]; try discriminate.
  - intros [= <-]. lia.
  - destruct (find n l t) as [[j|]|x] eqn:F; cbn; try discriminate. intros [= <-]. apply IH in F. lia.
Qed.
Lemma pop_perm (l : list T) i e r : pop T l i = Some (e, r) -> Permutation (e :: r) l.
Proof.
  unfold pop. destruct (nth_error l i) as [x|] eqn:N; [|discriminate]. intros H.
  assert (E : x = e /\ firstn i l ++ skipn (S i) l = r) by (split; congruence). destruct E as (<- & <-). clear H.
  apply nth_error_split in N. destruct N as (a & b & -> & <-).
  rewrite firstn_app, Nat.sub_diag, firstn_O, app_nil_r, firstn_all.
  rewrite skipn_app, skipn_all2 by lia. replace (S (length a) - length a) with 1 by lia. cbn.
  apply Permutation_middle.
Qed.
Lemma pop_some (l : list T) i : i < length l -> exists e r, pop T l i = Some (e, r).
Proof.
  intros H. unfold pop. destruct (nth_error l i) eqn:N; [eauto|]. apply nth_error_None in N. lia.
Qed.

(** one reception of a live monitor with a non-empty list *)
Lemma recv_list imm strict depth s t : x_dead s = None -> x_out s <> [] ->
  (exists e, find (Z.to_nat (depth + 1)) (x_out s) t = Err e
          /\ recv XList imm strict depth s t = Xsb (x_out s) (x_errors s) (x_seen s) (Some e))
  \/ (exists e r, Permutation (e :: r) (x_out s)
          /\ recv XList imm strict depth s t
             = Xsb r (fst (cmp imm strict (x_errors s) t e)) (x_seen s) (died (snd (cmp imm strict (x_errors s) t e)))).
Proof.
  intros D N. unfold x_receive. rewrite D. destruct (x_out s) as [|h l] eqn:O; [congruence|].
  destruct (find (Z.to_nat (depth + 1)) (h :: l) t) as [o|e] eqn:F; [|left; eauto]. right.
  destruct (pop_some (h :: l) (match o with Some i => i | None => 0 end)) as (e & r & P).
  { destruct o as [i|]; [eapply find_bound; eassumption|cbn; lia]. }
  exists e, r. split; [eapply pop_perm; eassumption|]. rewrite P. destruct (cmp imm strict (x_errors s) t e). reflexivity.
Qed.
Lemma recv_dead src imm strict depth s t x : x_dead s = Some x -> recv src imm strict depth s t = s.
Proof. intros D. unfold x_receive. now rewrite D. Qed.

Lemma cmp_mono imm strict n t e : n <= fst (cmp imm strict n t e).
Proof. destruct (cmp_cases imm strict n t e) as [(_ & ->)|[(x & _ & ->)|(_ & _ & ->)]]; cbn; lia. Qed.

Lemma recv_mono src imm strict depth s t : x_errors s <= x_errors (recv src imm strict depth s t).
Proof.
  destruct (x_dead s) as [x|] eqn:D; [rewrite (recv_dead _ _ _ _ _ _ _ D); lia|]. destruct src as [|f].
  - destruct (x_out s) as [|h l] eqn:O.
    + unfold x_receive. rewrite D, O. cbn. lia.
    + destruct (recv_list imm strict depth s t D) as [(e & _ & ->)|(e & r & _ & ->)]; [congruence| |]; cbn; [lia|].
      apply cmp_mono.
  - unfold x_receive. rewrite D. destruct (f (x_seen s) t) as [e|x]; [|cbn; lia].
    assert (M := cmp_mono imm strict (x_errors s) t e). destruct (cmp imm strict (x_errors s) t e). exact M.
Qed.

Lemma allag_nil strict : allag strict [] [] [].
Proof. exists []. cbn. auto. Qed.
Lemma allag_exp strict g e l t : allag strict g e l -> allag strict g (e ++ [t]) (l ++ [t]).
Proof.
  intros (p & A & B & C). exists p. split; [exact A|]. split; [|exact C]. rewrite app_assoc. now apply Permutation_app_tail.
Qed.
Lemma allag_got strict g e l t x r :
  allag strict g e l -> Permutation (x :: r) l -> agr strict t x -> allag strict (g ++ [t]) e r.
Proof.
  intros (p & A & B & C) P G. exists (p ++ [(t, x)]). rewrite !map_app, A. cbn. split; [reflexivity|].
  split; [|apply Forall_app; auto]. rewrite <- app_assoc. cbn [app].
  eapply Permutation_trans; [|exact B]. now apply Permutation_app_head.
Qed.
Lemma allag_perm strict g e l l' : allag strict g e l -> Permutation l' l -> allag strict g e l'.
Proof.
  intros (p & A & B & C) P. exists p. split; [exact A|]. split; [|exact C].
  eapply Permutation_trans; [|exact B]. now apply Permutation_app_head.
Qed.

(** what the state says about the history when no error has been counted *)
Lemma list_inv imm strict depth hist : let s := run XList imm strict depth hist in
  x_errors s = 0 ->
  (x_dead s = None /\ allag strict (gots hist) (exps hist) (x_out s))
  \/ exists e h1 t h2, x_dead s = Some e /\ hist = h1 ++ Got t :: h2
     /\ ((exists x left, allag strict (gots h1) (exps h1) (x :: left) /\ rais strict t x e
                      /\ x_out s = left ++ exps h2)
         \/ (exists left, allag strict (gots h1) (exps h1) left /\ left <> [] /\ x_out s = left ++ exps h2)).
Proof.
  cbn zeta. induction hist as [|ev hist IH] using rev_ind; [left; split; [reflexivity|apply allag_nil]|].
  rewrite xrun_snoc, gots_app, exps_app. set (s := run XList imm strict depth hist) in *.
  destruct ev as [t|t]; cbn [gots exps flat_map app].
  - rewrite app_nil_r. intros Z0. destruct (IH Z0) as [(D & A)|(e & h1 & t' & h2 & D & -> & A)].
    + left. split; [exact D|]. now apply allag_exp.
    + right. exists e, h1, t', (h2 ++ [Exp t]). split; [exact D|]. split; [rewrite <- app_assoc; reflexivity|].
      rewrite exps_app. cbn [exps flat_map app]. destruct A as [(x & l & A1 & A2 & A3)|(l & A1 & A2 & A3)].
      * left. exists x, l. split; [exact A1|]. split; [exact A2|]. cbn. rewrite A3. now rewrite <- app_assoc.
      * right. exists l. split; [exact A1|]. split; [exact A2|]. cbn. rewrite A3. now rewrite <- app_assoc.
  - rewrite app_nil_r. intros Z0. assert (M := recv_mono XList imm strict depth s t).
    destruct IH as [(D & A)|(e & h1 & t' & h2 & D & E & A)]; [lia| |].
    + destruct (x_out s) as [|h l] eqn:O.
      { exfalso. unfold x_receive in Z0. rewrite D, O in Z0. cbn in Z0. discriminate. }
      destruct (recv_list imm strict depth s t D) as [(e & F & R)|(x & r & P & R)]; [congruence| |].
      * right. exists e, hist, t, []. rewrite R. split; [reflexivity|]. split; [reflexivity|]. right.
        exists (x_out s). split; [rewrite O; exact A|]. split; [congruence|]. cbn. now rewrite app_nil_r.
      * rewrite R in Z0 |- *. cbn [x_errors x_dead x_out] in *. rewrite O in P.
        destruct (cmp_cases imm strict (x_errors s) t x) as [(G & E)|[(e & G & E)|(_ & _ & E)]].
        -- left. rewrite E. split; [reflexivity|]. eapply allag_got; eassumption.
        -- right. exists e, hist, t, []. rewrite E. split; [reflexivity|]. split; [reflexivity|]. left.
           exists x, r. split; [eapply allag_perm; eassumption|]. split; [exact G|]. cbn. now rewrite app_nil_r.
        -- rewrite E in Z0. discriminate.
    + right. rewrite (recv_dead _ _ _ _ _ _ _ D). exists e, h1, t', (h2 ++ [Got t]). split; [exact D|].
      split; [rewrite E, <- app_assoc; reflexivity|]. rewrite exps_app. cbn [exps flat_map app]. now rewrite app_nil_r.
Qed.

Lemma result_ok src s : x_result T src s = Ok tt ->
  x_errors s = 0 /\ (match src with XList => x_out s = [] | XFun _ => True end).
Proof.
  unfold x_result. destruct src as [|f].
  - destruct (x_out s); cbn; [|discriminate]. destruct (x_errors s); [auto|discriminate].
  - destruct (x_errors s); [auto|discriminate].
Qed.

Lemma list_verdict imm strict depth hist : let s := run XList imm strict depth hist in
  x_result T XList s = Ok tt ->
  (x_dead s = None /\ allag strict (gots hist) (exps hist) [])
  \/ exists e h1 t h2 x, x_dead s = Some e /\ hist = h1 ++ Got t :: h2 /\ exps h2 = []
       /\ allag strict (gots h1) (exps h1) [x] /\ rais strict t x e.
Proof.
  cbn zeta. intros R. destruct (result_ok _ _ R) as (Z0 & O).
  destruct (list_inv imm strict depth hist Z0) as [(D & A)|(e & h1 & t & h2 & D & E & [(x & l & A1 & A2 & A3)|(l & A1 & A2 & A3)])].
  - left. rewrite O in A. auto.
  - right. rewrite O in A3. symmetry in A3. apply app_eq_nil in A3. destruct A3 as (-> & A3).
    exists e, h1, t, h2, x. auto.
  - rewrite O in A3. symmetry in A3. apply app_eq_nil in A3. tauto.
Qed.

(** an exception of the search leaves the expectation where it is *)
Lemma search_raises imm strict depth h1 t h2 e :
  let s := run XList imm strict depth h1 in
  x_dead s = None -> find (Z.to_nat (depth + 1)) (x_out s) t = Err e ->
  let s' := run XList imm strict depth (h1 ++ Got t :: h2) in
  x_dead s' = Some e /\ x_errors s' = x_errors s /\ x_result T XList s' = Err EAssertion.
Proof.
  cbn zeta. intros D F. set (s := run XList imm strict depth h1) in *.
  assert (N : x_out s <> []). { intros C. rewrite C in F. destruct (Z.to_nat (depth + 1)); discriminate. }
  assert (G : forall h, let s' := run XList imm strict depth (h1 ++ Got t :: h) in
              x_dead s' = Some e /\ x_errors s' = x_errors s /\ x_out s' <> []).
  { induction h as [|ev h IH] using rev_ind; cbn zeta.
    - rewrite xrun_snoc. fold s. destruct (recv_list imm strict depth s t D N) as [(e' & F' & R)|(x & r & P & R)].
      + rewrite R. rewrite F in F'. injection F' as <-. cbn. auto.
      + exfalso. unfold x_receive in R. rewrite D in R. destruct (x_out s) as [|a l]; [congruence|].
        rewrite F in R. assert (C := f_equal (fun z => length (x_out z)) R). cbn in C.
        apply Permutation_length in P. cbn in P. lia.
    - change (h1 ++ Got t :: h ++ [ev]) with (h1 ++ (Got t :: h) ++ [ev]). rewrite app_assoc, xrun_snoc.
      cbn zeta in IH. set (s' := run XList imm strict depth (h1 ++ Got t :: h)) in *. destruct IH as (A & B & C).
      destruct ev as [u|u]; [|rewrite (recv_dead _ _ _ _ _ _ _ A); auto].
      cbn. split; [exact A|]. split; [exact B|]. destruct (x_out s'); discriminate. }
  destruct (G h2) as (A & B & C). split; [exact A|]. split; [exact B|]. unfold x_result.
  destruct (x_out (run XList imm strict depth (h1 ++ Got t :: h2))); [congruence|reflexivity].
Qed.

(** ** callables *)
Lemma fun_inv f imm strict depth hist : let s := run (XFun f) imm strict depth hist in
  x_errors s = 0 ->
  (x_dead s = None /\ x_seen s = gots hist
   /\ forall k t, nth_error (gots hist) k = Some t -> exists x, f (firstn k (gots hist)) t = Ok x /\ agr strict t x)
  \/ exists e g1 t g2, x_dead s = Some e /\ gots hist = g1 ++ t :: g2
     /\ (forall k u, nth_error g1 k = Some u -> exists x, f (firstn k g1) u = Ok x /\ agr strict u x)
     /\ (f g1 t = Err e \/ exists x, f g1 t = Ok x /\ rais strict t x e).
Proof.
  cbn zeta. induction hist as [|ev hist IH] using rev_ind.
  { left. split; [reflexivity|]. split; [reflexivity|]. intros [|k] t; discriminate. }
  rewrite xrun_snoc, gots_app. set (s := run (XFun f) imm strict depth hist) in *.
  destruct ev as [t|t]; cbn [gots flat_map app].
  - rewrite app_nil_r. exact IH.
  - intros Z0. assert (M := recv_mono (XFun f) imm strict depth s t).
    destruct IH as [(D & S & A)|(e & g1 & u & g2 & D & E & A)]; [lia| |].
    + unfold x_receive in *. rewrite D in *. rewrite S in *. fold (gots hist) in *.
      destruct (f (gots hist) t) as [x|e] eqn:Ef.
      * destruct (cmp_cases imm strict (x_errors s) t x) as [(G & E)|[(e & G & E)|(_ & _ & E)]].
        -- left. rewrite E. cbn. split; [reflexivity|]. split; [reflexivity|]. intros k u Hk.
           destruct (Nat.lt_ge_cases k (length (gots hist))) as [L|L].
           ++ rewrite nth_error_app1 in Hk by exact L. rewrite firstn_app.
              replace (k - length (gots hist)) with 0 by lia. rewrite firstn_O, app_nil_r. now apply A.
           ++ rewrite nth_error_app2 in Hk by exact L. destruct (k - length (gots hist)) as [|j] eqn:K.
              ** injection Hk as <-. replace k with (length (gots hist)) by lia.
                 rewrite firstn_app, Nat.sub_diag, firstn_O, app_nil_r, firstn_all. eauto.
              ** destruct j; discriminate.
        -- right. rewrite E. exists e, (gots hist), t, []. cbn. split; [reflexivity|]. split; [reflexivity|].
           split; [exact A|]. right. eauto.
        -- exfalso. destruct (cmp imm strict (x_errors s) t x) as [n r]. cbn in E, Z0. subst n. discriminate.
      * right. exists e, (gots hist), t, []. cbn. split; [reflexivity|]. split; [reflexivity|]. split; [exact A|]. now left.
    + right. rewrite (recv_dead _ _ _ _ _ _ _ D). fold (gots hist). exists e, g1, u, (g2 ++ [t]).
      split; [exact D|]. split; [rewrite E, <- app_assoc; reflexivity|]. exact A.
Qed.

Lemma fun_dead f imm strict depth t e l :
  f [] t = Err e -> x_result T (XFun f) (run (XFun f) imm strict depth (map Got (t :: l))) = Ok tt
                    /\ x_dead (run (XFun f) imm strict depth (map Got (t :: l))) = Some e.
Proof.
  intros F. assert (E : run (XFun f) imm strict depth (map Got (t :: l)) = Xsb [] 0 [t] (Some e)).
  { induction l as [|u l IH] using rev_ind.
    - unfold x_run. cbn [map fold_left]. unfold x_receive, xsb_init. cbn [x_dead x_seen x_out x_errors]. rewrite F. reflexivity.
    - change (t :: l ++ [u]) with ((t :: l) ++ [u]). rewrite map_app. change (map Got [u]) with [@Got T u]. rewrite xrun_snoc, IH.
      now rewrite (recv_dead _ _ _ _ _ _ e). }
  rewrite E. auto.
Qed.

(** ** messages that raise *)
Lemma cmp_differ imm strict n t x e : differ T ty py_ne str strict t x -> report t x = Err e -> cmp imm strict n t x = (S n, Err e).
Proof.
  unfold differ, x_compare. destruct strict; cbn [andb].
  - intros (-> & ->) ->. rewrite Nat.eqb_refl. reflexivity.
  - intros (a & b & -> & -> & N) ->. cbn [rbind]. destruct (String.eqb_spec a b); [congruence|]. reflexivity.
Qed.
Lemma seen_gots f imm strict depth h : x_dead (run (XFun f) imm strict depth h) = None -> x_seen (run (XFun f) imm strict depth h) = gots h.
Proof.
  induction h as [|ev h IH] using rev_ind; [reflexivity|]. rewrite xrun_snoc, gots_app. set (s := run (XFun f) imm strict depth h) in *.
  destruct ev as [t|t]; cbn [gots flat_map app]. { rewrite app_nil_r. exact IH. }
  unfold x_receive. destruct (x_dead s) as [x|] eqn:D; [congruence|]. rewrite (IH eq_refl). destruct (f _ t) as [y|x]; [|discriminate].
  destruct (cmp imm strict (x_errors s) t y). reflexivity.
Qed.
Lemma dead_stays src imm strict depth h1 h2 e : x_dead (run src imm strict depth h1) = Some e ->
  x_dead (run src imm strict depth (h1 ++ h2)) = Some e /\ x_errors (run src imm strict depth (h1 ++ h2)) = x_errors (run src imm strict depth h1).
Proof.
  intro D. induction h2 as [|ev h IH] using rev_ind; [rewrite app_nil_r; auto|]. rewrite app_assoc, xrun_snoc. destruct IH as (A & B).
  destruct ev as [u|u]; [auto|]. rewrite (recv_dead _ _ _ _ _ _ _ A). auto.
Qed.
Lemma error_fails src s n : x_errors s = S n -> x_result T src s = Err EAssertion.
Proof. unfold x_result. intros ->. destruct (match src with XFun _ => _ | XList => _ end); reflexivity. Qed.
Lemma messages src imm strict depth h1 t h2 e :
  let s := run src imm strict depth h1 in
  x_dead s = None ->
  match src with
  | XFun f => exists x, f (gots h1) t = Ok x /\ differ T ty py_ne str strict t x /\ report t x = Err e
  | XList => (x_out s = [] /\ report_unexpected t = Err e)
             \/ (exists l1 x l2, x_out s = l1 ++ x :: l2 /\ (Z.of_nat (length l1) <= depth)%Z /\ (forall y, In y l1 -> py_eq y t = Ok false)
                  /\ py_eq x t = Ok true /\ differ T ty py_ne str strict t x /\ report t x = Err e)
             \/ (exists x l, x_out s = x :: l /\ (forall y, In y (firstn (Z.to_nat (depth + 1)) (x_out s)) -> py_eq y t = Ok false)
                  /\ differ T ty py_ne str strict t x /\ report t x = Err e)
  end ->
  let s' := run src imm strict depth (h1 ++ Got t :: h2) in
  x_dead s' = Some e /\ x_errors s' = S (x_errors s) /\ x_result T src s' = Err EAssertion.
Proof.
  cbn zeta. set (s := run src imm strict depth h1). intros D C.
  assert (K : x_dead (recv src imm strict depth s t) = Some e /\ x_errors (recv src imm strict depth s t) = S (x_errors s)).
  { unfold x_receive. rewrite D. destruct src as [|f].
    - destruct C as [(-> & ->)|[(l1 & x & l2 & O & L & F & X & H & R)|(x & l & O & F & H & R)]]; [auto| |].
      + assert (E : find (Z.to_nat (depth + 1)) (x_out s) t = Ok (Some (length l1))).
        { rewrite O. assert (G : length l1 < Z.to_nat (depth + 1)) by lia. revert G. generalize (Z.to_nat (depth + 1)).
          clear - F X. induction l1 as [|y l IH]; intros [|n] G; cbn in *; try lia; [rewrite X; reflexivity|].
          rewrite (F y (or_introl eq_refl)). cbn [rbind]. rewrite IH; [reflexivity|auto|lia]. }
        destruct (x_out s) as [|z l] eqn:Q; [destruct l1; discriminate|]. rewrite E, O. unfold pop.
        rewrite nth_error_app2, Nat.sub_diag by lia. cbn [nth_error]. rewrite (cmp_differ imm strict (x_errors s) t x e H R). auto.
      + assert (E : find (Z.to_nat (depth + 1)) (x_out s) t = Ok None).
        { revert F. generalize (Z.to_nat (depth + 1)). generalize (x_out s). clear.
          induction l as [|y l IH]; intros [|n] F; try reflexivity. cbn in *. rewrite (F y (or_introl eq_refl)). cbn [rbind].
          rewrite IH; [reflexivity|auto]. }
        rewrite O in E |- *. rewrite E. unfold pop. cbn [nth_error]. rewrite (cmp_differ imm strict (x_errors s) t x e H R). auto.
    - destruct C as (x & F & H & R). unfold s. rewrite seen_gots by exact D. fold s. rewrite F, (cmp_differ imm strict (x_errors s) t x e H R). auto. }
  change (recv src imm strict depth s t) with (recv src imm strict depth (run src imm strict depth h1) t) in K.
  rewrite <- (xrun_snoc src imm strict depth h1 (Got t)) in K. destruct K as (K1 & K2).
  destruct (dead_stays src imm strict depth (h1 ++ [Got t]) h2 e K1) as (A & B). rewrite <- app_assoc in A, B. cbn [app] in A, B.
  split; [exact A|]. split; [rewrite B; exact K2|]. eapply error_fails. rewrite B. exact K2.
Qed.

(** ** without exceptions: the scoreboard of C15 .. C21, C119 *)
Lemma total (eqb : T -> T -> bool) (st : T -> string) :
  (forall a b, py_eq a b = Ok (eqb a b)) -> (forall a b, py_ne a b = Ok (negb (eqb a b))) ->
  (forall a, str a = Ok (st a)) -> (forall a b, report a b = Ok tt) -> (forall a, report_unexpected a = Ok tt) ->
  forall imm strict depth hist,
    let s := run XList imm strict depth hist in
    let c := custom_run T eqb (own_compare ty eqb st strict imm) imm depth hist in
    x_out s = c_out c /\ x_errors s = c_errors c /\ x_dead s = c_dead c.
Proof.
  intros He Hn Hs Hr Hu imm strict depth hist. cbn zeta.
  assert (F : forall n l t, find n l t = Ok (find_match T eqb n l t)).
  { induction n as [|n IH]; intros [|e l] t; cbn; try reflexivity. rewrite He. cbn. destruct (eqb e t); [reflexivity|].
    rewrite IH. cbn. destruct (find_match T eqb n l t); reflexivity. }
  induction hist as [|ev hist IH] using rev_ind; [auto|].
  rewrite xrun_snoc, (run_snoc eqb). set (s := run XList imm strict depth hist) in *.
  set (c := custom_run T eqb _ imm depth hist) in *. destruct IH as (A & B & C).
  destruct ev as [t|t].
  - cbn. now rewrite A, B, C.
  - unfold x_receive, custom_receive. rewrite <- C, <- A, <- B. destruct (x_dead s) as [x|] eqn:D; [rewrite D; auto|].
    destruct (x_out s) as [|h l] eqn:O.
    + cbn [x_out x_errors x_dead]. rewrite Hu. cbn [rbind]. unfold pick, pop.
      replace (find_match T eqb (Z.to_nat (depth + 1)) [] t) with (@None nat) by (destruct (Z.to_nat (depth + 1)); reflexivity).
      cbn. destruct imm; auto.
    + rewrite F. unfold pick. destruct (pop T (h :: l) _) as [[e r]|] eqn:P.
      * unfold x_compare, own_compare.
        destruct strict; cbn [andb].
        -- destruct (Nat.eqb (ty t) (ty e)); cbn [negb andb]; [|destruct imm; cbn; split; auto; split; auto; lia].
           rewrite Hn. destruct (eqb t e); cbn [negb]; [cbn; auto|]. rewrite Hr. cbn. destruct imm; cbn; split; auto; split; auto; lia.
        -- rewrite !Hs. cbn [rbind]. destruct (String.eqb (st t) (st e)); cbn [negb]; [cbn; auto|]. rewrite Hr.
           destruct imm; cbn; split; auto; split; auto; lia.
      * exfalso. destruct (pop_some (h :: l) (match find_match T eqb (Z.to_nat (depth + 1)) (h :: l) t with Some i => i | None => 0 end)) as (e & r & Q).
        { assert (G := F (Z.to_nat (depth + 1)) (h :: l) t).
          destruct (find_match T eqb (Z.to_nat (depth + 1)) (h :: l) t) as [i|]; [eapply find_bound; exact G|cbn; lia]. }
        congruence.
Qed.
End Proofs.

Lemma list_false_pass {T : Type} ty py_eq py_ne str report report_unexpected imm strict depth (t x : T) b e :
  py_eq x t = Ok b -> compare_raises T ty py_ne str strict t x e ->
  let s := x_run T ty py_eq py_ne str report report_unexpected XList imm strict depth [Exp x; Got t] in
  x_result T XList s = Ok tt /\ x_dead s = Some e.
Proof.
  intros Hb Hr. cbn zeta. change [Exp x; Got t] with ([Exp x] ++ [Got t]). rewrite xrun_snoc.
  change (x_run T ty py_eq py_ne str report report_unexpected XList imm strict depth [Exp x]) with (Xsb [x] 0 (@nil T) None).
  destruct (recv_list ty py_eq py_ne str report report_unexpected imm strict depth (Xsb [x] 0 [] None) t eq_refl) as [(e' & F & R)|(y & r & P & R)].
  - discriminate.
  - exfalso. cbn [x_out] in F. destruct (Z.to_nat (depth + 1)) as [|n]; cbn in F; [discriminate|].
    rewrite Hb in F. cbn in F. destruct b; [discriminate|]. destruct n; discriminate.
  - cbn [x_out] in P. apply Permutation_sym, Permutation_length_1_inv in P. injection P as -> ->.
    rewrite R. cbn [x_errors x_seen]. destruct (cmp_cases ty py_ne py_ne str report (fun _ => Ok tt) imm strict 0 t x) as [(G & E)|[(e' & G & E)|(_ & G & E)]].
    + exfalso. unfold agrees in G. unfold compare_raises in Hr. destruct strict; [|destruct G as (a & G1 & G2)]; intuition congruence.
    + rewrite E. cbn. split; [reflexivity|]. f_equal. unfold compare_raises in *.
      destruct strict; [intuition congruence|]. destruct Hr as [H|((a & H1) & H2)], G as [G|((a' & G1) & G2)]; congruence.
    + exfalso. exact (G e Hr).
Qed.

Lemma search_first {T : Type} ty py_eq py_ne str report report_unexpected imm strict depth (h1 : list (ev T)) t h2 e l1 x l2 :
  let run := x_run T ty py_eq py_ne str report report_unexpected XList imm strict depth in
  x_dead (run h1) = None -> x_out (run h1) = l1 ++ x :: l2 -> (Z.of_nat (length l1) <= depth)%Z ->
  (forall y, In y l1 -> py_eq y t = Ok false) -> py_eq x t = Err e ->
  let s' := run (h1 ++ Got t :: h2) in
  x_dead s' = Some e /\ x_errors s' = x_errors (run h1) /\ x_result T XList s' = Err EAssertion.
Proof.
  cbn zeta. intros D O L F X. apply search_raises; [exact D|]. rewrite O.
  assert (G : forall n, length l1 < n -> x_find T py_eq n (l1 ++ x :: l2) t = Err e).
  { clear - F X. induction l1 as [|y l1 IH]; intros [|n] H; cbn in *; try lia.
    - now rewrite X.
    - rewrite (F y (or_introl eq_refl)). cbn. rewrite IH; [reflexivity|intros z Hz; apply F; auto|lia]. }
  apply G. lia.
Qed.
