(** CombHeapProof2.v -- objects made by parsing, the report, and the theorem. *)
From Verif Require Import CombHeapModel CombSpec CombHeapSpec CombHeapProof.
From Coq Require Import Lia Arith.
Local Open Scope list_scope.
Local Notation length := List.length.

Inductive reach (h : heap) : nat -> nat -> Prop :=
| reach_refl a : reach h a a
| reach_step a b c : In b (kids h a) -> reach h b c -> reach h a c.
Lemma reach_trans h a b c : reach h a b -> reach h b c -> reach h a c.
Proof. induction 1; [auto|]. intros. econstructor; [eassumption|auto]. Qed.

(** object n is the element x *)
Inductive rep (h : heap) : xml -> nat -> Prop :=
| rep_elem t a cs n : o_tag (obj h n) = t -> o_attrs (obj h n) = a ->
    Forall2 (rep h) cs (kids h n) -> rep h (Elem t a cs) n.

Lemma rep_inv h t a cs n : rep h (Elem t a cs) n ->
  o_tag (obj h n) = t /\ o_attrs (obj h n) = a /\ Forall2 (rep h) cs (kids h n).
Proof. intros R. inversion R; subst. auto. Qed.
Lemma rep_get h x n k : rep h x n -> hget h n k = get x k.
Proof. destruct x as [t a cs]. intros R. apply rep_inv in R as (_ & A & _). unfold hget, get. rewrite A. reflexivity. Qed.

Section XmlInd.
  Variable P : xml -> Prop.
  Hypothesis H : forall t a cs, Forall P cs -> P (Elem t a cs).
  Fixpoint xml_ind2 (x : xml) : P x :=
    match x with
    | Elem t a cs => H t a cs ((fix go l : Forall P l := match l with [] => Forall_nil _ | c :: l => Forall_cons _ (xml_ind2 c) (go l) end) cs)
    end.
End XmlInd.

Lemma rep_iter h t x : forall n, rep h x n -> forall y, In y (iter t x) -> exists m, reach h n m /\ htag h m = t /\ rep h y m.
Proof.
  induction x as [t' a cs IH] using xml_ind2. intros n R y Y. destruct (rep_inv _ _ _ _ _ R) as (T & A & K).
  cbn [iter] in Y. apply in_app_iff in Y as [Y|Y].
  - destruct (String.eqb_spec t' t) as [->|]; [|destruct Y]. destruct Y as [<-|[]]. exists n. split; [constructor|]. split; [exact T|exact R].
  - assert (G : forall ks, Forall2 (rep h) cs ks -> exists c m, In c ks /\ reach h c m /\ htag h m = t /\ rep h y m).
    { clear - IH Y. intros ks F. revert IH Y. induction F as [|c k cs ks Rk F IHF]; intros IH Y; [destruct Y|].
      cbn [flat_map] in Y. inversion IH as [|? ? IHc IHcs]; subst. apply in_app_iff in Y as [Y|Y].
      - destruct (IHc k Rk y Y) as (m & M). exists k, m. split; [left; reflexivity|exact M].
      - destruct (IHF IHcs Y) as (c' & m & I & M). exists c', m. split; [right; exact I|exact M]. }
    destruct (G _ K) as (c & m & I & Rc & M). exists m. split; [econstructor; eassumption|exact M].
Qed.
Lemma rep_reach h t n m : reach h n m -> forall x, rep h x n -> exists y, rep h y m /\ (htag h m = t -> In y (iter t x)).
Proof.
  induction 1 as [a|a b c I R IH]; intros x Rx.
  - exists x. split; [exact Rx|]. destruct x as [t' at' cs]. apply rep_inv in Rx as (T & _). intros E. unfold htag in E. rewrite T in E. subst.
    cbn [iter]. rewrite String.eqb_refl. left; reflexivity.
  - destruct x as [t' at' cs]. destruct (rep_inv _ _ _ _ _ Rx) as (_ & _ & K).
    assert (G : forall ks, Forall2 (rep h) cs ks -> In b ks -> exists x, In x cs /\ rep h x b).
    { clear. intros ks F. induction F as [|x k cs ks Rk F IHF]; intros Ib; [destruct Ib|].
      destruct Ib as [->|Ib]; [exists x; split; [left; reflexivity|exact Rk]|]. destruct (IHF Ib) as (x' & X & Rb). exists x'. split; [right; exact X|exact Rb]. }
    destruct (G _ K I) as (x & X & Rb). destruct (IH x Rb) as (y & Ry & Y). exists y. split; [exact Ry|]. intros E. cbn [iter].
    apply in_app_iff. right. apply in_flat_map. exists x. split; [exact X|apply Y, E].
Qed.

(** ** parsing *)
Lemma obj_app h d n : n < length h -> obj (h ++ d) n = obj h n.
Proof. intros L. unfold obj. apply app_nth1, L. Qed.
Lemma kids_app h d n : n < length h -> kids (h ++ d) n = kids h n.
Proof. intros L. unfold kids. rewrite obj_app by exact L. reflexivity. Qed.
Lemma kids_out h n : length h <= n -> kids h n = [].
Proof. intros L. unfold kids, obj. rewrite nth_overflow by exact L. reflexivity. Qed.
Lemma kids_last h t a ids : kids (h ++ [Obj t a ids]) (length h) = ids.
Proof. unfold kids, obj. rewrite app_nth2 by lia. rewrite Nat.sub_diag. reflexivity. Qed.

(** the objects in [h'] beyond [lo] are trees with the roots [ids] *)
Record trees (lo : nat) (h' : heap) (xs : list xml) (ids : list nat) : Prop := {
  t_rng : forall a c, lo <= a -> In c (kids h' a) -> lo <= c < length h';
  t_forest : forall a b c, lo <= a -> lo <= b -> In c (kids h' a) -> In c (kids h' b) -> a = b;
  t_roots : forall n, In n ids -> lo <= n < length h' /\ forall a, lo <= a -> ~ In n (kids h' a);
  t_rep : Forall2 (rep h') xs ids;
  t_reach : forall m, lo <= m < length h' -> exists n, In n ids /\ reach h' n m }.

Lemma rep_app h d x : forall n, rep h x n -> n < length h -> (forall a c, In c (kids h a) -> c < length h) -> rep (h ++ d) x n.
Proof.
  induction x as [t a cs IH] using xml_ind2. intros n R L W. destruct (rep_inv _ _ _ _ _ R) as (T & A & K).
  constructor; [rewrite obj_app by exact L; exact T|rewrite obj_app by exact L; exact A|]. rewrite kids_app by exact L.
  assert (B : forall c, In c (kids h n) -> c < length h) by (intros c; apply W).
  revert B. clear - IH K W. revert IH. induction K as [|x k cs ks Rk F IHF]; intros IH B; [constructor|]. inversion IH; subst.
  constructor; [apply H1; [exact Rk|apply B; left; reflexivity|exact W]|apply IHF; [assumption|intros c C; apply B; right; exact C]].
Qed.
Lemma reach_app h d a b : reach h a b -> reach (h ++ d) a b.
Proof.
  induction 1 as [|a b c I R IH]; [constructor|]. econstructor; [|exact IH].
  destruct (le_lt_dec (length h) a); [rewrite kids_out in I by assumption; destruct I|]. rewrite kids_app by assumption. exact I.
Qed.

Definition wfh (h : heap) : Prop := forall a c, In c (kids h a) -> c < length h.
Lemma trees_app lo (h mid d : heap) xs ys ids ids' : wfh mid ->
  lo = length h -> trees lo mid xs ids -> trees (length mid) (mid ++ d) ys ids' -> lo <= length mid ->
  trees lo (mid ++ d) (xs ++ ys) (ids ++ ids').
Proof.
  intros W E A B L. pose proof (app_length mid d) as AL.
  assert (SPL : forall a, a < length mid \/ length mid <= a) by (intros; lia).
  constructor.
  - intros a c La I. destruct (SPL a) as [S|S].
    + rewrite kids_app in I by exact S. pose proof (t_rng _ _ _ _ A a c La I). lia.
    + pose proof (t_rng _ _ _ _ B a c S I). lia.
  - intros a b c La Lb Ia Ib. destruct (SPL a) as [Sa|Sa], (SPL b) as [Sb|Sb].
    + rewrite kids_app in Ia, Ib by assumption. exact (t_forest _ _ _ _ A a b c La Lb Ia Ib).
    + rewrite kids_app in Ia by assumption. pose proof (W _ _ Ia). pose proof (t_rng _ _ _ _ B b c Sb Ib). lia.
    + rewrite kids_app in Ib by assumption. pose proof (W _ _ Ib). pose proof (t_rng _ _ _ _ B a c Sa Ia). lia.
    + exact (t_forest _ _ _ _ B a b c Sa Sb Ia Ib).
  - intros n I. apply in_app_iff in I as [I|I].
    + destruct (t_roots _ _ _ _ A n I) as [R1 R2]. split; [lia|]. intros a La K. destruct (SPL a) as [Sa|Sa].
      * rewrite kids_app in K by assumption. exact (R2 a La K).
      * pose proof (t_rng _ _ _ _ B a n Sa K). lia.
    + destruct (t_roots _ _ _ _ B n I) as [R1 R2]. split; [lia|]. intros a La K. destruct (SPL a) as [Sa|Sa].
      * rewrite kids_app in K by assumption. pose proof (W _ _ K). lia.
      * exact (R2 a Sa K).
  - apply Forall2_app; [|exact (t_rep _ _ _ _ B)]. pose proof (t_rep _ _ _ _ A) as F. pose proof (t_roots _ _ _ _ A) as R. clear - F R W.
    induction F as [|x n xs ns Rx F IH]; [constructor|]. constructor; [|apply IH; intros m M; apply R; right; exact M].
    apply rep_app; [exact Rx|apply (R n); left; reflexivity|exact W].
  - intros m M. destruct (SPL m) as [S|S].
    + destruct (t_reach _ _ _ _ A m) as (n & I & R); [lia|]. exists n. split; [apply in_app_iff; left; exact I|apply reach_app, R].
    + destruct (t_reach _ _ _ _ B m) as (n & I & R); [lia|]. exists n. split; [apply in_app_iff; right; exact I|exact R].
Qed.

Lemma load_eq t a cs h : load (Elem t a cs) h = let '(h, ids) := load_all cs h in (h ++ [Obj t a ids], length h).
Proof.
  cbn [load].
  assert (E : forall l h, (fix loads (l : list xml) (h : heap) : heap * list nat :=
           match l with
           | [] => (h, [])
           | c :: l => let '(h, n) := load c h in let '(h, ids) := loads l h in (h, n :: ids)
           end) l h = load_all l h).
  { clear. induction l as [|c l IH]; intros h; [reflexivity|]. cbn [load_all]. destruct (load c h) as [h1 n]. rewrite IH. reflexivity. }
  rewrite E. reflexivity.
Qed.

Definition loads_ok (x : xml) : Prop := forall h, wfh h ->
  exists d n, load x h = (h ++ d, n) /\ wfh (h ++ d) /\ trees (length h) (h ++ d) [x] [n].
Lemma load_all_ok xs : Forall loads_ok xs -> forall h, wfh h ->
  exists d ids, load_all xs h = (h ++ d, ids) /\ wfh (h ++ d) /\ trees (length h) (h ++ d) xs ids.
Proof.
  induction 1 as [|x xs X _ IH]; intros h W; cbn [load_all].
  - exists [], []. rewrite app_nil_r. split; [reflexivity|]. split; [exact W|]. constructor.
    + intros a c La I. rewrite kids_out in I by exact La. destruct I.
    + intros a b c La Lb Ia. rewrite kids_out in Ia by exact La. destruct Ia.
    + intros n [].
    + constructor.
    + intros m M. lia.
  - destruct (X h W) as (d & n & E & W1 & T1). rewrite E. destruct (IH (h ++ d) W1) as (d2 & ids & E2 & W2 & T2). rewrite E2.
    exists (d ++ d2), (n :: ids). rewrite app_assoc. split; [reflexivity|]. split; [exact W2|].
    apply (trees_app (length h) h (h ++ d) d2 [x] xs [n] ids W1 eq_refl T1 T2). rewrite app_length. lia.
Qed.
Lemma load_ok x : loads_ok x.
Proof.
  induction x as [t a cs IH] using xml_ind2. intros h W. destruct (load_all_ok cs IH h W) as (d & ids & E & W1 & T).
  rewrite load_eq, E. set (mid := h ++ d) in *. set (o := Obj t a ids). exists (d ++ [o]), (length mid).
  rewrite app_assoc. fold mid. split; [reflexivity|].
  assert (ML : length h <= length mid) by (unfold mid; rewrite app_length; lia).
  assert (LL : length (mid ++ [o]) = S (length mid)) by (rewrite app_length; cbn; lia).
  assert (KL : kids (mid ++ [o]) (length mid) = ids) by apply kids_last.
  assert (SPL : forall x, x < length mid \/ x = length mid \/ length (mid ++ [o]) <= x) by (intros; lia).
  assert (IR : forall c, In c ids -> length h <= c < length mid) by (intros c C; apply (t_roots _ _ _ _ T c C)).
  split.
  { intros x c I. destruct (SPL x) as [S|[S|S]].
    - rewrite kids_app in I by exact S. pose proof (W1 _ _ I). lia.
    - subst x. rewrite KL in I. specialize (IR c I). lia.
    - rewrite kids_out in I by exact S. destruct I. }
  constructor.
  - intros x c Lx I. destruct (SPL x) as [S|[S|S]].
    + rewrite kids_app in I by exact S. pose proof (t_rng _ _ _ _ T x c Lx I). lia.
    + subst x. rewrite KL in I. specialize (IR c I). lia.
    + rewrite kids_out in I by exact S. destruct I.
  - intros x y c Lx Ly Ix Iy. destruct (SPL x) as [Sx|[Sx|Sx]]; [| |rewrite kids_out in Ix by exact Sx; destruct Ix];
      (destruct (SPL y) as [Sy|[Sy|Sy]]; [| |rewrite kids_out in Iy by exact Sy; destruct Iy]).
    + rewrite kids_app in Ix, Iy by assumption. exact (t_forest _ _ _ _ T x y c Lx Ly Ix Iy).
    + subst y. rewrite KL in Iy. rewrite kids_app in Ix by assumption. destruct (proj2 (t_roots _ _ _ _ T c Iy) x Lx Ix).
    + subst x. rewrite KL in Ix. rewrite kids_app in Iy by assumption. destruct (proj2 (t_roots _ _ _ _ T c Ix) y Ly Iy).
    + congruence.
  - intros n [<-|[]]. split; [lia|]. intros x Lx I. destruct (SPL x) as [S|[S|S]].
    + rewrite kids_app in I by exact S. pose proof (W1 _ _ I). lia.
    + subst x. rewrite KL in I. specialize (IR _ I). lia.
    + rewrite kids_out in I by exact S. destruct I.
  - constructor; [|constructor]. constructor.
    + unfold obj. rewrite app_nth2 by lia. rewrite Nat.sub_diag. reflexivity.
    + unfold obj. rewrite app_nth2 by lia. rewrite Nat.sub_diag. reflexivity.
    + rewrite KL. pose proof (t_rep _ _ _ _ T) as F. clear - F IR W1. generalize o. clear o. intros o. induction F as [|x n xs ns Rx F IHF]; [constructor|]. constructor; [|apply IHF; intros c C; apply IR; right; exact C].
      apply rep_app; [exact Rx|apply (IR n); left; reflexivity|exact W1].
  - intros m M. exists (length mid). split; [left; reflexivity|]. destruct (SPL m) as [S|[S|S]]; [|subst m; constructor|lia].
    destruct (t_reach _ _ _ _ T m) as (n & I & R); [lia|]. econstructor; [rewrite KL; exact I|apply reach_app, R].
Qed.
Lemma parsed files : exists h roots, load_all files [] = (h, roots) /\ trees 0 h files roots.
Proof.
  destruct (load_all_ok files (proj2 (Forall_forall _ _) (fun x _ => load_ok x)) []) as (d & ids & E & _ & T).
  { intros a c I. rewrite kids_out in I by (cbn; lia). destruct I. }
  exists d, ids. split; [exact E|exact T].
Qed.

(** ** Element.iter on the result *)
Lemma concat_opt_ok {T U} (f : T -> option (list U)) l : (forall x, In x l -> exists r, f x = Some r) ->
  exists R, concat_opt f l = Some R /\ forall y, In y R <-> exists x r, In x l /\ f x = Some r /\ In y r.
Proof.
  induction l as [|x l IH]; intros H.
  - exists []. split; [reflexivity|]. intros y. split; [intros []|intros (x & r & [] & _)].
  - destruct (H x (or_introl eq_refl)) as (r & E). destruct (IH (fun y Y => H y (or_intror Y))) as (R & ER & IR).
    exists (r ++ R). split; [unfold concat_opt in *; cbn [fold_right]; rewrite E, ER; reflexivity|].
    intros y. rewrite in_app_iff, IR. split.
    + intros [Y|(x' & r' & I & E' & Y)]; [exists x, r; split; [left; reflexivity|split; assumption]|exists x', r'; split; [right; exact I|split; assumption]].
    + intros (x' & r' & [<-|I] & E' & Y); [left; congruence|right; exists x', r'; auto].
Qed.
Lemma concat_opt_more {T U} (f g : T -> option (list U)) l R : (forall x r, In x l -> f x = Some r -> g x = Some r) ->
  concat_opt f l = Some R -> concat_opt g l = Some R.
Proof.
  revert R. induction l as [|x l IH]; intros R H E; [exact E|]. unfold concat_opt in *. cbn [fold_right] in *.
  destruct (f x) as [r|] eqn:F; [|discriminate]. rewrite (H x r (or_introl eq_refl) F).
  destruct (fold_right _ (Some []) l) as [b|] eqn:B; [|discriminate]. rewrite (IH b); [exact E|intros; apply H; [right; assumption|assumption]|reflexivity].
Qed.
Lemma hiter_more fuel h t n l : hiter fuel h t n = Some l -> forall m, hiter (fuel + m) h t n = Some l.
Proof.
  revert n l. induction fuel as [|fuel IH]; intros n l E m; [discriminate|]. cbn [hiter plus] in *.
  destruct (concat_opt (hiter fuel h t) (kids h n)) as [R|] eqn:C; [|discriminate].
  rewrite (concat_opt_more _ (hiter (fuel + m) h t) _ _ (fun x r _ F => IH x r F m) C). exact E.
Qed.

Lemma rc_lines (set_rc : bool) (lines : list failure_line) :
  fold_left (fun rc _ => if set_rc then 1 else rc) lines 0 = if set_rc then match lines with [] => 0 | _ => 1 end else 0.
Proof.
  assert (A : forall rc, fold_left (fun rc (_ : failure_line) => if set_rc then 1 else rc) lines rc
                = if set_rc then match lines with [] => rc | _ => 1 end else rc).
  { induction lines as [|l lines IH]; intros rc; [destruct set_rc; reflexivity|]. cbn [fold_left]. rewrite IH. destruct set_rc, lines; reflexivity. }
  apply A.
Qed.

Section Report.
Variable h : heap.
Variable s : list nat.
Hypothesis closed : forall a b, In a s -> In b (kids h a) -> In b s.
Hypothesis order : forall a b, In b (kids h a) -> In a s -> pos a s < pos b s.
Lemma hiter_ok fuel t : forall n, In n s -> length s <= fuel + pos n s ->
  exists l, hiter (S fuel) h t n = Some l /\ forall m, In m l <-> reach h n m /\ htag h m = t.
Proof.
  induction fuel as [|fuel IH]; intros n I L.
  { apply pos_in in I. lia. }
  destruct (concat_opt_ok (hiter (S fuel) h t) (kids h n)) as (R & ER & IR).
  { intros x X. destruct (IH x (closed n x I X)) as (l & E & _); [pose proof (order n x X I); lia|]. exists l; exact E. }
  change (hiter (S (S fuel)) h t n) with (match concat_opt (hiter (S fuel) h t) (kids h n) with
    | None => None | Some l => Some ((if String.eqb (htag h n) t then [n] else []) ++ l) end).
  rewrite ER. eexists. split; [reflexivity|]. intros m. rewrite in_app_iff, IR.
  assert (KID : forall x r, In x (kids h n) -> hiter (S fuel) h t x = Some r -> In m r <-> reach h x m /\ htag h m = t).
  { intros x r X E. destruct (IH x (closed n x I X)) as (l & E' & M); [pose proof (order n x X I); lia|]. rewrite E in E'. injection E' as ->. apply M. }
  split.
  - intros [M|(x & r & X & E & M)].
    + destruct (String.eqb_spec (htag h n) t) as [Q|]; [|destruct M]. destruct M as [<-|[]]. split; [constructor|exact Q].
    + apply (KID x r X E) in M as [M Q]. split; [econstructor; eassumption|exact Q].
  - intros [M Q]. destruct M as [n|n x m X M].
    + left. rewrite Q, String.eqb_refl. left; reflexivity.
    + right. destruct (IH x (closed n x I X)) as (l & E & Ml); [pose proof (order n x X I); lia|]. exists x, l.
      split; [exact X|]. split; [exact E|]. apply Ml. split; assumption.
Qed.
Lemma reach_closed a b : reach h a b -> In a s -> In b s.
Proof. induction 1; eauto. Qed.

Lemma report_ok result : incl result s -> forall fuel set_rc, length s < fuel ->
  exists r, hreport fuel set_rc h result = Some r /\ code r = (if set_rc then match lines r with [] => 0 | _ => 1 end else 0) /\
    forall l, In l (lines r) <-> exists z u c f, In z result /\ reach h z u /\ htag h u = "testsuite" /\
      reach h u c /\ htag h c = "testcase" /\ reach h c f /\ htag h f = "failure" /\
      l = (hget h u "name", hget h c "classname", hget h c "name", hget h u "package").
Proof.
  intros RI fuel set_rc L. destruct fuel as [|fuel]; [lia|].
  assert (IT : forall t n, In n s -> exists l, hiter (S fuel) h t n = Some l /\ forall m, In m l <-> reach h n m /\ htag h m = t)
    by (intros t n I; apply hiter_ok; [exact I|lia]).
  destruct (concat_opt_ok (hiter (S fuel) h "testsuite") result) as (ss & E1 & I1).
  { intros x X. destruct (IT "testsuite" x (RI x X)) as (l & E & _). exists l; exact E. }
  assert (SS : forall u, In u ss <-> exists z, In z result /\ reach h z u /\ htag h u = "testsuite").
  { intros u. rewrite I1. split.
    - intros (z & r & Z & E & U). destruct (IT "testsuite" z (RI z Z)) as (l & E' & M). rewrite E in E'. injection E' as ->. apply M in U. exists z. tauto.
    - intros (z & Z & U). destruct (IT "testsuite" z (RI z Z)) as (l & E' & M). exists z, l. split; [exact Z|]. split; [exact E'|]. apply M, U. }
  assert (SI : forall u, In u ss -> In u s) by (intros u U; apply SS in U as (z & Z & R & _); exact (reach_closed z u R (RI z Z))).
  destruct (concat_opt_ok (fun u => option_map (map (pair u)) (hiter (S fuel) h "testcase" u)) ss) as (cases & E2 & I2).
  { intros u U. destruct (IT "testcase" u (SI u U)) as (l & E & _). rewrite E. eexists; reflexivity. }
  assert (CS : forall u c, In (u, c) cases <-> In u ss /\ reach h u c /\ htag h c = "testcase").
  { intros u c. rewrite I2. split.
    - intros (x & r & X & E & C). destruct (IT "testcase" x (SI x X)) as (l & E' & M). rewrite E' in E. cbn in E. injection E as <-.
      apply in_map_iff in C as (c' & C & Cl). injection C as -> ->. apply M in Cl. tauto.
    - intros (U & C). destruct (IT "testcase" u (SI u U)) as (l & E' & M). exists u, (map (pair u) l). split; [exact U|]. rewrite E'. split; [reflexivity|].
      apply in_map, M, C. }
  destruct (concat_opt_ok (fun '(u, c) =>
    option_map (map (fun _ => (hget h u "name", hget h c "classname", hget h c "name", hget h u "package")))
      (hiter (S fuel) h "failure" c)) cases) as (ls & E3 & I3).
  { intros [u c] C. apply CS in C as (U & R & _). destruct (IT "failure" c (reach_closed _ _ R (SI u U))) as (l & E & _). rewrite E. eexists; reflexivity. }
  eexists. split; [unfold hreport, hsuites, hcases, hlines; rewrite E1, E2, E3; reflexivity|]. cbn [lines code]. split; [apply rc_lines|].
  intros l. rewrite I3. split.
  - intros ([u c] & r & C & E & Lr). apply CS in C as (U & R & T). apply SS in U as U'. destruct U' as (z & Z & Rz & Tu).
    destruct (IT "failure" c (reach_closed _ _ R (SI u U))) as (fs & Ef & M). rewrite Ef in E. cbn in E. injection E as <-.
    apply in_map_iff in Lr as (f & <- & F). apply M in F as [F Tf]. exists z, u, c, f. repeat (split; [assumption|]). reflexivity.
  - intros (z & u & c & f & Z & Rz & Tu & Rc & Tc & Rf & Tf & ->).
    assert (U : In u ss) by (apply SS; exists z; auto).
    destruct (IT "failure" c (reach_closed _ _ Rc (SI u U))) as (fs & Ef & M).
    eexists (u, c), _. split; [apply CS; auto|]. rewrite Ef. split; [reflexivity|]. apply in_map_iff. exists f. split; [reflexivity|]. apply M; auto.
Qed.
End Report.

(** ** the theorem *)
Lemma hreport_more fuel set_rc h r out : hreport fuel set_rc h r = Some out -> forall m, hreport (fuel + m) set_rc h r = Some out.
Proof.
  unfold hreport, hsuites, hcases, hlines. intros E m.
  destruct (concat_opt (hiter fuel h "testsuite") r) as [ss|] eqn:S; [|discriminate].
  rewrite (concat_opt_more _ (hiter (fuel + m) h "testsuite") _ _ (fun x r _ F => hiter_more _ _ _ _ _ F m) S).
  match type of E with match ?C with _ => _ end = _ => destruct C as [cases|] eqn:C1; [|discriminate] end.
  match type of E with match ?C with _ => _ end = _ => destruct C as [ls|] eqn:C2; [|discriminate] end.
  erewrite (concat_opt_more _ (fun s => option_map (map (pair s)) (hiter (fuel + m) h "testcase" s))); [| |exact C1].
  2:{ intros x q _ F. cbn beta in F. destruct (hiter fuel h "testcase" x) eqn:Q; [|discriminate]. rewrite (hiter_more _ _ _ _ _ Q m). exact F. }
  erewrite (concat_opt_more _ (fun '(u, c) =>
    option_map (map (fun _ => (hget h u "name", hget h c "classname", hget h c "name", hget h u "package")))
      (hiter (fuel + m) h "failure" c))); [| |exact C2].
  2:{ intros [u c] q _ F. cbn beta iota in F. destruct (hiter fuel h "failure" c) eqn:Q; [|discriminate]. rewrite (hiter_more _ _ _ _ _ Q m). exact F. }
  exact E.
Qed.
Lemma combine_more fuel set_rc files out : combine fuel set_rc files = Some out -> forall m, combine (fuel + m) set_rc files = Some out.
Proof.
  unfold combine. destruct (load_all files []) as [h roots]. intros E m.
  destruct (walk_files fuel roots h []) as [[h1 r1]|] eqn:W; [|discriminate]. rewrite (walk_files_more _ _ _ _ _ W). apply hreport_more, E.
Qed.

Lemma combine_ok files set_rc : exists fuel0 r,
  (forall fuel, fuel0 <= fuel -> combine fuel set_rc files = Some r) /\
  code r = (if set_rc then match lines r with [] => 0 | _ => 1 end else 0) /\
  (forall s tc, In s (suites files) -> In tc (iter "testcase" s) -> failed tc -> In (line_of s tc) (lines r)) /\
  (proper files -> forall l, In l (lines r) -> exists s s' tc,
     In s (suites files) /\ In tc (iter "testcase" s) /\ failed tc /\ In s' (suites files) /\
     l = (get s' "name", get tc "classname", get tc "name", get s' "package")).
Proof.
  destruct (parsed files) as (h0 & roots & EL & T).
  assert (rng : forall a c, In c (kids h0 a) -> c < length h0) by (intros a c I; apply (t_rng _ _ _ _ T a c); [lia|exact I]).
  assert (forest : forall a b c, In c (kids h0 a) -> In c (kids h0 b) -> a = b) by (intros a b c; apply (t_forest _ _ _ _ T); lia).
  destruct (walk_files_ends h0 rng forest roots h0 [] []) as (f1 & h & r & s & W & V & (_ & CC) & _ & RS).
  { intros x X. destruct (t_roots _ _ _ _ T x X) as [A B]. split; [lia|]. intros a. apply B. lia. }
  { apply inv_init. }
  { split; [intros p i []|intros a b []]. }
  assert (CL0 : forall a b, In a s -> In b (kids h0 a) -> In b s).
  { intros a b A B. destruct (CC a b A B) as [X|(j & [] & _)]. exact X. }
  assert (CL : forall a b, In a s -> In b (kids h a) -> In b s).
  { intros a b A B. destruct (v_new _ _ _ _ _ V a b B) as (y & Y & _).
    apply (CL0 y b); [|exact Y]. apply (v_par _ _ _ _ _ V a y b B); [apply (v_mono _ _ _ _ _ V), Y|exact A]. }
  destruct (report_ok h s CL (v_ord _ _ _ _ _ V) r (fun z Z => proj1 (v_res _ _ _ _ _ V z Z)) (f1 + S (length s)) set_rc)
    as (rp & ER & RC & LI); [lia|].
  assert (C0 : combine (f1 + S (length s)) set_rc files = Some rp).
  { unfold combine. rewrite EL, (walk_files_more _ _ _ _ _ W). exact ER. }
  assert (SEEN : forall x n, In (x, n) (List.combine files roots) -> forall m, reach h0 n m -> In m s).
  { intros x n I m R. apply in_combine_r in I. apply RS in I. clear - R I CL0. induction R; eauto. }
  assert (MONO : forall a b, reach h0 a b -> reach h a b).
  { induction 1; [constructor|]. econstructor; [apply (v_mono _ _ _ _ _ V); eassumption|assumption]. }
  assert (HT : forall n, htag h n = htag h0 n) by (intros n; apply (v_same _ _ _ _ _ V)).
  assert (HG : forall n k, hget h n k = hget h0 n k) by (intros n k; unfold hget; destruct (v_same _ _ _ _ _ V n) as [_ ->]; reflexivity).
  exists (f1 + S (length s)), rp. split; [|split; [exact RC|split]].
  - intros fuel L. replace fuel with (f1 + S (length s) + (fuel - (f1 + S (length s)))) by lia. apply combine_more, C0.
  - intros su tc Is It (f & If). unfold suites in Is. apply in_flat_map in Is as (x & X & Is).
    assert (RX : exists n, In n roots /\ rep h0 x n).
    { pose proof (t_rep _ _ _ _ T) as F. clear - F X. induction F as [|y n ys ns Ry F IH]; [destruct X|].
      destruct X as [->|X]; [exists n; split; [left; reflexivity|exact Ry]|]. destruct (IH X) as (m & M & Rm). exists m. split; [right; exact M|exact Rm]. }
    destruct RX as (n & Nr & Rn).
    destruct (rep_iter h0 "testsuite" x n Rn su Is) as (ns & Rs & Ts & Ps).
    destruct (rep_iter h0 "testcase" su ns Ps tc It) as (nt & Rt & Tt & Pt).
    destruct (rep_iter h0 "failure" tc nt Pt f If) as (nf & Rf & Tf & Pf).
    assert (Ss : In ns s) by (pose proof (RS n Nr) as Ns; clear - Rs Ns CL0; induction Rs; eauto).
    destruct (v_find _ _ _ _ _ V ns Ss Ts) as (z & Fz & _ & Iz). destruct (find_in _ _ _ _ Fz) as (Zr & Zn & Zp).
    apply LI. exists z, z, nt, nf. split; [exact Zr|]. split; [constructor|].
    split; [rewrite HT; apply (v_res _ _ _ _ _ V z Zr)|].
    split. { inversion Rt as [|? c ? Ic Rc]; subst; [congruence|]. econstructor; [apply Iz, Ic|apply MONO, Rc]. }
    split; [rewrite HT; exact Tt|]. split; [apply MONO, Rf|]. split; [rewrite HT; exact Tf|].
    unfold line_of. rewrite Zn, Zp, !HG, !(rep_get h0 su ns _ Ps), !(rep_get h0 tc nt _ Pt). reflexivity.
  - intros PR l Il. apply LI in Il as (z & u & c & f & Zr & Rz & Tu & Rc & Tc & Rf & Tf & ->). rewrite HT in Tu, Tc, Tf.
    assert (ROOT : forall m, m < length h0 -> exists x n, In x files /\ rep h0 x n /\ reach h0 n m).
    { intros m M. destruct (t_reach _ _ _ _ T m) as (n & I & R); [lia|].
      pose proof (t_rep _ _ _ _ T) as F. assert (G : exists x, In x files /\ rep h0 x n).
      { clear - F I. induction F as [|y k ys ks Ry F IH]; [destruct I|]. destruct I as [->|I]; [exists y; split; [left; reflexivity|exact Ry]|].
        destruct (IH I) as (x & X & Rx). exists x. split; [right; exact X|exact Rx]. }
      destruct G as (x & X & Rx). exists x, n. auto. }
    assert (BEL : forall a b, reach h a b -> reach h0 a b \/ exists y, htag h0 y = "testsuite" /\ y < length h0 /\ reach h0 y b).
    { induction 1 as [a|a b' b I R IH]; [left; constructor|]. destruct IH as [IH|IH]; [|right; exact IH].
      destruct (v_new _ _ _ _ _ V a b' I) as (y & Y & [->|[_ Ty]]); [left; econstructor; eassumption|].
      right. exists y. split; [exact Ty|]. split; [|econstructor; eassumption].
      destruct (le_lt_dec (length h0) y); [rewrite kids_out in Y by assumption; destruct Y|assumption]. }
    assert (Zs : In z s) by apply (v_res _ _ _ _ _ V z Zr).
    assert (Us : In u s) by exact (reach_closed h s CL z u Rz Zs).
    assert (UL : u < length h0) by exact (v_srng _ _ _ _ _ V u Us).
    assert (Y : exists y, htag h0 y = "testsuite" /\ y < length h0 /\ reach h0 y c) by (destruct (BEL u c Rc) as [R|R]; [exists u; auto|exact R]).
    destruct Y as (y & Ty & Ly & Ry).
    destruct (ROOT y Ly) as (x & n & X & Px & Rn). destruct (rep_reach h0 "testsuite" n y Rn x Px) as (yx & Py & Iy). specialize (Iy Ty).
    destruct (rep_reach h0 "testcase" y c Ry yx Py) as (cx & Pc & Ic). specialize (Ic Tc).
    destruct (rep_reach h0 "testcase" n c (reach_trans _ _ _ _ Rn Ry) x Px) as (cx' & Pc' & Ic'). specialize (Ic' Tc).
    assert (NS : forall m, reach h0 c m -> htag h0 m <> "testsuite").
    { intros m M Q. destruct (rep_reach h0 "testsuite" c m M cx' Pc') as (q & _ & Iq). specialize (Iq Q). rewrite (PR x cx' X Ic') in Iq. destruct Iq. }
    assert (RF : forall a, reach h0 c a -> reach h a f -> reach h0 c f).
    { intros a Ra Raf. induction Raf as [a|a b f I R IH]; [exact Ra|]. apply IH; [exact Rf|exact Tf|].
      destruct (v_new _ _ _ _ _ V a b I) as (y' & Y' & [->|[Ta _]]); [|destruct (NS a Ra Ta)].
      eapply reach_trans; [exact Ra|]. econstructor; [exact Y'|constructor]. }
    specialize (RF c (reach_refl _ _) Rf).
    destruct (rep_reach h0 "failure" c f RF cx Pc) as (fx & _ & If). specialize (If Tf).
    destruct (ROOT u UL) as (x2 & n2 & X2 & P2 & R2). destruct (rep_reach h0 "testsuite" n2 u R2 x2 P2) as (ux & Pu & Iu). specialize (Iu Tu).
    exists yx, ux, cx. split; [apply in_flat_map; exists x; auto|]. split; [exact Ic|]. split; [exists fx; exact If|].
    split; [apply in_flat_map; exists x2; auto|]. rewrite !HG, !(rep_get h0 ux u _ Pu), !(rep_get h0 cx c _ Pc). reflexivity.
Qed.
