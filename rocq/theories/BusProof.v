(** BusProof.v *)
From Verif Require Import BusModel BusSpec.
Local Open Scope list_scope.

Lemma full_name_signame name sep s : signame name sep s = full_name name sep s.
Proof. destruct name as [[|c n]|]; reflexivity. Qed.

Lemma streqb_sym a b : String.eqb a b = String.eqb b a.
Proof. apply String.eqb_sym. Qed.

Lemma dict_get_In {V} (d : list (string * V)) k v : dict_get d k = Some v -> In (k, v) d.
Proof.
  induction d as [|[k' v'] r IH]; cbn; [discriminate|].
  destruct (String.eqb_spec k' k); intros H; [injection H as <-; subst; auto | auto].
Qed.

Lemma dict_get_notin {V} (d : list (string * V)) k : ~ In k (map fst d) -> dict_get d k = None.
Proof.
  induction d as [|[k' v'] r IH]; cbn; [reflexivity|]. intros H.
  destruct (String.eqb_spec k' k); [tauto | apply IH; tauto].
Qed.

Lemma dict_get_none {V} (d : list (string * V)) k : dict_get d k = None -> ~ In k (map fst d).
Proof.
  induction d as [|[k' v'] r IH]; cbn; [tauto|].
  destruct (String.eqb_spec k' k); [discriminate|]. intros H [H'|H']; [tauto|]. now apply IH.
Qed.

Lemma In_dict_get {V} (d : list (string * V)) k v :
  NoDup (map fst d) -> In (k, v) d -> dict_get d k = Some v.
Proof.
  induction d as [|[k' v'] r IH]; cbn; [tauto|]. intros Hn [H|H]; inversion Hn as [|x l Hx Hr]; subst.
  - injection H as -> ->. now rewrite String.eqb_refl.
  - destruct (String.eqb_spec k' k) as [->|]; [|now apply IH].
    exfalso. apply Hx. now apply (in_map fst) in H.
Qed.

Lemma dict_set_fresh {V} (d : list (string * V)) k v :
  ~ In k (map fst d) -> dict_set d k v = d ++ [(k, v)].
Proof.
  induction d as [|[k' v'] r IH]; cbn; [reflexivity|]. intros H.
  destruct (String.eqb_spec k' k); [tauto|]. rewrite IH by tauto. reflexivity.
Qed.

Lemma dict_get_set {V} (d : list (string * V)) k k' v :
  dict_get (dict_set d k v) k' = if String.eqb k k' then Some v else dict_get d k'.
Proof.
  induction d as [|[a x] r IH]; cbn.
  - destruct (String.eqb_spec k k'); reflexivity.
  - destruct (String.eqb_spec a k) as [->|Hak]; cbn.
    + destruct (String.eqb_spec k k'); reflexivity.
    + rewrite IH. destruct (String.eqb_spec a k') as [->|]; [|reflexivity].
      destruct (String.eqb_spec k k'); congruence.
Qed.

Lemma dict_set_keys {V} (d : list (string * V)) k v v0 :
  dict_get d k = Some v0 -> map fst (dict_set d k v) = map fst d.
Proof.
  induction d as [|[a x] r IH]; cbn; [discriminate|].
  destruct (String.eqb_spec a k) as [->|]; cbn; intros H; [reflexivity|]. now rewrite IH.
Qed.

Lemma build_requested_gen l : forall d,
  NoDup (map fst d ++ l) ->
  fold_left (fun d x => dict_set d x x) l d = d ++ map (fun x : string => (x, x)) l.
Proof.
  induction l as [|x l IH]; cbn; intros d H; [now rewrite app_nil_r|].
  assert (Hx : ~ In x (map fst d)).
  { apply NoDup_remove_2 in H. intros C. apply H. apply in_or_app. now left. }
  rewrite dict_set_fresh by exact Hx. rewrite IH.
  - now rewrite <- app_assoc.
  - rewrite map_app. cbn. rewrite <- app_assoc. exact H.
Qed.

Lemma build_requested s : NoDup (map fst (requested s)) -> build_sig_attr_dict s = requested s.
Proof.
  destruct s as [l|d]; cbn; [|reflexivity]. intros H. rewrite build_requested_gen; [reflexivity|].
  cbn. rewrite map_map in H. cbn in H. now rewrite map_id in H.
Qed.

(** names equal up to case are those that fold to the same string *)
Definition pairb (x y : ascii * ascii) : bool := Ascii.eqb (fst x) (fst y) && Ascii.eqb (snd x) (snd y).
Definition same_charb (a b : ascii) : bool :=
  Ascii.eqb a b || existsb (pairb (a, b)) letter_pairs || existsb (pairb (b, a)) letter_pairs.
Lemma pairb_In x l : existsb (pairb x) l = true <-> In x l.
Proof.
  rewrite existsb_exists. split.
  - intros (y & H & E). unfold pairb in E. apply andb_true_iff in E. destruct E as [E1 E2].
    apply Ascii.eqb_eq in E1, E2. destruct x, y. cbn in *. subst. exact H.
  - intro H. exists x. split; [exact H|]. unfold pairb. rewrite !Ascii.eqb_refl. reflexivity.
Qed.
Lemma same_charb_spec a b : same_charb a b = true <-> same_char a b.
Proof.
  unfold same_charb, same_char. rewrite !orb_true_iff, !pairb_In, Ascii.eqb_eq. tauto.
Qed.
Lemma all_chars a : In a (map ascii_of_nat (seq 0 256)).
Proof.
  rewrite <- (ascii_nat_embedding a). apply in_map, in_seq. pose proof (nat_ascii_bounded a). lia.
Qed.
Lemma same_charb_fold a b : same_charb a b = Ascii.eqb (fold_char a) (fold_char b).
Proof.
  assert (H : forallb (fun a => forallb (fun b => Bool.eqb (same_charb a b) (Ascii.eqb (fold_char a) (fold_char b)))
                (map ascii_of_nat (seq 0 256))) (map ascii_of_nat (seq 0 256)) = true) by (vm_compute; reflexivity).
  rewrite forallb_forall in H. specialize (H a (all_chars a)). rewrite forallb_forall in H.
  apply Bool.eqb_prop, H, all_chars.
Qed.
Lemma same_name_fold a b : same_name a b <-> casefold a = casefold b.
Proof.
  unfold same_name. revert b. induction a as [|x a IH]; intros [|y b]; cbn; split; intro H; try inversion H; subst; auto.
  - f_equal; [|now apply IH]. apply Ascii.eqb_eq. rewrite <- same_charb_fold. now apply same_charb_spec.
  - constructor; [|now apply IH]. apply same_charb_spec. rewrite same_charb_fold. now apply Ascii.eqb_eq.
Qed.

Lemma ci_some ent n h : case_insens_getattr ent n = Some h -> exists m, In (m, h) ent /\ same_name m n.
Proof.
  induction ent as [|[a x] r IH]; cbn; [discriminate|].
  destruct (String.eqb_spec (casefold a) (casefold n)) as [E|E]; intros H.
  - injection H as <-. exists a. rewrite same_name_fold. auto.
  - destruct (IH H) as (m & H1 & H2). exists m. auto.
Qed.

Lemma ci_none ent n : case_insens_getattr ent n = None <-> ~ has_ci ent n.
Proof.
  unfold has_ci. setoid_rewrite same_name_fold. induction ent as [|[a x] r IH]; cbn.
  - split; [intros _ (m & h & F & _); exact F | reflexivity].
  - destruct (String.eqb_spec (casefold a) (casefold n)) as [E|E].
    + split; [discriminate|]. intros H. exfalso. apply H. exists a, x. auto.
    + rewrite IH. split; intros H C; apply H.
      * destruct C as (m & h & [C|C] & D); [injection C as -> ->; contradiction|]. exists m, h. auto.
      * destruct C as (m & h & C & D). exists m, h. auto.
Qed.

Lemma ci_has ent n : has_ci ent n -> exists h, case_insens_getattr ent n = Some h.
Proof.
  intros H. destruct (case_insens_getattr ent n) as [h|] eqn:E; [eauto|].
  apply ci_none in E. contradiction.
Qed.

Lemma exact_ok ent n h : getattr_exact ent n = Ok h -> In (n, h) ent.
Proof.
  induction ent as [|[a x] r IH]; cbn; [discriminate|].
  destruct (String.eqb_spec a n) as [->|E]; intros H; [injection H as <-; auto | auto].
Qed.

Lemma exact_err ent n : ~ has_exact ent n -> getattr_exact ent n = Err EAttribute.
Proof.
  unfold has_exact. induction ent as [|[a x] r IH]; cbn; [reflexivity|].
  intros H. destruct (String.eqb_spec a n) as [->|E]; [exfalso; eauto|].
  apply IH. intros (h & C). eauto.
Qed.

Lemma exact_has ent n : has_exact ent n -> exists h, getattr_exact ent n = Ok h.
Proof.
  unfold has_exact. induction ent as [|[a x] r IH]; cbn; [intros (h & F); tauto|].
  intros (h & H). destruct (String.eqb_spec a n) as [->|E]; [eauto|].
  apply IH. destruct H as [H|H]; [injection H as -> ->; tauto|eauto].
Qed.

Lemma find_idx_In l i h : find_idx l i = Ok h -> In (i, h) l.
Proof.
  induction l as [|[j x] r IH]; cbn; [discriminate|].
  destruct (Z.eqb_spec i j) as [->|E]; intros H; [injection H as <-; auto | auto].
Qed.

Lemma find_idx_has l i x : In (i, x) l -> exists h, find_idx l i = Ok h.
Proof.
  induction l as [|[j y] r IH]; cbn; [tauto|].
  destruct (Z.eqb_spec i j) as [->|E]; [eauto|]. intros [H|H]; [injection H as -> ->; tauto | auto].
Qed.

Lemma add_signal_ok ent b attr n idx ci b' :
  add_signal ent b attr n idx ci = Ok b' ->
  exists oh, b' = dict_set b attr oh
          /\ match oh with
             | Some h => resolves ent ci idx n h
             | None => ci = true /\ idx = None /\ ~ has_ci ent n
             end.
Proof.
  unfold add_signal. destruct ci.
  - cbn [rbind]. destruct idx as [i|]; cbn [rbind].
    + destruct (case_insens_getattr ent n) as [[s|l]|] eqn:E; cbn; try discriminate.
      destruct (find_idx l i) as [h|] eqn:F; cbn; [|discriminate]. intros H. injection H as <-.
      exists (Some h). split; [reflexivity|]. apply ci_some in E. destruct E as (m & Hm & Hn).
      exists m, (HArr l). repeat split; auto. exists l. split; [reflexivity|]. now apply find_idx_In.
    + intros H. injection H as <-. eexists. split; [reflexivity|].
      destruct (case_insens_getattr ent n) as [h|] eqn:E.
      * apply ci_some in E. destruct E as (m & Hm & Hn). exists m, h. auto.
      * repeat split; try reflexivity. now apply ci_none.
  - destruct (getattr_exact ent n) as [h|e] eqn:E; cbn [rbind]; [|discriminate].
    apply exact_ok in E. destruct idx as [i|]; cbn [rbind].
    + destruct h as [s|l]; cbn; try discriminate.
      destruct (find_idx l i) as [h|] eqn:F; cbn; [|discriminate]. intros H. injection H as <-.
      exists (Some h). split; [reflexivity|]. exists n, (HArr l). repeat split; auto.
      exists l. split; [reflexivity|]. now apply find_idx_In.
    + intros H. injection H as <-. exists (Some h). split; [reflexivity|]. exists n, h. auto.
Qed.

(** the requested pairs are those of the dict that is built *)
Lemma dict_set_diag (d : list (string * string)) x p : (forall k v, In (k, v) d -> k = v) ->
  (In p (dict_set d x x) <-> In p d \/ p = (x, x)).
Proof.
  induction d as [|[k v] r IH]; cbn [dict_set]; intro H; [cbn; intuition|].
  assert (k = v) by (apply H; left; reflexivity). subst v.
  destruct (String.eqb_spec k x) as [->|N]; cbn [In].
  - intuition.
  - rewrite IH by (intros; apply H; right; assumption). tauto.
Qed.
Lemma build_fold l : forall d p, (forall k v, In (k, v) d -> k = v) ->
  (In p (fold_left (fun d x => dict_set d x x) l d) <-> In p d \/ In p (map (fun x : string => (x, x)) l)).
Proof.
  induction l as [|x l IH]; cbn [fold_left map In]; intros d p H; [tauto|]. rewrite IH.
  - rewrite dict_set_diag by exact H. intuition.
  - intros k v Hi. apply dict_set_diag in Hi; [|exact H]. destruct Hi as [Hi|[= -> ->]]; [eapply H; eauto|reflexivity].
Qed.
Lemma build_In s p : In p (build_sig_attr_dict s) <-> In p (requested s).
Proof.
  destruct s as [l|d]; cbn; [|tauto]. rewrite build_fold by (cbn; tauto). cbn. tauto.
Qed.

(** what one pass over [sigs] makes of the bus *)
Definition bound_ok ent name sep idx (ci : bool) (s : string) (oh : option handle) : Prop :=
  match oh with
  | Some h => resolves ent ci idx (full_name name sep s) h
  | None => ci = true /\ idx = None /\ ~ has_ci ent (full_name name sep s)
  end.
Definition pass ent name sep idx ci (sigs : list (string * string)) (b b' : bus) : Prop :=
  forall a, match dict_get b' a with
            | Some oh => (exists s, In (a, s) sigs /\ bound_ok ent name sep idx ci s oh)
                         \/ (dict_get b a = Some oh /\ ~ In a (map fst sigs))
            | None => dict_get b a = None /\ ~ In a (map fst sigs)
            end.
Lemma pass_cons ent name sep idx ci attr s sigs b b' oh :
  bound_ok ent name sep idx ci s oh -> pass ent name sep idx ci sigs (dict_set b attr oh) b' ->
  pass ent name sep idx ci ((attr, s) :: sigs) b b'.
Proof.
  intros Ho H a. specialize (H a). rewrite dict_get_set in H. cbn [map In fst].
  destruct (dict_get b' a) as [x|].
  - destruct H as [(s' & Hi & Hb)|(Hg & Hn)]; [left; exists s'; auto|].
    destruct (String.eqb_spec attr a) as [->|N]; [|right; split; [exact Hg|tauto]].
    injection Hg as <-. left. exists s. auto.
  - destruct H as (Hg & Hn). destruct (String.eqb_spec attr a) as [->|N]; [discriminate|]. tauto.
Qed.

Lemma init_required_ok ent name sep idx ci sigs : forall b b',
  init_required ent name sep idx ci sigs b = Ok b' -> pass ent name sep idx ci sigs b b'.
Proof.
  induction sigs as [|[attr s] r IH]; cbn [init_required]; intros b b' H.
  - injection H as <-. intro a. destruct (dict_get b a); cbn; auto.
  - destruct (add_signal _ _ _ _ _ _) as [b1|e] eqn:E; cbn in H; [|discriminate].
    apply add_signal_ok in E. destruct E as (oh & -> & Hoh). rewrite full_name_signame in Hoh.
    apply (pass_cons _ _ _ _ _ _ _ _ _ _ oh Hoh). apply IH, H.
Qed.

Definition presentb ent name sep (s : string * string) : bool :=
  match case_insens_getattr ent (signame name sep (snd s)) with Some _ => true | None => false end.

Lemma presentb_spec ent name sep s :
  presentb ent name sep s = true <-> has_ci ent (full_name name sep (snd s)).
Proof.
  unfold presentb. rewrite full_name_signame. destruct (case_insens_getattr _ _) as [h|] eqn:E.
  - apply ci_some in E. destruct E as (m & H1 & H2). split; [|reflexivity]. intros _. exists m, h. auto.
  - split; [discriminate|]. intros H. apply ci_none in E. contradiction.
Qed.

Lemma init_optional_ok ent name sep idx ci sigs : forall b b',
  init_optional ent name sep idx ci sigs b = Ok b' ->
  pass ent name sep idx ci (filter (presentb ent name sep) sigs) b b'.
Proof.
  induction sigs as [|[attr s] r IH]; cbn [init_optional filter]; intros b b' H.
  - injection H as <-. intro a. destruct (dict_get b a); cbn; auto.
  - unfold presentb at 1. cbn [snd]. cbn zeta in H.
    destruct (case_insens_getattr _ _) as [h0|] eqn:E0; [|apply IH, H].
    destruct (add_signal _ _ _ _ _ _) as [b1|e] eqn:E; cbn in H; [|discriminate].
    apply add_signal_ok in E. destruct E as (oh & -> & Hoh). rewrite full_name_signame in Hoh.
    apply (pass_cons _ _ _ _ _ _ _ _ _ _ oh Hoh). apply IH, H.
Qed.

Lemma NoDup_app_filter {A B} (f : A -> B) (p : A -> bool) (l1 : list B) (l2 : list A) :
  NoDup (l1 ++ map f l2) -> NoDup (l1 ++ map f (filter p l2)).
Proof.
  revert l1. induction l2 as [|a r IH]; cbn; intros l1 H; [exact H|].
  destruct (p a); cbn.
  - assert (H' : NoDup ((l1 ++ [f a]) ++ map f r)) by now rewrite <- app_assoc.
    apply IH in H'. now rewrite <- app_assoc in H'.
  - apply IH. now apply NoDup_remove_1 in H.
Qed.

Lemma NoDup_app_remove_r {A} (l l' : list A) : NoDup (l ++ l') -> NoDup l.
Proof.
  induction l as [|a l IH]; cbn; intros H; [constructor|]. inversion H as [|x y Hx Hr]; subst.
  constructor; [intros C; apply Hx; apply in_or_app; now left | now apply IH].
Qed.

Lemma NoDup_app_remove_l {A} (l l' : list A) : NoDup (l ++ l') -> NoDup l'.
Proof.
  induction l as [|a l IH]; cbn; intros H; [exact H|]. inversion H; subst. now apply IH.
Qed.

Lemma bus_init_ok ent name signals optional sep ci idx b :
  bus_init ent name signals optional sep ci idx = Ok b ->
  forall a,
    let req s := In (a, s) (requested signals) in
    let opt s := In (a, s) (requested optional) /\ has_ci ent (full_name name sep s) in
    match dict_get b a with
    | Some oh => exists s, (req s \/ opt s) /\ bound_ok ent name sep idx ci s oh
    | None => forall s, ~ (req s \/ opt s)
    end.
Proof.
  intros H a req opt. unfold bus_init in H.
  destruct (init_required _ _ _ _ _ _ _) as [b1|e] eqn:E; cbn [rbind] in H; [|discriminate].
  apply init_required_ok in E. apply init_optional_ok in H. specialize (E a). specialize (H a). cbn [dict_get] in E.
  assert (Ef : forall s, In (a, s) (filter (presentb ent name sep) (build_sig_attr_dict optional)) <-> opt s).
  { intro s. rewrite filter_In, build_In, presentb_spec. reflexivity. }
  assert (Er : forall s, In (a, s) (build_sig_attr_dict signals) <-> req s) by (intro s; apply build_In).
  assert (K : forall l, ~ In a (map fst l) -> forall s : string, ~ In (a, s) l).
  { intros l N s C. apply N. now apply (in_map fst) in C. }
  destruct (dict_get b a) as [oh|].
  - destruct H as [(s & Hi & Hb)|(Hg & _)]; [exists s; rewrite Ef in Hi; auto|].
    rewrite Hg in E. destruct E as [(s & Hi & Hb)|(C & _)]; [|discriminate]. exists s. rewrite Er in Hi. auto.
  - destruct H as (Hg & Hn). rewrite Hg in E. destruct E as (_ & Hm). intros s [C|C].
    + apply Er in C. exact (K _ Hm s C).
    + apply Ef in C. exact (K _ Hn s C).
Qed.

(** C04 *)
Lemma bus_resolution ent name signals optional sep ci idx b :
  one_signal_each (requested signals ++ requested optional) ->
  (forall a s, In (a, s) (requested signals) -> has_ci ent (full_name name sep s)) ->
  bus_init ent name signals optional sep ci idx = Ok b ->
  (forall a s, In (a, s) (requested signals) ->
     exists h, dict_get b a = Some (Some h) /\ resolves ent ci idx (full_name name sep s) h)
  /\ (forall a s, In (a, s) (requested optional) ->
        (has_ci ent (full_name name sep s) ->
           exists h, dict_get b a = Some (Some h) /\ resolves ent ci idx (full_name name sep s) h)
        /\ (~ has_ci ent (full_name name sep s) -> dict_get b a = None))
  /\ (forall a, In a (map fst b) -> In a (map fst (requested signals))
                                 \/ exists s, In (a, s) (requested optional)
                                           /\ has_ci ent (full_name name sep s)).
Proof.
  intros Hn Hreq H. assert (B := bus_init_ok _ _ _ _ _ _ _ _ H). cbn zeta in B.
  assert (G : forall a s, In (a, s) (requested signals) \/ (In (a, s) (requested optional) /\ has_ci ent (full_name name sep s)) ->
              exists h, dict_get b a = Some (Some h) /\ resolves ent ci idx (full_name name sep s) h).
  { intros a s Hi. specialize (B a). destruct (dict_get b a) as [oh|]; [|exfalso; exact (B s Hi)].
    destruct B as (s' & Hi' & Hb).
    assert (s' = s) by (apply (Hn a); apply in_or_app; tauto). subst s'.
    assert (Hc : has_ci ent (full_name name sep s)) by (destruct Hi as [Hi|(_ & Hi)]; eauto).
    destruct oh as [h|]; [exists h; auto|]. destruct Hb as (_ & _ & Hb). contradiction. }
  split; [|split].
  - intros a s Hi. apply G. auto.
  - intros a s Hi. split; [intros Hc; apply G; auto|]. intro Hc. specialize (B a).
    destruct (dict_get b a) as [oh|]; [|reflexivity]. exfalso. destruct B as (s' & Hi' & Hb).
    assert (s' = s) by (apply (Hn a); apply in_or_app; tauto). subst s'.
    destruct Hi' as [Hi'|(_ & Hi')]; [|contradiction]. apply Hc. eauto.
  - intros a Hi. specialize (B a). destruct (dict_get b a) as [oh|] eqn:E; [|apply dict_get_none in E; contradiction].
    destruct B as (s & [B|B] & _); [left; now apply (in_map fst) in B|right; exists s; exact B].
Qed.

Lemma resolves_unique ent n h h' :
  no_case_clash ent -> resolves ent true None n h -> resolves ent true None n h' -> h = h'.
Proof.
  intros Hu (m & hm & H1 & H2 & ->) (m' & hm' & H1' & H2' & ->).
  destruct (Hu m m' _ _ H1 H1') as (_ & E); [|exact E]. rewrite same_name_fold in *. congruence.
Qed.

(** C05 *)
Lemma init_required_missing ent name sep idx ci sigs : forall b,
  (exists a s, In (a, s) sigs /\ forall b', exists e,
       add_signal ent b' a (full_name name sep s) idx ci = Err e) ->
  exists e, init_required ent name sep idx ci sigs b = Err e.
Proof.
  induction sigs as [|[attr s0] r IH]; cbn; intros b (a & s & Hi & Ha); [tauto|].
  rewrite full_name_signame. destruct Hi as [Hi|Hi].
  - injection Hi as -> ->. destruct (Ha b) as (e & ->). cbn. eauto.
  - destruct (add_signal _ _ _ _ _ _) as [b1|e]; cbn; [|eauto]. apply IH. eauto.
Qed.

Lemma add_missing_cs ent b a n idx :
  ~ has_exact ent n -> add_signal ent b a n idx false = Err EAttribute.
Proof. intros H. unfold add_signal. now rewrite exact_err. Qed.

Lemma add_missing_idx ent b a n i :
  ~ has_ci ent n -> add_signal ent b a n (Some i) true = Err EType.
Proof. intros H. unfold add_signal. apply ci_none in H. now rewrite H. Qed.

Lemma bus_missing_reported ent name signals optional sep ci idx a s :
  In (a, s) (requested signals) ->
  (ci = false /\ ~ has_exact ent (full_name name sep s))
  \/ (idx <> None /\ ~ has_ci ent (full_name name sep s)) ->
  exists e, bus_init ent name signals optional sep ci idx = Err e.
Proof.
  intros Hi Hm. unfold bus_init.
  edestruct (init_required_missing ent name sep idx ci (build_sig_attr_dict signals) []) as (e & E).
  - exists a, s. split; [now apply build_In|]. intros b'.
    destruct Hm as [(-> & Hm)|(Hx & Hm)].
    + exists EAttribute. now apply add_missing_cs.
    + destruct idx as [i|]; [|tauto]. destruct ci.
      * exists EType. now apply add_missing_idx.
      * exists EAttribute. apply add_missing_cs. intros (h & C). apply Hm. exists (full_name name sep s), h.
        split; [exact C | now apply same_name_fold].
  - rewrite E. cbn. eauto.
Qed.

Lemma capture_none {V} (b : bus) (value : handle -> V) a :
  In (a, None) b -> capture V b value = Err EAttribute.
Proof.
  induction b as [|[k oh] r IH]; cbn; [tauto|]. intros [H|H].
  - injection H as -> ->. reflexivity.
  - destruct oh; [|reflexivity]. now rewrite IH.
Qed.

(** default settings: the failure only shows on first use *)
Lemma bus_missing_deferred ent name signals optional sep b a s :
  one_signal_each (requested signals ++ requested optional) ->
  In (a, s) (requested signals) ->
  ~ has_ci ent (full_name name sep s) ->
  bus_init ent name signals optional sep true None = Ok b ->
  dict_get b a = Some None
  /\ In (a, None) b
  /\ (forall (V : Type) (value : handle -> V), capture V b value = Err EAttribute).
Proof.
  intros Hn Hi Hm H. assert (B := bus_init_ok _ _ _ _ _ _ _ _ H a). cbn zeta in B.
  destruct (dict_get b a) as [oh|] eqn:E; [|exfalso; apply (B s); auto]. destruct B as (s' & Hi' & Hb).
  assert (s' = s) by (apply (Hn a); apply in_or_app; tauto). subst s'. destruct oh as [h|].
  - destruct Hb as (m & hm & H1 & H2 & _). exfalso. apply Hm. exists m, hm. auto.
  - split; [reflexivity|]. split; [now apply dict_get_In|]. intros V value. eapply capture_none. apply dict_get_In. eassumption.
Qed.

(** C06 *)
Lemma add_signal_total ent b a n idx (ci : bool) :
  indexable ent idx -> (if ci then has_ci ent n else has_exact ent n) ->
  exists b', add_signal ent b a n idx ci = Ok b'.
Proof.
  intros Hx Hh. unfold add_signal. destruct ci.
  - destruct (ci_has _ _ Hh) as (h & E). rewrite E. cbn [rbind]. destruct idx as [i|]; cbn [rbind]; [|eauto].
    apply ci_some in E. destruct E as (m & E & _). destruct (Hx _ _ E) as (l & x & -> & Hl). cbn.
    destruct (find_idx_has _ _ _ Hl) as (y & ->). cbn. eauto.
  - destruct (exact_has _ _ Hh) as (h & E). rewrite E. cbn [rbind]. destruct idx as [i|]; cbn [rbind]; [|eauto].
    apply exact_ok in E. destruct (Hx _ _ E) as (l & x & -> & Hl). cbn.
    destruct (find_idx_has _ _ _ Hl) as (y & ->). cbn. eauto.
Qed.

Lemma init_required_total ent name sep idx (ci : bool) sigs : forall b,
  indexable ent idx ->
  (forall a s, In (a, s) sigs ->
     if ci then has_ci ent (full_name name sep s) else has_exact ent (full_name name sep s)) ->
  exists b', init_required ent name sep idx ci sigs b = Ok b'.
Proof.
  induction sigs as [|[attr s] r IH]; cbn; intros b Hx H; [eauto|].
  rewrite full_name_signame. edestruct (add_signal_total ent b attr (full_name name sep s) idx ci Hx) as (b1 & ->).
  - apply (H attr). auto.
  - cbn. apply IH; [exact Hx|]. intros a' s' Hi. apply (H a'). auto.
Qed.

Lemma init_optional_total ent name sep idx (ci : bool) sigs : forall b,
  indexable ent idx ->
  (ci = true \/ forall a s, In (a, s) sigs -> has_ci ent (full_name name sep s) -> has_exact ent (full_name name sep s)) ->
  exists b', init_optional ent name sep idx ci sigs b = Ok b'.
Proof.
  induction sigs as [|[attr s] r IH]; cbn [init_optional]; intros b Hx H; [eauto|]. cbn zeta.
  assert (Hr : ci = true \/ forall a s, In (a, s) r -> has_ci ent (full_name name sep s) -> has_exact ent (full_name name sep s)).
  { destruct H as [H|H]; [auto|]. right. intros a' s' Hi. apply (H a'). now right. }
  rewrite full_name_signame. destruct (case_insens_getattr ent (full_name name sep s)) as [h|] eqn:E.
  - apply ci_some in E. destruct E as (m & E1 & E2).
    assert (Hc : has_ci ent (full_name name sep s)) by (exists m, h; auto).
    edestruct (add_signal_total ent b attr (full_name name sep s) idx ci Hx) as (b1 & ->).
    + destruct ci; [exact Hc|]. destruct H as [H|H]; [discriminate|]. apply (H attr); [now left | exact Hc].
    + cbn. now apply IH.
  - now apply IH.
Qed.

Lemma NoDup_app_l {A} (l l' : list A) : NoDup (l ++ l') -> NoDup l.
Proof. apply NoDup_app_remove_r. Qed.

Lemma bus_init_total ent name signals optional sep (ci : bool) idx :
  indexable ent idx ->
  (forall a s, In (a, s) (requested signals) ->
     if ci then has_ci ent (full_name name sep s) else has_exact ent (full_name name sep s)) ->
  (ci = true \/ forall a s, In (a, s) (requested optional) ->
       has_ci ent (full_name name sep s) -> has_exact ent (full_name name sep s)) ->
  exists b, bus_init ent name signals optional sep ci idx = Ok b.
Proof.
  intros Hx Hr Ho. unfold bus_init.
  edestruct init_required_total as (b1 & ->); [exact Hx | intros a s Hi; apply (Hr a); now apply build_In |]. cbn.
  apply init_optional_total; [exact Hx|]. destruct Ho as [Ho|Ho]; [left; exact Ho|right].
  intros a s Hi. apply (Ho a). now apply build_In.
Qed.

Lemma resolves_exact ent n h h0 :
  no_case_clash ent -> resolves ent true None n h -> In (n, h0) ent -> h = h0.
Proof.
  intros Hu (m & hm & H1 & H2 & ->) H3. destruct (Hu m n hm h0 H1 H3 H2) as (_ & E). exact E.
Qed.

(** drive *)
Lemma fully_bound_cons e r : fully_bound (e :: r) -> (exists h, snd e = Some h) /\ fully_bound r.
Proof.
  intros H. split.
  - destruct e as [a [h|]]; cbn; [eauto|]. exfalso. now apply (H a None); [left|].
  - intros a h Hi. apply (H a). now right.
Qed.

Lemma drive_lax {V} (b : bus) (obj : object V) :
  fully_bound b -> drive V b obj false = (expected_writes b obj, Ok tt).
Proof.
  induction b as [|[a oh] r IH]; cbn; intros Hf; [reflexivity|].
  apply fully_bound_cons in Hf. destruct Hf as ((h & E) & Hf). cbn in E. subst oh.
  rewrite IH by exact Hf. destruct (dict_get obj a); reflexivity.
Qed.

Lemma drive_strict_ok {V} (b : bus) (obj : object V) :
  fully_bound b -> (forall a, In a (map fst b) -> has_attr obj a) ->
  drive V b obj true = (expected_writes b obj, Ok tt).
Proof.
  induction b as [|[a oh] r IH]; cbn; intros Hf H; [reflexivity|].
  apply fully_bound_cons in Hf. destruct Hf as ((h & E) & Hf). cbn in E. subst oh.
  destruct (H a (or_introl eq_refl)) as (v & ->).
  rewrite IH; auto.
Qed.

Lemma drive_strict_missing {V} (b1 b2 : bus) a oh (obj : object V) :
  fully_bound b1 -> (forall k, In k (map fst b1) -> has_attr obj k) -> ~ has_attr obj a ->
  drive V (b1 ++ (a, oh) :: b2) obj true = (expected_writes b1 obj, Err EAttribute).
Proof.
  induction b1 as [|[k kh] r IH]; cbn; intros Hf H Hm.
  - destruct (dict_get obj a) as [v|] eqn:E; [|reflexivity]. exfalso. apply Hm. now exists v.
  - apply fully_bound_cons in Hf. destruct Hf as ((h & E) & Hf). cbn in E. subst kh.
    destruct (H k (or_introl eq_refl)) as (v & ->). rewrite IH; auto.
Qed.

Lemma split_first_missing {V} (b : bus) (obj : object V) :
  (forall a, In a (map fst b) -> has_attr obj a)
  \/ exists b1 a oh b2, b = b1 ++ (a, oh) :: b2
       /\ (forall k, In k (map fst b1) -> has_attr obj k) /\ ~ has_attr obj a.
Proof.
  induction b as [|[a oh] r IH]; [left; cbn; tauto|].
  destruct (dict_get obj a) as [v|] eqn:E.
  - destruct IH as [IH|(b1 & a' & oh' & b2 & -> & H1 & H2)].
    + left. cbn. intros k [<-|Hk]; [now exists v | auto].
    + right. exists ((a, oh) :: b1), a', oh', b2. repeat split; [|exact H2].
      cbn. intros k [<-|Hk]; [now exists v | auto].
  - right. exists [], a, oh, r. repeat split; [cbn; tauto|]. intros (v & C). congruence.
Qed.

Lemma drive_strict_iff {V} (b : bus) (obj : object V) :
  fully_bound b ->
  (snd (drive V b obj true) = Ok tt <-> forall a, In a (map fst b) -> has_attr obj a)
  /\ (snd (drive V b obj true) <> Ok tt -> snd (drive V b obj true) = Err EAttribute).
Proof.
  intros Hf. destruct (split_first_missing b obj) as [H|(b1 & a & oh & b2 & -> & H1 & H2)].
  - rewrite drive_strict_ok by assumption. cbn. split; [|congruence]. tauto.
  - rewrite drive_strict_missing; [|intros k x Hi; apply (Hf k); apply in_or_app; now left | exact H1 | exact H2].
    cbn. split; [|tauto]. split; [discriminate|]. intros C. exfalso. apply H2, C.
    rewrite map_app. apply in_or_app. right. now left.
Qed.

Lemma drive_unbound {V} (b : bus) a (obj : object V) strict :
  In (a, None) b -> has_attr obj a -> snd (drive V b obj strict) = Err EAttribute.
Proof.
  intros Hi (v & Hv). induction b as [|[k kh] r IH]; cbn; [destruct Hi|]. destruct Hi as [E|Hi].
  - injection E as -> ->. rewrite Hv. reflexivity.
  - destruct (dict_get obj k) as [w|].
    + destruct kh as [h|]; [|reflexivity]. specialize (IH Hi). destruct (drive V r obj strict). exact IH.
    + destruct strict; [reflexivity|auto].
Qed.

(** sample *)
Lemma sample_strict_missing {V} (b1 b2 : bus) a oh (value : handle -> V) : forall (obj : object V),
  fully_bound b1 -> (forall k, In k (map fst b1) -> has_attr obj k) -> ~ has_attr obj a ->
  snd (sample V (b1 ++ (a, oh) :: b2) value obj true) = Err EAttribute.
Proof.
  induction b1 as [|[k kh] r IH]; cbn; intros obj Hf H Hm.
  - destruct (dict_get obj a) as [v|] eqn:E; [|reflexivity]. exfalso. apply Hm. now exists v.
  - apply fully_bound_cons in Hf. destruct Hf as ((h & E) & Hf). cbn in E. subst kh.
    destruct (H k (or_introl eq_refl)) as (v & Ev). rewrite Ev. apply IH; [exact Hf| |].
    + intros k' Hk'. unfold has_attr. rewrite dict_get_set. destruct (String.eqb k k'); [eauto|].
      apply H. now right.
    + unfold has_attr. rewrite dict_get_set. destruct (String.eqb_spec k a) as [->|]; [|exact Hm].
      exfalso. apply Hm. now exists v.
Qed.

Lemma sample_unbound {V} (b : bus) a (value : handle -> V) strict : forall (obj : object V),
  In (a, None) b -> has_attr obj a -> snd (sample V b value obj strict) = Err EAttribute.
Proof.
  induction b as [|[k kh] r IH]; cbn; intros obj Hi Hv; [destruct Hi|]. destruct Hi as [E|Hi].
  - injection E as -> ->. destruct Hv as (v & ->). reflexivity.
  - destruct (dict_get obj k) as [w|].
    + destruct kh as [h|]; [|reflexivity]. apply IH; [exact Hi|].
      unfold has_attr. rewrite dict_get_set. destruct (String.eqb k a); [eauto|exact Hv].
    + destruct strict; [reflexivity|auto].
Qed.

Lemma sample_strict_prefix {V} (b1 b2 : bus) a oh (value : handle -> V) : forall (obj : object V),
  fully_bound b1 -> (forall k, In k (map fst b1) -> has_attr obj k) -> ~ has_attr obj a ->
  sample V (b1 ++ (a, oh) :: b2) value obj true = (fst (sample V b1 value obj true), Err EAttribute).
Proof.
  induction b1 as [|[k kh] r IH]; cbn; intros obj Hf H Hm.
  - destruct (dict_get obj a) as [v|] eqn:E; [|reflexivity]. exfalso. apply Hm. now exists v.
  - apply fully_bound_cons in Hf. destruct Hf as ((h & E) & Hf). cbn in E. subst kh.
    destruct (H k (or_introl eq_refl)) as (v & Ev). rewrite Ev. apply IH; [exact Hf| |].
    + intros k' Hk'. unfold has_attr. rewrite dict_get_set. destruct (String.eqb k k'); [eauto|].
      apply H. now right.
    + unfold has_attr. rewrite dict_get_set. destruct (String.eqb_spec k a) as [->|]; [|exact Hm].
      exfalso. apply Hm. now exists v.
Qed.

Lemma sample_spec {V} (b : bus) (value : handle -> V) strict : forall (obj : object V),
  fully_bound b -> NoDup (map fst b) ->
  (strict = true -> forall a, In a (map fst b) -> has_attr obj a) ->
  exists obj', sample V b value obj strict = (obj', Ok tt)
    /\ map fst obj' = map fst obj
    /\ (forall a v, dict_get obj a = Some v ->
          dict_get obj' a = Some (match dict_get b a with
                                  | Some (Some h) => value h
                                  | _ => v
                                  end)).
Proof.
  induction b as [|[a oh] r IH]; cbn; intros obj Hf Hn Hs.
  - exists obj. repeat split; auto.
  - apply fully_bound_cons in Hf. destruct Hf as ((h & E) & Hf). cbn in E. subst oh.
    inversion Hn as [|x l Hx Hr]; subst.
    assert (Hga : dict_get r a = None) by now apply dict_get_notin.
    destruct (dict_get obj a) as [v0|] eqn:Ea.
    + destruct (IH (dict_set obj a (value h)) Hf Hr) as (obj' & -> & Hk & Hv).
      { intros Hst k Hk. unfold has_attr. rewrite dict_get_set. destruct (String.eqb a k); [eauto|].
        apply Hs; auto. }
      exists obj'. split; [reflexivity|]. split; [rewrite Hk; eapply dict_set_keys; eauto|].
      intros k v Ek. destruct (String.eqb_spec a k) as [->|Hak].
      * rewrite (Hv k (value h)); [now rewrite Hga|]. rewrite dict_get_set, String.eqb_refl. reflexivity.
      * apply Hv. rewrite dict_get_set. destruct (String.eqb_spec a k); [contradiction|exact Ek].
    + destruct strict.
      * exfalso. destruct (Hs eq_refl a (or_introl eq_refl)) as (v & C). congruence.
      * destruct (IH obj Hf Hr) as (obj' & -> & Hk & Hv); [discriminate|].
        exists obj'. split; [reflexivity|]. split; [exact Hk|]. intros k v Ek.
        destruct (String.eqb_spec a k) as [->|Hak]; [congruence|]. now apply Hv.
Qed.

Lemma sample_prefix_spec {V} (b1 b2 : bus) a oh (value : handle -> V) (obj : object V) :
  fully_bound b1 -> NoDup (map fst b1) ->
  (forall k, In k (map fst b1) -> has_attr obj k) -> ~ has_attr obj a ->
  exists obj', sample V (b1 ++ (a, oh) :: b2) value obj true = (obj', Err EAttribute)
    /\ map fst obj' = map fst obj
    /\ (forall k v, dict_get obj k = Some v ->
          dict_get obj' k = Some (match dict_get b1 k with Some (Some h) => value h | _ => v end)).
Proof.
  intros Hf Hn H Hm. destruct (sample_spec b1 value true obj Hf Hn (fun _ => H)) as (o & E & Hk & Hv).
  exists o. rewrite (sample_strict_prefix b1 b2 a oh value obj Hf H Hm), E. auto.
Qed.

Lemma sample_strict_iff {V} (b : bus) (value : handle -> V) (obj : object V) :
  fully_bound b -> NoDup (map fst b) ->
  (snd (sample V b value obj true) = Ok tt <-> forall a, In a (map fst b) -> has_attr obj a)
  /\ (snd (sample V b value obj true) <> Ok tt -> snd (sample V b value obj true) = Err EAttribute).
Proof.
  intros Hf Hn. destruct (split_first_missing b obj) as [H|(b1 & a & oh & b2 & -> & H1 & H2)].
  - destruct (sample_spec b value true obj Hf Hn) as (o & -> & _); [auto|]. cbn. split; [tauto|congruence].
  - rewrite sample_strict_missing; [|intros k x Hi; apply (Hf k); apply in_or_app; now left | exact H1 | exact H2].
    split; [|tauto]. split; [discriminate|]. intros C. exfalso. apply H2, C.
    rewrite map_app. apply in_or_app. right. now left.
Qed.

(** handle identity *)
Lemma handle_eqb_refl : forall a, handle_eqb a a = true.
Proof.
  fix IH 1. intros [x|l]; cbn; [apply Nat.eqb_refl|].
  induction l as [|[i x] r IHl]; [reflexivity|]. rewrite Z.eqb_refl, (IH x). cbn. exact IHl.
Qed.

Lemma handle_eqb_eq : forall a b, handle_eqb a b = true -> a = b.
Proof.
  fix IH 1. intros [x|l] [y|m]; cbn; try discriminate.
  - intros H. apply Nat.eqb_eq in H. now subst.
  - intros H. f_equal. revert m H. induction l as [|[i x] r IHl]; intros [|[j y] m]; try discriminate; [reflexivity|].
    intros H. apply andb_true_iff in H. destruct H as (H & H3). apply andb_true_iff in H. destruct H as (H1 & H2).
    apply Z.eqb_eq in H1. apply IH in H2. subst. f_equal. now apply IHl.
Qed.

Lemma settle_app {V} (value : handle -> V) w1 w2 h :
  settle V value (w1 ++ w2) h = settle V (settle V value w1) w2 h.
Proof. unfold settle. now rewrite fold_left_app. Qed.

Lemma settle_ext {V} w : forall (f g : handle -> V), (forall h, f h = g h) ->
  forall h, settle V f w h = settle V g w h.
Proof.
  induction w as [|e w IH]; cbn; intros f g H h; [apply H|].
  apply IH. intros x. destruct (handle_eqb (fst e) x); [reflexivity|apply H].
Qed.

Lemma settle_notin {V} (value : handle -> V) w : forall h, ~ In h (map fst w) -> settle V value w h = value h.
Proof.
  revert value. induction w as [|[k v] w IH]; cbn; intros value h H; [reflexivity|].
  fold (settle V (fun h0 : handle => if handle_eqb k h0 then v else value h0) w h). rewrite IH by tauto.
  destruct (handle_eqb k h) eqn:E; [|reflexivity]. apply handle_eqb_eq in E. tauto.
Qed.

Lemma settle_in {V} (value : handle -> V) w h v :
  NoDup (map fst w) -> In (h, v) w -> settle V value w h = v.
Proof.
  revert value. induction w as [|[k x] w IH]; cbn; intros value Hn Hi; [tauto|].
  inversion Hn as [|y l Hy Hr]; subst.
  fold (settle V (fun h0 : handle => if handle_eqb k h0 then x else value h0) w h).
  destruct Hi as [Hi|Hi].
  - injection Hi as -> ->. rewrite settle_notin by exact Hy. now rewrite handle_eqb_refl.
  - now apply IH.
Qed.

Lemma expected_writes_In {V} (b : bus) (obj : object V) h v :
  In (h, v) (expected_writes b obj) <-> exists a, In (a, Some h) b /\ dict_get obj a = Some v.
Proof.
  unfold expected_writes. rewrite in_flat_map. split.
  - intros ([a oh] & Hi & H). cbn in H. destruct oh as [h'|]; [|destruct H].
    destruct (dict_get obj a) as [v'|] eqn:E; [|destruct H]. destruct H as [H|[]]. injection H as -> ->.
    exists a. auto.
  - intros (a & Hi & E). exists (a, Some h). split; [exact Hi|]. cbn. rewrite E. now left.
Qed.

Lemma expected_writes_NoDup {V} (b : bus) (obj : object V) :
  NoDup (map snd b) -> NoDup (map fst (expected_writes b obj)).
Proof.
  induction b as [|[a oh] r IH]; cbn; intros H; [constructor|].
  inversion H as [|x l Hx Hr]; subst. rewrite map_app.
  destruct oh as [h|]; cbn; [|now apply IH].
  destruct (dict_get obj a) as [v|]; cbn; [|now apply IH]. constructor; [|now apply IH].
  intros C. apply in_map_iff in C. destruct C as ([h' v'] & E & C). cbn in E. subst h'.
  apply expected_writes_In in C. destruct C as (a' & C & _). apply Hx. now apply (in_map snd) in C.
Qed.

(** C07: effect on the signals *)
Lemma drive_effect {V} (b : bus) (obj : object V) (value : handle -> V) :
  fully_bound b -> NoDup (map snd b) ->
  let value' := settle V value (fst (drive V b obj false)) in
  (forall a h v, In (a, Some h) b -> dict_get obj a = Some v -> value' h = v)
  /\ (forall h, (forall a v, In (a, Some h) b -> dict_get obj a <> Some v) -> value' h = value h).
Proof.
  intros Hf Hn. cbn zeta. rewrite drive_lax by exact Hf. cbn [fst]. split.
  - intros a h v Hi Hv. apply settle_in; [now apply expected_writes_NoDup|].
    apply expected_writes_In. eauto.
  - intros h Hh. apply settle_notin. intros C. apply in_map_iff in C. destruct C as ([h' v'] & E & C).
    cbn in E. subst h'. apply expected_writes_In in C. destruct C as (a & C1 & C2). eapply Hh; eauto.
Qed.

(** C09 *)
Lemma capture_spec {V} (b : bus) (value : handle -> V) :
  fully_bound b ->
  exists c, capture V b value = Ok c
    /\ map fst c = map fst b
    /\ (forall a, dict_get c a = match dict_get b a with Some (Some h) => Some (value h) | _ => None end).
Proof.
  induction b as [|[a oh] r IH]; cbn; intros Hf; [exists []; auto|].
  apply fully_bound_cons in Hf. destruct Hf as ((h & E) & Hf). cbn in E. subst oh.
  destruct (IH Hf) as (c & -> & H1 & H2). cbn. exists ((a, value h) :: c). split; [reflexivity|]. cbn.
  split; [now rewrite H1|]. intros k. destruct (String.eqb_spec a k); [reflexivity|]. apply H2.
Qed.

Lemma capture_attr {V} (c : list (string * V)) (name : string) :
  existsb (String.eqb name) dict_attr_names = false ->
  capture_getattr V c name = match dict_get c name with Some v => Ok (AVal V v) | None => Err ERuntime end.
Proof. intros H. unfold capture_getattr. now rewrite H. Qed.

(** C10 *)
Lemma drive_sample {V} (b : bus) (obj tgt : object V) (value : handle -> V) strict :
  fully_bound b -> NoDup (map fst b) -> NoDup (map snd b) ->
  map fst tgt = map fst obj ->
  snd (drive V b obj strict) = Ok tt ->
  exists tgt',
    sample V b (settle V value (fst (drive V b obj strict))) tgt strict = (tgt', Ok tt)
    /\ (forall a, In a (map fst b) -> dict_get tgt' a = dict_get obj a).
Proof.
  intros Hf Hn Hs Hk Hd.
  assert (Hall : strict = true -> forall a, In a (map fst b) -> has_attr obj a).
  { intros ->. destruct (drive_strict_iff b obj Hf) as ((H & _) & _). auto. }
  assert (Ed : drive V b obj strict = (expected_writes b obj, Ok tt)).
  { destruct strict; [apply drive_strict_ok; auto | now apply drive_lax]. }
  assert (Ha : forall a, has_attr obj a -> has_attr tgt a).
  { intros a (v & E). destruct (dict_get tgt a) as [v'|] eqn:E'; [now exists v'|].
    apply dict_get_none in E'. exfalso. apply E'. rewrite Hk. apply dict_get_In in E.
    now apply (in_map fst) in E. }
  rewrite Ed. cbn [fst].
  destruct (sample_spec b (settle V value (expected_writes b obj)) strict tgt Hf Hn) as (t & -> & Hkt & Hv).
  { intros Hst a Hi. apply Ha. auto. }
  exists t. split; [reflexivity|]. intros a Hi.
  apply in_map_iff in Hi. destruct Hi as ([a' oh] & E & Hi). cbn in E. subst a'.
  destruct oh as [h|]; [|exfalso; now apply (Hf a None)].
  destruct (dict_get obj a) as [v|] eqn:Eo.
  - destruct (Ha a) as (v' & E'); [now exists v|]. rewrite (Hv a v' E').
    rewrite (In_dict_get _ _ _ Hn Hi). f_equal.
    apply settle_in; [now apply expected_writes_NoDup|]. apply expected_writes_In. eauto.
  - apply dict_get_notin. rewrite Hkt, Hk. now apply dict_get_none.
Qed.
