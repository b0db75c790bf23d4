(** CombProof.v *)
From Verif Require Import CombModel CombSpec.
From Coq Require Import Permutation.
Local Open Scope list_scope.

Lemma opt_eqb_eq a b : opt_eqb a b = true <-> a = b.
Proof.
  destruct a as [x|], b as [y|]; cbn; split; try discriminate; try reflexivity.
  - intro H. apply String.eqb_eq in H. congruence.
  - intro H. injection H as ->. apply String.eqb_refl.
Qed.
Definition keyb (a b : option string * option string) : bool := opt_eqb (fst a) (fst b) && opt_eqb (snd a) (snd b).
Lemma keyb_eq a b : keyb a b = true <-> a = b.
Proof.
  unfold keyb. rewrite andb_true_iff, !opt_eqb_eq. destruct a, b; cbn. split; [intros [-> ->]; reflexivity|].
  intro H. injection H as -> ->. auto.
Qed.
Lemma keyb_refl a : keyb a a = true. Proof. apply keyb_eq. reflexivity. Qed.

Lemma extend_key e l : key (extend e l) = key e. Proof. destruct e. reflexivity. Qed.
Lemma extend_children e l : children (extend e l) = children e ++ l. Proof. destruct e. reflexivity. Qed.
Lemma extend_attrs e l : attrs (extend e l) = attrs e. Proof. destruct e. reflexivity. Qed.
Lemma extend_tag e l : tag (extend e l) = tag e. Proof. destruct e. reflexivity. Qed.

Lemma add_keyb e ts r : add_suite (e :: r) ts = if keyb (key e) (key ts) then extend e (children ts) :: r else e :: add_suite r ts.
Proof. reflexivity. Qed.

(** ** the invariant: [R] combines the suites [S] *)
Record combines (S R : list xml) : Prop := Combines {
  cb_nodup : NoDup (map key R);
  cb_order : first_occurrences (map key S) (map key R);
  cb_children : forall r, In r R -> children r = flat_map children (with_key (key r) S);
  cb_first : forall r, In r R -> exists s, In s S /\ key s = key r /\ attrs s = attrs r /\ tag s = tag r /\
     (exists a b, S = a ++ s :: b /\ with_key (key r) a = []) }.

Lemma with_key_app k a b : with_key k (a ++ b) = with_key k a ++ with_key k b.
Proof. apply filter_app. Qed.
Lemma with_key_one k s : with_key k [s] = if keyb (key s) k then [s] else [].
Proof. reflexivity. Qed.
Lemma with_key_none k l : with_key k l = [] <-> ~ In k (map key l).
Proof.
  split.
  - intros H G. apply in_map_iff in G. destruct G as (s & E & I).
    assert (In s (with_key k l)).
    { apply filter_In. split; [exact I|]. change (keyb (key s) k = true). apply keyb_eq, E. }
    rewrite H in *. contradiction.
  - intro H. destruct (with_key k l) as [|s r] eqn:E; [reflexivity|]. exfalso. apply H.
    assert (I : In s (with_key k l)) by (rewrite E; left; reflexivity). apply filter_In in I. destruct I as [I K].
    change (keyb (key s) k = true) in K. apply keyb_eq in K. rewrite <- K. apply in_map, I.
Qed.
Lemma fo_in {K} (l f : list K) : first_occurrences l f -> forall k, In k f <-> In k l.
Proof.
  induction 1 as [|l k f H IH N|l k f H IH I]; intro x; [reflexivity| |].
  - rewrite !in_app_iff, IH. reflexivity.
  - rewrite in_app_iff, <- IH. split; [auto|]. intros [G|[<-|[]]]; [exact G|]. apply IH, I.
Qed.

Lemma add_absent R ts : ~ In (key ts) (map key R) -> add_suite R ts = R ++ [ts].
Proof.
  induction R as [|e R IH]; intro H; [reflexivity|]. rewrite add_keyb. cbn [map In] in H.
  destruct (keyb (key e) (key ts)) eqn:E; [apply keyb_eq in E; tauto|]. cbn. rewrite IH; tauto.
Qed.
Lemma add_present R ts : NoDup (map key R) -> In (key ts) (map key R) ->
  exists a e b, R = a ++ e :: b /\ key e = key ts /\ add_suite R ts = a ++ extend e (children ts) :: b.
Proof.
  induction R as [|e R IH]; intros N H; [contradiction|]. rewrite add_keyb. destruct (keyb (key e) (key ts)) eqn:E.
  - apply keyb_eq in E. exists [], e, R. auto.
  - cbn [map In] in *. inversion N as [|? ? N1 N2]; subst. destruct H as [H|H].
    + rewrite H, keyb_refl in E. discriminate.
    + destruct (IH N2 H) as (a & e' & b & -> & K & Q). exists (e :: a), e', b. rewrite Q. auto.
Qed.

Lemma combines_nil : combines [] [].
Proof. constructor; [constructor|constructor|contradiction|contradiction]. Qed.
Lemma combines_add S R ts : combines S R -> combines (S ++ [ts]) (add_suite R ts).
Proof.
  intros [N O C F].
  assert (D : In (key ts) (map key R) \/ ~ In (key ts) (map key R)).
  { destruct (in_dec (fun a b => match Bool.bool_dec (keyb a b) true with left h => left (proj1 (keyb_eq a b) h) | right h => right (fun e => h (proj2 (keyb_eq a b) e)) end) (key ts) (map key R)); auto. }
  destruct D as [D|D].
  - destruct (add_present R ts N D) as (a & e & b & E & K & Q). rewrite Q.
    assert (MK : map key (a ++ extend e (children ts) :: b) = map key R).
    { rewrite E, !map_app. cbn [map]. rewrite extend_key. reflexivity. }
    constructor.
    + rewrite MK. exact N.
    + rewrite MK, map_app. cbn [map]. apply fo_old; [exact O|]. apply (fo_in _ _ O), D.
    + intros r I. rewrite with_key_app, flat_map_app, with_key_one.
      apply in_app_or in I. destruct I as [I|[<-|I]].
      * assert (IR : In r R) by (rewrite E; apply in_or_app; left; exact I).
        rewrite (C r IR). destruct (keyb (key ts) (key r)) eqn:G; [|cbn; rewrite app_nil_r; reflexivity].
        exfalso. apply keyb_eq in G. rewrite E, map_app in N. cbn [map] in N. apply NoDup_remove_2 in N.
        apply N. rewrite K, G. apply in_or_app. left. apply in_map, I.
      * rewrite extend_key, extend_children. assert (IR : In e R) by (rewrite E; apply in_or_app; right; left; reflexivity).
        rewrite (C e IR). rewrite K, keyb_refl. cbn. rewrite app_nil_r. reflexivity.
      * assert (IR : In r R) by (rewrite E; apply in_or_app; right; right; exact I).
        rewrite (C r IR). destruct (keyb (key ts) (key r)) eqn:G; [|cbn; rewrite app_nil_r; reflexivity].
        exfalso. apply keyb_eq in G. rewrite E, map_app in N. cbn [map] in N. apply NoDup_remove_2 in N.
        apply N. rewrite K, G. apply in_or_app. right. apply in_map, I.
    + assert (G : forall r, In r R -> exists s, In s (S ++ [ts]) /\ key s = key r /\ attrs s = attrs r /\ tag s = tag r /\
        (exists a b, S ++ [ts] = a ++ s :: b /\ with_key (key r) a = [])).
      { intros r I. destruct (F r I) as (s & I1 & I2 & I3 & I4 & x & y & I5 & I6). exists s.
        split; [apply in_or_app; left; exact I1|]. split; [exact I2|]. split; [exact I3|]. split; [exact I4|].
        exists x, (y ++ [ts]). split; [rewrite I5, <- app_assoc; reflexivity|exact I6]. }
      intros r I. apply in_app_or in I. destruct I as [I|[<-|I]].
      * apply G. rewrite E. apply in_or_app. left. exact I.
      * rewrite extend_key, extend_attrs, extend_tag. apply G. rewrite E. apply in_or_app. right. left. reflexivity.
      * apply G. rewrite E. apply in_or_app. right. right. exact I.
  - rewrite (add_absent R ts D).
    assert (DS : ~ In (key ts) (map key S)) by (intro H; apply D, (fo_in _ _ O), H).
    constructor.
    + rewrite map_app. cbn [map]. apply (Permutation_NoDup (l := key ts :: map key R)).
      * change (key ts :: map key R) with ([key ts] ++ map key R). apply Permutation_app_comm.
      * constructor; [exact D|exact N].
    + rewrite !map_app. cbn [map]. apply fo_new; assumption.
    + intros r I. rewrite with_key_app, flat_map_app, with_key_one. apply in_app_or in I. destruct I as [I|[<-|[]]].
      * rewrite (C r I). destruct (keyb (key ts) (key r)) eqn:G; [|cbn; rewrite app_nil_r; reflexivity].
        exfalso. apply keyb_eq in G. apply D. rewrite G. apply in_map, I.
      * rewrite keyb_refl. assert (W : with_key (key ts) S = []) by (apply with_key_none, DS).
        rewrite W. cbn. rewrite app_nil_r. reflexivity.
    + intros r I. apply in_app_or in I. destruct I as [I|[<-|[]]].
      * destruct (F r I) as (s & I1 & I2 & I3 & I4 & x & y & I5 & I6). exists s.
        split; [apply in_or_app; left; exact I1|]. split; [exact I2|]. split; [exact I3|]. split; [exact I4|].
        exists x, (y ++ [ts]). split; [rewrite I5, <- app_assoc; reflexivity|exact I6].
      * exists ts. split; [apply in_or_app; right; left; reflexivity|]. repeat split.
        exists S, []. split; [reflexivity|]. apply with_key_none, DS.
Qed.
Lemma combines_fold l : forall S R, combines S R -> combines (S ++ l) (fold_left add_suite l R).
Proof.
  induction l as [|ts l IH]; intros S R H; [rewrite app_nil_r; exact H|]. cbn [fold_left].
  replace (S ++ ts :: l) with ((S ++ [ts]) ++ l) by (rewrite <- app_assoc; reflexivity). apply IH, combines_add, H.
Qed.
Lemma combines_files files : combines (suites files) (combine_files files).
Proof.
  unfold combine_files, suites.
  assert (G : forall fs S R, combines S R -> combines (S ++ flat_map (iter "testsuite") fs)
     (fold_left (fun result tree => fold_left add_suite (iter "testsuite" tree) result) fs R)).
  { induction fs as [|f fs IH]; intros S R H; cbn [flat_map fold_left]; [rewrite app_nil_r; exact H|].
    rewrite app_assoc. apply IH, combines_fold, H. }
  exact (G files [] [] combines_nil).
Qed.

(** ** the report *)
Lemma iter_tag t x : Forall (fun y => tag y = t) (iter t x).
Proof.
  revert x. fix IH 1. intros [t' a cs]. cbn [iter]. apply Forall_app. split.
  - destruct (String.eqb t' t) eqn:E; [|constructor]. constructor; [apply String.eqb_eq, E|constructor].
  - induction cs as [|c cs IHc]; [constructor|]. cbn [flat_map]. apply Forall_app. split; [apply IH|exact IHc].
Qed.
Lemma iter_self t x : tag x = t -> iter t x = x :: flat_map (iter t) (children x).
Proof. destruct x as [t' a cs]. cbn. intros ->. rewrite String.eqb_refl. reflexivity. Qed.
Lemma iter_other t x : tag x <> t -> iter t x = flat_map (iter t) (children x).
Proof. destruct x as [t' a cs]. cbn. intro H. destruct (String.eqb_spec t' t); [contradiction|reflexivity]. Qed.

Section Report.
Context (files : list xml) (N : not_nested files).
Let R := combine_files files.
Let S := suites files.
Lemma suite_tag s : In s S -> tag s = "testsuite".
Proof.
  intro I. unfold S, suites in I. apply in_flat_map in I. destruct I as (f & _ & I).
  pose proof (iter_tag "testsuite" f) as F. rewrite Forall_forall in F. exact (F s I).
Qed.
Lemma result_tag r : In r R -> tag r = "testsuite".
Proof.
  intro I. destruct (cb_first _ _ (combines_files files) r I) as (s & Is & _ & _ & T & _). rewrite <- T. apply suite_tag, Is.
Qed.
Lemma result_flat r : In r R -> iter "testsuite" r = [r].
Proof.
  intro I. rewrite (iter_self _ _ (result_tag r I)). f_equal.
  rewrite (cb_children _ _ (combines_files files) r I).
  assert (G : forall c, In c (flat_map children (with_key (key r) S)) -> iter "testsuite" c = []).
  { intros c H. apply in_flat_map in H. destruct H as (s & Hs & Hc). apply filter_In in Hs. apply (N s (proj1 Hs) c Hc). }
  fold S. induction (flat_map children (with_key (key r) S)) as [|c l IH]; [reflexivity|]. cbn [flat_map].
  rewrite (G c (or_introl eq_refl)). apply IH. intros c' H. apply G. right. exact H.
Qed.
Lemma result_suites name : iter "testsuite" (result_element name files) = R.
Proof.
  unfold result_element. cbn [iter]. change (String.eqb "testsuites" "testsuite") with false. cbn [app]. fold R.
  assert (G : forall l, (forall r, In r l -> iter "testsuite" r = [r]) -> flat_map (iter "testsuite") l = l).
  { induction l as [|r l IH]; intro H; [reflexivity|]. cbn [flat_map]. rewrite (H r (or_introl eq_refl)). cbn. f_equal.
    apply IH. intros r' I. apply H. right. exact I. }
  apply G, result_flat.
Qed.

(** test cases of a suite *)
Lemma cases_flat x : tag x = "testsuite" -> iter "testcase" x = flat_map (iter "testcase") (children x).
Proof. intro T. apply iter_other. rewrite T. discriminate. Qed.

(** splitting the suites by key *)
Lemma split_by_key {B} (f : xml -> list B) : forall keys l,
  NoDup keys -> (forall s, In s l -> In (key s) keys) ->
  Permutation (flat_map f l) (flat_map (fun k => flat_map f (with_key k l)) keys).
Proof.
  intros keys l ND. induction l as [|s l IH]; intro H.
  - cbn [flat_map]. clear H ND. induction keys as [|k keys IH]; [constructor|exact IH].
  - cbn [flat_map].
    assert (IHl : Permutation (flat_map f l) (flat_map (fun k => flat_map f (with_key k l)) keys)).
    { apply IH. intros s' I. apply H. right. exact I. }
    specialize (H s (or_introl eq_refl)). apply in_split in H. destruct H as (k1 & k2 & E). rewrite E in *.
    apply NoDup_remove_2 in ND. clear IH.
    assert (Out : forall ks, ~ In (key s) ks -> flat_map (fun k => flat_map f (with_key k (s :: l))) ks = flat_map (fun k => flat_map f (with_key k l)) ks).
    { induction ks as [|k ks IHk]; intro G; [reflexivity|]. cbn [flat_map]. rewrite IHk by (intro; apply G; right; assumption).
      f_equal. unfold with_key. cbn [filter]. change (opt_eqb (fst (key s)) (fst k) && opt_eqb (snd (key s)) (snd k)) with (keyb (key s) k).
      destruct (keyb (key s) k) eqn:K; [|reflexivity]. apply keyb_eq in K. exfalso. apply G. left. symmetry. exact K. }
    rewrite flat_map_app in *. cbn [flat_map] in *. rewrite (Out k1) by (intro; apply ND, in_or_app; auto).
    rewrite (Out k2) by (intro; apply ND, in_or_app; auto).
    unfold with_key at 2. cbn [filter]. change (opt_eqb (fst (key s)) (fst (key s)) && opt_eqb (snd (key s)) (snd (key s))) with (keyb (key s) (key s)).
    rewrite keyb_refl. cbn [flat_map]. fold (with_key (key s) l).
    rewrite IHl. rewrite <- !app_assoc. rewrite !app_assoc. apply Permutation_app_tail. apply Permutation_app_tail.
    apply Permutation_app_comm.
Qed.

Lemma cases_perm : Permutation (flat_map (iter "testcase") R) (flat_map (iter "testcase") S).
Proof.
  pose proof (combines_files files) as C. symmetry.
  rewrite (split_by_key (iter "testcase") (map key R) S (cb_nodup _ _ C)).
  - assert (G : forall l, (forall r, In r l -> In r R) ->
       flat_map (fun k => flat_map (iter "testcase") (with_key k S)) (map key l) = flat_map (iter "testcase") l).
    { induction l as [|r l IH]; intro H; [reflexivity|]. cbn [map flat_map]. rewrite IH by (intros; apply H; right; assumption). f_equal.
      pose proof (H r (or_introl eq_refl)) as Ir.
      rewrite (cases_flat r (result_tag r Ir)), (cb_children _ _ C r Ir). fold S.
      assert (T : forall s, In s (with_key (key r) S) -> tag s = "testsuite").
      { intros s I. apply filter_In in I. apply suite_tag, I. }
      clear - T. induction (with_key (key r) S) as [|s l IH]; [reflexivity|]. cbn [flat_map]. rewrite flat_map_app.
      rewrite (cases_flat s (T s (or_introl eq_refl))), IH; [reflexivity|]. intros s' I. apply T. right. exact I. }
    rewrite G; [reflexivity|auto].
  - intros s I. apply (fo_in _ _ (cb_order _ _ C)). apply in_map, I.
Qed.

Lemma rc_fold {B} (b : bool) (l : list B) n : fold_left (fun rc _ => if b then 1 else rc) l n = match l with [] => n | _ => if b then 1 else n end.
Proof.
  revert n. induction l as [|x l IH]; intro n; [reflexivity|]. cbn [fold_left]. rewrite IH. destruct l, b; reflexivity.
Qed.
Lemma lines_iff name : report_lines (result_element name files) <> [] <-> some_failed files.
Proof.
  unfold report_lines. rewrite (result_suites name). split.
  - intro H. destruct (flat_map _ R) as [|x l] eqn:E; [contradiction|].
    assert (I : In x (flat_map (fun ts => flat_map (fun tc => map (fun _ => (get ts "name", get tc "classname", get tc "name", get ts "package"))
          (iter "failure" tc)) (iter "testcase" ts)) R)) by (rewrite E; left; reflexivity).
    apply in_flat_map in I. destruct I as (r & Ir & I). apply in_flat_map in I. destruct I as (tc & It & I).
    apply in_map_iff in I. destruct I as (f & _ & If).
    assert (G : In tc (flat_map (iter "testcase") S)).
    { apply (Permutation_in _ cases_perm). apply in_flat_map. exists r. auto. }
    apply in_flat_map in G. destruct G as (s & Is & Its). exists s, tc. split; [exact Is|]. split; [exact Its|]. exists f. exact If.
  - intros (s & tc & Is & It & f & If) H.
    assert (G : In tc (flat_map (iter "testcase") R)).
    { apply (Permutation_in _ (Permutation_sym cases_perm)). apply in_flat_map. exists s. auto. }
    apply in_flat_map in G. destruct G as (r & Ir & Itr).
    assert (I : In (get r "name", get tc "classname", get tc "name", get r "package")
       (flat_map (fun ts => flat_map (fun tc => map (fun _ => (get ts "name", get tc "classname", get tc "name", get ts "package"))
          (iter "failure" tc)) (iter "testcase" ts)) R)).
    { apply in_flat_map. exists r. split; [exact Ir|]. apply in_flat_map. exists tc. split; [exact Itr|].
      apply in_map_iff. exists f. auto. }
    rewrite H in I. contradiction.
Qed.
Lemma rc_thm name set_rc :
  (return_code set_rc (result_element name files) = 1 <-> set_rc = true /\ some_failed files) /\
  (return_code set_rc (result_element name files) = 0 <-> ~ (set_rc = true /\ some_failed files)).
Proof.
  unfold return_code. rewrite rc_fold. pose proof (lines_iff name) as L.
  destruct (report_lines (result_element name files)) as [|x l].
  - assert (NF : ~ some_failed files) by (intro H; apply L in H; contradiction).
    split; split; intro H; try discriminate; try reflexivity; tauto.
  - assert (SF : some_failed files) by (apply L; discriminate).
    destruct set_rc; split; split; intro H; try discriminate; try reflexivity; try tauto; try (exfalso; tauto).
    + destruct H. discriminate.
    + intros [? _]. discriminate.
Qed.
Lemma counts_thm name :
  testsuite_count (result_element name files) = List.length R /\
  testcase_count (result_element name files) = List.length (flat_map (iter "testcase") S).
Proof.
  unfold testsuite_count, testcase_count. rewrite (result_suites name). split; [reflexivity|].
  rewrite <- (Permutation_length cases_perm).
  assert (G : forall l n, fold_left (fun n ts => fold_left (fun n _ => n + 1) (iter "testcase" ts) n) l n = n + List.length (flat_map (iter "testcase") l)).
  { assert (I : forall (x : list xml) n, fold_left (fun n _ => n + 1) x n = n + List.length x).
    { induction x as [|y x IH]; intro n; cbn [fold_left List.length]; [lia|]. rewrite IH. lia. }
    induction l as [|r l IH]; intro n; cbn [fold_left flat_map]; [cbn; lia|]. rewrite IH, I, app_length. lia. }
  rewrite G. reflexivity.
Qed.

Definition lines (s : xml) : list failure_line :=
  flat_map (fun tc => map (fun _ => (get s "name", get tc "classname", get tc "name", get s "package")) (iter "failure" tc))
    (iter "testcase" s).
Lemma lines_perm name : Permutation (report_lines (result_element name files)) (flat_map lines S).
Proof.
  pose proof (combines_files files) as C. unfold report_lines. rewrite (result_suites name). fold lines. symmetry.
  rewrite (split_by_key lines (map key R) S (cb_nodup _ _ C)).
  - assert (G : forall l, (forall r, In r l -> In r R) ->
       flat_map (fun k => flat_map lines (with_key k S)) (map key l) = flat_map lines l).
    { induction l as [|r l IH]; intro H; [reflexivity|]. cbn [map flat_map]. rewrite IH by (intros; apply H; right; assumption). f_equal.
      pose proof (H r (or_introl eq_refl)) as Ir. unfold lines at 2.
      rewrite (cases_flat r (result_tag r Ir)), (cb_children _ _ C r Ir). fold S.
      assert (T : forall s, In s (with_key (key r) S) -> tag s = "testsuite" /\ key s = key r).
      { intros s I. apply filter_In in I. destruct I as [I K]. split; [apply suite_tag, I|]. apply keyb_eq, K. }
      clear - T. revert T. generalize (with_key (key r) S) as l. induction l as [|s l IH]; intro T; [reflexivity|]. cbn [flat_map]. rewrite !flat_map_app.
      rewrite IH by (intros s' I; apply T; right; exact I). f_equal.
      destruct (T s (or_introl eq_refl)) as [Ts Ks]. unfold key in Ks. injection Ks as K1 K2.
      unfold lines. rewrite (cases_flat s Ts), K1, K2. reflexivity. }
    rewrite G; [reflexivity|auto].
  - intros s I. apply (fo_in _ _ (cb_order _ _ C)). apply in_map, I.
Qed.
End Report.

Lemma flat_none {B} (f : xml -> list B) l : Forall (fun c => f c = []) l -> flat_map f l = [].
Proof. induction 1 as [|c l H _ IH]; [reflexivity|]. cbn. rewrite H, IH. reflexivity. Qed.
Lemma nested_thm name a b oname inner :
  key (Elem "testsuite" a []) <> key (Elem "testsuite" b []) ->
  Forall (fun c => iter "testsuite" c = []) inner ->
  let file := Elem "testsuites" [("name", oname)] [Elem "testsuite" a [Elem "testsuite" b inner]] in
  testcase_count (result_element name [file]) = 3 * List.length (flat_map (iter "testcase") inner) /\
  testsuite_count (result_element name [file]) = 3 /\
  List.length (iter "testcase" file) = List.length (flat_map (iter "testcase") inner) /\
  List.length (iter "testsuite" file) = 2.
Proof.
  intros D F file.
  assert (I : iter "testsuite" file = [Elem "testsuite" a [Elem "testsuite" b inner]; Elem "testsuite" b inner]).
  { unfold file. cbn [iter flat_map String.eqb Ascii.eqb Bool.eqb app]. rewrite (flat_none _ _ F). reflexivity. }
  assert (C : combine_files [file] = [Elem "testsuite" a [Elem "testsuite" b inner]; Elem "testsuite" b inner]).
  { unfold combine_files. cbn [fold_left]. rewrite I. cbn [fold_left]. unfold add_suite at 2. rewrite add_keyb.
    destruct (keyb (key (Elem "testsuite" a [Elem "testsuite" b inner])) (key (Elem "testsuite" b inner))) eqn:E; [|reflexivity].
    apply keyb_eq in E. exfalso. exact (D E). }
  assert (R : iter "testsuite" (result_element name [file]) =
     [Elem "testsuite" a [Elem "testsuite" b inner]; Elem "testsuite" b inner; Elem "testsuite" b inner]).
  { unfold result_element. rewrite C. cbn [iter flat_map String.eqb Ascii.eqb Bool.eqb app]. rewrite (flat_none _ _ F). reflexivity. }
  unfold testcase_count, testsuite_count. rewrite R, I.
  assert (K : forall (x : list xml) n, fold_left (fun n _ => n + 1) x n = n + List.length x).
  { induction x as [|y x IH]; intro n; cbn [fold_left List.length]; [lia|]. rewrite IH. lia. }
  cbn [fold_left]. rewrite !K. unfold file. cbn [iter flat_map String.eqb Ascii.eqb Bool.eqb app]. rewrite !app_nil_r.
  split; [lia|]. split; [reflexivity|]. split; reflexivity.
Qed.

(** ** nested suites, all with different keys *)
Definition sum (l : list nat) : nat := fold_right Nat.add 0 l.
Lemma sum_app a b : sum (a ++ b) = sum a + sum b.
Proof. induction a as [|x a IH]; cbn [app sum fold_right]; [reflexivity|]. fold (sum (a ++ b)) (sum a). lia. Qed.
Definition total {A} (f : A -> nat) (l : list A) : nat := sum (map f l).
Lemma total_app {A} (f : A -> nat) a b : total f (a ++ b) = total f a + total f b.
Proof. unfold total. rewrite map_app. apply sum_app. Qed.
Lemma total_flat {A B} (f : B -> nat) (g : A -> list B) l : total f (flat_map g l) = total (fun x => total f (g x)) l.
Proof.
  induction l as [|x l IH]; [reflexivity|]. cbn [flat_map]. rewrite total_app, IH. reflexivity.
Qed.
Lemma total_ext {A} (f g : A -> nat) l : Forall (fun x => f x = g x) l -> total f l = total g l.
Proof. induction 1 as [|x l H _ IH]; [reflexivity|]. unfold total in *. cbn. rewrite H. f_equal. exact IH. Qed.
Lemma total_cons {A} (f : A -> nat) x l : total f (x :: l) = f x + total f l.
Proof. reflexivity. Qed.
Lemma total_lin {A} (f g h : A -> nat) a b l : total (fun x => a * f x + b * g x + h x) l = a * total f l + b * total g l + total h l.
Proof. induction l as [|x l IH]; [unfold total; cbn; lia|]. rewrite !total_cons, IH. lia. Qed.

(** test cases, and pairs (triples) of a test case and one (two) of the suites around it, the
    second around the first *)
Definition cases1 (x : xml) : nat := List.length (iter "testcase" x).
Definition cases2 (x : xml) : nat := total cases1 (iter "testsuite" x).
Definition cases3 (x : xml) : nat := total cases2 (iter "testsuite" x).
Definition tri (d : nat) : nat := d * (d + 1) / 2.
Lemma tri_S d : tri (S d) = tri d + S d.
Proof. unfold tri. replace (S d * (S d + 1)) with (d * (d + 1) + S d * 2) by lia. rewrite Nat.div_add by lia. reflexivity. Qed.
Lemma len_flat {A B} (g : A -> list B) l : List.length (flat_map g l) = total (fun x => List.length (g x)) l.
Proof. induction l as [|x l IH]; [reflexivity|]. cbn [flat_map]. rewrite app_length, IH. reflexivity. Qed.
Lemma depths_sum : forall x d, List.length (depths d x) = cases1 x /\ total tri (depths d x) = tri d * cases1 x + d * cases2 x + cases3 x.
Proof.
  fix IH 1. intros [t a cs] d.
  assert (H : forall d', total (fun x => List.length (depths d' x)) cs = total cases1 cs /\ total (fun x => total tri (depths d' x)) cs = tri d' * total cases1 cs + d' * total cases2 cs + total cases3 cs).
  { intro d'. rewrite <- total_lin. induction cs as [|c cs IHc]; [split; reflexivity|].
    rewrite !total_cons. destruct IHc as [E1 E2]. destruct (IH c d') as [F1 F2]. rewrite E1, E2, F1, F2. split; reflexivity. }
  assert (T1 : total cases1 (flat_map (iter "testsuite") cs) = total cases2 cs) by apply total_flat.
  assert (T2 : total cases2 (flat_map (iter "testsuite") cs) = total cases3 cs) by apply total_flat.
  assert (T0 : List.length (flat_map (iter "testcase") cs) = total cases1 cs) by apply len_flat.
  cbn [depths]. destruct (String.eqb_spec t "testsuite") as [->|Hs].
  - destruct (H (S d)) as [H1 H2]. cbn [String.eqb Ascii.eqb Bool.eqb app]. rewrite len_flat, total_flat, H1, H2.
    assert (C1 : cases1 (Elem "testsuite" a cs) = total cases1 cs).
    { unfold cases1 at 1. cbn [iter String.eqb Ascii.eqb Bool.eqb app]. exact T0. }
    assert (I : iter "testsuite" (Elem "testsuite" a cs) = Elem "testsuite" a cs :: flat_map (iter "testsuite") cs) by reflexivity.
    assert (C2 : cases2 (Elem "testsuite" a cs) = total cases1 cs + total cases2 cs).
    { change (total cases1 (iter "testsuite" (Elem "testsuite" a cs)) = total cases1 cs + total cases2 cs). rewrite I, total_cons, C1, T1. reflexivity. }
    assert (C3 : cases3 (Elem "testsuite" a cs) = total cases1 cs + total cases2 cs + total cases3 cs).
    { change (total cases2 (iter "testsuite" (Elem "testsuite" a cs)) = total cases1 cs + total cases2 cs + total cases3 cs). rewrite I, total_cons, C2, T2. reflexivity. }
    rewrite C1, C2, C3, tri_S.
    split; [reflexivity|]. lia.
  - destruct (H d) as [H1 H2]. rewrite app_length, total_app, len_flat, total_flat, H1, H2.
    apply String.eqb_neq in Hs.
    assert (I : iter "testsuite" (Elem t a cs) = flat_map (iter "testsuite") cs) by (cbn [iter]; rewrite Hs; reflexivity).
    assert (C1 : cases1 (Elem t a cs) = (if String.eqb t "testcase" then 1 else 0) + total cases1 cs).
    { unfold cases1 at 1. cbn [iter]. rewrite app_length, T0. destruct (String.eqb t "testcase"); reflexivity. }
    assert (C2 : cases2 (Elem t a cs) = total cases2 cs).
    { change (total cases1 (iter "testsuite" (Elem t a cs)) = total cases2 cs). rewrite I. exact T1. }
    assert (C3 : cases3 (Elem t a cs) = total cases3 cs).
    { change (total cases2 (iter "testsuite" (Elem t a cs)) = total cases3 cs). rewrite I. exact T2. }
    rewrite C1, C2, C3. destruct (String.eqb t "testcase"); cbn [List.length]; split; try reflexivity; unfold total at 1; cbn [map sum fold_right]; lia.
Qed.

Lemma distinct_result files : NoDup (map key (suites files)) -> combine_files files = suites files.
Proof.
  assert (G : forall l R, NoDup (map key (R ++ l)) -> fold_left add_suite l R = R ++ l).
  { induction l as [|s l IH]; intros R N; [symmetry; apply app_nil_r|]. cbn [fold_left].
    rewrite map_app in N. cbn [map] in N. pose proof (NoDup_remove_2 _ _ _ N) as NI.
    rewrite add_absent by (intro I; apply NI, in_or_app; left; exact I).
    rewrite IH; rewrite <- app_assoc; [reflexivity|]. cbn [app]. rewrite map_app. exact N. }
  intro N. unfold combine_files, suites in *.
  assert (K : forall fs R, NoDup (map key (R ++ flat_map (iter "testsuite") fs)) ->
    fold_left (fun result tree => fold_left add_suite (iter "testsuite" tree) result) fs R = R ++ flat_map (iter "testsuite") fs).
  { induction fs as [|f fs IH]; intros R NR; [symmetry; apply app_nil_r|]. cbn [fold_left flat_map] in *.
    rewrite G.
    - rewrite IH; rewrite <- app_assoc; [reflexivity|exact NR].
    - rewrite app_assoc, map_app in NR. clear - NR. revert NR. generalize (map key (R ++ iter "testsuite" f)) as a.
      intro a. induction a as [|x a IH]; intro H; [constructor|]. cbn [app] in H. inversion H; subst. constructor; [|apply IH; assumption].
      intro I. apply H2, in_or_app. left. exact I. }
  exact (K files [] N).
Qed.
Lemma nested_count_thm name files : NoDup (map key (suites files)) ->
  testcase_count (result_element name files) = sum (map tri (flat_map (depths 0) files)) /\ List.length (flat_map (iter "testcase") files) = List.length (flat_map (depths 0) files).
Proof.
  intro N.
  assert (K : forall (x : list xml) n, fold_left (fun n _ => n + 1) x n = n + List.length x).
  { induction x as [|y x IH]; intro n; cbn [fold_left List.length]; [lia|]. rewrite IH. lia. }
  assert (G : forall l n, fold_left (fun n ts => fold_left (fun n _ => n + 1) (iter "testcase" ts) n) l n = n + total cases1 l).
  { induction l as [|r l IH]; intro n; cbn [fold_left]; [unfold total; cbn; lia|]. rewrite IH, K, total_cons. unfold cases1. lia. }
  unfold testcase_count. rewrite G. unfold result_element. cbn [iter String.eqb Ascii.eqb Bool.eqb app].
  rewrite (distinct_result files N). fold (total tri (flat_map (depths 0) files)). split.
  - cbn [Nat.add]. rewrite total_flat. fold cases2. unfold suites. rewrite !total_flat. fold cases3.
    induction files as [|f files IH]; [reflexivity|]. rewrite !total_cons.
    destruct (depths_sum f 0) as [_ ->]. change (tri 0) with 0.
    rewrite IH; [lia|]. unfold suites in *. cbn [flat_map] in N. rewrite map_app in N. clear - N.
    induction (map key (iter "testsuite" f)) as [|x a IH]; [exact N|]. apply IH. inversion N; assumption.
  - rewrite !len_flat. apply total_ext. apply Forall_forall. intros f _. symmetry. apply depths_sum.
Qed.

(** ** the terms of the specification *)
Lemma assoc_some k v l : assoc k l = Some v <-> exists b a, l = b ++ (k, v) :: a /\ ~ In k (map fst b).
Proof.
  induction l as [|[k' v'] l IH]; cbn [assoc].
  - split; [discriminate|]. intros (b & a & E & _). destruct b; discriminate E.
  - destruct (String.eqb_spec k' k) as [->|N].
    + split.
      * intro E. injection E as ->. exists [], l. split; [reflexivity|intros []].
      * intros (b & a & E & I). destruct b as [|y b]; [injection E as -> ->; reflexivity|].
        injection E as <- E. destruct I. left. reflexivity.
    + rewrite IH. split.
      * intros (b & a & -> & I). exists ((k', v') :: b), a. split; [reflexivity|]. intros [J|J]; [contradiction|contradiction].
      * intros (b & a & E & I). destruct b as [|y b]; [injection E as E _ _; contradiction|].
        injection E as <- E. exists b, a. split; [exact E|]. intro J. apply I. right. exact J.
Qed.
Lemma assoc_none k l : assoc k l = None <-> ~ In k (map fst l).
Proof.
  induction l as [|[k' v'] l IH]; cbn [assoc map fst]; [split; [intros _ []|reflexivity]|].
  destruct (String.eqb_spec k' k) as [->|N].
  - split; [discriminate|]. intro I. destruct I. left. reflexivity.
  - rewrite IH. split; [intros I [J|J]; contradiction|intros I J; apply I; right; exact J].
Qed.
Fixpoint iter_document t (x : xml) {struct x} :
  iter t x = filter (fun y => if string_dec (tag y) t then true else false) (document x).
Proof.
  destruct x as [t' a cs]. cbn [iter document filter tag].
  assert (G : flat_map (iter t) cs = filter (fun y => if string_dec (tag y) t then true else false) (flat_map document cs)).
  { induction cs as [|c cs IH]; [reflexivity|]. cbn [flat_map]. rewrite filter_app. f_equal; [apply iter_document|exact IH]. }
  rewrite G. destruct (String.eqb_spec t' t) as [E|E], (string_dec t' t) as [E'|E']; try contradiction; reflexivity.
Qed.
Lemma opt_eqb_iff a b : opt_eqb a b = true <-> a = b.
Proof.
  destruct a as [a|], b as [b|]; cbn [opt_eqb]; try (split; discriminate); [|split; reflexivity].
  rewrite String.eqb_eq. split; [intros ->; reflexivity|intro E; injection E as ->; reflexivity].
Qed.
Lemma terms_thm x k t :
  (forall v, get x k = Some v <-> exists before after, attrs x = before ++ (k, v) :: after /\ ~ In k (map fst before)) /\
  (get x k = None <-> ~ In k (map fst (attrs x))) /\
  iter t x = filter (fun y => if string_dec (tag y) t then true else false) (document x) /\
  forall p l s, In s (with_key p l) <-> In s l /\ key s = p.
Proof.
  split; [intro v; apply assoc_some|]. split; [apply assoc_none|]. split; [apply iter_document|].
  intros [n q] l s. unfold with_key. rewrite filter_In, andb_true_iff, !opt_eqb_iff. cbn [fst snd]. unfold key. split.
  - intros [I [A B]]. cbn [fst snd] in A, B. rewrite A, B. auto.
  - intros [I E]. injection E as A B. auto.
Qed.
