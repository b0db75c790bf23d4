(** CombRunProof2.v -- proofs about runs of the script: what is written. *)
From Verif Require Import CombProof CombSpec CombHeapModel CombHeapSpec CombHeapProof CombHeapProof2 CombHeapAgree CombRunModel CombRunSpec CombRunProof.
From Coq Require Import Lia Arith Permutation.
Local Open Scope list_scope.
Local Notation length := List.length.

Lemma map_opt_ok {T U} (f : T -> option U) l : (forall x, In x l -> exists y, f x = Some y) -> exists ys, map_opt f l = Some ys.
Proof.
  induction l as [|x l IH]; intros H; [exists []; reflexivity|]. destruct (H x (or_introl eq_refl)) as (y & E).
  destruct (IH (fun z Z => H z (or_intror Z))) as (ys & Es). exists (y :: ys). unfold map_opt in *. cbn [fold_right]. rewrite E, Es. reflexivity.
Qed.
Lemma map_opt_more {T U} (f g : T -> option U) l ys : (forall x y, f x = Some y -> g x = Some y) -> map_opt f l = Some ys -> map_opt g l = Some ys.
Proof.
  intros H. revert ys. induction l as [|x l IH]; intros ys E; [exact E|]. unfold map_opt in *. cbn [fold_right] in *.
  destruct (f x) as [y|] eqn:F; [|discriminate]. rewrite (H _ _ F). destruct (fold_right _ (Some []) l) as [b|]; [|discriminate].
  rewrite (IH b eq_refl). exact E.
Qed.
Lemma tree_more h m : forall fuel n x, tree fuel h n = Some x -> tree (fuel + m) h n = Some x.
Proof.
  induction fuel as [|fuel IH]; intros n x E; [discriminate|]. cbn [tree plus] in *.
  destruct (map_opt (tree fuel h) (kids h n)) as [cs|] eqn:C; [|discriminate]. rewrite (map_opt_more _ _ _ _ IH C). exact E.
Qed.
Lemma tree_rep h : forall fuel n y x, tree fuel h n = Some y -> rep h x n -> y = x.
Proof.
  induction fuel as [|fuel IH]; intros n y x E R; [discriminate|]. cbn [tree] in E. destruct x as [t a cs].
  destruct (rep_inv _ _ _ _ _ R) as (T & A & K). destruct (map_opt (tree fuel h) (kids h n)) as [ys|] eqn:C; [|discriminate].
  injection E as <-. unfold htag. rewrite T, A. f_equal. clear - IH K C. revert ys C. induction K as [|c k cs ks Rc K IHK]; intros ys C.
  - cbn in C. injection C as <-. reflexivity.
  - unfold map_opt in C. cbn [fold_right] in C. destruct (tree fuel h k) as [y|] eqn:E; [|discriminate].
    destruct (fold_right _ (Some []) ks) as [b|] eqn:B; [|discriminate]. injection C as <-. rewrite (IH _ _ _ E Rc), (IHK b B). reflexivity.
Qed.
Lemma trees_rep h fuel xs ns : Forall2 (rep h) xs ns -> forall ys, map_opt (tree fuel h) ns = Some ys -> ys = xs.
Proof.
  induction 1 as [|x n xs ns R F IH]; intros ys C.
  - cbn in C. injection C as <-. reflexivity.
  - unfold map_opt in C. cbn [fold_right] in C. destruct (tree fuel h n) as [y|] eqn:E; [|discriminate].
    destruct (fold_right _ (Some []) ns) as [b|] eqn:B; [|discriminate]. injection C as <-. rewrite (tree_rep _ _ _ _ _ E R), (IH b B). reflexivity.
Qed.
Lemma tree_ok h s (closed : forall a b, In a s -> In b (kids h a) -> In b s) (order : forall a b, In b (kids h a) -> In a s -> pos a s < pos b s) fuel :
  forall n, In n s -> length s <= fuel + pos n s -> exists x, tree (S fuel) h n = Some x.
Proof.
  induction fuel as [|fuel IH]; intros n I L.
  { apply pos_in in I. lia. }
  destruct (map_opt_ok (tree (S fuel) h) (kids h n)) as (ys & E).
  { intros c C. apply IH; [exact (closed n c I C)|]. pose proof (order n c C I). lia. }
  change (tree (S (S fuel)) h n) with (match map_opt (tree (S fuel) h) (kids h n) with None => None | Some cs => Some (Elem (htag h n) (o_attrs (obj h n)) cs) end).
  rewrite E. eexists. reflexivity.
Qed.

Lemma merge_ok files : exists f h0 roots h r s, load_all files [] = (h0, roots) /\ walk_files f roots h0 [] = Some (h, r) /\
  (forall a b, In a s -> In b (kids h a) -> In b s) /\ (forall a b, In b (kids h a) -> In a s -> pos a s < pos b s) /\ incl r s.
Proof.
  destruct (parsed files) as (h0 & roots & EL & T).
  assert (rng : forall a c, In c (kids h0 a) -> c < length h0) by (intros a c I; apply (t_rng _ _ _ _ T a c); [lia|exact I]).
  assert (forest : forall a b c, In c (kids h0 a) -> In c (kids h0 b) -> a = b) by (intros a b c; apply (t_forest _ _ _ _ T); lia).
  destruct (walk_files_ends h0 rng forest roots h0 [] []) as (f1 & h & r & s & W & V & (_ & CC) & _ & RS).
  { intros x X. destruct (t_roots _ _ _ _ T x X) as [A B]. split; [lia|]. intros a. apply B. lia. }
  { apply inv_init. }
  { split; [intros p i []|intros a b []]. }
  assert (CL0 : forall a b, In a s -> In b (kids h0 a) -> In b s).
  { intros a b A B. destruct (CC a b A B) as [X|(j & [] & _)]. exact X. }
  exists f1, h0, roots, h, r, s. split; [exact EL|]. split; [exact W|]. split; [|split].
  - intros a b A B. destruct (v_new _ _ _ _ _ V a b B) as (y & Y & _).
    apply (CL0 y b); [|exact Y]. apply (v_par _ _ _ _ _ V a y b B); [apply (v_mono _ _ _ _ _ V), Y|exact A].
  - apply (v_ord _ _ _ _ _ V).
  - intros z Z. apply (v_res _ _ _ _ _ V z Z).
Qed.

(** the heap of the walk is the one of CombHeapAgree.v *)
Lemma agree_heap files : not_nested files \/ NoDup (map key (suites files)) ->
  exists f h0 roots h r, load_all files [] = (h0, roots) /\ walk_files f roots h0 [] = Some (h, r) /\ Forall2 (rep h) (combine_files files) r.
Proof.
  intros [NN|ND].
  - assert (FL : Forall flat files).
    { apply Forall_forall. intros f F s S. apply Forall_forall. intros c C. apply (NN s); [apply in_flat_map; exists f; auto|exact C]. }
    destruct (load_all_own files (proj2 (Forall_forall _ _) (fun x _ => load_own_ok x)) []) as (d & ids & EL & O). cbn [app] in EL, O.
    destruct (process_files files FL d ids 0 (length d) [] [] O) as (f & h & r & W & F); [split; [constructor|split; [constructor|intros z []]]|lia|].
    fold (combine_files files) in F. exists f, d, ids, h, r. split; [exact EL|]. split; [exact W|]. clear - F. induction F; constructor; [apply H|assumption].
  - destruct (parsed files) as (h & roots & EL & T).
    destruct (pass_files files h roots [] [] (t_rep _ _ _ _ T) (Forall2_nil _) ND) as (f & r & W & F). cbn [app] in F.
    rewrite <- (distinct_result files ND) in F. exists f, h, roots, h, r. auto.
Qed.

Definition done (fs : node) (a : args) (cs : list xml) (r : report) : node * outcome :=
  match write fs (output_file a) (Elem "testsuites" [("name", testsuites_name a)] cs) with
  | Some fs' => (fs', Exit r)
  | None => (fs, Raised)
  end.
Lemma main_ends a fs files : parse_all fs (find_all fs "results.xml" (directory a)) = Some files ->
  exists n cs r, (forall fuel, n <= fuel -> main fuel a fs = Some (done fs a cs r) /\ combine fuel (set_rc a) files = Some r) /\
    (not_nested files \/ NoDup (map key (suites files)) -> cs = combine_files files).
Proof.
  intros P. destruct (merge_ok files) as (f & h0 & roots & h & r & s & EL & W & CL & OR & RS).
  destruct (combine_ok files (set_rc a)) as (n0 & rp & E & _).
  destruct (map_opt_ok (tree (S (length s)) h) r) as (cs & C).
  { intros z Z. apply (tree_ok h s CL OR); [apply RS, Z|lia]. }
  assert (CM : forall m, map_opt (tree (S (length s) + m) h) r = Some cs) by (intros m; apply (map_opt_more _ _ _ _ (tree_more h m _) C)).
  exists (f + n0 + S (length s)), cs, rp. split.
  - intros fuel L. specialize (E fuel ltac:(lia)). split; [|exact E].
    unfold combine in E. rewrite EL in E. replace fuel with (f + (fuel - f)) in E at 1 by lia. rewrite (walk_files_more _ _ _ _ _ W) in E.
    unfold main. rewrite P, EL. replace (walk_files fuel roots h0 []) with (Some (h, r)).
    2:{ replace fuel with (f + (fuel - f)) by lia. symmetry. apply walk_files_more, W. }
    rewrite E. replace (map_opt (tree fuel h) r) with (Some cs).
    2:{ replace fuel with (S (length s) + (fuel - S (length s))) by lia. symmetry. apply CM. }
    unfold done. destruct (write _ _ _); reflexivity.
  - intros N. destruct (agree_heap files N) as (f' & h0' & roots' & h' & r' & EL' & W' & F).
    rewrite EL in EL'. injection EL' as <- <-.
    pose proof (walk_files_more _ _ _ _ _ W f') as A. pose proof (walk_files_more _ _ _ _ _ W' f) as B.
    rewrite Nat.add_comm in B. rewrite A in B. injection B as <- <-. exact (trees_rep _ _ _ _ F cs C).
Qed.

Lemma readable_files fs dir : tidy fs -> readable fs dir -> exists files, parse_all fs (find_all fs "results.xml" dir) = Some files /\
  Forall2 (fun p x => lookup fs p = Some (File (Some x))) (find_all fs "results.xml" dir) files.
Proof.
  intros T R. apply parse_all_some. intros p I. apply (find_all_iff fs dir T) in I. destruct (R p I) as (x & X). exists x. apply parse_some, X.
Qed.
Lemma write_only fs p x fs' : write fs p x = Some fs' -> only_changes fs fs' p x.
Proof.
  intros W. split; [exact (proj1 (write_lookup x p fs fs' W p) eq_refl)|]. intros q D. exact (proj2 (write_lookup x p fs fs' W q) D).
Qed.
Lemma runs_unique a fs f1 o1 f2 o2 : runs a fs f1 o1 -> runs a fs f2 o2 -> f1 = f2 /\ o1 = o2.
Proof.
  intros (n & A) (m & B). specialize (A (n + m) (Nat.le_add_r _ _)). specialize (B (n + m) (Nat.le_add_l _ _)). rewrite A in B. injection B as -> ->. auto.
Qed.

Lemma run_ok a fs : tidy fs -> readable fs (directory a) -> writable fs (output_file a) ->
  exists files fs' r out, parse_all fs (find_all fs "results.xml" (directory a)) = Some files /\
    Forall2 (fun p x => lookup fs p = Some (File (Some x))) (find_all fs "results.xml" (directory a)) files /\
    runs a fs fs' (Exit r) /\ (exists n, forall fuel, n <= fuel -> combine fuel (set_rc a) files = Some r) /\
    write fs (output_file a) out = Some fs' /\
    (not_nested files \/ NoDup (map key (suites files)) -> out = result_element (testsuites_name a) files).
Proof.
  intros T R W. destruct (readable_files fs _ T R) as (files & P & F). destruct (main_ends a fs files P) as (n & cs & r & M & N).
  destruct (write_ok (Elem "testsuites" [("name", testsuites_name a)] cs) _ _ W) as (fs' & E).
  exists files, fs', r, (Elem "testsuites" [("name", testsuites_name a)] cs). split; [exact P|]. split; [exact F|]. split; [|split; [|split; [exact E|]]].
  - exists n. intros fuel L. rewrite (proj1 (M fuel L)). unfold done. rewrite E. reflexivity.
  - exists n. intros fuel L. apply (M fuel L).
  - intros H. rewrite (N H). reflexivity.
Qed.
Lemma run_unreadable a fs p : tidy fs -> input fs (directory a) p -> lookup fs p = Some (File None) -> runs a fs fs Raised.
Proof.
  intros T I L. exists 0. intros fuel _. unfold main. rewrite (parse_all_none fs _ p); [reflexivity| |].
  - apply (find_all_iff fs _ T), I.
  - unfold parse. rewrite L. reflexivity.
Qed.
Lemma run_unwritable a fs : ~ writable fs (output_file a) -> runs a fs fs Raised.
Proof.
  intros W. destruct (parse_all fs (find_all fs "results.xml" (directory a))) as [files|] eqn:P.
  - destruct (main_ends a fs files P) as (n & cs & r & M & _). exists n. intros fuel L. rewrite (proj1 (M fuel L)). unfold done.
    destruct (write fs (output_file a) _) as [fs'|] eqn:E; [destruct (W (write_needs _ _ _ _ E))|reflexivity].
  - exists 0. intros fuel _. unfold main. rewrite P. reflexivity.
Qed.
Lemma run_again a fs fs' o : (forall below, output_file a <> directory a ++ below ++ ["results.xml"]) -> tidy fs ->
  runs a fs fs' o -> runs a fs' fs' o.
Proof.
  intros D T (n & M). assert (E : main n a fs = Some (fs', o)) by (apply M; lia). unfold main in E.
  destruct (parse_all fs (find_all fs "results.xml" (directory a))) as [files|] eqn:P; [|injection E as <- <-; exists n; exact M].
  destruct (main_ends a fs files P) as (m & cs & r & A & _).
  assert (Q : done fs a cs r = (fs', o)).
  { destruct (A (n + m) ltac:(lia)) as [B _]. rewrite (M (n + m) ltac:(lia)) in B. injection B as ->. reflexivity. }
  clear E. unfold done in Q. destruct (write fs (output_file a) _) as [f|] eqn:W; [|injection Q as <- <-; exists n; exact M].
  injection Q as -> <-. exists (n + m). intros fuel L. destruct (A fuel ltac:(lia)) as [B _]. unfold done in B. rewrite W in B.
  unfold main in *. rewrite (find_all_write _ _ _ _ _ W D).
  assert (PE : forall ps, (forall p, In p ps -> In p (find_all fs "results.xml" (directory a))) -> parse_all fs' ps = parse_all fs ps).
  { induction ps as [|p ps IH]; intros I; [reflexivity|]. cbn [parse_all]. rewrite IH by (intros q Hq; apply I; right; exact Hq). f_equal.
    assert (PD : p <> output_file a).
    { intros ->. specialize (I _ (or_introl eq_refl)). apply (find_all_iff fs _ T) in I as [(b & Eb) _]. exact (D b Eb). }
    unfold parse. destruct (write_lookup _ _ _ _ W p) as [_ K]. destruct (K PD) as [K1 _].
    specialize (I p (or_introl eq_refl)). apply (find_all_iff fs _ T) in I as [_ (c & Ec)]. rewrite (proj2 (K1 c) Ec), Ec. reflexivity. }
  rewrite (PE _ (fun p I => I)), P in *. destruct (load_all files []) as [h0 roots].
  destruct (walk_files fuel roots h0 []) as [[h res]|]; [|exact B].
  destruct (hreport fuel (set_rc a) h res) as [rp|]; [|exact B]. destruct (map_opt (tree fuel h) res) as [cs'|]; [|exact B].
  destruct (write fs (output_file a) (Elem "testsuites" [("name", testsuites_name a)] cs')) as [f2|] eqn:W2; [|discriminate B].
  injection B as -> ->. rewrite (write_again _ _ _ _ W2). reflexivity.
Qed.

(** ** the output is one of the inputs *)
Lemma F2_perm {T U} (P : T -> U -> Prop) l l' m : Permutation l l' -> Forall2 P l m -> exists m', Permutation m m' /\ Forall2 P l' m'.
Proof.
  intros H. revert m. induction H as [|x l l' H IH|x y l|l l2 l3 H1 IH1 H2 IH2]; intros m F.
  - inversion F; subst. exists []. split; constructor.
  - inversion F as [|? u ? m0 A B]; subst. destruct (IH m0 B) as (m' & C & D). exists (u :: m'). split; constructor; assumption.
  - inversion F as [|? u ? m0 A B]; subst. inversion B as [|? v ? m1 C D]; subst. exists (v :: u :: m1). split; [apply perm_swap|repeat constructor; assumption].
  - destruct (IH1 m F) as (m1 & A & B). destruct (IH2 m1 B) as (m2 & C & D). exists m2. split; [eapply perm_trans; eassumption|exact D].
Qed.
Lemma F2_fun {T U} (P : T -> U -> Prop) (fn : forall x y y', P x y -> P x y' -> y = y') l m m' : Forall2 P l m -> Forall2 P l m' -> m = m'.
Proof.
  intros F. revert m'. induction F as [|x y l m A F IH]; intros m' G; inversion G; subst; [reflexivity|]. f_equal; [eapply fn; eassumption|apply IH; assumption].
Qed.
Lemma result_not_nested name files : not_nested files -> not_nested (result_element name files :: files).
Proof.
  intros N s Hs c Hc. unfold suites in Hs. cbn [flat_map] in Hs. apply in_app_iff in Hs as [Hs|Hs]; [|exact (N s Hs c Hc)].
  rewrite (result_suites files N) in Hs. pose proof (combines_files files) as C. rewrite (cb_children _ _ C s Hs) in Hc.
  apply in_flat_map in Hc as (s' & I & Hc). unfold with_key in I. apply filter_In in I as [I _]. exact (N s' I c Hc).
Qed.
Lemma not_nested_perm f f' : Permutation f f' -> not_nested f -> not_nested f'.
Proof.
  intros P N s Hs. apply N. unfold suites in *. apply in_flat_map in Hs as (x & X & Hs). apply in_flat_map. exists x. split; [|exact Hs].
  apply (Permutation_in x (Permutation_sym P) X).
Qed.
Lemma twice_counts name files files' : not_nested files -> Permutation (result_element name files :: files) files' ->
  let e := result_element name files in let e' := result_element name files' in
  testcase_count e' = 2 * testcase_count e /\ testsuite_count e' = testsuite_count e /\
  List.length (report_lines e') = 2 * List.length (report_lines e).
Proof.
  intros N P e e'. pose proof (not_nested_perm _ _ P (result_not_nested name files N)) as N'.
  assert (PS : Permutation (suites (e :: files)) (suites files')) by (apply Permutation_flat_map, P).
  unfold suites in PS. cbn [flat_map] in PS. unfold e in PS. rewrite (result_suites files N) in PS. fold (suites files) in PS. fold (suites files') in PS.
  destruct (counts_thm files N name) as [S1 C1]. destruct (counts_thm files' N' name) as [S2 C2].
  split; [|split].
  - subst e e'. rewrite C1, C2. rewrite <- (Permutation_length (Permutation_flat_map (iter "testcase") PS)), flat_map_app, app_length.
    rewrite (Permutation_length (cases_perm files)). lia.
  - subst e e'. rewrite S1, S2. rewrite <- (map_length key (combine_files files')), <- (map_length key (combine_files files)).
    apply Permutation_length, NoDup_Permutation; [apply (cb_nodup _ _ (combines_files files'))|apply (cb_nodup _ _ (combines_files files))|].
    intros k. rewrite (fo_in _ _ (cb_order _ _ (combines_files files'))). 
    assert (Q : In k (map key (suites files')) <-> In k (map key (combine_files files ++ suites files))).
    { split; apply Permutation_in; [apply Permutation_sym|]; apply Permutation_map, PS. }
    rewrite Q, map_app, in_app_iff, (fo_in _ _ (cb_order _ _ (combines_files files))). tauto.
  - subst e e'. rewrite (Permutation_length (lines_perm files' N' name)), (Permutation_length (lines_perm files N name)).
    rewrite <- (Permutation_length (Permutation_flat_map _ PS)), flat_map_app, app_length.
    pose proof (Permutation_length (lines_perm files N name)) as L. unfold report_lines in L. rewrite (result_suites files N) in L.
    change (length (flat_map CombProof.lines (combine_files files)) = length (flat_map CombProof.lines (suites files))) in L. lia.
Qed.
Lemma F2_in {T U} (P : T -> U -> Prop) l m y : Forall2 P l m -> In y m -> exists x, In x l /\ P x y.
Proof.
  induction 1 as [|x z l m A F IH]; intros I; [destruct I|]. destruct I as [->|I]; [exists x; split; [left; reflexivity|exact A]|].
  destruct (IH I) as (w & Iw & Pw). exists w. split; [right; exact Iw|exact Pw].
Qed.
Lemma not_nested_each files : (forall x, In x files -> not_nested [x]) -> not_nested files.
Proof.
  intros H s Hs. unfold suites in Hs. apply in_flat_map in Hs as (x & X & Hs). apply (H x X s). unfold suites. cbn [flat_map]. rewrite app_nil_r. exact Hs.
Qed.
Lemma run_twice a fs below : tidy fs -> readable fs (directory a) -> writable fs (output_file a) ->
  output_file a = directory a ++ below ++ ["results.xml"] -> lookup fs (output_file a) = None ->
  (forall p x, input fs (directory a) p -> lookup fs p = Some (File (Some x)) -> not_nested [x]) ->
  exists fs1 r1 fs2 r2, runs a fs fs1 (Exit r1) /\ runs a fs1 fs2 (Exit r2) /\
    case_total r2 = 2 * case_total r1 /\ suite_total r2 = suite_total r1 /\ List.length (lines r2) = 2 * List.length (lines r1).
Proof.
  intros T R W EO NO NN. destruct (run_ok a fs T R W) as (files & fs1 & r1 & out & P1 & F1 & M1 & (n1 & C1) & W1 & O1).
  destruct (find_all_iff fs (directory a) T) as [ND1 IN1].
  assert (N1 : not_nested files).
  { apply not_nested_each. intros x X. destruct (F2_in _ _ _ x F1 X) as (p & Ip & Lp). apply (NN p x); [apply IN1, Ip|exact Lp]. }
  specialize (O1 (or_introl N1)).
  pose proof (write_tidy _ _ _ _ T W1) as T1. destruct (find_all_iff fs1 (directory a) T1) as [ND2 IN2].
  destruct (write_only _ _ _ _ W1) as [OC1 OC2].
  assert (PP : Permutation (output_file a :: find_all fs "results.xml" (directory a)) (find_all fs1 "results.xml" (directory a))).
  { apply NoDup_Permutation; [|exact ND2|].
    - constructor; [|exact ND1]. rewrite IN1. intros [_ (c & E)]. rewrite NO in E. discriminate E.
    - intros p. cbn [In]. rewrite IN1, IN2. split.
      + intros [<-|[A (c & B)]]; [split; [exists below; exact EO|exists (Some out); exact OC1]|]. split; [exact A|]. exists c.
        apply OC2; [intros ->; rewrite NO in B; discriminate B|exact B].
      + intros [A (c & B)]. destruct (list_eq_dec string_dec p (output_file a)) as [->|D]; [left; reflexivity|]. right. split; [exact A|]. exists c. apply OC2; assumption. }
  assert (R1 : readable fs1 (directory a)).
  { intros p I. destruct (list_eq_dec string_dec p (output_file a)) as [->|D]; [exists out; exact OC1|].
    destruct I as [A (c & B)]. destruct (R p) as (x & X); [split; [exact A|]; exists c; apply OC2; assumption|]. exists x. apply OC2; assumption. }
  assert (WR1 : writable fs1 (output_file a)) by exact (write_needs _ _ _ _ (write_again _ _ _ _ W1)).
  destruct (run_ok a fs1 T1 R1 WR1) as (files2 & fs2 & r2 & out2 & P2 & F2 & M2 & (n2 & C2) & W2 & O2).
  assert (FF : Forall2 (fun p x => lookup fs1 p = Some (File (Some x))) (output_file a :: find_all fs "results.xml" (directory a)) (out :: files)).
  { constructor; [exact OC1|]. assert (G : Forall (fun p => p <> output_file a) (find_all fs "results.xml" (directory a))).
    { apply Forall_forall. intros p I ->. apply IN1 in I as [_ (c & E)]. rewrite NO in E. discriminate E. }
    clear - F1 G OC2. induction F1 as [|p x ps xs A F IH]; [constructor|]. inversion G; subst. constructor; [apply OC2; assumption|apply IH; assumption]. }
  destruct (F2_perm _ _ _ _ PP FF) as (files2' & PF & F2').
  assert (files2' = files2) by (apply (F2_fun _ (fun p x y (A : lookup fs1 p = Some (File (Some x))) (B : lookup fs1 p = Some (File (Some y))) =>
     f_equal (fun o => match o with Some (File (Some z)) => z | _ => x end) (eq_trans (eq_sym A) B)) _ _ _ F2' F2)). subst files2'.
  rewrite O1 in PF. pose proof (not_nested_perm _ _ PF (result_not_nested _ _ N1)) as N2.
  destruct (agree_thm files (testsuites_name a) (set_rc a) N1) as (m1 & A1). destruct (agree_thm files2 (testsuites_name a) (set_rc a) N2) as (m2 & A2).
  pose proof (C1 (n1 + m1) ltac:(lia)) as E1. rewrite (A1 (n1 + m1) ltac:(lia)) in E1. injection E1 as <-.
  pose proof (C2 (n2 + m2) ltac:(lia)) as E2. rewrite (A2 (n2 + m2) ltac:(lia)) in E2. injection E2 as <-.
  destruct (twice_counts _ _ _ N1 PF) as (Q1 & Q2 & Q3).
  do 4 eexists. split; [exact M1|]. split; [exact M2|]. cbn [case_total suite_total lines]. split; [exact Q1|]. split; [exact Q2|exact Q3].
Qed.
