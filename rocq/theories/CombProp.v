(** CombProp.v -- C68, C80: bin/combine_results.py. *)
From Verif Require Import CombModel CombSpec CombProof.
From Coq Require Import Permutation.
Local Open Scope list_scope.

(** C68: one suite for each (name, package) pair, in the order in which the pairs first
    occur; it has the attributes of the first suite of its pair, and the children of all
    suites of the pair, in order. *)
Theorem C68_combined : forall name files, not_nested files ->
  exists R, result_element name files = Elem "testsuites" [("name", name)] R /\
    iter "testsuite" (result_element name files) = R /\
    NoDup (map key R) /\
    first_occurrences (map key (suites files)) (map key R) /\
    (forall k, In k (map key (suites files)) -> In k (map key R)) /\
    (forall r, In r R ->
       children r = flat_map children (with_key (key r) (suites files)) /\
       exists before first after, suites files = before ++ first :: after /\
         with_key (key r) before = [] /\ key first = key r /\ attrs first = attrs r).
Proof.
  intros name files N. exists (combine_files files). pose proof (combines_files files) as C.
  split; [reflexivity|]. split; [apply result_suites, N|]. split; [apply (cb_nodup _ _ C)|]. split; [apply (cb_order _ _ C)|].
  split; [intros k I; apply (fo_in _ _ (cb_order _ _ C)), I|]. intros r I. split; [apply (cb_children _ _ C r I)|].
  destruct (cb_first _ _ C r I) as (s & _ & K & A & _ & x & y & E & W). exists x, s, y. auto.
Qed.
Print Assumptions C68_combined.

(** The terms used here: [get] is the first attribute of that name, [iter] lists the elements
    with a tag in document order, [with_key] are the suites with the same name and package. *)
Theorem C68_terms : forall x k t,
  (forall v, get x k = Some v <-> exists before after, attrs x = before ++ (k, v) :: after /\ ~ In k (map fst before)) /\
  (get x k = None <-> ~ In k (map fst (attrs x))) /\
  iter t x = filter (fun y => if string_dec (tag y) t then true else false) (document x) /\
  forall p l s, In s (with_key p l) <-> In s l /\ key s = p.
Proof. exact terms_thm. Qed.
Print Assumptions C68_terms.

(** ... no test case is lost, duplicated or invented, and the totals printed are right *)
Theorem C68_cases : forall name files, not_nested files ->
  Permutation (flat_map (iter "testcase") (iter "testsuite" (result_element name files)))
              (flat_map (iter "testcase") (suites files)) /\
  testcase_count (result_element name files) = List.length (flat_map (iter "testcase") (suites files)) /\
  testsuite_count (result_element name files) = List.length (iter "testsuite" (result_element name files)).
Proof.
  intros name files N. rewrite (result_suites files N). destruct (counts_thm files N name) as [A B].
  split; [apply cases_perm|]. split; [exact B|exact A].
Qed.
Print Assumptions C68_cases.

(** ... and the exit code is 1 if a test case failed and it is not suppressed, else 0 *)
Theorem C68_exit_code : forall name files set_rc, not_nested files ->
  (return_code set_rc (result_element name files) = 1 <-> set_rc = true /\ some_failed files) /\
  (return_code set_rc (result_element name files) = 0 <-> ~ (set_rc = true /\ some_failed files)).
Proof. intros name files set_rc N. apply rc_thm, N. Qed.
Print Assumptions C68_exit_code.

(** C80: every failure is reported exactly once *)
Theorem C80_failures : forall name files, not_nested files ->
  Permutation (report_lines (result_element name files))
    (flat_map (fun s => flat_map (fun tc =>
       map (fun _ => (get s "name", get tc "classname", get tc "name", get s "package")) (iter "failure" tc))
       (iter "testcase" s)) (suites files)).
Proof. intros name files N. apply lines_perm, N. Qed.
Print Assumptions C80_failures.

(** C81: with test suites inside test suites every test case of the inner suite is counted
    three times: the inner suite is appended to the result and also left in the outer one *)
Theorem C81_nested_refuted : forall name a b oname inner,
  key (Elem "testsuite" a []) <> key (Elem "testsuite" b []) ->
  Forall (fun c => iter "testsuite" c = []) inner ->
  let file := Elem "testsuites" [("name", oname)] [Elem "testsuite" a [Elem "testsuite" b inner]] in
  testcase_count (result_element name [file]) = 3 * List.length (flat_map (iter "testcase") inner) /\
  testsuite_count (result_element name [file]) = 3 /\
  List.length (iter "testcase" file) = List.length (flat_map (iter "testcase") inner) /\
  List.length (iter "testsuite" file) = 2.
Proof. intros. apply nested_thm; assumption. Qed.
Print Assumptions C81_nested_refuted.

(** C81, exactly: with any nesting, all suites having different names or packages, a test case
    that lies in d suites is counted d * (d + 1) / 2 times: once if d = 1, not at all if d = 0 *)
Theorem C81_partial : forall name files, NoDup (map key (suites files)) ->
  testcase_count (result_element name files)
  = fold_right Nat.add 0 (map (fun d => d * (d + 1) / 2) (flat_map (depths 0) files)) /\
  List.length (flat_map (iter "testcase") files) = List.length (flat_map (depths 0) files).
Proof. intros name files N. apply (nested_count_thm name files N). Qed.
Print Assumptions C81_partial.
Example C81_nonvacuous :
  let s n cs := Elem "testsuite" [("name", n)] cs in let c := Elem "testcase" [] [] in
  let files := [Elem "testsuites" [] [s "a" [c; s "b" [c; s "c" [c]]]]; s "d" [c]] in
  NoDup (map key (suites files)) /\ flat_map (depths 0) files = [1; 2; 3; 1] /\ testcase_count (result_element "r" files) = 11.
Proof.
  cbn zeta. split; [|split; vm_compute; reflexivity]. vm_compute.
  repeat (apply NoDup_cons; [cbn [In]; intro H; repeat (destruct H as [H|H]; [discriminate H|]); exact H|]). apply NoDup_nil.
Qed.

(** ** Non-vacuity *)
Definition exc_case (n : string) (fs : list xml) : xml := Elem "testcase" [("name", n)] fs.
Definition exc_fail : xml := Elem "failure" [] [].
Definition exc_a (cs : list xml) : xml := Elem "testsuite" [("name", "a"); ("package", "p")] cs.
Definition exc_b (cs : list xml) : xml := Elem "testsuite" [("name", "a")] cs.
Definition exc_files : list xml :=
  [Elem "testsuites" [] [exc_a [exc_case "t1" []]; exc_b [exc_case "t2" [exc_fail]]];
   exc_a [exc_case "t3" []]].
Example exc_not_nested : not_nested exc_files.
Proof.
  unfold not_nested. intros s Hs c Hc. cbn in Hs. destruct Hs as [<-|[<-|[<-|[]]]]; cbn in Hc; destruct Hc as [<-|[]]; reflexivity.
Qed.
Example exc_combined : combine_files exc_files = [exc_a [exc_case "t1" []; exc_case "t3" []]; exc_b [exc_case "t2" [exc_fail]]].
Proof. reflexivity. Qed.
Example exc_rc : return_code true (result_element "r" exc_files) = 1 /\ return_code false (result_element "r" exc_files) = 0.
Proof. split; reflexivity. Qed.
Example exc_some_failed : some_failed exc_files.
Proof. exists (exc_b [exc_case "t2" [exc_fail]]), (exc_case "t2" [exc_fail]). cbn. split; [auto|]. split; [auto|]. exists exc_fail. cbn. auto. Qed.
Example exc_nested_key : key (exc_a []) <> key (exc_b []).
Proof. discriminate. Qed.
