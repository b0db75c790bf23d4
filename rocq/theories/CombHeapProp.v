(** CombHeapProp.v -- C100: combining results of any shape. *)
From Verif Require Import CombHeapModel CombSpec CombHeapSpec CombHeapProof CombHeapProof2 CombHeapAgree.
From Coq Require Import Lia Arith.
Local Open Scope list_scope.

(** the script ends after finitely many steps; this is what it prints and its return code *)
Definition ends_with (set_rc : bool) (files : list xml) (r : report) : Prop :=
  exists n, forall fuel, n <= fuel -> combine fuel set_rc files = Some r.

(** C100: whatever the files look like -- suites inside suites, suites of the same name inside
    each other, test suites inside test cases -- the script ends, every failing test case of
    every suite is reported under the name and package of its suite, and then the return code
    is 1 unless it is suppressed *)
Theorem C100_nothing_hidden : forall files set_rc, exists r, ends_with set_rc files r /\
  (forall s tc, In s (suites files) -> In tc (iter "testcase" s) -> failed tc -> In (line_of s tc) (lines r)) /\
  (some_failed files -> code r = if set_rc then 1 else 0).
Proof.
  intros files set_rc. destruct (combine_ok files set_rc) as (n & r & E & RC & A & _). exists r.
  split; [exists n; intros fuel L; apply E, L|]. split; [exact A|]. intros (s & tc & Is & It & F).
  specialize (A s tc Is It F). rewrite RC. destruct set_rc, (lines r); try reflexivity. destruct A.
Qed.
Print Assumptions C100_nothing_hidden.

(** ... and no failure is invented, if no test suite lies inside a test case: each line is about
    a test case of a suite that failed, and the return code is 1 only if there is one *)
Theorem C100_nothing_invented : forall files set_rc r, proper files -> ends_with set_rc files r ->
  (forall l, In l (lines r) -> exists s s' tc, In s (suites files) /\ In tc (iter "testcase" s) /\ failed tc /\
     In s' (suites files) /\ l = (get s' "name", get tc "classname", get tc "name", get s' "package")) /\
  (code r = 1 <-> set_rc = true /\ some_failed files) /\ (code r = 0 <-> ~ (set_rc = true /\ some_failed files)).
Proof.
  intros files set_rc r P (n & R). destruct (combine_ok files set_rc) as (n' & r' & E & RC & A & B). specialize (B P).
  specialize (E (n + n') (Nat.le_add_l _ _)). rewrite (R (n + n') (Nat.le_add_r _ _)) in E. injection E as ->.
  split; [exact B|].
  assert (Q : code r' = 1 <-> set_rc = true /\ some_failed files).
  { rewrite RC. split.
    - destruct set_rc; [|discriminate]. destruct (lines r') as [|l ls]; [discriminate|]. intros _. split; [reflexivity|].
      destruct (B l (or_introl eq_refl)) as (s & s' & tc & I1 & I2 & I3 & _). exists s, tc. auto.
    - intros [-> (s & tc & I1 & I2 & I3)]. specialize (A s tc I1 I2 I3). destruct (lines r'); [destruct A|reflexivity]. }
  split; [exact Q|]. rewrite <- Q, RC. destruct set_rc, (lines r'); split; try discriminate; try lia; intros H; exfalso; apply H; reflexivity.
Qed.
Print Assumptions C100_nothing_invented.

(** C68, C80 with shared, mutable elements: without suites inside suites the report is that of
    the combined result in which elements are copied, to which C68 and C80 apply *)
Theorem C68_shared_elements : forall name files set_rc, not_nested files ->
  let e := result_element name files in
  ends_with set_rc files (Report (report_lines e) (testsuite_count e) (testcase_count e) (return_code set_rc e)).
Proof. intros name files set_rc N. exact (agree_thm files name set_rc N). Qed.
Print Assumptions C68_shared_elements.

(** C81 likewise: so does C81_partial, about suites inside suites, all of different names or packages *)
Theorem C81_shared_elements_partial : forall name files set_rc, NoDup (map key (suites files)) ->
  let e := result_element name files in
  ends_with set_rc files (Report (report_lines e) (testsuite_count e) (testcase_count e) (return_code set_rc e)).
Proof. intros name files set_rc N. exact (distinct_thm files name set_rc N). Qed.
Print Assumptions C81_shared_elements_partial.

(** three suites inside each other, the outer two of one name: the walk is made longer by what
    it adds; the failure is reported under each name *)
Definition ex_case := Elem "testcase" [("name", "t"); ("classname", "m")] [Elem "failure" [] []].
Definition ex_file := Elem "testsuites" []
  [Elem "testsuite" [("name", "a")] [Elem "testsuite" [("name", "a")] [Elem "testsuite" [("name", "b")] [ex_case]]]].
Example C100_nonvacuous : proper [ex_file] /\ some_failed [ex_file] /\ ~ not_nested [ex_file] /\
  combine 100 true [ex_file] = Some (Report (repeat (Some "a", Some "m", Some "t", None) 6 ++ repeat (Some "b", Some "m", Some "t", None) 6) 5 12 1).
Proof.
  split; [|split; [|split]].
  - intros f tc [<-|[]] I. cbn in I. destruct I as [<-|[]]. reflexivity.
  - eexists _, ex_case. split; [left; reflexivity|]. split; [left; reflexivity|]. exists (Elem "failure" [] []). left; reflexivity.
  - intros N. specialize (N _ (or_introl eq_refl) _ (or_introl eq_refl)). discriminate N.
  - vm_compute. reflexivity.
Qed.
(** a suite inside a test case, and a failure outside all test cases: here the script reports a
    failure although no test case failed *)
Definition ex_odd := Elem "testsuites" []
  [Elem "testsuite" [("name", "a")] [Elem "testcase" [] [Elem "testsuite" [("name", "b")] []]];
   Elem "testsuite" [("name", "b")] [Elem "failure" [] []]].
Example C100_odd : ~ proper [ex_odd] /\ ~ some_failed [ex_odd] /\
  exists r, combine 100 true [ex_odd] = Some r /\ code r = 1.
Proof.
  split; [|split].
  - intros P. specialize (P _ (Elem "testcase" [] [Elem "testsuite" [("name", "b")] []]) (or_introl eq_refl) (or_introl eq_refl)). discriminate P.
  - intros (s & tc & Is & It & f & If). cbn in Is. destruct Is as [<-|[<-|[<-|[]]]]; cbn in It; intuition subst; cbn in If; intuition.
  - eexists. split; vm_compute; reflexivity.
Qed.
