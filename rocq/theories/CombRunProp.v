(** CombRunProp.v -- C105, C106, C107: runs of bin/combine_results.py. *)
From Verif Require Import CombProof CombSpec CombHeapModel CombHeapSpec CombHeapAgree CombHeapProp CombRunModel CombRunSpec CombRunProof CombRunProof2.
From Coq Require Import Lia Arith.
Local Open Scope list_scope.

(** C105: a run reads every file called results.xml in the directory and below, each once, and
    no other; it reports on them (C100) and changes nothing but the output file, which, if no
    test suite lies inside another, contains the combined suites (C68) *)
Theorem C105_combined : forall a fs, tidy fs -> readable fs (directory a) -> writable fs (output_file a) ->
  exists paths files fs' r out,
    NoDup paths /\ (forall p, In p paths <-> input fs (directory a) p) /\
    Forall2 (fun p x => lookup fs p = Some (File (Some x))) paths files /\
    runs a fs fs' (Exit r) /\ ends_with (set_rc a) files r /\ only_changes fs fs' (output_file a) out /\
    (not_nested files -> out = result_element (testsuites_name a) files).
Proof.
  intros a fs T R W. destruct (run_ok a fs T R W) as (files & fs' & r & out & _ & F & M & E & Wr & O).
  destruct (find_all_iff fs (directory a) T) as [ND IN].
  exists (find_all fs "results.xml" (directory a)), files, fs', r, out. split; [exact ND|]. split; [exact IN|]. split; [exact F|]. split; [exact M|].
  split; [exact E|]. split; [apply write_only, Wr|]. intros N. apply O. left; exact N.
Qed.
Print Assumptions C105_combined.

(** ... and the exit status tells whether a test failed in one of these files, unless that is
    suppressed.  (No test suite lies inside a test case.) *)
Definition failing_input (fs : node) (dir : path) : Prop :=
  exists p x s tc, input fs dir p /\ lookup fs p = Some (File (Some x)) /\
    In s (iter "testsuite" x) /\ In tc (iter "testcase" s) /\ failed tc.
Theorem C105_status : forall a fs fs' o, tidy fs -> readable fs (directory a) -> writable fs (output_file a) ->
  (forall p x, input fs (directory a) p -> lookup fs p = Some (File (Some x)) -> proper [x]) ->
  runs a fs fs' o ->
  (status o = 1 <-> set_rc a = true /\ failing_input fs (directory a)) /\
  (status o = 0 <-> ~ (set_rc a = true /\ failing_input fs (directory a))).
Proof.
  intros a fs fs' o T R W PR M. destruct (C105_combined a fs T R W) as (paths & files & f1 & r & out & _ & IN & F & M' & E & _).
  destruct (runs_unique _ _ _ _ _ _ M M') as [_ ->]. cbn [status].
  assert (P : proper files).
  { intros f tc If Itc. destruct (F2_in _ _ _ f F If) as (p & Ip & Lp). apply (PR p f (proj1 (IN p) Ip) Lp f tc); [left; reflexivity|exact Itc]. }
  destruct (C100_nothing_invented files (set_rc a) r P E) as (_ & A & B).
  assert (Q : some_failed files <-> failing_input fs (directory a)).
  { split.
    - intros (s & tc & Is & It & Ft). apply in_flat_map in Is as (x & X & Is). destruct (F2_in _ _ _ x F X) as (p & Ip & Lp).
      exists p, x, s, tc. split; [apply IN, Ip|]. auto.
    - intros (p & x & s & tc & Ip & Lp & Is & It & Ft). exists s, tc. split; [|auto]. apply in_flat_map. exists x. split; [|exact Is].
      apply IN in Ip. clear - F Ip Lp. induction F as [|q y ps ys G F IH]; [destruct Ip|]. destruct Ip as [->|I]; [left; congruence|right; auto]. }
  rewrite <- Q. split; assumption.
Qed.
Print Assumptions C105_status.

(** C106 is refuted: a directory that does not exist (or is a file) is taken for one without
    results: the run ends with status 0 and writes a file without suites *)
Theorem C106_missing_directory_refuted : forall a fs, tidy fs -> writable fs (output_file a) ->
  (forall es, lookup fs (directory a) <> Some (Dir es)) ->
  exists fs' r, runs a fs fs' (Exit r) /\ status (Exit r) = 0 /\ suite_total r = 0 /\
    only_changes fs fs' (output_file a) (Elem "testsuites" [("name", testsuites_name a)] []).
Proof.
  intros a fs T W D.
  assert (NI : forall p, ~ input fs (directory a) p).
  { intros p [(b & ->) (c & E)]. rewrite lookup_app in E. destruct (lookup fs (directory a)) as [n|]; [|discriminate E].
    destruct (b ++ ["results.xml"]) as [|k q] eqn:Q; [destruct b; discriminate Q|]. cbn [lookup] in E.
    destruct n as [x|es| |]; try discriminate E. exact (D es eq_refl). }
  destruct (C105_combined a fs T) as (paths & files & fs' & r & out & _ & IN & F & M & (n & E) & OC & O); [intros p I; destruct (NI p I)|exact W|].
  assert (paths = []) by (destruct paths as [|p ps]; [reflexivity|]; destruct (NI p); apply IN; left; reflexivity). subst paths.
  inversion F; subst. assert (N : not_nested []) by (intros s []).
  rewrite (O N) in OC. exists fs', r. split; [exact M|].
  destruct (C68_shared_elements (testsuites_name a) [] (set_rc a) N) as (m & E').
  specialize (E (n + m) ltac:(lia)). rewrite (E' (n + m) ltac:(lia)) in E. injection E as <-.
  split; [destruct (set_rc a); reflexivity|]. split; [reflexivity|exact OC].
Qed.
Print Assumptions C106_missing_directory_refuted.

(** what holds of C106: if one of the files is no XML (the simulator was killed while it wrote it),
    or the output file cannot be created, the status is 1, and nothing is written *)
Theorem C106_partial : forall a fs, tidy fs ->
  (exists p, input fs (directory a) p /\ lookup fs p = Some (File None)) \/ ~ writable fs (output_file a) ->
  exists o, runs a fs fs o /\ status o = 1.
Proof.
  intros a fs T [(p & I & L)|W]; exists Raised; (split; [|reflexivity]); [exact (run_unreadable a fs p T I L)|exact (run_unwritable a fs W)].
Qed.
Print Assumptions C106_partial.

(** C107 is refuted: if the output file is itself called results.xml and lies in the directory,
    a second run finds it as well and counts and reports everything twice *)
Theorem C107_doubled_refuted : forall a fs below, tidy fs -> readable fs (directory a) -> writable fs (output_file a) ->
  output_file a = directory a ++ below ++ ["results.xml"] -> lookup fs (output_file a) = None ->
  (forall p x, input fs (directory a) p -> lookup fs p = Some (File (Some x)) -> not_nested [x]) ->
  exists fs1 r1 fs2 r2, runs a fs fs1 (Exit r1) /\ runs a fs1 fs2 (Exit r2) /\
    case_total r2 = 2 * case_total r1 /\ suite_total r2 = suite_total r1 /\ List.length (lines r2) = 2 * List.length (lines r1).
Proof. exact run_twice. Qed.
Print Assumptions C107_doubled_refuted.

(** what holds of C107: with any other output file a second run changes nothing and ends in the
    same way *)
Theorem C107_partial : forall a fs fs' o, tidy fs -> (forall below, output_file a <> directory a ++ below ++ ["results.xml"]) ->
  runs a fs fs' o -> runs a fs' fs' o.
Proof. intros a fs fs' o T D M. exact (run_again a fs fs' o D T M). Qed.
Print Assumptions C107_partial.

(** ** Non-vacuity *)
Definition exr_ok := Elem "testsuites" [] [Elem "testsuite" [("name", "a")] [Elem "testcase" [("name", "t")] []]].
Definition exr_bad := Elem "testsuites" [] [Elem "testsuite" [("name", "a")] [Elem "testcase" [("name", "u")] [Elem "failure" [] []]]].
Definition exr_fs : node := Dir
  [("README", File None); ("results.xml", File (Some exr_ok));
   ("t", Dir [("results.xml", Dir [("results.xml", File (Some exr_bad))]); ("old", DirLink)]); ("private", Locked)].
(** the default arguments *)
Definition exr_args := Args [] ["combined_results.xml"] "results" true.
Example exr_tidy : tidy exr_fs.
Proof. cbn. repeat split; repeat constructor; cbn; intuition discriminate. Qed.
Example exr_found : find_all exr_fs "results.xml" [] = [["results.xml"]; ["t"; "results.xml"; "results.xml"]].
Proof. reflexivity. Qed.
Example exr_readable : readable exr_fs [].
Proof.
  intros p I. apply (find_all_iff exr_fs [] exr_tidy) in I. rewrite exr_found in I. destruct I as [<-|[<-|[]]]; eexists; reflexivity.
Qed.
Example exr_writable : writable exr_fs (output_file exr_args).
Proof. exists [], "combined_results.xml". split; [reflexivity|]. split; [eexists; reflexivity|left; reflexivity]. Qed.
Example exr_not_input : forall below, output_file exr_args <> directory exr_args ++ below ++ ["results.xml"].
Proof. intros [|k b] H; [discriminate H|]. cbn in H. injection H as _ H. destruct b; discriminate H. Qed.
Example exr_run : exists fs' r, main 100 exr_args exr_fs = Some (fs', Exit r) /\ code r = 1 /\ case_total r = 2 /\
  lookup fs' ["combined_results.xml"] = Some (File (Some (Elem "testsuites" [("name", "results")]
    [Elem "testsuite" [("name", "a")] [Elem "testcase" [("name", "t")] []; Elem "testcase" [("name", "u")] [Elem "failure" [] []]]]))).
Proof. eexists _, _. vm_compute. repeat split. Qed.
Example exr_proper : forall p x, input exr_fs [] p -> lookup exr_fs p = Some (File (Some x)) -> proper [x] /\ not_nested [x].
Proof.
  intros p x I L. apply (find_all_iff exr_fs [] exr_tidy) in I. rewrite exr_found in I.
  destruct I as [<-|[<-|[]]]; cbn in L; injection L as <-; split.
  - intros f tc [<-|[]] I. cbn in I. destruct I as [<-|[]]. reflexivity.
  - intros s I c C. cbn in I. destruct I as [<-|[]]. cbn in C. destruct C as [<-|[]]. reflexivity.
  - intros f tc [<-|[]] I. cbn in I. destruct I as [<-|[]]. reflexivity.
  - intros s I c C. cbn in I. destruct I as [<-|[]]. cbn in C. destruct C as [<-|[]]. reflexivity.
Qed.
(** --directory=tests --output_file=t/results.xml: no such directory; --output_file=t/results.xml alone *)
Example exr_missing : forall es, lookup exr_fs ["tests"] <> Some (Dir es).
Proof. intros es. discriminate. Qed.
Definition exr_fs2 : node := Dir [("t", Dir []); ("results.xml", File (Some exr_bad))].
Example exr_twice : writable exr_fs2 ["t"; "results.xml"] /\ lookup exr_fs2 ["t"; "results.xml"] = None.
Proof. split; [|reflexivity]. exists ["t"], "results.xml". split; [reflexivity|]. split; [eexists; reflexivity|left; reflexivity]. Qed.
(** a truncated file *)
Example exr_truncated : input (Dir [("results.xml", File None)]) [] ["results.xml"].
Proof. split; [exists []; reflexivity|exists None; reflexivity]. Qed.
