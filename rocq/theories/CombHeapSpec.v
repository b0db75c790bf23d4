(** CombHeapSpec.v -- what combining results of any shape means. *)
From Verif Require Import CombModel CombSpec.
Local Open Scope list_scope.

(** the line that reports a failure of test case [tc] in suite [s] *)
Definition line_of (s tc : xml) : failure_line :=
  (get s "name", get tc "classname", get tc "name", get s "package").
(** no test suite lies inside a test case *)
Definition proper (files : list xml) : Prop :=
  forall f tc, In f files -> In tc (iter "testcase" f) -> iter "testsuite" tc = [].
