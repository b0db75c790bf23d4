(** CombModel.v -- bin/combine_results.py.

    An XML element is its tag, attributes and children (text is ignored: the script never
    looks at it, and moving elements keeps it).  The elements are immutable here; the
    script mutates them: that is the same for files in which no testsuite lies inside
    another, and for suites of different names or packages (CombHeapModel.v has mutable
    elements, CombHeapProp.v shows that).
    Here the list of parsed files is arbitrary; CombRunModel.v adds the search for them, files
    that are not XML and the output file.  Not modelled: argument parsing. *)
From Verif Require Export Base.
From Coq Require Export String.
Open Scope string_scope.
Local Open Scope list_scope.

(* bin/combine_results.py:11, 82: an ElementTree element *)
Inductive xml := Elem (tag : string) (attrs : list (string * string)) (children : list xml).
(* bin/combine_results.py:83, 108-112: its tag *)
Definition tag (x : xml) : string := let '(Elem t _ _) := x in t.
(* bin/combine_results.py:90-92: its attributes *)
Definition attrs (x : xml) : list (string * string) := let '(Elem _ a _) := x in a.
(* bin/combine_results.py:89, 101: its children *)
Definition children (x : xml) : list xml := let '(Elem _ _ c) := x in c.

(** bin/combine_results.py throughout.  ElementTree's Element.iter(tag) (used in 83, 108, 110, 112): the element itself and all below it, in document order *)
Fixpoint iter (t : string) (x : xml) : list xml :=
  match x with
  | Elem t' _ cs => (if String.eqb t' t then [x] else []) ++ flat_map (iter t) cs
  end.
(** ElementTree's Element.get (86, 90-92, 118-121): the attribute or None *)
Fixpoint assoc (k : string) (l : list (string * string)) : option string :=
  match l with
  | [] => None
  | (k', v) :: r => if String.eqb k' k then Some v else assoc k r
  end.
(* bin/combine_results.py:90-92, 118-121: get(key) *)
Definition get (x : xml) (k : string) : option string := assoc k (attrs x).
(* bin/combine_results.py:90-92: ==, of strings or None *)
Definition opt_eqb (a b : option string) : bool :=
  match a, b with Some x, Some y => String.eqb x y | None, None => true | _, _ => false end.
(** ElementTree's Element.extend (101) *)
Definition extend (x : xml) (l : list xml) : xml := let '(Elem t a c) := x in Elem t a (c ++ l).

(** one testsuite (83-101): extend the first element with the same name and package, or
    append; [result] are the children of the result element *)
Fixpoint add_suite (result : list xml) (ts : xml) : list xml :=
  match result with
  | [] => [ts]                                                          (* 97-98 *)
  | existing :: r =>
      if opt_eqb (get existing "name") (get ts "name")
         && opt_eqb (get existing "package") (get ts "package")         (* 90-92 *)
      then extend existing (children ts) :: r                           (* 100-101 *)
      else existing :: add_suite r ts
  end.
(** the loops over the files and their suites (79-101) *)
Definition combine_files (files : list xml) : list xml :=
  fold_left (fun result tree => fold_left add_suite (iter "testsuite" tree) result) files [].
(** the result element (78) *)
Definition result_element (testsuites_name : string) (files : list xml) : xml :=
  Elem "testsuites" [("name", testsuites_name)] (combine_files files).

(** the report (106-128): one line per failure, two counts, the return code *)
Definition failure_line : Type := option string * option string * option string * option string.
(* bin/combine_results.py:108-123 *)
Definition report_lines (result : xml) : list failure_line :=
  flat_map (fun ts =>
    flat_map (fun tc =>
      map (fun _ => (get ts "name", get tc "classname", get tc "name", get ts "package"))
          (iter "failure" tc))
      (iter "testcase" ts))
    (iter "testsuite" result).
(* bin/combine_results.py:106-109 *)
Definition testsuite_count (result : xml) : nat := List.length (iter "testsuite" result).
(* bin/combine_results.py:107-111 *)
Definition testcase_count (result : xml) : nat :=
  fold_left (fun n ts => fold_left (fun n _ => n + 1) (iter "testcase" ts) n) (iter "testsuite" result) 0.
(* bin/combine_results.py:76, 112-114, 131 *)
Definition return_code (set_rc : bool) (result : xml) : nat :=
  fold_left (fun rc _ => if set_rc then 1 else rc) (report_lines result) 0.
