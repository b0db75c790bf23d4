(** CombHeapModel.v -- bin/combine_results.py with elements as shared, mutable objects.

    CombModel.v copies elements, which is exact when no test suite lies inside another.
    Here an element is an object: result.append(ts) and use_element.extend(list(ts)) store
    references, so that an element may hang in several places and is changed in all of them,
    and tree.iter("testsuite") walks over a tree which the loop body changes.
    Simplified: all files are parsed before the first is walked (parsing makes new objects
    only).  Not modelled: as in CombModel.v. *)
From Verif Require Export CombModel.
Local Open Scope list_scope.

(** xml.etree.ElementTree.Element: the tag, the attributes, references to the children.
    A reference is a position in the heap. *)
(* bin/combine_results.py:78-101: an ElementTree element, as an object *)
Record elem := Obj { o_tag : string; o_attrs : list (string * string); o_children : list nat }.
(* bin/combine_results.py:78-101: all elements there are *)
Definition heap := list elem.
(* bin/combine_results.py:89-101: the element itself *)
Definition obj (h : heap) (n : nat) : elem := nth n h (Obj "" [] []).
(* bin/combine_results.py:83, 108-112: the tag iter() looks for *)
Definition htag (h : heap) (n : nat) : string := o_tag (obj h n).
(* bin/combine_results.py:90-92, 118-121: get(key) *)
Definition hget (h : heap) (n : nat) (k : string) : option string := assoc k (o_attrs (obj h n)).
(* bin/combine_results.py:89, 101: the children *)
Definition kids (h : heap) (n : nat) : list nat := o_children (obj h n).

(** bin/combine_results.py 82.  ET.parse: new objects for all elements of a file; the
    reference to the root *)
Fixpoint load (x : xml) (h : heap) : heap * nat :=
  match x with
  | Elem t a cs =>
      let '(h, ids) :=
        (fix loads (l : list xml) (h : heap) : heap * list nat :=
           match l with
           | [] => (h, [])
           | c :: l => let '(h, n) := load c h in let '(h, ids) := loads l h in (h, n :: ids)
           end) cs h in
      (h ++ [Obj t a ids], List.length h)
  end.
(* bin/combine_results.py:79-82: the files, parsed *)
Fixpoint load_all (files : list xml) (h : heap) : heap * list nat :=
  match files with
  | [] => (h, [])
  | f :: fs => let '(h, n) := load f h in let '(h, ids) := load_all fs h in (h, n :: ids)
  end.

(** 88-96: the first element of the result with the name and package of ts *)
Fixpoint find_existing (h : heap) (result : list nat) (ts : nat) : option nat :=
  match result with
  | [] => None
  | existing :: r =>
      if opt_eqb (hget h existing "name") (hget h ts "name")
         && opt_eqb (hget h existing "package") (hget h ts "package")
      then Some existing else find_existing h r ts
  end.
(** Element.extend (101): the references in l are appended to the children of n *)
Fixpoint extend_obj (h : heap) (n : nat) (l : list nat) : heap :=
  match h, n with
  | [], _ => []
  | o :: h, O => Obj (o_tag o) (o_attrs o) (o_children o ++ l) :: h
  | o :: h, S n => o :: extend_obj h n l
  end.
(** the loop body (83-101) for the element n that the walk has reached *)
Definition visit (h : heap) (result : list nat) (n : nat) : heap * list nat :=
  if String.eqb (htag h n) "testsuite"                                      (* 83 *)
  then match find_existing h result n with
       | None => (h, result ++ [n])                                         (* 97-98 *)
       | Some existing => (extend_obj h existing (kids h n), result)        (* 99-101 *)
       end
  else (h, result).

(** tree.iter("testsuite") (83): the walk keeps, for the element it is at and those around
    it, the position of the next child; the children are looked up when they are needed.
    None: the walk is not over after [fuel] steps *)
Fixpoint walk (fuel : nat) (stack : list (nat * nat)) (h : heap) (result : list nat) : option (heap * list nat) :=
  match fuel with
  | O => None
  | S fuel =>
      match stack with
      | [] => Some (h, result)
      | (p, i) :: stack =>
          match nth_error (kids h p) i with
          | None => walk fuel stack h result
          | Some c =>
              let '(h, result) := visit h result c in
              walk fuel ((c, 0) :: (p, S i) :: stack) h result
          end
      end
  end.
(** the loop over the files (79-101) *)
Fixpoint walk_files (fuel : nat) (roots : list nat) (h : heap) (result : list nat) : option (heap * list nat) :=
  match roots with
  | [] => Some (h, result)
  | r :: roots =>
      let '(h, result) := visit h result r in
      match walk fuel [(r, 0)] h result with
      | None => None
      | Some (h, result) => walk_files fuel roots h result
      end
  end.

(** Element.iter on objects that do not change (108, 110, 112).  None: more than [fuel]
    elements inside each other *)
Definition concat_opt {T U} (f : T -> option (list U)) (l : list T) : option (list U) :=
  fold_right (fun x r => match f x, r with Some a, Some b => Some (a ++ b) | _, _ => None end) (Some []) l.
(* bin/combine_results.py:83, 108-112: iter(tag) *)
Fixpoint hiter (fuel : nat) (h : heap) (t : string) (n : nat) : option (list nat) :=
  match fuel with
  | O => None
  | S fuel =>
      match concat_opt (hiter fuel h t) (kids h n) with
      | None => None
      | Some l => Some ((if String.eqb (htag h n) t then [n] else []) ++ l)
      end
  end.
(** the report (106-123): the suites looked at, the test cases looked at, each with the suite it
    is looked at in, and the lines printed, one per failure.  The result element itself is no
    test suite (78) *)
Definition hsuites (fuel : nat) (h : heap) (result : list nat) : option (list nat) :=
  concat_opt (hiter fuel h "testsuite") result.
(* bin/combine_results.py:108-111 *)
Definition hcases (fuel : nat) (h : heap) (suites : list nat) : option (list (nat * nat)) :=
  concat_opt (fun s => option_map (map (pair s)) (hiter fuel h "testcase" s)) suites.
(* bin/combine_results.py:112-123 *)
Definition hlines (fuel : nat) (h : heap) (cases : list (nat * nat)) : option (list failure_line) :=
  concat_opt (fun '(s, c) =>
    option_map (map (fun _ => (hget h s "name", hget h c "classname", hget h c "name", hget h s "package")))
      (hiter fuel h "failure" c)) cases.

(** main (73-129): the lines printed, the two totals (125-128) and the return code *)
Record report := Report { lines : list failure_line; suite_total : nat; case_total : nat; code : nat }.
Definition hreport (fuel : nat) (set_rc : bool) (h : heap) (result : list nat) : option report :=
  match hsuites fuel h result with
  | None => None
  | Some suites =>
      match hcases fuel h suites with
      | None => None
      | Some cases =>
          match hlines fuel h cases with
          | None => None
          | Some ls => Some (Report ls (List.length suites) (List.length cases)
                               (fold_left (fun rc _ => if set_rc then 1 else rc) ls 0))
          end
      end
  end.
Definition combine (fuel : nat) (set_rc : bool) (files : list xml) : option report :=
  let '(h, roots) := load_all files [] in                                   (* 79-82 *)
  match walk_files fuel roots h [] with                                     (* 83-101 *)
  | None => None
  | Some (h, result) => hreport fuel set_rc h result                        (* 106-129 *)
  end.
