(** CombRunModel.v -- bin/combine_results.py as a program: from a directory tree to the
    output file and the exit status.

    Simplified: paths are lists of names from the working directory, without ".." and
    without links in them; a directory is listed in the order of its entries, and a new file
    is added at the end; a file is either some XML element or no well-formed XML (or cannot
    be read); what is written reads back as the same element (so the name given with
    --testsuites_name has no characters that XML does not allow); permission to write,
    a full disk and the like are not modelled.
    Not modelled: argument parsing (the record [args] is its result), the output of --verbose. *)
From Verif Require Export CombHeapModel.
Local Open Scope list_scope.

(** the operating system's view of a name: a file (or a link to one), a directory, a link to a
    directory, a directory that cannot be listed *)
(* bin/combine_results.py:15: what os.walk meets *)
Inductive node := File (content : option xml) | Dir (entries : list (string * node)) | DirLink | Locked.
(* bin/combine_results.py:17, 79: a path, in components *)
Definition path := list string.
(* bin/combine_results.py:16: name in files *)
Fixpoint entry (k : string) (es : list (string * node)) : option node :=
  match es with
  | [] => None
  | (k', n) :: es => if String.eqb k' k then Some n else entry k es
  end.
(* bin/combine_results.py:82: the file opened by ET.parse *)
Fixpoint lookup (n : node) (p : path) : option node :=
  match p with
  | [] => Some n
  | k :: p => match n with
              | Dir es => match entry k es with Some n => lookup n p | None => None end
              | _ => None
              end
  end.
(* bin/combine_results.py:130: the output file in its directory *)
Fixpoint set_entry (k : string) (n : node) (es : list (string * node)) : list (string * node) :=
  match es with
  | [] => [(k, n)]
  | (k', n') :: es => if String.eqb k' k then (k', n) :: es else (k', n') :: set_entry k n es
  end.
(** open(path, "w") and writing x: None if there is no such directory or it is a directory *)
(* bin/combine_results.py:130 *)
Fixpoint write (n : node) (p : path) (x : xml) : option node :=
  match p with
  | [] => None
  | [k] => match n with
           | Dir es => match entry k es with
                       | None | Some (File _) => Some (Dir (set_entry k (File (Some x)) es))
                       | Some _ => None
                       end
           | _ => None
           end
  | k :: p => match n with
              | Dir es => match entry k es with
                          | Some n => match write n p x with
                                      | Some n => Some (Dir (set_entry k n es))
                                      | None => None
                                      end
                          | None => None
                          end
              | _ => None
              end
  end.

(** bin/combine_results.py 14-17.  find_all: os.walk lists a directory, then those in it, in
    order; [files] are the names that are no directories; links to directories are not followed and
    directories that cannot be listed are passed over (followlinks=False, onerror=None) *)
Definition is_file (n : node) : bool := match n with File _ => true | _ => false end.
(* bin/combine_results.py:15-17: one directory and those below *)
Fixpoint find_below (name : string) (root : path) (n : node) : list path :=
  match n with
  | Dir es =>
      (if existsb (fun '(k, c) => String.eqb k name && is_file c) es then [root ++ [name]] else [])
      ++ flat_map (fun '(k, c) => find_below name (root ++ [k]) c) es
  | _ => []
  end.
(* bin/combine_results.py:14-17 *)
Definition find_all (fs : node) (name : string) (top : path) : list path :=
  match lookup fs top with
  | Some n => find_below name top n
  | None => []
  end.

(** get_parser (20-70), parse_args (75) *)
Record args := Args { directory : path; output_file : path; testsuites_name : string; set_rc : bool }.

(** ET.parse(fname) (82): None is a ParseError or OSError *)
Definition parse (fs : node) (p : path) : option xml :=
  match lookup fs p with Some (File c) => c | _ => None end.
(** the files in the order in which they are found; None: one of them cannot be parsed, the loop
    (79-101) ends with an exception *)
Fixpoint parse_all (fs : node) (ps : list path) : option (list xml) :=
  match ps with
  | [] => Some []
  | p :: ps => match parse fs p, parse_all fs ps with Some x, Some xs => Some (x :: xs) | _, _ => None end
  end.

(** ET.ElementTree(result).write (130): an element with all that hangs in it, as often as it
    hangs there.  None: more than [fuel] elements inside each other *)
Definition map_opt {T U} (f : T -> option U) (l : list T) : option (list U) :=
  fold_right (fun x r => match f x, r with Some a, Some b => Some (a :: b) | _, _ => None end) (Some []) l.
(* bin/combine_results.py:130: the tree that is written *)
Fixpoint tree (fuel : nat) (h : heap) (n : nat) : option xml :=
  match fuel with
  | O => None
  | S fuel => match map_opt (tree fuel h) (kids h n) with
              | None => None
              | Some cs => Some (Elem (htag h n) (o_attrs (obj h n)) cs)
              end
  end.

(** main (73-131), sys.exit (134-136): the exit status is the return code, or 1 for an exception *)
Inductive outcome := Exit (r : report) | Raised.
Definition status (o : outcome) : nat := match o with Exit r => code r | Raised => 1 end.
(** None: not over after [fuel] steps *)
Definition main (fuel : nat) (a : args) (fs : node) : option (node * outcome) :=
  match parse_all fs (find_all fs "results.xml" (directory a)) with
  | None => Some (fs, Raised)                                                     (* 82 *)
  | Some files =>
      let '(h, roots) := load_all files [] in
      match walk_files fuel roots h [] with                                       (* 83-101 *)
      | None => None
      | Some (h, result) =>
          match hreport fuel (set_rc a) h result, map_opt (tree fuel h) result with
          | Some r, Some cs =>
              match write fs (output_file a) (Elem "testsuites" [("name", testsuites_name a)] cs) with
              | Some fs => Some (fs, Exit r)                                      (* 130-131 *)
              | None => Some (fs, Raised)                                         (* 130: OSError *)
              end
          | _, _ => None
          end
      end
  end.
