(** CombRunSpec.v -- what a run of the script is about. *)
From Verif Require Import CombRunModel.
Local Open Scope list_scope.

(** no two entries of a directory have the same name *)
Fixpoint tidy (n : node) : Prop :=
  match n with
  | Dir es => NoDup (map fst es) /\ (fix all (es : list (string * node)) : Prop :=
                match es with [] => True | (_, n) :: es => tidy n /\ all es end) es
  | _ => True
  end.
(** the run ends after finitely many steps: the files afterwards and how it ended *)
Definition runs (a : args) (fs fs' : node) (o : outcome) : Prop :=
  exists n, forall fuel, n <= fuel -> main fuel a fs = Some (fs', o).
(** p is a file called results.xml in the directory or below *)
Definition input (fs : node) (dir p : path) : Prop :=
  (exists below, p = dir ++ below ++ ["results.xml"]) /\ exists c, lookup fs p = Some (File c).
(** all of them are XML *)
Definition readable (fs : node) (dir : path) : Prop :=
  forall p, input fs dir p -> exists x, lookup fs p = Some (File (Some x)).
(** the output file can be created: its directory exists and it is not itself a directory *)
Definition writable (fs : node) (out : path) : Prop :=
  exists dir name, out = dir ++ [name] /\ (exists es, lookup fs dir = Some (Dir es)) /\
    (lookup fs out = None \/ exists c, lookup fs out = Some (File c)).
(** only the file [out] differs, and it contains x *)
Definition only_changes (fs fs' : node) (out : path) (x : xml) : Prop :=
  lookup fs' out = Some (File (Some x)) /\
  forall p, p <> out -> (forall c, lookup fs' p = Some (File c) <-> lookup fs p = Some (File c)) /\
                        ((exists es, lookup fs' p = Some (Dir es)) <-> (exists es, lookup fs p = Some (Dir es))).
