(** CombSpec.v -- what combining results means. *)
From Verif Require Import CombModel.
Local Open Scope list_scope.

(** the suites of all files, in order *)
Definition suites (files : list xml) : list xml := flat_map (iter "testsuite") files.
(** what identifies a suite *)
Definition key (s : xml) : option string * option string := (get s "name", get s "package").
(** no test suite lies inside another *)
Definition not_nested (files : list xml) : Prop :=
  forall s, In s (suites files) -> forall c, In c (children s) -> iter "testsuite" c = [].
(** the keys in the order of their first occurrence *)
Inductive first_occurrences {K} : list K -> list K -> Prop :=
| fo_nil : first_occurrences [] []
| fo_new l k f : first_occurrences l f -> ~ In k l -> first_occurrences (l ++ [k]) (f ++ [k])
| fo_old l k f : first_occurrences l f -> In k l -> first_occurrences (l ++ [k]) f.
(** [sub same s] : the suites of [l] with the key of s *)
Definition with_key (k : option string * option string) (l : list xml) : list xml :=
  filter (fun s => opt_eqb (fst (key s)) (fst k) && opt_eqb (snd (key s)) (snd k)) l.
(** a test case with a failure *)
Definition failed (tc : xml) : Prop := exists f, In f (iter "failure" tc).
Definition some_failed (files : list xml) : Prop :=
  exists s tc, In s (suites files) /\ In tc (iter "testcase" s) /\ failed tc.
(** for each test case of [x], the number of test suites it lies in ([d] of them around [x]) *)
Fixpoint depths (d : nat) (x : xml) : list nat :=
  match x with
  | Elem t _ cs =>
      let d := if String.eqb t "testsuite" then S d else d in
      (if String.eqb t "testcase" then [d] else []) ++ flat_map (depths d) cs
  end.
(** all elements of a document, in document order *)
Fixpoint document (x : xml) : list xml := match x with Elem _ _ cs => x :: flat_map document cs end.
