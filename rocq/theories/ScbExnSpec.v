(** ScbExnSpec.v -- vocabulary for C124. *)
From Coq Require Export Permutation.
From Verif Require Export ScbExnModel ScoreboardSpec.
Local Open Scope list_scope.

Section Spec.
Variable T : Type.
Variable ty : T -> nat.
Variable py_eq py_ne : T -> T -> res bool.
Variable str : T -> res string.
Variable report : T -> T -> res unit.
Variable report_unexpected : T -> res unit.

(** a test: expectations and receptions in any order *)
Definition x_run (src : x_source T) (imm strict : bool) (depth : Z) (hist : list (ev T)) : xsb T :=
  fold_left (fun s e => match e with
                        | Exp t => x_expect T s t
                        | Got t => x_receive T ty py_eq py_ne str report report_unexpected src imm strict depth s t
                        end) hist (xsb_init T).

(** the comparison was made, and the transactions agree *)
Definition agrees (strict : bool) (got exp : T) : Prop :=
  if strict then ty got = ty exp /\ py_ne got exp = Ok false
  else exists a, str got = Ok a /\ str exp = Ok a.

(** the comparison raised *)
Definition compare_raises (strict : bool) (got exp : T) (e : exn) : Prop :=
  if strict then ty got = ty exp /\ py_ne got exp = Err e
  else str got = Err e \/ (exists a, str got = Ok a) /\ str exp = Err e.

(** the comparison was made, and the transactions differ *)
Definition differ (strict : bool) (got exp : T) : Prop :=
  if strict then ty got = ty exp /\ py_ne got exp = Ok true
  else exists a b, str got = Ok a /\ str exp = Ok b /\ a <> b.

(** every received transaction agrees with an expected one of its own; [left] were not used *)
Definition all_agree (strict : bool) (got exp left : list T) : Prop :=
  exists pairs, map fst pairs = got /\ Permutation (map snd pairs ++ left) exp
             /\ Forall (fun p => agrees strict (fst p) (snd p)) pairs.
End Spec.
