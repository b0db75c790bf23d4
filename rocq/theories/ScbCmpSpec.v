(** ScbCmpSpec.v -- what C119 demands. *)
From Verif Require Export ScbCmpModel ScoreboardSpec.
Local Open Scope list_scope.

Section Spec.
Variable T : Type.
Variable eqb : T -> T -> bool.
Variable cmp : list (T * T) -> T -> T -> nat * option exn.

(** a test: expectations and receptions in any order *)
Definition custom_run (imm : bool) (depth : Z) (hist : list (ev T)) : custom T :=
  fold_left (fun s e => match e with
                        | Exp t => custom_expect T s t
                        | Got t => custom_receive T eqb cmp imm depth s t
                        end) hist (custom_init T).

(** the re-implemented compare never raises *)
Definition never_raises : Prop := forall before t e, snd (cmp before t e) = None.

(** the errors it counts over a sequence of calls *)
Fixpoint counted (before calls : list (T * T)) : nat :=
  match calls with
  | [] => 0
  | (t, e) :: r => fst (cmp before t e) + counted (before ++ [(t, e)]) r
  end.
End Spec.

(** Scoreboard's own compare, as such a function *)
Definition own_compare {T} (ty : T -> nat) (eqb : T -> T -> bool) (str : T -> string) (strict imm : bool)
           (before : list (T * T)) (got exp : T) : nat * option exn :=
  let same := if strict then Nat.eqb (ty got) (ty exp) && eqb got exp else String.eqb (str got) (str exp) in
  if same then (0, None) else (1, if imm then Some EAssertion else None).
