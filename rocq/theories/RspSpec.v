(** RspSpec.v -- receivers that answer within D cycles (C141). *)
From Verif Require Import Base.
Local Open Scope list_scope.

(** [cycles]: what the receiver gives in each cycle, and whether valid is high in it.  In any [D]
    consecutive cycles with valid high the receiver accepts at least once.  Nothing is said about
    the cycles without valid: ready may depend on valid, and on all that came before. *)
Definition answers_within {TI : Type} (accepts : TI -> bool) (D : nat) (cycles : list (TI * bool)) : Prop :=
  forall before window after, cycles = before ++ window ++ after -> length window = D ->
    forallb snd window = true -> existsb (fun y => accepts (fst y)) window = true.
