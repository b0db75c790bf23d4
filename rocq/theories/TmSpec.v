(** TmSpec.v -- when the words of a stream are on offer (C136). *)
From Verif Require Import Base.
Local Open Scope list_scope.

Section Timing.
Context {TI : Type} (accepts : TI -> bool).

(** [on_time gs l v rest]: [gs] are the numbers of idle cycles before each word, [l] the cycles
    that the receiver gives.  In the cycles [v] a word is on offer (true) or not (false): first
    the idle cycles, then the word until it is accepted, then at once the idle cycles of the next
    word.  [rest] are the cycles left, [None] if [l] ends before the last word is accepted. *)
Inductive on_time : list nat -> list TI -> list bool -> option (list TI) -> Prop :=
| ot_end l : on_time [] l [] (Some l)
| ot_word g gs idle waits i l v rest :
    length idle = g -> Forall (fun j => accepts j = false) waits -> accepts i = true -> on_time gs l v rest ->
    on_time (g :: gs) (idle ++ waits ++ i :: l) (repeat false g ++ repeat true (length waits + 1) ++ v) rest
| ot_waiting g gs idle waits :
    length idle = g -> Forall (fun j => accepts j = false) waits ->
    on_time (g :: gs) (idle ++ waits) (repeat false g ++ repeat true (length waits)) None
| ot_gap g gs l : length l < g -> on_time (g :: gs) l (repeat false (length l)) None.
End Timing.

(** The idle cycles before each word: one if it waits for an edge first, and those of the valid
    generator. *)
Definition idles (syncs : list bool) (gs : list nat) : list nat :=
  map (fun p => (if fst p : bool then 1 else 0) + snd p) (combine syncs gs).
