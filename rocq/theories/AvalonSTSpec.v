(** AvalonSTSpec.v -- what an observer of an Avalon-ST bus sees.  A cycle is a
    pair (ready, (valid, data)), sampled at the clock edge ending it. *)
From Verif Require Import Base AvalonSTModel.
Local Open Scope list_scope.

Section Spec.
Context (has_ready : bool).

(** the sink accepts in this cycle *)
Definition accepts (r : logic) : bool :=
  if has_ready then match r with L1 => true | _ => false end else true.

(** a word is transferred in this cycle *)
Definition transferred (c : logic * st_out) : bool :=
  match o_valid (snd c) with L1 => accepts (fst c) | _ => false end.

(** the words transferred, in order *)
Definition transfers (tr : list (logic * st_out)) : list bits :=
  map (fun c => o_data (snd c)) (filter transferred tr).

(** A word offered and not accepted is still offered, unchanged, in the next cycle. *)
Fixpoint stable (tr : list (logic * st_out)) : Prop :=
  match tr with
  | [] => True
  | c :: r =>
      match r with
      | [] => True
      | c' :: _ => o_valid (snd c) = L1 -> transferred c = false -> snd c' = snd c
      end /\ stable r
  end.

(** number of cycles in which the sink accepts *)
Definition ready_cycles (l : list logic) : nat := length (filter accepts l).
End Spec.

Definition idle (c : logic * st_out) : Prop := o_valid (snd c) = L0.
