(** RstSpec.v -- cycles in which a monitor's reset is active. *)
From Verif Require Import Base AvalonSTModel AvalonSTSpec RstModel.
Local Open Scope list_scope.

(** reset_n, if given, is 0; without reset_n, reset is given and not 0 *)
Definition resetting (s : rsample) : bool :=
  match r_rstn s, r_rst s with
  | Some v, _ => match bval v with Some 0%Z => true | _ => false end
  | None, Some v => match bval v with Some z => negb (z =? 0)%Z | None => false end
  | None, None => false
  end.
(** the cycles outside the reset *)
Definition outside (l : list rsample) : list rsample := filter (fun s => negb (resetting s)) l.
(** a word is transferred in the cycle *)
Definition word_seen (has_ready : bool) (s : rsample) : bool := transferred has_ready (r_cycle s).
Definition the_word (s : rsample) : bits := o_data (snd (r_cycle s)).
