(** StGenSpec.v -- what C117 and C118 demand. *)
From Verif Require Export StGenModel HandshakeSpec AvalonSTSpec.
Local Open Scope list_scope.

(** a word is offered; the sink takes one in this cycle *)
Definition offered (o : st_out) : bool := is1 (o_valid o).
Definition takes (has_ready : bool) (c : gcycle) : bool := accepts has_ready (fst c).

(** nobody calls set_valid_generator in this cycle *)
Definition no_call (c : gcycle) : Prop := snd c = None.
(** the generator state after the calls made in some cycles: the last one counts *)
Fixpoint after_calls (s : valid) (l : list gcycle) : valid :=
  match l with
  | [] => s
  | (_, None) :: r => after_calls s r
  | (_, Some g) :: r => after_calls (set_valid_generator g) r
  end.

(** no gap is longer than [B]: neither what the driver has nor what is still set *)
Definition gen_bounded (B : nat) (g : option (list (Z * Z))) : Prop :=
  forall g' p, g = Some g' -> In p g' -> (snd p <= Z.of_nat B)%Z.
Definition bounded (B : nat) (v : valid) : Prop := (v_off v <= Z.of_nat B)%Z /\ gen_bounded B (v_gen v).
Definition calls_bounded (B : nat) (l : list gcycle) : Prop :=
  forall r g, In (r, Some g) l -> gen_bounded B g.
