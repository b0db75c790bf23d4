(** StE2ESpec.v -- what C93 demands. *)
From Verif Require Export StE2EModel CompatSpec DriverSpec AvalonSTSpec E2ESpec.
Local Open Scope list_scope.

(** the values a bus of [width] data lines can carry ... *)
Definition fits (width : nat) (v : binsrc) : Prop :=
  match v with
  | BInt z => (0 <= z < 2 ^ Z.of_nat width)%Z
  | BBytes b => all_bytes b /\ 8 * length b <= width
  | BStr s => length s = width /\ resolvable s = true
  end.
(** ... as numbers: bytes count from the least significant one, bits from the most *)
Definition number (v : binsrc) : Z :=
  match v with
  | BInt z => z
  | BBytes b => from_le b
  | BStr s => match bval s with Some z => z | None => 0%Z end
  end.

(** [r] is the byte string for the number [z] on a bus of [width] data lines, for a monitor
    with firstSymbolInHighOrderBits = [be] *)
Definition spells (be : bool) (width : nat) (z : Z) (r : bytes) : Prop :=
  all_bytes r /\ width <= 8 * length r < width + 8 /\ (if be then from_be r else from_le r) = z.

(** what the monitor is to report for the entries [l] *)
Definition word_reports (be : bool) (width : nat) (l : list (item binsrc)) (reps : list bytes) : Prop :=
  Forall2 (fun i r => spells be width (number (i_tx i)) r) l reps.

Definition hears (hist : list (ScoreboardSpec.ev bytes)) (reps : list bytes) : Prop :=
  ScoreboardSpec.gots hist = reps.
