(** BitSpec.v -- what a user of BitDriver expects of start and stop. *)
From Verif Require Import Base DrvUtilModel DrvUtilSpec BitModel.
Local Open Scope list_scope.

(** start(generator), [s_cycles] cycles, stop() -- before the driver has acted on the last
    edge, or ([s_late]) after it -- and [s_rest] cycles. *)
Record session := Session { s_generator : option (list (Z * Z)); s_cycles : nat; s_late : bool; s_rest : nat }.
Definition script (s : session) : list bact :=
  [AStart (s_generator s)] ++ repeat ACycle (s_cycles s) ++ (if s_late s then [ATasks] else []) ++ [AStop] ++ repeat ACycle (s_rest s).

(** the value in cycle k of the waveform of a generator; 0 after its end (a generator
    without any pair leaves the signal as it was) *)
Definition value_at (g : list (Z * Z)) (v : logic) (k : nat) : logic :=
  match g with [] => v | _ :: _ => nth k (waveform g) L0 end.
(** the pairs a generator has left after k > 0 cycles of its waveform have begun *)
Fixpoint left_after (k : nat) (g : list (Z * Z)) : list (Z * Z) :=
  match g with
  | [] => []
  | p :: r => if k <=? length (waveform [p]) then r else left_after (k - length (waveform [p])) r
  end.

(** The values of the signal in all cycles of the sessions.  A session gives the waveform
    of its generator -- that of start(), or else what is left of the one before -- from its
    beginning; when stopped the signal keeps its value.  A start() that is stopped at once
    has no effect, nor has one without any generator. *)
Fixpoint expected_wave (stored : option (list (Z * Z))) (v : logic) (ss : list session) : list logic :=
  match ss with
  | [] => []
  | s :: r =>
      let k := s_cycles s + (if s_late s then 1 else 0) in
      match k, (match s_generator s with Some g => Some g | None => stored end) with
      | O, _ => repeat v (s_rest s) ++ expected_wave stored v r
      | _, None => repeat v (s_cycles s + s_rest s) ++ expected_wave None v r
      | S k', Some g =>
          let v' := value_at g v k' in
          map (value_at g v) (seq 0 (s_cycles s)) ++ repeat v' (s_rest s) ++ expected_wave (Some (left_after k g)) v' r
      end
  end.
