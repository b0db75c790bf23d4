(** BitProp.v -- C92: starting and stopping a BitDriver. *)
From Verif Require Import Base DrvUtilModel DrvUtilSpec BitModel BitSpec BitProof.
Local Open Scope list_scope.

(** For every list of sessions, each stopped before the next is started: each gives the
    waveform of its generator from the beginning; a stopped driver keeps the signal as it
    is; start() without a generator goes on with the next pair of the one before. *)
Theorem C92_sessions_partial : forall ss signal generator,
  fst (bit_run (flat_map script ss) (bit_construct signal generator)) = map OVal (expected_wave generator signal ss).
Proof. exact sessions_wave. Qed.
Print Assumptions C92_sessions_partial.

(** start() does not stop a driver that is running.  For every driver started with a pair
    of [a] cycles on and a positive number of cycles off, and started again after 0 < j < a
    cycles with a generator that should keep the signal at 1 for longer than the first
    one: the signal is 0 in cycle a. *)
Theorem C92_running_refuted : forall signal stored a b r n2 o2 r2 j,
  (Z.of_nat j < a)%Z -> 0 < j -> (a < Z.of_nat j + n2)%Z -> (0 < b)%Z ->
  fst (bit_run ([AStart (Some ((a, b) :: r))] ++ repeat ACycle j ++
                [AStart (Some ((n2, o2) :: r2))] ++ repeat ACycle (S (Z.to_nat a - j)))
               (bit_construct signal stored))
  = map OVal (repeat L1 (Z.to_nat a) ++ [L0]) /\
  nth (Z.to_nat a - j) (waveform ((n2, o2) :: r2)) L0 = L1.
Proof.
  intros signal stored a b r n2 o2 r2 j H1 H2 H3 H4. split; [apply running_start; assumption|].
  rewrite wave_cons, app_nth1 by (rewrite repeat_length; lia). apply nth_repeat_lt. lia.
Qed.
Print Assumptions C92_running_refuted.

(** stop() on a driver that was never started raises AttributeError and changes nothing. *)
Theorem C92_stop_first_partial : forall signal generator m n,
  fst (bit_run (repeat ACycle m ++ [AStop] ++ repeat ACycle n) (bit_construct signal generator))
  = repeat (OVal signal) m ++ [ORaise EAttribute] ++ repeat (OVal signal) n.
Proof. exact stop_first. Qed.
Print Assumptions C92_stop_first_partial.

(** ** Examples *)
(** stopped in the middle of the second pair (2, 2), after one of its cycles: start() goes
    on with the third; a new generator replaces it *)
Example ex_sessions :
  let ss := [Session (Some [(1, 1); (2, 2); (3, 1)]%Z) 3 false 2; Session None 2 true 1;
             Session (Some [(0, 1); (1, 1)]%Z) 5 false 0] in
  fst (bit_run (flat_map script ss) (bit_construct LX None)) =
    map OVal [L1; L0; L1;  L1; L1;   L1; L1;  L1;   L0; L1; L0; L0; L0] /\
  expected_wave None LX ss = [L1; L0; L1; L1; L1; L1; L1; L1; L0; L1; L0; L0; L0].
Proof. vm_compute. repeat split. Qed.
(** the second start takes over nothing: the first task sets the signal to 0 *)
Example ex_running :
  fst (bit_run ([AStart (Some [(2, 1); (1, 1)]%Z)] ++ repeat ACycle 1 ++ [AStart (Some [(9, 0)]%Z)] ++ repeat ACycle 3) (bit_construct LX None))
  = map OVal [L1; L1; L0; L0].
Proof. vm_compute. reflexivity. Qed.
(** stop() before start() *)
Example ex_stop : fst (bit_run [AStop] (bit_construct LX None)) = [ORaise EAttribute].
Proof. reflexivity. Qed.
