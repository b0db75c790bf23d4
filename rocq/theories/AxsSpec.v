(** AxsSpec.v -- what a burst does to a byte-addressed memory. *)
From Verif Require Import Base CompatModel AxsModel.
Local Open Scope list_scope.

(** the word on the bus for the bytes [b], lowest address first *)
Definition encodes (big_endian : bool) (w : bits) (b : bytes) : Prop :=
  resolvable w = true /\ length w = 8 * length b /\ all_bytes b /\
  bval (if big_endian then bytes_bits b else bytes_bits (rev b)) = bval w.

(** [m'] is [m] with the bytes [d] at address [a] and nothing else changed *)
Definition updated (m m' : bytes) (a : nat) (d : bytes) : Prop :=
  length m' = length m /\
  forall k, nth_error m' k =
    if (a <=? k) && (k <? a + length d) then nth_error d (k - a) else nth_error m k.

(** the words transferred: those of the cycles with WVALID *)
Definition transferred (l : list axs_in) : list bits :=
  map s_wdata (filter (fun i => is_one (s_wvalid i)) l).
