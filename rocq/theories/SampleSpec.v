(** SampleSpec.v -- vocabulary for C123. *)
From Verif Require Import Base BusModel SampleModel.

(** what a reader of the attribute or the signal sees: the bits (None: not a vector of bits) *)
Definition shows (x : pyobj) : option bits := match x with PBin s _ _ => Some s | POther _ => None end.

(** the options of a BinaryValue *)
Definition options (x : pyobj) : option (option nat * bool) :=
  match x with PBin _ n e => Some (n, e) | POther _ => None end.

(** the attribute can hold the value: it has no fixed number of bits, or that of the value *)
Definition fits (x v : pyobj) : Prop :=
  match x, v with
  | PBin _ (Some n) _, PBin s _ _ => length s = n
  | _, _ => True
  end.
