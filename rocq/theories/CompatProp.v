(** CompatProp.v -- C01, C02, C03. *)
From Verif Require Import Base CompatModel CompatSpec BitsLemmas CompatProof.
Local Open Scope Z_scope.

(** C01.  Packing [b] into a word of 8*k bits and reading it back gives [b]
    followed by the zero padding, for both byte orders. *)
Theorem C01_byte_packing_roundtrip :
  forall (b : bytes) (k : nat) (big : bool),
    all_bytes b -> (length b <= k)%nat ->
    exists w, create_binary (BBytes b) (8 * k) big = Ok w
           /\ length w = (8 * k)%nat
           /\ convert_binary_to_bytes w big = Ok (b ++ repeat 0 (k - length b)).
Proof. exact create_bytes_roundtrip. Qed.
Print Assumptions C01_byte_packing_roundtrip.

(** ... and a byte string that does not fit is refused. *)
Theorem C01_too_long_rejected :
  forall (b : bytes) (n : nat) (big : bool),
    n <> 1%nat -> (n < 8 * length b)%nat -> create_binary (BBytes b) n big = Err EValue.
Proof. exact create_bytes_too_long. Qed.
Print Assumptions C01_too_long_rejected.

(** The cocotb 1.x branch builds the same words and decodes them identically. *)
Theorem C01_cocotb1_agrees :
  forall (b : bytes) (n : nat) (big : bool),
    n <> 1%nat -> (8 * length b <= n)%nat ->
    exists w, create_binary (BBytes b) n big = Ok w
           /\ create_binary_1x (BBytes b) n big = Some w
           /\ convert_binary_to_bytes_1x w big = convert_binary_to_bytes w big.
Proof.
  intros b n big H1 H2. destruct (create_1x_agrees b n big H1 H2) as (w & A & B).
  exists w. repeat split; try assumption. apply convert_1x_agrees.
Qed.
Print Assumptions C01_cocotb1_agrees.

Example C01_nonvacuous :
  create_binary (BBytes [1; 2; 255]) 32 true = Ok (zbits 32 0x0102ff00)
  /\ create_binary (BBytes [1; 2; 255]) 32 false = Ok (zbits 32 0x00ff0201)
  /\ convert_binary_to_bytes (zbits 32 0x00ff0201) false = Ok [1; 2; 255; 0]
  /\ all_bytes [1; 2; 255].
Proof. repeat split; try reflexivity. repeat constructor; unfold is_byte; lia. Qed.

(** C02. *)
Theorem C02_unresolvable_never_decodes :
  forall (w : bits) (big : bool), resolvable w = false -> convert_binary_to_bytes w big = Err EValue.
Proof. exact convert_unresolvable. Qed.
Print Assumptions C02_unresolvable_never_decodes.

Theorem C02_resolvable_decodes :
  forall (w : bits) (big : bool),
    resolvable w = true ->
    exists bs z, convert_binary_to_bytes w big = Ok bs /\ bval w = Some z
      /\ all_bytes bs
      /\ (length w <= 8 * length bs)%nat /\ (8 * length bs < length w + 8)%nat
      /\ (if big then from_be bs else from_le bs) = z.
Proof. exact convert_resolvable. Qed.
Print Assumptions C02_resolvable_decodes.

Example C02_nonvacuous :
  resolvable [L1; LX; L0] = false /\ resolvable [L1; L0; L1] = true
  /\ convert_binary_to_bytes [L1; L0; L0; L0; L0; L0; L0; L0; L1] true = Ok [1; 1].
Proof. repeat split. Qed.

(** C03. *)
Theorem C03_slice_extracts_field :
  forall (w : bits) (s e : Z),
    0 <= s <= e /\ e < Z.of_nat (length w) ->
    exists pre r post, binary_slice w s e = Ok r /\ w = pre ++ r ++ post
      /\ Z.of_nat (length pre) = s /\ Z.of_nat (length r) = e - s + 1
      /\ (forall z, bval w = Some z ->
          bval r = Some ((z / 2 ^ (Z.of_nat (length w) - 1 - e)) mod 2 ^ (e - s + 1))).
Proof. exact binary_slice_spec. Qed.
Print Assumptions C03_slice_extracts_field.

Theorem C03_out_of_range_rejected :
  forall (w : bits) (s e : Z), let n := Z.of_nat (length w) in
    ~ (- n <= s < n) \/ ~ (- n <= e < n) \/ (0 <= s /\ 0 <= e /\ e < s) -> binary_slice w s e = Err EIndex.
Proof. exact binary_slice_out. Qed.
Print Assumptions C03_out_of_range_rejected.

(** Negative positions count from the right, as in Python. *)
Theorem C03_negative_positions :
  forall (w : bits) (s e : Z), let n := Z.of_nat (length w) in
    (- n <= s < 0 -> binary_slice w s e = binary_slice w (n + s) e)
    /\ (- n <= e < 0 -> binary_slice w s e = binary_slice w s (n + e)).
Proof. intros w s e n. split; [apply binary_slice_left|apply binary_slice_right]. Qed.
Print Assumptions C03_negative_positions.

(** cocotb 1.x and 2.x agree on all positions that are not negative; 1.x rejects those. *)
Theorem C03_versions_agree :
  forall (w : bits) (s e : Z),
    (0 <= s -> 0 <= e -> binary_slice_1x w s e = binary_slice w s e)
    /\ (s < 0 \/ e < 0 -> binary_slice_1x w s e = Err EIndex).
Proof. exact binary_slice_agree. Qed.
Print Assumptions C03_versions_agree.

Example C03_nonvacuous : binary_slice (zbits 32 0xdeadbeef) 8 15 = Ok (zbits 8 0xad)
  /\ binary_slice (zbits 32 0xdeadbeef) (-8) (-1) = Ok (zbits 8 0xef) /\ binary_slice (zbits 32 0xdeadbeef) 15 8 = Err EIndex
  /\ binary_slice_1x (zbits 32 0xdeadbeef) 8 15 = Ok (zbits 8 0xad).
Proof. repeat split; reflexivity. Qed.
