(** Compat1Model.v -- create_binary of the cocotb 1.x branch (src/cocotb_bus/_compat.py:54-57)
    for every kind of argument: CompatModel.v has it for str and bytes. *)
From Verif Require Export Base CompatModel.
Local Open Scope Z_scope.

(** bin(z)[2:] for z >= 0: no leading zeros, and "0" for 0 (cocotb 1.x, not in /repo:
    BinaryValue._convert_to_unsigned) *)
(* _compat.py:57: BinaryValue(value=int, ...) *)
Definition bin (z : Z) : bits := zbits (if z =? 0 then 1 else Z.to_nat (Z.log2 z + 1)) z.

(** create_binary, 1.x (_compat.py:54-57).  An int is written in binary (a negative one is a
    ValueError) and then padded or cut like a str; the warning printed when a value is cut is
    not modelled. *)
Definition create_1x (src : binsrc) (bit_count : nat) (big_endian : bool) : res bits :=
  match src with
  | BInt z => if z <? 0 then Err EValue else Ok (adjust_1x (bin z) bit_count big_endian)
  | _ => match create_binary_1x src bit_count big_endian with Some w => Ok w | None => Err EValue end
  end.
