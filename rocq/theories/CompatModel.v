(** CompatModel.v -- model of src/cocotb_bus/_compat.py.

    The cocotb 2.x branch (lines 11-46) is [create_binary],
    [convert_binary_to_bytes], [binary_slice]; the byte/str part of the 1.x
    branch (lines 48-69) is [create_binary_1x], [convert_binary_to_bytes_1x].
    LogicArray / BinaryValue are modelled by their list of bits, leftmost first
    (the direction of the Range only changes the index names, which this code
    never looks at except in [binary_slice]). *)
From Verif Require Import Base.
Local Open Scope Z_scope.

(** What can be passed as [binstr] (_compat.py:17): an int, a str of bits (or a
    LogicArray, which has the same bits), or bytes. *)
Inductive binsrc : Type :=
| BInt (z : Z)
| BStr (s : bits)
| BBytes (b : bytes).

(** LogicArray(int, range): the value must be representable, else ValueError. *)
(* _compat.py:37: LogicArray(int, range) *)
Definition logicarray_of_int (z : Z) (n : nat) : res bits :=
  if (0 <=? z) && (z <? 2 ^ Z.of_nat n) then Ok (zbits n z) else Err EValue.

(** LogicArray(str, range): the lengths must agree, else ValueError. *)
(* _compat.py:37: LogicArray(str, range) *)
Definition logicarray_of_str (s : bits) (n : nat) : res bits :=
  if Nat.eqb (length s) n then Ok s else Err EValue.

(** Logic(x), used when bit_count == 1 (_compat.py:19-20).  bytes are not
    accepted by Logic. *)
Definition logic_of (src : binsrc) : res bits :=
  match src with
  | BInt 0 => Ok [L0]
  | BInt 1 => Ok [L1]
  | BInt _ => Err EValue
  | BStr [b] => Ok [b]
  | BStr _ => Err EValue
  | BBytes _ => Err EValue
  end.

(** "".join(format(char, "08b") for char in binstr)   (_compat.py:30) *)
Definition bytes_bits (b : bytes) : bits := flat_map (zbits 8) b.

(** create_binary, cocotb 2.x branch (_compat.py:16-37) *)
Definition create_binary (src : binsrc) (bit_count : nat) (big_endian : bool) : res bits :=
  if Nat.eqb bit_count 1 then logic_of src
  else
    match src with
    | BBytes b =>
        let b := if big_endian then b else rev b in           (* 28-29 *)
        let s := bytes_bits b in                               (* 30 *)
        let s := if big_endian
                 then s ++ zeros (bit_count - length s)        (* 33 *)
                 else zeros (bit_count - length s) ++ s in     (* 35 *)
        logicarray_of_str s bit_count                          (* 37 *)
    | BStr s => logicarray_of_str s bit_count
    | BInt z => logicarray_of_int z bit_count
    end.

(** int.to_bytes(n, "little") *)
(* _compat.py:39-40: to_bytes(byteorder="little") *)
Fixpoint z_to_le (n : nat) (z : Z) : bytes :=
  match n with
  | O => []
  | S n' => z mod 256 :: z_to_le n' (z / 256)
  end.

(** number of bytes of an n-bit vector: ceil(n / 8) *)
Definition nbytes (n : nat) : nat := Nat.div (n + 7) 8.

(** convert_binary_to_bytes, 2.x (_compat.py:39-40): LogicArray.to_bytes is the
    unsigned value in ceil(n/8) bytes; ValueError when not resolvable. *)
Definition convert_binary_to_bytes (value : bits) (big_endian : bool) : res bytes :=
  match bval value with
  | None => Err EValue
  | Some z =>
      let le := z_to_le (nbytes (length value)) z in
      Ok (if big_endian then rev le else le)
  end.

(** Python-style slice s[i:j] of a list for 0 <= i, clamped at the end. *)
Definition slice {A} (l : list A) (i j : nat) : list A := firstn (j - i) (skipn i l).

(** [value.range[k]] (_compat.py:43), as a position from the left: a Range is indexed like a
    Python range, so that a negative k counts from the right; None for IndexError. *)
Definition position (n k : Z) : option Z :=
  if (0 <=? k) && (k <? n) then Some k
  else if (- n <=? k) && (k <? 0) then Some (n + k)
  else None.
(** binary_slice (_compat.py:42-43): positions start..end inclusive, left to right.  A slice
    against the direction of the array is an IndexError. *)
Definition binary_slice (value : bits) (start stop : Z) : res bits :=
  let n := Z.of_nat (length value) in
  match position n start, position n stop with
  | Some i, Some j => if i <=? j then Ok (slice value (Z.to_nat i) (Z.to_nat j + 1)) else Err EIndex
  | _, _ => Err EIndex
  end.

(** ** cocotb 1.x branch (_compat.py:48-69) *)

(** BinaryValue._adjust: pad or cut to n_bits.  (cocotb 1.x, not in /repo.) *)
Definition adjust_1x (s : bits) (n : nat) (big_endian : bool) : bits :=
  if Nat.ltb (length s) n
  then if big_endian then s ++ zeros (n - length s) else zeros (n - length s) ++ s
  else skipn (length s - n) s.

(** create_binary, 1.x (_compat.py:54-57), for bytes and str arguments.
    BinaryValue.buff setter: in big-endian mode each byte is appended on the
    right, otherwise on the left. *)
Definition create_binary_1x (src : binsrc) (bit_count : nat) (big_endian : bool) : option bits :=
  match src with
  | BBytes b =>
      let s := fold_left (fun acc c => if big_endian then acc ++ zbits 8 c
                                       else zbits 8 c ++ acc) b [] in
      Some (adjust_1x s bit_count big_endian)
  | BStr s => Some (adjust_1x s bit_count big_endian)
  | BInt _ => None                       (* in Compat1Model.v *)
  end.

(** BinaryValue.get_buff: left-pad to whole bytes, 8 bits at a time. *)
Fixpoint buff_1x (fuel : nat) (s : bits) (big_endian : bool) (acc : bytes) : res bytes :=
  match fuel with
  | O => Ok acc
  | S f =>
      match s with
      | [] => Ok acc
      | _ => match bval (firstn 8 s) with
             | None => Err EValue
             | Some v => buff_1x f (skipn 8 s) big_endian
                           (if big_endian then acc ++ [v] else v :: acc)
             end
      end
  end.

(** convert_binary_to_bytes, 1.x (_compat.py:59-65).  cocotb 1.x replaces
    unresolvable bits according to COCOTB_RESOLVE_X; the default raises
    ValueError, which is what is modelled. *)
Definition convert_binary_to_bytes_1x (value : bits) (big_endian : bool) : res bytes :=
  let pad := Nat.modulo (8 - Nat.modulo (length value) 8) 8 in
  let s := zeros pad ++ value in
  buff_1x (S (length s)) s big_endian [].

(** binary_slice, 1.x (_compat.py:67-69), of the value of a signal (a big-endian BinaryValue):
    BinaryValue.__getitem__ (cocotb 1.x, not in /repo) rejects negative positions, an end
    beyond the last bit, and an end before the start. *)
Definition binary_slice_1x (value : bits) (start stop : Z) : res bits :=
  if (start <? 0) || (stop <? 0) then Err EIndex
  else if Z.of_nat (length value) - 1 <? stop then Err EIndex
  else if stop <? start then Err EIndex
  else Ok (slice value (Z.to_nat start) (Z.to_nat stop + 1)).
