(** CrcModel.v -- the checksum of the XGMII driver and monitor: zlib.crc32.
    Models: drivers/xgmii.py:115-117 (layer1: struct.pack("<I", zlib.crc32(packet) & 0xFFFFFFFF))
            monitors/xgmii.py:144-149 (zlib.crc32(payload) & 0xFFFFFFFF against the received CRC)
    Not code of /repo: zlib.crc32 itself, given here by its definition (CRC-32 of
    ISO-HDLC / IEEE 802.3: reflected polynomial 0xEDB88320, initial value and final
    exclusive or 0xFFFFFFFF).  zlib computes the same function with tables. *)
From Verif Require Import Base.
Local Open Scope Z_scope.

(* drivers/xgmii.py:135: 0xFFFFFFFF, also in zlib.crc32 *)
Definition ONES : Z := 0xFFFFFFFF.
(* drivers/xgmii.py:135: the polynomial of zlib.crc32 *)
Definition POLY : Z := 0xEDB88320.

(** one bit: shift right, and add the polynomial if a one was shifted out *)
(* drivers/xgmii.py:135: zlib.crc32, one bit *)
Definition crc_shift (c : Z) : Z :=
  if Z.odd c then Z.lxor (Z.shiftr c 1) POLY else Z.shiftr c 1.

(** one byte *)
(* drivers/xgmii.py:135: zlib.crc32, one byte *)
Definition crc_byte (c b : Z) : Z := Nat.iter 8 crc_shift (Z.lxor c b).

(** zlib.crc32(m) & 0xFFFFFFFF *)
Definition zlib_crc32 (m : bytes) : Z := Z.lxor (fold_left crc_byte m ONES) ONES.

(** the check value of the standard: zlib.crc32(b"123456789") = 0xcbf43926; crc32(b"") = 0 *)
Example crc32_check : zlib_crc32 [49; 50; 51; 52; 53; 54; 55; 56; 57] = 0xcbf43926 /\ zlib_crc32 [] = 0
  /\ zlib_crc32 [97] = 0xe8b7be43.
Proof. vm_compute. auto. Qed.
