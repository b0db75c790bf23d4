(** XcSpec.v -- one wrong control bit on an XGMII bus. *)
From Verif Require Import Base XgModel XgSpec.
Local Open Scope list_scope.

(** the control bit of lane [q] (counted over all words) inverted; nothing if there is none *)
Definition wrong_control (q : nat) (ls : list lane) : list lane :=
  firstn q ls ++ match skipn q ls with (byte, ctrl) :: r => (byte, negb ctrl) :: r | [] => [] end.
(** the bytes of a frame *)
Definition frame_bytes (crc32 : bytes -> Z) (packet : bytes) : bytes :=
  [85; 85; 85; 85; 85; 85; 213]%Z ++ padded packet ++ le32 (crc32 (padded packet)).
(** an error message *)
Definition is_error (e : event) : Prop := match e with Deliver _ => False | _ => True end.
Definition reported (es : list event) : Prop := exists e, In e es /\ is_error e.
(** the first part of the frame is a frame as well: a packet [inner] of at least 60 bytes, its
    CRC, and a byte that is the code of the terminate character, in lane [q] *)
Definition frame_inside (crc32 : bytes -> Z) (packet : bytes) (q : nat) (inner : bytes) : Prop :=
  60 <= length inner /\ q = 12 + length inner /\
  exists rest, padded packet ++ le32 (crc32 (padded packet)) = inner ++ le32 (crc32 inner) ++ 253%Z :: rest.
