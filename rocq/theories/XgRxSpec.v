(** XgRxSpec.v -- the traffic any transmitter may put on an XGMII bus, lane by lane. *)
From Verif Require Import Base CompatModel XgModel XgSpec.
Local Open Scope list_scope.

(** the data bytes of a frame: preamble, payload, CRC *)
Definition body (crc32 : bytes -> Z) (payload : bytes) : bytes :=
  [85; 85; 85; 85; 85; 85; 213]%Z ++ payload ++ le32 (crc32 payload).
(** frames, each (idle characters before it, payload), then [tail] idle characters *)
Fixpoint traffic (crc32 : bytes -> Z) (fs : list (nat * bytes)) (tail : nat) : list lane :=
  match fs with
  | [] => repeat IDLE' tail
  | (gap, payload) :: r => repeat IDLE' gap ++ START :: map data (body crc32 payload) ++ TERMINATE :: traffic crc32 r tail
  end.
(** the frames with the position of their start in the stream, from position [pos] *)
Fixpoint positions (pos : nat) (fs : list (nat * bytes)) : list (nat * bytes) :=
  match fs with
  | [] => []
  | (gap, payload) :: r => (pos + gap, payload) :: positions (pos + gap + (1 + 7 + length payload + 4 + 1)) r
  end.

(** what IEEE 802.3 (clause 46) allows at the receiver: a start only in the first of four lanes, and five
    characters or more, the terminate included, between two frames *)
Definition RX_GAP : nat := 5.
Definition column_starts (fs : list (nat * bytes)) : Prop := Forall (fun x => fst x mod 4 = 0) (positions 0 fs).
Definition rx_spaced (fs : list (nat * bytes)) : Prop := Forall (fun f => RX_GAP <= 1 + fst f) (tl fs).
(** frames of at least 64 bytes, the CRC included *)
Definition no_runt (fs : list (nat * bytes)) : Prop := Forall (fun f => 60 <= length (snd f)) fs.

(** the lanes in which a monitor of [n] lanes sees a start: the first and, of eight, the fifth *)
Definition heard (n : nat) (pos : nat) : bool := (pos mod n =? 0) || ((n =? 8) && (pos mod n =? 4)).
Definition heard_frames (n : nat) (fs : list (nat * bytes)) : list bytes :=
  map snd (filter (fun x => heard n (fst x)) (positions 0 fs)).
