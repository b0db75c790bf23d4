(** XgSpec.v -- what the XGMII properties say, independently of the code. *)
From Verif Require Import Base CompatModel Async XgModel.

(** ** The bus word.  Bit 0 is the rightmost bit.  Interleaved: nine bits per lane,
    the control bit on top; otherwise all data bytes first, then the control bits. *)
Definition bit_at (w : bits) (p : nat) : logic := nth (length w - 1 - p) w LX.
Definition data_pos (interleaved : bool) (i j : nat) : nat :=
  if interleaved then 9 * i + j else 8 * i + j.
Definition ctrl_pos (interleaved : bool) (n i : nat) : nat :=
  if interleaved then 9 * i + 8 else 8 * n + i.
(** the word [w] carries the lanes [ls] *)
Definition carries (interleaved : bool) (w : bits) (ls : list lane) : Prop :=
  length w = 9 * length ls /\
  (forall i byte ctrl, nth_error ls i = Some (byte, ctrl) ->
     is_byte byte /\
     (forall j, j < 8 -> bit_at w (data_pos interleaved i j)
                         = bit_of_bool (Z.testbit byte (Z.of_nat j))) /\
     bit_at w (ctrl_pos interleaved (length ls) i) = bit_of_bool ctrl).

(** assignments bus[i] = (byte, ctrl), and what lane [i] should then be; lanes that
    were not assigned are data bytes of value 0 *)
Definition assignment : Type := (nat * lane).
Definition assigned (asg : list assignment) (i : nat) : lane :=
  match find (fun a => Nat.eqb (fst a) i) asg with Some a => snd a | None => (0%Z, false) end.

(** ** The frame sent for a packet *)
Definition data (b : Z) : lane := (b, false).
Definition START : lane := (251%Z, true).
Definition TERMINATE : lane := (253%Z, true).
Definition IDLE' : lane := (7%Z, true).
Definition padded (packet : bytes) : bytes := packet ++ repeat 0%Z (60 - length packet).
(** start, preamble, the padded packet and the CRC fill at least one word of [n] lanes (all
    packets do on a bus of up to 72 lanes) *)
Definition fills_word (n : nat) (packet : bytes) : Prop := n <= 1 + 7 + length (padded packet) + 4.
(** little-endian bytes of the CRC *)
Definition le32 (c : Z) : bytes :=
  map (fun k => (c / 256 ^ Z.of_nat k) mod 256)%Z [0; 1; 2; 3].
(** the lanes of one packet on the bus: start, preamble, data, CRC, terminate; the
    rest of the last word, and one more word, are idle.  [k] counts the idle lanes. *)
Definition frame (crc32 : bytes -> Z) (packet : bytes) (k : nat) : list lane :=
  START :: map data ([85; 85; 85; 85; 85; 85; 213]%Z ++ padded packet ++ le32 (crc32 (padded packet)))
        ++ TERMINATE :: repeat IDLE' k.

(** ** What a receiver makes of a stream of words of [n] lanes.
    A word begins a frame if lane 0 is a start or, on an eight-lane bus, lane 4 is. *)
Definition is_start (l : option lane) : Prop := l = Some START.
Definition begins (n : nat) (w rest : list lane) : Prop :=
  (is_start (nth_error w 0) /\ rest = skipn 1 w) \/
  (~ is_start (nth_error w 0) /\ n = 8 /\ is_start (nth_error w 4) /\ rest = skipn 5 w).
Definition no_start (n : nat) (w : list lane) : Prop :=
  ~ is_start (nth_error w 0) /\ (n = 8 -> ~ is_start (nth_error w 4)).
(** [frames n ws fs]: the stream [ws] contains the frames [fs], each given by its
    data bytes and the control character that ended it.  A frame extends from its
    start lane to the first control lane; the rest of that word is ignored. *)
Inductive frames (n : nat) : list (list lane) -> list (bytes * Z) -> Prop :=
| frames_end : frames n [] []
| frames_skip w ws fs : no_start n w -> frames n ws fs -> frames n (w :: ws) fs
| frames_frame w rest mid last ws p c junk fs :
    (* the control lane is in the last word of the frame *)
    begins n w rest ->
    rest ++ concat mid = map data p ++ (c, true) :: junk ->
    (mid = [] /\ last = rest \/ exists mid', mid = mid' ++ [last]) -> length junk < length last ->
    frames n ws fs ->
    frames n (w :: mid ++ ws) ((p, c) :: fs)
| frames_open w rest mid p :
    begins n w rest -> rest ++ concat mid = map data p ->
    frames n (w :: mid) [].

(** the frames that may be delivered, without looking at the CRC *)
Definition well_formed (f : bytes * Z) (payload crc : bytes) : Prop :=
  snd f = 253%Z /\ fst f = [85; 85; 85; 85; 85; 85; 213]%Z ++ payload ++ crc /\
  length crc = 4 /\ payload <> [].
(** what is seen from outside for one frame *)
Inductive report (crc32 : bytes -> Z) (f : bytes * Z) : list event -> Prop :=
| report_control : snd f <> 253%Z -> report crc32 f [LogControl]
| report_empty : snd f = 253%Z -> fst f = [] -> report crc32 f []
| report_short : snd f = 253%Z -> 0 < length (fst f) < 12 -> report crc32 f [LogRunt; LogNoData]
| report_preamble e : snd f = 253%Z -> 12 <= length (fst f) ->
    (forall r, fst f <> [85; 85; 85; 85; 85; 85; 213]%Z ++ r) ->
    (length (fst f) < 71 -> e = [LogRunt]) -> (71 <= length (fst f) -> e = []) ->
    report crc32 f (e ++ [LogPreamble])
| report_packet e e' payload crc : well_formed f payload crc ->
    (length (fst f) < 71 -> e = [LogRunt]) -> (71 <= length (fst f) -> e = []) ->
    (crc = le32 (crc32 payload) -> e' = []) -> (crc <> le32 (crc32 payload) -> e' = [LogCrc]) ->
    report crc32 f (e ++ e' ++ [Deliver payload]).

(** the delivered packets *)
Definition delivered (es : list event) : list bytes :=
  flat_map (fun e => match e with Deliver p => [p] | _ => [] end) es.
Inductive deliverable : list (bytes * Z) -> list bytes -> Prop :=
| del_nil : deliverable [] []
| del_good f payload crc fs l : well_formed f payload crc -> deliverable fs l ->
    deliverable (f :: fs) (payload :: l)
| del_bad f fs l : (forall payload crc, ~ well_formed f payload crc) -> deliverable fs l ->
    deliverable (f :: fs) l.
