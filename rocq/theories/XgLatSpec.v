(** XgLatSpec.v -- the frames that have ended on an XGMII bus. *)
From Verif Require Import Base CompatModel XgModel XgSpec XgRxSpec.
Local Open Scope list_scope.

(** a frame (position of its start, payload) whose terminate character is among the first [upto] characters:
    after the start come 7 bytes of preamble, the payload and 4 bytes of CRC *)
Definition ended_by (upto : nat) (x : nat * bytes) : bool := fst x + (1 + 7 + length (snd x) + 4) <? upto.
(** of the frames a monitor of [n] lanes delivers, those that have ended *)
Definition ended_frames (n upto : nat) (fs : list (nat * bytes)) : list bytes :=
  map snd (filter (fun x => heard n (fst x) && ended_by upto x) (positions 0 fs)).
(** those whose terminate character is in the word of clock edge [k] (the first is 0) *)
Definition ended_in (n k : nat) (fs : list (nat * bytes)) : list bytes :=
  map snd (filter (fun x => heard n (fst x) && ((fst x + (1 + 7 + length (snd x) + 4)) / n =? k)) (positions 0 fs)).
