(** XgJoinSpec.v -- the frames seen by an XGMII monitor that is created in the middle of the traffic. *)
From Verif Require Import Base CompatModel XgModel XgSpec XgRxSpec XgLatSpec.
Local Open Scope list_scope.

(** of the frames a monitor of [n] lanes delivers, those that start at character [from] or later and have
    ended by character [upto] *)
Definition frames_between (n from upto : nat) (fs : list (nat * bytes)) : list bytes :=
  map snd (filter (fun x => heard n (fst x) && ended_by upto x) (filter (fun x => from <=? fst x) (positions 0 fs))).
