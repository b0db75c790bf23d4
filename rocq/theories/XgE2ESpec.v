(** XgE2ESpec.v -- what C116 demands. *)
From Verif Require Export DriverSpec E2ESpec XgE2EModel XgSpec.
From Verif Require ScoreboardSpec.
Local Open Scope list_scope.

(** packets that can be sent on [n] lanes: bytes that, with start, preamble and CRC, fill at
    least one word (on up to 72 lanes all do) *)
Definition xg_sendable (n : nat) (p : bytes) : Prop := fills_word n p /\ all_bytes p.

(** what is to arrive for the entries [l]: the packets, padded to 60 bytes *)
Definition frames_of (l : list (item bytes)) : list bytes := map (fun i => padded (i_tx i)) l.

(** the history [hist] of a scoreboard in which exactly the packets [got] are received *)
Definition hears (hist : list (ScoreboardSpec.ev bytes)) (got : list bytes) : Prop :=
  ScoreboardSpec.gots hist = got.
