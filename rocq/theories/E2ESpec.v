(** E2ESpec.v -- what C85 demands. *)
From Verif Require Export E2EModel DriverSpec PktSpec.
From Verif Require ScoreboardSpec.
Local Open Scope list_scope.

(** what a monitor with configuration [c] is to report for packet [data] sent on [channel] *)
Definition report_of (c : pcfg) (data : bytes) (channel : option Z) : report :=
  as_reported (c_report c) (match c_cw c with Some _ => true | None => false end) data channel.
Definition reports_of (c : pcfg) (l : list (item ptx)) : list report :=
  map (fun i => report_of c (fst (i_tx i)) (snd (i_tx i))) l.

(** packets the driver can send: not empty, made of bytes, on a channel the bus has *)
Definition sendable (c : pcfg) (t : ptx) : Prop :=
  fst t <> [] /\ all_bytes (fst t) /\ channel_ok c (snd t).

(** the test uses only the queue: nobody calls send() or kill(), and no transmission raises *)
Definition queue_only {T} (acts : list (action T)) : Prop :=
  Forall (fun a => match a with ADirect _ _ | AKill | AFinish (Some _) => False | _ => True end) acts.
(** nobody calls clear() *)
Definition no_clear {T} (acts : list (action T)) : Prop :=
  Forall (fun a => match a with AClear => False | _ => True end) acts.

(** the history of a scoreboard interface: [hist] says in which order the test put down its
    expectations and the monitor received packets; the latter are [reps] *)
Definition receives (hist : list (ScoreboardSpec.ev report)) (reps : list report) : Prop :=
  ScoreboardSpec.gots hist = reps.
