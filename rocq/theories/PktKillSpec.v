(** PktKillSpec.v -- C102 for the packetized Avalon-ST driver. *)
From Verif Require Export Base Async HandshakeSpec PktModel PktSpec E2ESpec.
Local Open Scope list_scope.

(** what the packet monitor does, up to the kill and in the cycles [J] of ready after it:
    nobody drives the bus any more, so it stays as it was at the kill *)
Definition pk_after_kill (c : pcfg) (w : world valid logic pk_out) (J : list logic) : list report * res pmstate :=
  pm_run c pm_init (sampled (trace w ++ held (out w) J)).

(** What it should report when the word [v] is on the bus at the kill and is transferred [m]
    more times, packets [firstn n reps] having been reported before:
    - a word that is a packet of its own is a new packet each time;
    - the last word of a longer packet completes it, and is an error when it comes again;
    - the first word of a longer packet is an error when it comes again;
    - a word in the middle only makes the packet longer. *)
Definition repeated_word (v : pk_out) (reps : list report) (n m : nat) : list report * bool :=
  match is_sop v, is_eop v with
  | true, true => (firstn n reps ++ repeat (nth n reps (RData [])) m, false)
  | false, true => (firstn (n + min m 1) reps, 2 <=? m)
  | true, false => (firstn n reps, 2 <=? m)
  | false, false => (firstn n reps, false)
  end.
