(** PktChSpec.v -- C153: the channel of the packet delivered last. *)
From Verif Require Export Base PktModel PktSpec PktChModel.
Local Open Scope list_scope.

(** what the attribute should be after the transferred words [ws]: that of the last packet
    completed in them, if there is one *)
Definition last_channel (c : pcfg) (ws : list pk_out) : attribute :=
  match rev (completed ws) with
  | [] => None
  | p :: _ => Some (first_channel c p)
  end.

(** each packet as it should be delivered, and the attribute its callback should find *)
Definition delivery (c : pcfg) (p : list pk_out) : report * attribute := (reported c p, Some (first_channel c p)).
