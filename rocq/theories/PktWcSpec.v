(** PktWcSpec.v -- C155: what is delivered, apart from its form. *)
From Verif Require Export Base PktModel PktSpec PktChModel PktWcModel.
Local Open Scope list_scope.

(** the bytes of a delivered packet *)
Definition data_of (r : report) : bytes := match r with RData d => d | RChan d _ => d end.
