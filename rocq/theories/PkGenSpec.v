(** PkGenSpec.v -- what C121 demands. *)
From Verif Require Export StGenSpec PkGenModel PktSpec.
Local Open Scope list_scope.

(** the bus trace without the calls *)
Definition bus_only {TO} (tr : list (gcycle * TO)) : list (logic * TO) :=
  map (fun c => (fst (fst c), snd c)) tr.
