(** BusNameSpec.v -- names of bus attributes that Bus uses itself. *)
From Verif Require Import BusModel BusSpec.
Local Open Scope list_scope.
Local Open Scope string_scope.

(** the attributes asked for *)
Definition asked (signals optional : sigspec) : list string :=
  map fst (requested signals) ++ map fst (requested optional).

(** names that Bus needs while it is built, or that Python does not let an object have *)
Definition internal_names : list string :=
  ["_entity"; "_signals"; "_add_signal"; "_caseInsensGetattr"; "__class__"; "__dict__"; "__weakref__"].
(** names of the methods a user calls *)
Definition method_names : list string := ["drive"; "capture"; "sample"].
