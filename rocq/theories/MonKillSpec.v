(** MonKillSpec.v *)
From Verif Require Import MonitorModel MonKillModel.
Local Open Scope list_scope.

(** everything the receptions of a monitor leave behind *)
Definition reception_record {T} (m : monitor T) := (calls m, recvq m, received m, events m, notified m).

(** what task number [i] waiting for a transaction has got so far *)
Inductive answer (T : Type) : Type := Pending | Returned (r : option T).
Arguments Pending {T}.
Arguments Returned {T} r.
Definition answer_of {T} (s : whole T) (i : nat) : option (answer T) :=
  match nth_error (tasks (wts s)) i with
  | None => None
  | Some x => Some (match tstatus x with WDone r _ => Returned r | _ => Pending end)
  end.
Definition calls_made {T} (s : whole T) : nat := length (tasks (wts s)).

Definition receives {T} (o : wop T) : Prop := match o with WRecv _ => True | _ => False end.
Definition is_resume {T} (i : nat) (o : wop T) : Prop := match o with WResume j => j = i | _ => False end.

(** transactions received in a history that has no kill *)
Fixpoint transactions {T} (ops : list (wop T)) : list T :=
  match ops with [] => [] | WRecv t :: r => t :: transactions r | _ :: r => transactions r end.
Definition kills {T} (o : wop T) : Prop := match o with WKill => True | _ => False end.
