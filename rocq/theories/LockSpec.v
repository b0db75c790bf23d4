(** LockSpec.v *)
From Verif Require Import LockModel.

Definition holds (k : lock) (t : nat) : Prop := stat k t = LkHolding.

(** C26 *)
Definition exclusive (k : lock) : Prop := forall t u, holds k t -> holds k u -> t = u.

(** A polite step: a task starts an access only when every waiter that has been
    woken has run, and does not queue behind another waiter. *)
Definition polite_step (k : lock) (a : lact) : Prop :=
  match a with
  | KAcquire t => forall u, stat k u <> LkWoken /\ stat k u <> LkWaiting
  | _ => True
  end.

Fixpoint polite (k : lock) (acts : list lact) : Prop :=
  match acts with
  | [] => True
  | a :: r => polite_step k a /\ polite (lstep k a) r
  end.

Definition no_failure (acts : list lact) : Prop := forall t, ~ In (KFail t) acts.
