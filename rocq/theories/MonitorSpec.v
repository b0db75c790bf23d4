(** MonitorSpec.v *)
From Verif Require Import MonitorModel.

Section Spec.
Context {T : Type}.

(** the transactions received in a history *)
Fixpoint receptions (ops : list (mon_op T)) : list T :=
  match ops with
  | [] => []
  | OAdd _ :: r => receptions r
  | ORecv t :: r => t :: receptions r
  end.

(** the number of callbacks registered from outside before each reception,
    when [n] are registered at the start *)
Fixpoint registered_before (n : nat) (ops : list (mon_op T)) : list nat :=
  match ops with
  | [] => []
  | OAdd _ :: r => registered_before (S n) r
  | ORecv _ :: r => n :: registered_before n r
  end.

(** what the callback in position [i] must receive: the transactions received
    when more than [i] callbacks were registered *)
Fixpoint seen_by (i n : nat) (ops : list (mon_op T)) : list T :=
  match ops with
  | [] => []
  | OAdd _ :: r => seen_by i (S n) r
  | ORecv t :: r => if i <? n then t :: seen_by i n r else seen_by i n r
  end.

(** the transactions received while no callback was registered *)
Fixpoint unclaimed (n : nat) (ops : list (mon_op T)) : list T :=
  match ops with
  | [] => []
  | OAdd _ :: r => unclaimed (S n) r
  | ORecv t :: r => if n =? 0 then t :: unclaimed n r else unclaimed n r
  end.

Definition adds (ops : list (mon_op T)) : nat :=
  length (filter (fun o => match o with OAdd _ => true | ORecv _ => false end) ops).

(** callbacks that neither raise nor register further callbacks *)
Definition quiet (beh : list (nat * T) -> nat -> T -> list nat * option exn) : Prop :=
  forall log c t, beh log c t = ([], None).

(** calls seen by position [i] *)
Definition calls_of (i : nat) (l : list (nat * T)) : list T :=
  map snd (filter (fun p => fst p =? i) l).

(** every one of the first [k] callbacks is called with [t], in order *)
Definition round (k : nat) (t : T) : list (nat * T) := map (fun i => (i, t)) (seq 0 k).
End Spec.
