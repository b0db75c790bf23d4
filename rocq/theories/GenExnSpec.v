(** GenExnSpec.v *)
From Verif Require Import Base AvalonSTModel GenExnModel.
Local Open Scope list_scope.

(** the exceptions a list of results contains, in order *)
Definition errors {A} (l : list (res A)) : list exn :=
  flat_map (fun r => match r with Err e => [e] | Ok _ => [] end) l.
(** the words whose send() returned *)
Fixpoint returned {A} (ds : list A) (rs : list (res unit)) : list A :=
  match ds, rs with
  | d :: ds', Ok _ :: rs' => d :: returned ds' rs'
  | _ :: ds', Err _ :: rs' => returned ds' rs'
  | _, _ => []
  end.

(** a generator that does what [Iter l] does, if that raises nothing *)
Definition yields (l : list (res (Z * Z))) (g : list (Z * Z)) : Prop := l = map Ok g.

(** BitDriver: the pairs before the first exception, and the exception the task ends with *)
Fixpoint pairs_before (l : list (res (Z * Z))) : list (Z * Z) :=
  match l with Ok p :: r => p :: pairs_before r | _ => [] end.
Fixpoint ending (l : list (res (Z * Z))) : exn :=
  match l with Ok _ :: r => ending r | Err e :: _ => e | [] => ERuntime end.
