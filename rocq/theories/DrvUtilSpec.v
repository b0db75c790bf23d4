(** DrvUtilSpec.v *)
From Verif Require Import DrvUtilModel DriverSpec.
Local Open Scope list_scope.
Local Open Scope Z_scope.

(** C29: on cycles of 1, then off cycles of 0, pair after pair *)
Definition waveform (gen : list (Z * Z)) : list logic :=
  flat_map (fun p => repeat L1 (Z.to_nat (fst p)) ++ repeat L0 (Z.to_nat (snd p))) gen.

(** C30: idle cycles in front of each word: [first] before the first word of
    the first group, nothing inside a group, the group's off count before the
    next group; no gaps after the last one. *)
Fixpoint grouped (first : nat) (groups : list (Z * Z)) (n : nat) : list nat :=
  match groups with
  | [] => first :: repeat O n
  | (on, off) :: r => first :: repeat O (Z.to_nat on - 1) ++ grouped (Z.to_nat off) r n
  end.
Definition real_groups (gen : list (Z * Z)) : list (Z * Z) := filter (fun p => negb (fst p =? 0)) gen.

(** C31 *)
Section Sock.
Context (EAGAIN EWOULDBLOCK : Z).
Definition would_block (r : sockres) : Prop :=
  match r with SError e => e = EAGAIN \/ e = EWOULDBLOCK | _ => False end.
Definition chunk (r : sockres) : Prop := match r with SData (_ :: _) => True | _ => False end.
Definition chunks (rs : list sockres) : list bytes :=
  flat_map (fun r => match r with SData (b :: l) => [b :: l] | _ => [] end) rs.
End Sock.
