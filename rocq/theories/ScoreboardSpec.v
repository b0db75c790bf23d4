(** ScoreboardSpec.v *)
From Verif Require Import ScoreboardModel.
Local Open Scope list_scope.

(** A single-interface test: expectations and receptions. *)
Inductive ev (T : Type) : Type := Exp (t : T) | Got (t : T).
Arguments Exp {T} t.
Arguments Got {T} t.

(** the sequences *)
Definition exps {T} (l : list (ev T)) : list T :=
  flat_map (fun e => match e with Exp t => [t] | Got _ => [] end) l.
Definition gots {T} (l : list (ev T)) : list T :=
  flat_map (fun e => match e with Exp _ => [] | Got t => [t] end) l.

(** nothing arrived before it was expected *)
Definition never_early {T} (l : list (ev T)) : Prop :=
  forall p q, l = p ++ q -> length (gots p) <= length (exps p).

(** the same history as scoreboard operations on monitor [m] and list [loc] *)
Definition ops_of {T} (m loc : nat) (l : list (ev T)) : list (sop T) :=
  map (fun e => match e with Exp t => SExpect loc t | Got t => SRecv m t end) l.

(** [accept d out l]: starting with outstanding expectations [out], every
    transaction of [l] is one of the first d+1 outstanding ones when it arrives,
    and nothing is outstanding at the end *)
Inductive accept {T} (d : nat) : list T -> list (ev T) -> Prop :=
| acc_nil : accept d [] []
| acc_exp out t l : accept d (out ++ [t]) l -> accept d out (Exp t :: l)
| acc_got l1 t l2 l : length l1 <= d -> accept d (l1 ++ l2) l -> accept d (l1 ++ t :: l2) (Got t :: l).

(** [got] is accepted for the expected transaction [exp] *)
Definition passes {T} (ty : T -> nat) (eqb : T -> T -> bool) (str : T -> string)
           (strict : bool) (got exp : T) : Prop :=
  if strict then ty got = ty exp /\ eqb got exp = true else str got = str exp.

(** with outstanding expectations [out] and the given depth, transaction [t]
    consumes [e] and leaves [rest]: the earliest one equal to [t] among the first
    depth+1, else the head *)
Inductive consumes {T} (eqb : T -> T -> bool) (depth : Z) : list T -> T -> T -> list T -> Prop :=
| cons_match l1 e l2 t :
    (Z.of_nat (length l1) <= depth)%Z -> eqb e t = true ->
    (forall x, In x l1 -> eqb x t = false) ->
    consumes eqb depth (l1 ++ e :: l2) t e (l1 ++ l2)
| cons_head h r t :
    (forall l1 e l2, h :: r = l1 ++ e :: l2 -> (Z.of_nat (length l1) <= depth)%Z -> eqb e t = false) ->
    consumes eqb depth (h :: r) t h r.

(** the callback [c] checks against list [l] *)
Definition uses_list (c : callback) (l : nat) : Prop :=
  match c with CbCheck i => i_exp i = EList l | CbUser => False end.

(** monitors added by an operation *)
Definition added {T} (o : sop T) : list nat := match o with SAdd m _ _ _ _ _ => [m] | _ => [] end.

(** a fresh scoreboard with one list interface, depth [d], strict types *)
Definition start (T : Type) (im : bool) (m loc d : nat) : sb T :=
  fst (add_interface T (sb_init T im) m true (EList loc) NoFn (Z.of_nat d) true).
