(** BusSpec.v -- vocabulary for the Bus theorems. *)
From Verif Require Import BusModel.
Local Open Scope list_scope.

(** two names are equal up to the case of the (ASCII) letters *)
Fixpoint chars (s : string) : list ascii :=
  match s with EmptyString => [] | String c r => c :: chars r end.
Definition letter_pairs : list (ascii * ascii) :=
  combine (chars "ABCDEFGHIJKLMNOPQRSTUVWXYZ") (chars "abcdefghijklmnopqrstuvwxyz").
Definition same_char (a b : ascii) : Prop := a = b \/ In (a, b) letter_pairs \/ In (b, a) letter_pairs.
Definition same_name (a b : string) : Prop := Forall2 same_char (chars a) (chars b).

(** the entity has a member called [n] (ignoring case) / exactly [n] *)
Definition has_ci (ent : entity) (n : string) : Prop := exists a h, In (a, h) ent /\ same_name a n.
Definition has_exact (ent : entity) (n : string) : Prop := exists h, In (n, h) ent.

(** the name under which signal [s] of bus [name] is looked up *)
Definition full_name (name : option string) (sep s : string) : string :=
  match name with
  | Some (String _ _ as n) => (n ++ sep ++ s)%string
  | _ => s
  end.

(** (attribute, signal) pairs requested *)
Definition requested (s : sigspec) : list (string * string) :=
  match s with SigDict d => d | SigList l => map (fun x => (x, x)) l end.

(** no attribute is requested for two different signals (always so for lists of
    names; the same name may be repeated) *)
Definition one_signal_each (l : list (string * string)) : Prop :=
  forall a s s', In (a, s) l -> In (a, s') l -> s = s'.

(** [h] is the member called [n], or element [i] of it when an index is given *)
Definition resolves (ent : entity) (ci : bool) (idx : option Z) (n : string) (h : handle) : Prop :=
  exists m hm, In (m, hm) ent
            /\ (if ci then same_name m n else m = n)
            /\ match idx with
               | None => h = hm
               | Some i => exists l, hm = HArr l /\ In (i, h) l
               end.

(** no two members differ in letter case only (and no member is listed twice) *)
Definition no_case_clash (ent : entity) : Prop :=
  forall a a' h h', In (a, h) ent -> In (a', h') ent -> same_name a a' -> a = a' /\ h = h'.

(** every member has an element [i] *)
Definition indexable (ent : entity) (idx : option Z) : Prop :=
  match idx with
  | None => True
  | Some i => forall a h, In (a, h) ent -> exists l x, h = HArr l /\ In (i, x) l
  end.

(** all signals of the bus are bound to a simulator object *)
Definition fully_bound (b : bus) : Prop := forall a h, In (a, h) b -> h <> None.

Definition has_attr {V} (obj : object V) (a : string) : Prop := exists v, dict_get obj a = Some v.

(** the assignments drive has to make for the bus signals [b] and object [obj]:
    one per signal that the object has an attribute for, in bus order *)
Definition expected_writes {V} (b : bus) (obj : object V) : list (handle * V) :=
  flat_map (fun e => match snd e, dict_get obj (fst e) with
                     | Some h, Some v => [(h, v)]
                     | _, _ => []
                     end) b.
