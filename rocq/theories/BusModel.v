(** BusModel.v -- model of src/cocotb_bus/bus.py. *)
From Coq Require Export String Ascii.
From Verif Require Export Base.
Export ListNotations.
Local Open Scope list_scope.

(** A simulator handle: a signal, or an array of handles with its index names
    (cocotb indexes by HDL index).  Only these two kinds matter to Bus. *)
(* bus.py:88-103: simulator objects, some of them indexable *)
Inductive handle : Type :=
| HSig (id : nat)
| HArr (elems : list (Z * handle)).

(** The entity: its members in the order of [dir(entity)] (bus.py:89).
    [dir] is sorted and has no duplicates. *)
Definition entity := list (string * handle).

(** str.casefold, ASCII letters only (simplification). *)
(* bus.py:90: str.casefold on one (ASCII) character *)
Definition fold_char (c : ascii) : ascii :=
  let n := nat_of_ascii c in
  if (65 <=? n)%nat && (n <=? 90)%nat then ascii_of_nat (n + 32) else c.

(* bus.py:90: str.casefold *)
Fixpoint casefold (s : string) : string :=
  match s with
  | EmptyString => EmptyString
  | String c r => String (fold_char c) (casefold r)
  end.

(** Bus._caseInsensGetattr (bus.py:88-92): the first member, in [dir] order,
    whose name folds to the same string; None if there is none. *)
Fixpoint case_insens_getattr (obj : entity) (attr : string) : option handle :=
  match obj with
  | [] => None
  | (a, h) :: r =>
      if String.eqb (casefold a) (casefold attr) then Some h
      else case_insens_getattr r attr
  end.

(** getattr(entity, name) (bus.py:99): exact match, AttributeError otherwise. *)
Fixpoint getattr_exact (obj : entity) (attr : string) : res handle :=
  match obj with
  | [] => Err EAttribute
  | (a, h) :: r => if String.eqb a attr then Ok h else getattr_exact r attr
  end.

(** handle[array_idx] (bus.py:101); [None[i]] and indexing a plain signal raise
    TypeError, an unknown index IndexError. *)
Fixpoint find_idx (l : list (Z * handle)) (i : Z) : res handle :=
  match l with
  | [] => Err EIndex
  | (j, h) :: r => if Z.eqb i j then Ok h else find_idx r i
  end.

(* bus.py:100-101: handle[array_idx] *)
Definition index_handle (h : option handle) (i : Z) : res (option handle) :=
  match h with
  | Some (HArr l) => match find_idx l i with Ok h => Ok (Some h) | Err e => Err e end
  | Some (HSig _) | None => Err EType
  end.

(** Python dict with insertion order: assignment keeps the position of an
    existing key. *)
(* bus.py:103, 159: d[k] = v *)
Fixpoint dict_set {V} (d : list (string * V)) (k : string) (v : V) : list (string * V) :=
  match d with
  | [] => [(k, v)]
  | (k', v') :: r => if String.eqb k' k then (k', v) :: r else (k', v') :: dict_set r k v
  end.

(* bus.py:146-147: d[k] *)
Fixpoint dict_get {V} (d : list (string * V)) (k : string) : option V :=
  match d with
  | [] => None
  | (k', v') :: r => if String.eqb k' k then Some v' else dict_get r k
  end.

(** The Bus object: the ordered dict [_signals] (bus.py:64).  [setattr(self,
    attr, handle)] and [self._signals[attr] = getattr(self, attr)] (102-103)
    always store the same handle, so the instance attributes are the same map.
    Attribute names equal to Bus's own internals ("_signals", "drive", ...) are
    modelled in BusNameModel.v.  A handle is [None] when the member was not found. *)
Definition bus := list (string * option handle).

(** signals argument: list or dict (bus.py:12-16) *)
Inductive sigspec : Type :=
| SigList (l : list string)
| SigDict (d : list (string * string)).

(* bus.py:12-16 *)
Definition build_sig_attr_dict (s : sigspec) : list (string * string) :=
  match s with
  | SigDict d => d
  | SigList l => fold_left (fun d x => dict_set d x x) l []
  end.

(** bus.py:66-69 and 75-78; [if name:] is false for None and "". *)
Definition signame (name : option string) (sep sig : string) : string :=
  match name with
  | None | Some EmptyString => sig
  | Some n => (n ++ sep ++ sig)%string
  end.

(** Bus._add_signal (bus.py:94-103) *)
Definition add_signal (ent : entity) (b : bus) (attr name : string)
           (array_idx : option Z) (case_insensitive : bool) : res bus :=
  rbind (if case_insensitive then Ok (case_insens_getattr ent name)            (* 97 *)
         else rbind (getattr_exact ent name) (fun h => Ok (Some h)))           (* 99 *)
        (fun h =>
           rbind (match array_idx with
                  | None => Ok h
                  | Some i => index_handle h i                                  (* 101 *)
                  end)
                 (fun h => Ok (dict_set b attr h))).                            (* 102-103 *)

(** required signals loop (bus.py:65-71) *)
Fixpoint init_required (ent : entity) (name : option string) (sep : string)
         (idx : option Z) (ci : bool) (sigs : list (string * string)) (b : bus) : res bus :=
  match sigs with
  | [] => Ok b
  | (attr, s) :: r =>
      rbind (add_signal ent b attr (signame name sep s) idx ci)
            (init_required ent name sep idx ci r)
  end.

(** optional signals loop (bus.py:74-86) *)
Fixpoint init_optional (ent : entity) (name : option string) (sep : string)
         (idx : option Z) (ci : bool) (sigs : list (string * string)) (b : bus) : res bus :=
  match sigs with
  | [] => Ok b
  | (attr, s) :: r =>
      let sn := signame name sep s in
      match case_insens_getattr ent sn with                                     (* 81 *)
      | Some _ => rbind (add_signal ent b attr sn idx ci)                        (* 82 *)
                        (init_optional ent name sep idx ci r)
      | None => init_optional ent name sep idx ci r b                            (* 83-86 *)
      end
  end.

(** Bus.__init__ (bus.py:32-86) *)
Definition bus_init (ent : entity) (name : option string) (signals optional : sigspec)
           (sep : string) (ci : bool) (idx : option Z) : res bus :=
  rbind (init_required ent name sep idx ci (build_sig_attr_dict signals) [])
        (init_optional ent name sep idx ci (build_sig_attr_dict optional)).

(** handle identity (Python [is]); signals are identified by their number *)
(* bus.py:131: whether two writes go to one handle *)
Fixpoint handle_eqb (a b : handle) : bool :=
  match a, b with
  | HSig x, HSig y => Nat.eqb x y
  | HArr l, HArr m =>
      (fix go (l m : list (Z * handle)) : bool :=
         match l, m with
         | [], [] => true
         | (i, x) :: l', (j, y) :: m' => Z.eqb i j && handle_eqb x y && go l' m'
         | _, _ => false
         end) l m
  | _, _ => false
  end.

Section Transfer.
Variable V : Type.                       (* values of signals and attributes *)

(** A transaction object: its attributes (bus.py:116 hasattr / getattr). *)
Definition object := list (string * V).

(** Bus.drive (bus.py:105-131).  The effect is the list of assignments
    [hdl.value = val] performed, in order, even when an exception ends the
    loop.  Assigning to [None.value] raises AttributeError. *)
Fixpoint drive (b : bus) (obj : object) (strict : bool) : list (handle * V) * res unit :=
  match b with
  | [] => ([], Ok tt)
  | (attr, hdl) :: r =>
      match dict_get obj attr with
      | None => if strict then ([], Err EAttribute)                             (* 117-127 *)
                else drive r obj strict                                          (* 129 *)
      | Some v =>
          match hdl with
          | None => ([], Err EAttribute)                                         (* None.value = v *)
          | Some h => let '(w, e) := drive r obj strict in ((h, v) :: w, e)      (* 131 *)
          end
      end
  end.

(** Bus.capture (bus.py:157-161): the dict built. *)
Fixpoint capture (b : bus) (value : handle -> V) : res (list (string * V)) :=
  match b with
  | [] => Ok []
  | (attr, hdl) :: r =>
      match hdl with
      | None => Err EAttribute
      | Some h => rbind (capture r value) (fun c => Ok ((attr, value h) :: c))
      end
  end.

(** Attribute names that every dict instance has (dir(dict) plus those the
    class statement at bus.py:144 adds); Python finds them before calling
    [__getattr__]. *)
Local Open Scope string_scope.
Definition dict_attr_names : list string :=
  [ "clear"; "copy"; "fromkeys"; "get"; "items"; "keys"; "pop"; "popitem";
    "setdefault"; "update"; "values";
    "__class__"; "__class_getitem__"; "__contains__"; "__delattr__"; "__delitem__";
    "__dict__"; "__dir__"; "__doc__"; "__eq__"; "__format__"; "__ge__";
    "__getattr__"; "__getattribute__"; "__getitem__"; "__gt__"; "__hash__";
    "__init__"; "__init_subclass__"; "__ior__"; "__iter__"; "__le__"; "__len__";
    "__lt__"; "__module__"; "__ne__"; "__new__"; "__or__"; "__reduce__";
    "__reduce_ex__"; "__repr__"; "__reversed__"; "__ror__"; "__setattr__";
    "__setitem__"; "__sizeof__"; "__str__"; "__subclasshook__"; "__weakref__" ].

(** Result of reading an attribute of a capture: the value of a signal, or a
    method/slot of the dict object. *)
(* bus.py:145-149: what attribute access on a capture gives *)
Inductive attr_result : Type := AVal (v : V) | AMethod.

(** _Capture attribute read (bus.py:144-149) *)
Definition capture_getattr (c : list (string * V)) (name : string) : res attr_result :=
  if existsb (String.eqb name) dict_attr_names then Ok AMethod
  else match dict_get c name with
       | Some v => Ok (AVal v)
       | None => Err ERuntime
       end.

(** _Capture.__setattr__ / __delattr__ (bus.py:151-155) *)
Definition capture_setattr (c : list (string * V)) (name : string) (v : V)
  : list (string * V) * res unit := (c, Err ERuntime).
(* bus.py:154-155 *)
Definition capture_delattr (c : list (string * V)) (name : string)
  : list (string * V) * res unit := (c, Err ERuntime).

(** Bus.sample (bus.py:163-195).  Objects whose attribute and signal value both
    offer set_binstr/get_binstr (cocotb 1.x BinaryValue) keep the attribute
    object and get the new bits (193); in all other cases the attribute is
    replaced (195).  Both make the attribute read as the signal's value, so the
    model records the value only; SampleModel.v has the kinds of objects. *)
Fixpoint sample (b : bus) (value : handle -> V) (obj : object) (strict : bool) : object * res unit :=
  match b with
  | [] => (obj, Ok tt)
  | (attr, hdl) :: r =>
      match dict_get obj attr with
      | None => if strict then (obj, Err EAttribute) else sample r value obj strict
      | Some _ =>
          match hdl with
          | None => (obj, Err EAttribute)
          | Some h => sample r value (dict_set obj attr (value h)) strict
          end
      end
  end.

(** The simulator applies the writes in order: the last write to a handle wins;
    untouched handles keep their value. *)
(* bus.py:131: hdl.value = val, all writes of a time step applied *)
Definition settle (value : handle -> V) (w : list (handle * V)) : handle -> V :=
  fold_left (fun f hv h => if handle_eqb (fst hv) h then snd hv else f h) w value.

End Transfer.
