(** BusNameModel.v -- src/cocotb_bus/bus.py once more, with the Bus instance as a Python
    object: its attributes, among them its own (_entity, _name, _signals), and its
    methods, which Python finds in the class only if the instance has no attribute of
    that name. *)
From Verif Require Export BusModel.
Local Open Scope list_scope.
Local Open Scope string_scope.

(** The values of the instance's attributes: the entity (bus.py:62), the name (63), the
    dict of signals (64), and what setattr in line 102 stores. *)
Inductive pyval :=
| PEnt (e : entity)
| PStr (n : option string)
| PSigs (b : bus)
| PHdl (h : option handle).
(** the instance dictionary *)
Definition instance := list (string * pyval).

(** the methods (bus.py:88, 94, 105, 133, 163) *)
Definition methods : list string := ["_caseInsensGetattr"; "_add_signal"; "drive"; "capture"; "sample"].

(** [self.name(...)]: the attribute of the instance if there is one -- neither handles nor
    None can be called -- and otherwise the method of the class. *)
(* bus.py:105-195: a method looked up on an instance *)
Definition callable (o : instance) (name : string) : res unit :=
  match dict_get o name with
  | Some _ => Err EType
  | None => if existsb (String.eqb name) methods then Ok tt else Err EAttribute
  end.

(** [setattr(self, name, v)]: the data descriptors of the class come first *)
(* bus.py:102: setattr(self, attr_name, handle) *)
Definition py_setattr (o : instance) (name : string) (v : pyval) : res instance :=
  if String.eqb name "__weakref__" then Err EAttribute
  else if existsb (String.eqb name) ["__class__"; "__dict__"] then Err EType
  else Ok (dict_set o name v).

(** [self._entity._log]: entities and handles have one *)
(* bus.py:80, 95: self._entity._log.debug *)
Definition entity_log (o : instance) : res unit :=
  match dict_get o "_entity" with
  | Some (PEnt _) | Some (PHdl (Some _)) => Ok tt
  | _ => Err EAttribute
  end.
(** the members of [self._entity]; a signal or an array of signals has none with a name
    of its own (simplification: the Python methods of a handle are not modelled) *)
(* bus.py:81, 97-99: self._entity as it is then *)
Definition entity_members (o : instance) : entity :=
  match dict_get o "_entity" with Some (PEnt e) => e | _ => [] end.

(** [self._signals[name] = h] (103): neither handles nor None take a string as index *)
Definition signals_set (o : instance) (name : string) (h : option handle) : res instance :=
  match dict_get o "_signals" with
  | Some (PSigs b) => Ok (dict_set o "_signals" (PSigs (dict_set b name h)))
  | _ => Err EType
  end.

(** Bus._add_signal (94-103) *)
Definition py_add_signal (o : instance) (attr name : string) (array_idx : option Z) (case_insensitive : bool) : res instance :=
  rbind (callable o "_add_signal") (fun _ =>                                    (* the call: 71, 82 *)
  rbind (entity_log o) (fun _ =>                                                (* 95 *)
  rbind (if case_insensitive
         then rbind (callable o "_caseInsensGetattr")
                    (fun _ => Ok (case_insens_getattr (entity_members o) name)) (* 97 *)
         else rbind (getattr_exact (entity_members o) name) (fun h => Ok (Some h)))  (* 99 *)
        (fun h =>
  rbind (match array_idx with None => Ok h | Some i => index_handle h i end)    (* 101 *)
        (fun h =>
  rbind (py_setattr o attr (PHdl h)) (fun o =>                                  (* 102 *)
  signals_set o attr h))))).                                                    (* 103 *)

(** required signals loop (65-71) *)
Fixpoint py_required (name : option string) (sep : string) (idx : option Z) (ci : bool)
         (sigs : list (string * string)) (o : instance) : res instance :=
  match sigs with
  | [] => Ok o
  | (attr, s) :: r => rbind (py_add_signal o attr (signame name sep s) idx ci) (py_required name sep idx ci r)
  end.
(** optional signals loop (74-86); line 81 looks in the entity passed by the caller *)
Fixpoint py_optional (ent : entity) (name : option string) (sep : string) (idx : option Z) (ci : bool)
         (sigs : list (string * string)) (o : instance) : res instance :=
  match sigs with
  | [] => Ok o
  | (attr, s) :: r =>
      let sn := signame name sep s in
      rbind (entity_log o) (fun _ =>                                            (* 80 *)
      rbind (callable o "_caseInsensGetattr") (fun _ =>                         (* 81 *)
      match case_insens_getattr ent sn with
      | Some _ => rbind (py_add_signal o attr sn idx ci) (py_optional ent name sep idx ci r)     (* 82 *)
      | None => py_optional ent name sep idx ci r o                             (* 83-86 *)
      end))
  end.
(** Bus.__init__ (32-86) *)
Definition py_bus (ent : entity) (name : option string) (signals optional : sigspec)
           (sep : string) (ci : bool) (idx : option Z) : res instance :=
  rbind (py_required name sep idx ci (build_sig_attr_dict signals)
           [("_entity", PEnt ent); ("_name", PStr name); ("_signals", PSigs [])])
        (py_optional ent name sep idx ci (build_sig_attr_dict optional)).

(** [self._signals.items()] (115, 158, 175): a handle or None has no such method *)
Definition items (o : instance) : res bus :=
  match dict_get o "_signals" with Some (PSigs b) => Ok b | _ => Err EAttribute end.

(** [bus.drive(obj, strict)], [bus.capture()], [bus.sample(obj, strict)] (105-195) *)
Definition py_drive {V} (o : instance) (obj : object V) (strict : bool) : list (handle * V) * res unit :=
  match rbind (callable o "drive") (fun _ => items o) with
  | Ok b => drive V b obj strict
  | Err e => ([], Err e)
  end.
(* bus.py:133-161 *)
Definition py_capture {V} (o : instance) (value : handle -> V) : res (list (string * V)) :=
  rbind (callable o "capture") (fun _ => rbind (items o) (fun b => capture V b value)).
(* bus.py:163-195 *)
Definition py_sample {V} (o : instance) (value : handle -> V) (obj : object V) (strict : bool) : object V * res unit :=
  match rbind (callable o "sample") (fun _ => items o) with
  | Ok b => sample V b value obj strict
  | Err e => (obj, Err e)
  end.
