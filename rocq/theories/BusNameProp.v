(** BusNameProp.v -- C104: bus attributes with names that Bus uses itself. *)
From Verif Require Import BusModel BusSpec BusProof BusProp BusNameModel BusNameSpec BusNameProof.
Local Open Scope list_scope.
Local Open Scope string_scope.

(** A method of the bus raises TypeError as soon as an attribute of the bus has its name;
    the others, and all attributes, are as they should be. *)
Theorem C104_method_names_refuted : forall ent name signals optional sep ci idx b,
  (forall a, In a (asked signals optional) -> ~ In a internal_names) ->
  bus_init ent name signals optional sep ci idx = Ok b ->
  exists o, py_bus ent name signals optional sep ci idx = Ok o /\
    (forall a h, dict_get b a = Some h -> dict_get o a = Some (PHdl h)) /\
    (forall V (obj : object V) strict, py_drive o obj strict =
       match dict_get b "drive" with None => drive V b obj strict | Some _ => ([], Err EType) end) /\
    (forall V (value : handle -> V), py_capture o value =
       match dict_get b "capture" with None => capture V b value | Some _ => Err EType end) /\
    (forall V (value : handle -> V) obj strict, py_sample o value obj strict =
       match dict_get b "sample" with None => sample V b value obj strict | Some _ => (obj, Err EType) end).
Proof. exact names_exact. Qed.
Print Assumptions C104_method_names_refuted.

(** Other names do no harm -- not even "_name" --: the bus is built in the same cases and
    with the same errors, and does what C04 .. C10 say. *)
Theorem C104_other_names_partial : forall ent name signals optional sep ci idx,
  (forall a, In a (asked signals optional) -> ~ In a internal_names /\ ~ In a method_names) ->
  match bus_init ent name signals optional sep ci idx with
  | Err e => py_bus ent name signals optional sep ci idx = Err e
  | Ok b => exists o, py_bus ent name signals optional sep ci idx = Ok o /\
      (forall a h, dict_get b a = Some h -> dict_get o a = Some (PHdl h)) /\
      (forall V (obj : object V) strict, py_drive o obj strict = drive V b obj strict) /\
      (forall V (value : handle -> V), py_capture o value = capture V b value) /\
      (forall V (value : handle -> V) obj strict, py_sample o value obj strict = sample V b value obj strict)
  end.
Proof. exact names_other. Qed.
Print Assumptions C104_other_names_partial.

(** With a required attribute "_signals", or one that Python reserves, or "_add_signal"
    before another one, the bus cannot be built at all, whatever the entity. *)
Theorem C104_internal_names_refuted : forall ent name signals optional sep ci idx, NoDup (map fst (requested signals)) ->
  (exists a, In a (map fst (requested signals)) /\ In a ["_signals"; "__class__"; "__dict__"; "__weakref__"]) \/
  (exists l1 x s l2, requested signals = (l1 ++ ("_add_signal", s) :: x :: l2)%list) ->
  exists e, py_bus ent name signals optional sep ci idx = Err e.
Proof. exact names_impossible. Qed.
Print Assumptions C104_internal_names_refuted.

(** ** Examples *)
(** a bus with a signal "sample": it can be driven but not sampled *)
Definition exn_ent : entity := [("adc_data", HSig 1); ("adc_sample", HSig 2)].
Example exn_sample : exists o b,
  bus_init exn_ent (Some "adc") (SigList ["data"; "sample"]) (SigList []) "_" true None = Ok b /\
  py_bus exn_ent (Some "adc") (SigList ["data"; "sample"]) (SigList []) "_" true None = Ok o /\
  py_drive o [("data", 5%Z); ("sample", 1%Z)] false = ([(HSig 1, 5%Z); (HSig 2, 1%Z)], Ok tt) /\
  py_sample o (fun _ => 0%Z) [("data", 5%Z)] false = ([("data", 5%Z)], Err EType) /\
  fst (sample Z b (fun _ => 0%Z) [("data", 5%Z)] false) = [("data", 0%Z)].
Proof. eexists _, _. split; [vm_compute; reflexivity|]. split; [vm_compute; reflexivity|]. vm_compute. repeat split. Qed.
Example exn_asked : forall a, In a (asked (SigList ["data"; "sample"]) (SigList [])) -> ~ In a internal_names.
Proof. cbn. intros a [<-|[<-|[]]] H; repeat (destruct H as [H|H]; [discriminate|]); exact H. Qed.
(** after a signal "_entity" the others are not found any more *)
Example exn_entity :
  py_bus [("_entity", HSig 1); ("data", HSig 2)] None (SigList ["_entity"; "data"]) (SigList []) "_" true None
  = Ok [("_entity", PHdl (Some (HSig 1))); ("_name", PStr None); ("_signals", PSigs [("_entity", Some (HSig 1)); ("data", None)]); ("data", PHdl None)].
Proof. vm_compute. reflexivity. Qed.
