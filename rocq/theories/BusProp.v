(** BusProp.v -- C04 .. C10. *)
From Verif Require Import BusModel BusSpec BusProof.
Local Open Scope list_scope.

(** C04.  Every successfully constructed bus: required attributes are bound to
    the member of that (full) name, optional ones exactly when such a member
    exists, and there are no other attributes. *)
Theorem C04_attribute_resolution :
  forall ent name signals optional sep ci idx b,
    one_signal_each (requested signals ++ requested optional) ->
    (forall a s, In (a, s) (requested signals) -> has_ci ent (full_name name sep s)) ->
    bus_init ent name signals optional sep ci idx = Ok b ->
    (forall a s, In (a, s) (requested signals) ->
       exists h, dict_get b a = Some (Some h) /\ resolves ent ci idx (full_name name sep s) h)
    /\ (forall a s, In (a, s) (requested optional) ->
          (has_ci ent (full_name name sep s) ->
             exists h, dict_get b a = Some (Some h) /\ resolves ent ci idx (full_name name sep s) h)
          /\ (~ has_ci ent (full_name name sep s) -> dict_get b a = None))
    /\ (forall a, In a (map fst b) -> In a (map fst (requested signals))
                                   \/ exists s, In (a, s) (requested optional)
                                             /\ has_ci ent (full_name name sep s)).
Proof. exact bus_resolution. Qed.
Print Assumptions C04_attribute_resolution.

(** When no two members differ in case only, the member bound is determined. *)
Theorem C04_resolution_unique :
  forall ent n h h',
    no_case_clash ent -> resolves ent true None n h -> resolves ent true None n h' -> h = h'.
Proof. exact resolves_unique. Qed.
Print Assumptions C04_resolution_unique.

Local Open Scope string_scope.
Local Open Scope list_scope.
Definition ex_ent : entity :=
  [("S_VALID", HSig 1); ("s_data", HArr [(0, HSig 2); (1, HSig 3)]%Z); ("s_ready", HSig 4)].

Example C04_nonvacuous :
  bus_init ex_ent (Some "s") (SigDict [("v", "valid")]) (SigList ["data"; "empty"]) "_" true None
  = Ok [("v", Some (HSig 1)); ("data", Some (HArr [(0, HSig 2); (1, HSig 3)]%Z))]
  /\ has_ci ex_ent (full_name (Some "s") "_" "valid")
  /\ one_signal_each (requested (SigDict [("v", "valid")]) ++ requested (SigList ["data"; "empty"])).
Proof.
  split; [vm_compute; reflexivity|]. split.
  - exists "S_VALID", (HSig 1). split; [cbn; auto | apply same_name_fold; vm_compute; reflexivity].
  - intros a s s' H H'. cbn in H, H'. intuition congruence.
Qed.

(** C05.  The property is false of the code: with the default settings a
    missing required signal is not reported. *)
Theorem C05_missing_required_refuted :
  exists ent signals b,
    (exists a s, In (a, s) (requested signals) /\ ~ has_ci ent (full_name (Some "s") "_" s))
    /\ bus_init ent (Some "s") signals (SigList []) "_" true None = Ok b.
Proof.
  exists ex_ent, (SigList ["valid"; "nope"]), [("valid", Some (HSig 1)); ("nope", None)].
  split; [|vm_compute; reflexivity]. exists "nope", "nope". split; [cbn; auto|].
  apply ci_none. vm_compute. reflexivity.
Qed.
Print Assumptions C05_missing_required_refuted.

(** It does hold for case-sensitive buses and for indexed buses. *)
Theorem C05_missing_required_partial :
  forall ent name signals optional sep ci idx a s,
    In (a, s) (requested signals) ->
    (ci = false /\ ~ has_exact ent (full_name name sep s))
    \/ (idx <> None /\ ~ has_ci ent (full_name name sep s)) ->
    exists e, bus_init ent name signals optional sep ci idx = Err e.
Proof. exact bus_missing_reported. Qed.
Print Assumptions C05_missing_required_partial.

(** With the default settings the attribute is bound to None; every later capture() raises
    AttributeError, and so do drive() and sample() of an object that has that attribute. *)
Theorem C05_missing_required_deferred_partial :
  forall ent name signals optional sep b a s,
    one_signal_each (requested signals ++ requested optional) ->
    In (a, s) (requested signals) ->
    ~ has_ci ent (full_name name sep s) ->
    bus_init ent name signals optional sep true None = Ok b ->
    dict_get b a = Some None
    /\ (forall (V : Type) (value : handle -> V), capture V b value = Err EAttribute)
    /\ (forall (V : Type) (value : handle -> V) (obj : object V) strict, has_attr obj a ->
          snd (drive V b obj strict) = Err EAttribute /\ snd (sample V b value obj strict) = Err EAttribute).
Proof.
  intros ent name signals optional sep b a s H1 H2 H3 H4.
  destruct (bus_missing_deferred _ _ _ _ _ _ _ _ H1 H2 H3 H4) as (A & B & C).
  split; [exact A|]. split; [exact C|]. intros V value obj strict Ha.
  split; [eapply drive_unbound|eapply sample_unbound]; eassumption.
Qed.
Print Assumptions C05_missing_required_deferred_partial.

Example C05_nonvacuous :
  bus_init ex_ent (Some "s") (SigList ["valid"]) (SigList []) "_" false None = Err EAttribute
  /\ bus_init ex_ent (Some "s") (SigList ["nope"]) (SigList []) "_" true (Some 0%Z) = Err EType
  /\ ~ has_exact ex_ent (full_name (Some "s") "_" "valid").
Proof.
  split; [vm_compute; reflexivity|]. split; [vm_compute; reflexivity|].
  intros (h & H). cbn in H. intuition discriminate.
Qed.

(** C06.  False as stated, in both halves: with case_insensitive=False an
    optional signal present in another case makes construction fail ... *)
Theorem C06_optional_refuted :
  exists ent optional,
    bus_init ent (Some "s") (SigList []) optional "_" false None = Err EAttribute
    /\ has_exact ent "s_ready".
Proof.
  exists ex_ent, (SigList ["ready"; "valid"]). split; [vm_compute; reflexivity|].
  exists (HSig 4). cbn. auto.
Qed.
Print Assumptions C06_optional_refuted.

(** ... and with the default setting an exactly named member loses against an
    earlier one that differs in case. *)
Theorem C06_exact_wins_refuted :
  exists ent h h',
    In ("data", h) ent /\ h <> h'
    /\ bus_init ent None (SigList ["data"]) (SigList []) "_" true None = Ok [("data", Some h')].
Proof.
  exists [("DATA", HSig 1); ("data", HSig 2)], (HSig 2), (HSig 1).
  split; [cbn; auto|]. split; [discriminate|]. vm_compute. reflexivity.
Qed.
Print Assumptions C06_exact_wins_refuted.

Theorem C06_construction_succeeds_partial :
  forall ent name signals optional sep (ci : bool) idx,
    indexable ent idx ->
    (forall a s, In (a, s) (requested signals) ->
       if ci then has_ci ent (full_name name sep s) else has_exact ent (full_name name sep s)) ->
    (ci = true \/ forall a s, In (a, s) (requested optional) ->
         has_ci ent (full_name name sep s) -> has_exact ent (full_name name sep s)) ->
    exists b, bus_init ent name signals optional sep ci idx = Ok b.
Proof. exact bus_init_total. Qed.
Print Assumptions C06_construction_succeeds_partial.

Theorem C06_exact_name_wins_partial :
  forall ent n h h0,
    no_case_clash ent -> resolves ent true None n h -> In (n, h0) ent -> h = h0.
Proof. exact resolves_exact. Qed.
Print Assumptions C06_exact_name_wins_partial.

Example C06_nonvacuous :
  no_case_clash ex_ent /\ indexable ex_ent None
  /\ bus_init ex_ent (Some "s") (SigList ["ready"]) (SigList ["valid"; "x"]) "_" true None
     = Ok [("ready", Some (HSig 4)); ("valid", Some (HSig 1))].
Proof.
  split; [|split; [exact I|vm_compute; reflexivity]].
  intros a a' h h' H H' E. apply same_name_fold in E. cbn in H, H'.
  repeat match goal with
         | H : _ \/ _ |- _ => destruct H
         | H : (_, _) = (_, _) |- _ => injection H as <- <-
         | H : False |- _ => destruct H
         end; (split; [reflexivity|reflexivity]) || (vm_compute in E; discriminate).
Qed.

(** C07.  drive performs exactly the assignments of the shared attributes, in
    bus order (fully bound bus; see C05 for unbound signals). *)
Theorem C07_drive_writes_exactly :
  forall (V : Type) (b : bus) (obj : object V),
    fully_bound b -> drive V b obj false = (expected_writes b obj, Ok tt).
Proof. exact @drive_lax. Qed.
Print Assumptions C07_drive_writes_exactly.

Theorem C07_strict_drive_writes_exactly :
  forall (V : Type) (b : bus) (obj : object V),
    fully_bound b -> (forall a, In a (map fst b) -> has_attr obj a) ->
    drive V b obj true = (expected_writes b obj, Ok tt).
Proof. exact @drive_strict_ok. Qed.
Print Assumptions C07_strict_drive_writes_exactly.

(** Seen from the simulator: driven signals take the attribute's value, all
    other signals keep theirs. *)
Theorem C07_drive_effect :
  forall (V : Type) (b : bus) (obj : object V) (value : handle -> V),
    fully_bound b -> NoDup (map snd b) ->
    let value' := settle V value (fst (drive V b obj false)) in
    (forall a h v, In (a, Some h) b -> dict_get obj a = Some v -> value' h = v)
    /\ (forall h, (forall a v, In (a, Some h) b -> dict_get obj a <> Some v) -> value' h = value h).
Proof. exact @drive_effect. Qed.
Print Assumptions C07_drive_effect.

Definition ex_bus : bus := [("valid", Some (HSig 1)); ("ready", Some (HSig 4)); ("keys", Some (HSig 5))].

Example C07_nonvacuous :
  fully_bound ex_bus /\ NoDup (map snd ex_bus) /\ NoDup (map fst ex_bus)
  /\ drive nat ex_bus [("ready", 7); ("junk", 9)] false = ([(HSig 4, 7)], Ok tt).
Proof.
  split; [|split; [|split; [|reflexivity]]].
  - intros a h H. cbn in H. intuition congruence.
  - repeat constructor; cbn; intuition discriminate.
  - repeat constructor; cbn; intuition discriminate.
Qed.

(** C08.  "Atomically" is false of the code: the signals before the missing one
    have been driven (sampled) already. *)
Theorem C08_strict_atomic_refuted :
  (exists (b : bus) (obj : object nat),
      fully_bound b /\ snd (drive nat b obj true) = Err EAttribute /\ fst (drive nat b obj true) <> [])
  /\ (exists (b : bus) (obj : object nat) (value : handle -> nat),
      fully_bound b /\ snd (sample nat b value obj true) = Err EAttribute
      /\ fst (sample nat b value obj true) <> obj).
Proof.
  split.
  - exists ex_bus, [("valid", 1)]. split; [|split; [reflexivity|discriminate]].
    intros a h H. cbn in H. intuition congruence.
  - exists ex_bus, [("valid", 1)], (fun _ => 0). split; [|split; [reflexivity|discriminate]].
    intros a h H. cbn in H. intuition congruence.
Qed.
Print Assumptions C08_strict_atomic_refuted.

(** The raising condition is exact ... *)
Theorem C08_strict_drive_iff_partial :
  forall (V : Type) (b : bus) (obj : object V),
    fully_bound b ->
    (snd (drive V b obj true) = Ok tt <-> forall a, In a (map fst b) -> has_attr obj a)
    /\ (snd (drive V b obj true) <> Ok tt -> snd (drive V b obj true) = Err EAttribute).
Proof. exact @drive_strict_iff. Qed.
Print Assumptions C08_strict_drive_iff_partial.

Theorem C08_strict_sample_iff_partial :
  forall (V : Type) (b : bus) (value : handle -> V) (obj : object V),
    fully_bound b -> NoDup (map fst b) ->
    (snd (sample V b value obj true) = Ok tt <-> forall a, In a (map fst b) -> has_attr obj a)
    /\ (snd (sample V b value obj true) <> Ok tt -> snd (sample V b value obj true) = Err EAttribute).
Proof. exact @sample_strict_iff. Qed.
Print Assumptions C08_strict_sample_iff_partial.

(** ... and what was driven is exactly the part of the bus before the first
    missing attribute. *)
Theorem C08_driven_prefix_partial :
  forall (V : Type) (b1 b2 : bus) a oh (obj : object V),
    fully_bound b1 -> (forall k, In k (map fst b1) -> has_attr obj k) -> ~ has_attr obj a ->
    drive V (b1 ++ (a, oh) :: b2) obj true = (expected_writes b1 obj, Err EAttribute).
Proof. exact @drive_strict_missing. Qed.
Print Assumptions C08_driven_prefix_partial.

Theorem C08_sampled_prefix_partial :
  forall (V : Type) (b1 b2 : bus) a oh (value : handle -> V) (obj : object V),
    fully_bound b1 -> NoDup (map fst b1) ->
    (forall k, In k (map fst b1) -> has_attr obj k) -> ~ has_attr obj a ->
    exists obj', sample V (b1 ++ (a, oh) :: b2) value obj true = (obj', Err EAttribute)
      /\ map fst obj' = map fst obj
      /\ (forall k v, dict_get obj k = Some v ->
            dict_get obj' k = Some (match dict_get b1 k with Some (Some h) => value h | _ => v end)).
Proof. exact @sample_prefix_spec. Qed.
Print Assumptions C08_sampled_prefix_partial.

Example C08_nonvacuous :
  let b1 : bus := [("valid", Some (HSig 1)); ("ready", Some (HSig 4))] in
  let obj := [("ready", 7); ("valid", 3); ("other", 9)] in
  fully_bound b1 /\ (forall k, In k (map fst b1) -> has_attr obj k) /\ ~ has_attr obj "keys"
  /\ drive nat (b1 ++ [("keys", Some (HSig 5)); ("other", Some (HSig 6))]) obj true
     = ([(HSig 1, 3); (HSig 4, 7)], Err EAttribute)
  /\ drive nat b1 obj true = ([(HSig 1, 3); (HSig 4, 7)], Ok tt)
  /\ sample nat (b1 ++ [("keys", Some (HSig 5)); ("other", Some (HSig 6))]) (fun _ => 5) obj true
     = ([("ready", 5); ("valid", 5); ("other", 9)], Err EAttribute).
Proof.
  cbn zeta. split; [|split; [|split; [|split; [|split]; reflexivity]]].
  - intros a h H. cbn in H. intuition congruence.
  - intros k [<-|[<-|[]]]; vm_compute; eauto 8.
  - vm_compute. intros H. repeat destruct H as [H|H]; try discriminate; try destruct H; discriminate.
Qed.

(** C09.  The mapping returned is a complete snapshot. *)
Theorem C09_capture_snapshot :
  forall (V : Type) (b : bus) (value : handle -> V),
    fully_bound b ->
    exists c, capture V b value = Ok c
      /\ map fst c = map fst b
      /\ (forall a, dict_get c a = match dict_get b a with Some (Some h) => Some (value h) | _ => None end).
Proof. exact @capture_spec. Qed.
Print Assumptions C09_capture_snapshot.

(** Attribute access is false of the code for signals named like a dict method. *)
Theorem C09_attribute_access_refuted :
  exists (b : bus) (c : list (string * nat)),
    capture nat b (fun _ => 5) = Ok c
    /\ dict_get c "keys" = Some 5 /\ capture_getattr nat c "keys" = Ok (AMethod nat).
Proof.
  exists ex_bus. eexists. split; [reflexivity|]. split; vm_compute; reflexivity.
Qed.
Print Assumptions C09_attribute_access_refuted.

(** For all other names it returns the value, or raises RuntimeError. *)
Theorem C09_attribute_access_partial :
  forall (V : Type) (c : list (string * V)) (name : string),
    existsb (String.eqb name) dict_attr_names = false ->
    capture_getattr V c name = match dict_get c name with Some v => Ok (AVal V v) | None => Err ERuntime end.
Proof. exact @capture_attr. Qed.
Print Assumptions C09_attribute_access_partial.

Theorem C09_capture_immutable :
  forall (V : Type) (c : list (string * V)) (name : string) (v : V),
    capture_setattr V c name v = (c, Err ERuntime) /\ capture_delattr V c name = (c, Err ERuntime).
Proof. intros V c name v. split; reflexivity. Qed.
Print Assumptions C09_capture_immutable.

Example C09_nonvacuous :
  exists c, capture nat ex_bus (fun h => match h with HSig i => 10 * i | _ => 0 end) = Ok c
  /\ capture_getattr nat c "ready" = Ok (AVal nat 40) /\ capture_getattr nat c "nope" = Err ERuntime.
Proof. eexists. split; [reflexivity|]. split; vm_compute; reflexivity. Qed.

(** C10 *)
Theorem C10_sample_copies_exactly :
  forall (V : Type) (b : bus) (value : handle -> V) strict (obj : object V),
    fully_bound b -> NoDup (map fst b) ->
    (strict = true -> forall a, In a (map fst b) -> has_attr obj a) ->
    exists obj', sample V b value obj strict = (obj', Ok tt)
      /\ map fst obj' = map fst obj
      /\ (forall a v, dict_get obj a = Some v ->
            dict_get obj' a = Some (match dict_get b a with
                                    | Some (Some h) => value h
                                    | _ => v
                                    end)).
Proof. exact @sample_spec. Qed.
Print Assumptions C10_sample_copies_exactly.

Theorem C10_sample_inverts_drive :
  forall (V : Type) (b : bus) (obj tgt : object V) (value : handle -> V) strict,
    fully_bound b -> NoDup (map fst b) -> NoDup (map snd b) ->
    map fst tgt = map fst obj ->
    snd (drive V b obj strict) = Ok tt ->
    exists tgt',
      sample V b (settle V value (fst (drive V b obj strict))) tgt strict = (tgt', Ok tt)
      /\ (forall a, In a (map fst b) -> dict_get tgt' a = dict_get obj a).
Proof. exact @drive_sample. Qed.
Print Assumptions C10_sample_inverts_drive.

Example C10_nonvacuous :
  let obj := [("ready", 7); ("junk", 9)] in
  let tgt := [("ready", 0); ("junk", 3)] in
  snd (drive nat ex_bus obj false) = Ok tt
  /\ sample nat ex_bus (settle nat (fun _ => 1) (fst (drive nat ex_bus obj false))) tgt false
     = ([("ready", 7); ("junk", 3)], Ok tt).
Proof. split; vm_compute; reflexivity. Qed.
