(** BusNameProof.v *)
From Verif Require Import BusModel BusSpec BusProof BusNameModel BusNameSpec.
Local Open Scope list_scope.
Local Open Scope string_scope.

(** the instance [o] belongs to the bus [b] *)
Record stands (ent : entity) (o : instance) (b : bus) : Prop := {
  st_entity : dict_get o "_entity" = Some (PEnt ent);
  st_signals : dict_get o "_signals" = Some (PSigs b);
  st_add : dict_get o "_add_signal" = None;
  st_get : dict_get o "_caseInsensGetattr" = None;
  st_attr : forall a, ~ In a ["_entity"; "_signals"; "_name"] -> dict_get o a = option_map PHdl (dict_get b a);
  st_name : forall h, dict_get b "_name" = Some h -> dict_get o "_name" = Some (PHdl h) }.

Lemma in_eqb a l : existsb (String.eqb a) l = true <-> In a l.
Proof.
  rewrite existsb_exists. split.
  - intros (x & H & E). apply String.eqb_eq in E. subst. exact H.
  - intro H. exists a. split; [exact H|apply String.eqb_refl].
Qed.

Lemma add_stands ent o b attr name idx ci : stands ent o b -> ~ In attr internal_names ->
  match add_signal ent b attr name idx ci with
  | Ok b' => exists o', py_add_signal o attr name idx ci = Ok o' /\ stands ent o' b'
  | Err e => py_add_signal o attr name idx ci = Err e
  end.
Proof.
  intros [S1 S2 S3 S4 S5 S6] N. unfold add_signal, py_add_signal. unfold callable, entity_log, entity_members. rewrite S1, S3, S4.
  change (existsb (String.eqb "_add_signal") methods) with true. change (existsb (String.eqb "_caseInsensGetattr") methods) with true. cbn [rbind].
  set (q := if ci then Ok (case_insens_getattr ent name) else rbind (getattr_exact ent name) (fun h => Ok (Some h))).
  destruct q as [h|e]; [|reflexivity]. cbn [rbind].
  destruct (match idx with None => Ok h | Some i => index_handle h i end) as [h'|e]; [|reflexivity]. cbn [rbind].
  assert (X : forall n, In n internal_names -> String.eqb attr n = false).
  { intros n H. apply String.eqb_neq. intros ->. exact (N H). }
  unfold py_setattr. cbn [existsb]. rewrite !X by (cbn [internal_names In]; tauto). cbn [orb rbind]. unfold signals_set. rewrite dict_get_set, X by (cbn [internal_names In]; tauto).
  rewrite S2. eexists. split; [reflexivity|].
  assert (D : forall n, dict_get (dict_set (dict_set o attr (PHdl h')) "_signals" (PSigs (dict_set b attr h'))) n =
    if String.eqb "_signals" n then Some (PSigs (dict_set b attr h')) else if String.eqb attr n then Some (PHdl h') else dict_get o n).
  { intro n. rewrite !dict_get_set. reflexivity. }
  split.
  - rewrite D, X by (cbn [internal_names In]; tauto). exact S1.
  - rewrite D. reflexivity.
  - rewrite D, X by (cbn [internal_names In]; tauto). exact S3.
  - rewrite D, X by (cbn [internal_names In]; tauto). exact S4.
  - intros a Ha. rewrite D, dict_get_set. destruct (String.eqb_spec "_signals" a) as [<-|_]; [cbn [In] in Ha; tauto|].
    destruct (String.eqb attr a); [reflexivity|apply S5; exact Ha].
  - intros h0. rewrite D, dict_get_set. change (String.eqb "_signals" "_name") with false. destruct (String.eqb attr "_name"); [cbn; congruence|apply S6].
Qed.

Lemma required_stands ent name sep idx ci sigs : Forall (fun x => ~ In (fst x) internal_names) sigs -> forall o b, stands ent o b ->
  match init_required ent name sep idx ci sigs b with
  | Ok b' => exists o', py_required name sep idx ci sigs o = Ok o' /\ stands ent o' b'
  | Err e => py_required name sep idx ci sigs o = Err e
  end.
Proof.
  induction 1 as [|[attr s] r N _ IH]; intros o b S; [exists o; split; [reflexivity|exact S]|]. cbn [init_required py_required fst] in *.
  pose proof (add_stands ent o b attr (signame name sep s) idx ci S N) as A. destruct (add_signal ent b attr (signame name sep s) idx ci) as [b'|e]; [|rewrite A; reflexivity].
  destruct A as (o' & -> & S'). cbn [rbind]. apply IH. exact S'.
Qed.
Lemma optional_stands ent name sep idx ci sigs : Forall (fun x => ~ In (fst x) internal_names) sigs -> forall o b, stands ent o b ->
  match init_optional ent name sep idx ci sigs b with
  | Ok b' => exists o', py_optional ent name sep idx ci sigs o = Ok o' /\ stands ent o' b'
  | Err e => py_optional ent name sep idx ci sigs o = Err e
  end.
Proof.
  induction 1 as [|[attr s] r N _ IH]; intros o b S; [exists o; split; [reflexivity|exact S]|]. cbn [init_optional py_optional fst] in *.
  unfold entity_log, callable. rewrite (st_entity _ _ _ S), (st_get _ _ _ S). change (existsb (String.eqb "_caseInsensGetattr") methods) with true. cbn [rbind].
  destruct (case_insens_getattr ent (signame name sep s)); [|apply IH; exact S].
  pose proof (add_stands ent o b attr (signame name sep s) idx ci S N) as A. destruct (add_signal ent b attr (signame name sep s) idx ci) as [b'|e]; [|rewrite A; reflexivity].
  destruct A as (o' & -> & S'). cbn [rbind]. apply IH. exact S'.
Qed.

Lemma build_keys s x : In x (map fst (build_sig_attr_dict s)) -> In x (map fst (requested s)).
Proof.
  destruct s as [l|d]; [|auto]. cbn [build_sig_attr_dict requested]. rewrite map_map. cbn [fst]. rewrite map_id.
  assert (G : forall d, In x (map fst (fold_left (fun d y => dict_set d y y) l d)) -> In x (map fst d) \/ In x l).
  { induction l as [|y l IH]; intros d H; [left; exact H|]. cbn [fold_left] in H. apply IH in H. destruct H as [H|H]; [|right; right; exact H].
    assert (K : forall d : list (string * string), In x (map fst (dict_set d y y)) -> In x (map fst d) \/ x = y).
    { clear. induction d as [|[k v] d IH]; cbn [dict_set map fst In]; [intros [->|[]]; auto|]. destruct (String.eqb_spec k y) as [->|_]; cbn [map fst In]; [tauto|]. tauto. }
    apply K in H. destruct H as [H| ->]; [left; exact H|right; left; reflexivity]. }
  intro H. apply G in H. destruct H as [[]|H]. exact H.
Qed.

Lemma bus_stands ent name signals optional sep ci idx : (forall a, In a (asked signals optional) -> ~ In a internal_names) ->
  match bus_init ent name signals optional sep ci idx with
  | Ok b => exists o, py_bus ent name signals optional sep ci idx = Ok o /\ stands ent o b
  | Err e => py_bus ent name signals optional sep ci idx = Err e
  end.
Proof.
  intro N. unfold bus_init, py_bus, asked in *.
  assert (S0 : stands ent [("_entity", PEnt ent); ("_name", PStr name); ("_signals", PSigs [])] []).
  { split; try reflexivity; [|discriminate]. intros a Ha. cbn [dict_get option_map In] in *.
    destruct (String.eqb_spec "_entity" a); [tauto|]. destruct (String.eqb_spec "_name" a); [tauto|]. destruct (String.eqb_spec "_signals" a); [tauto|reflexivity]. }
  assert (F1 : Forall (fun x => ~ In (fst x) internal_names) (build_sig_attr_dict signals)).
  { apply Forall_forall. intros x Hx. apply N, in_or_app. left. apply build_keys, in_map, Hx. }
  assert (F2 : Forall (fun x => ~ In (fst x) internal_names) (build_sig_attr_dict optional)).
  { apply Forall_forall. intros x Hx. apply N, in_or_app. right. apply build_keys, in_map, Hx. }
  pose proof (required_stands ent name sep idx ci _ F1 _ _ S0) as R. destruct (init_required ent name sep idx ci (build_sig_attr_dict signals) []) as [b1|e]; [|rewrite R; reflexivity].
  destruct R as (o1 & -> & S1). cbn [rbind]. apply (optional_stands ent name sep idx ci _ F2 _ _ S1).
Qed.

Lemma method_shadowed ent o b m : stands ent o b -> In m method_names ->
  callable o m = match dict_get b m with Some _ => Err EType | None => Ok tt end.
Proof.
  intros S Hm. unfold callable. rewrite (st_attr _ _ _ S).
  - destruct (dict_get b m); [reflexivity|]. cbn [option_map]. cbn [method_names In] in Hm. destruct Hm as [<-|[<-|[<-|[]]]]; reflexivity.
  - cbn [method_names In] in *. destruct Hm as [<-|[<-|[<-|[]]]]; intros [|[|[|[]]]]; discriminate.
Qed.

Lemma unasked ent name signals optional sep ci idx b a : bus_init ent name signals optional sep ci idx = Ok b -> ~ In a (asked signals optional) -> dict_get b a = None.
Proof.
  intros E N.
  destruct (dict_get b a) as [h|] eqn:D; [|reflexivity]. exfalso.
    assert (G : forall sigs b0 b1, init_required ent name sep idx ci sigs b0 = Ok b1 -> dict_get b1 a <> None -> dict_get b0 a <> None \/ In a (map fst sigs)).
    { clear. induction sigs as [|[attr s] r IH]; intros b0 b1 H Hn; [injection H as <-; auto|]. cbn [init_required] in H.
      destruct (add_signal ent b0 attr (signame name sep s) idx ci) as [b2|e] eqn:Ea; [|discriminate]. cbn [rbind] in H. destruct (IH b2 b1 H Hn) as [K|K]; [|right; right; exact K].
      unfold add_signal in Ea. destruct (if ci then _ else _); [|discriminate]. cbn [rbind] in Ea. destruct (match idx with None => _ | Some _ => _ end); [|discriminate]. injection Ea as <-.
      rewrite dict_get_set in K. destruct (String.eqb_spec attr a) as [->|_]; [right; left; reflexivity|left; exact K]. }
    assert (G2 : forall sigs b0 b1, init_optional ent name sep idx ci sigs b0 = Ok b1 -> dict_get b1 a <> None -> dict_get b0 a <> None \/ In a (map fst sigs)).
    { clear. induction sigs as [|[attr s] r IH]; intros b0 b1 H Hn; [injection H as <-; auto|]. cbn [init_optional] in H.
      destruct (case_insens_getattr ent (signame name sep s)); [|destruct (IH b0 b1 H Hn) as [K|K]; [left; exact K|right; right; exact K]].
      destruct (add_signal ent b0 attr (signame name sep s) idx ci) as [b2|e] eqn:Ea; [|discriminate]. cbn [rbind] in H. destruct (IH b2 b1 H Hn) as [K|K]; [|right; right; exact K].
      unfold add_signal in Ea. destruct (if ci then _ else _); [|discriminate]. cbn [rbind] in Ea. destruct (match idx with None => _ | Some _ => _ end); [|discriminate]. injection Ea as <-.
      rewrite dict_get_set in K. destruct (String.eqb_spec attr a) as [->|_]; [right; left; reflexivity|left; exact K]. }
    unfold bus_init in E. destruct (init_required ent name sep idx ci (build_sig_attr_dict signals) []) as [b1|e] eqn:E1; [|discriminate]. cbn [rbind] in E.
    unfold asked in N. destruct (G2 _ _ _ E ltac:(congruence)) as [K|K].
    - destruct (G _ _ _ E1 K) as [K'|K']; [apply K'; reflexivity|]. apply N, in_or_app. left. apply build_keys. exact K'.
    - apply N, in_or_app. right. apply build_keys. exact K.
Qed.

Lemma names_exact ent name signals optional sep ci idx b : (forall a, In a (asked signals optional) -> ~ In a internal_names) ->
  bus_init ent name signals optional sep ci idx = Ok b ->
  exists o, py_bus ent name signals optional sep ci idx = Ok o /\
    (forall a h, dict_get b a = Some h -> dict_get o a = Some (PHdl h)) /\
    (forall V (obj : object V) strict, py_drive o obj strict = match dict_get b "drive" with None => drive V b obj strict | Some _ => ([], Err EType) end) /\
    (forall V (value : handle -> V), py_capture o value = match dict_get b "capture" with None => capture V b value | Some _ => Err EType end) /\
    (forall V (value : handle -> V) obj strict, py_sample o value obj strict = match dict_get b "sample" with None => sample V b value obj strict | Some _ => (obj, Err EType) end).
Proof.
  intros N E. pose proof (bus_stands ent name signals optional sep ci idx N) as B. rewrite E in B. destruct B as (o & Eo & S). exists o. split; [exact Eo|].
  assert (I : items o = Ok b) by (unfold items; rewrite (st_signals _ _ _ S); reflexivity).
  assert (Nb : forall a, In a internal_names -> dict_get b a = None).
  { intros a Ha. apply (unasked ent name signals optional sep ci idx b a E). intro Hq. exact (N a Hq Ha). }
  split.
  { intros a h Hh. destruct (string_dec a "_name") as [->|Ne]; [apply (st_name _ _ _ S); exact Hh|]. rewrite (st_attr _ _ _ S), Hh; [reflexivity|].
    cbn [In]. intros [<-|[<-|[<-|[]]]]; [|rewrite (Nb "_signals") in Hh by (cbn; tauto); discriminate|contradiction Ne; reflexivity]. rewrite (Nb "_entity") in Hh by (cbn; tauto). discriminate. }
  unfold py_drive, py_capture, py_sample.
  repeat split; intros; rewrite (method_shadowed ent o b) by (try exact S; cbn; tauto); match goal with |- context [dict_get b ?m] => destruct (dict_get b m) end; cbn [rbind]; rewrite ?I; reflexivity.
Qed.

Lemma add_impossible o attr name idx ci : In attr ["_signals"; "__class__"; "__dict__"; "__weakref__"] -> exists e, py_add_signal o attr name idx ci = Err e.
Proof.
  intro H. unfold py_add_signal. destruct (callable o "_add_signal"); [|eexists; reflexivity]. cbn [rbind]. destruct (entity_log o); [|eexists; reflexivity]. cbn [rbind].
  destruct (if ci then _ else _) as [h|]; [|eexists; reflexivity]. cbn [rbind]. destruct (match idx with None => _ | Some _ => _ end) as [h'|]; [|eexists; reflexivity]. cbn [rbind].
  cbn [In] in H. destruct H as [<-|[<-|[<-|[<-|[]]]]]; [|eexists; reflexivity ..].
  unfold py_setattr. change (String.eqb "_signals" "__weakref__") with false. change (existsb (String.eqb "_signals") ["__class__"; "__dict__"]) with false. cbn [rbind].
  unfold signals_set. rewrite dict_get_set. eexists. reflexivity.
Qed.
Lemma required_app name sep idx ci s1 s2 : forall o, py_required name sep idx ci (s1 ++ s2) o = rbind (py_required name sep idx ci s1 o) (py_required name sep idx ci s2).
Proof.
  induction s1 as [|[attr s] r IH]; intro o; [reflexivity|]. cbn [app py_required]. destruct (py_add_signal o attr (signame name sep s) idx ci); [|reflexivity]. cbn [rbind]. apply IH.
Qed.
Lemma names_impossible ent name signals optional sep ci idx : NoDup (map fst (requested signals)) ->
  (exists a, In a (map fst (requested signals)) /\ In a ["_signals"; "__class__"; "__dict__"; "__weakref__"]) \/
  (exists l1 x s l2, requested signals = (l1 ++ ("_add_signal", s) :: x :: l2)%list) ->
  exists e, py_bus ent name signals optional sep ci idx = Err e.
Proof.
  intros ND H. unfold py_bus. rewrite build_requested by exact ND. generalize [("_entity", PEnt ent); ("_name", PStr name); ("_signals", PSigs [])]. intro o.
  assert (G : exists e, py_required name sep idx ci (requested signals) o = Err e); [|destruct G as (e & ->); eexists; reflexivity].
  destruct H as [(a & Ha & Hi)|(l1 & x & s & l2 & ->)].
  - apply in_map_iff in Ha. destruct Ha as ([a' s] & <- & Ha). cbn [fst] in Hi. apply in_split in Ha. destruct Ha as (l1 & l2 & ->). rewrite required_app.
    destruct (py_required name sep idx ci l1 o) as [o1|e]; [|eexists; reflexivity]. cbn [rbind py_required].
    destruct (add_impossible o1 a' (signame name sep s) idx ci Hi) as (e & ->). eexists. reflexivity.
  - rewrite required_app. destruct (py_required name sep idx ci l1 o) as [o1|e]; [|eexists; reflexivity]. cbn [rbind py_required].
    destruct (py_add_signal o1 "_add_signal" (signame name sep s) idx ci) as [o2|e] eqn:E; [|eexists; reflexivity]. cbn [rbind].
    assert (C : callable o2 "_add_signal" = Err EType).
    { unfold py_add_signal in E. destruct (callable o1 "_add_signal"); [|discriminate]. cbn [rbind] in E. destruct (entity_log o1); [|discriminate]. cbn [rbind] in E.
      destruct (if ci then _ else _) as [h|]; [|discriminate]. cbn [rbind] in E. destruct (match idx with None => _ | Some _ => _ end) as [h'|]; [|discriminate]. cbn [rbind] in E.
      unfold py_setattr in E. change (String.eqb "_add_signal" "__weakref__") with false in E. change (existsb (String.eqb "_add_signal") ["__class__"; "__dict__"]) with false in E. cbn [rbind] in E.
      unfold signals_set in E. destruct (dict_get (dict_set o1 "_add_signal" (PHdl h')) "_signals") as [[]|]; try discriminate. injection E as <-.
      unfold callable. rewrite dict_get_set. change (String.eqb "_signals" "_add_signal") with false. cbn iota. rewrite dict_get_set. reflexivity. }
    destruct x as [a2 s2]. unfold py_add_signal. rewrite C. eexists. reflexivity.
Qed.
Lemma names_other ent name signals optional sep ci idx : (forall a, In a (asked signals optional) -> ~ In a internal_names /\ ~ In a method_names) ->
  match bus_init ent name signals optional sep ci idx with
  | Err e => py_bus ent name signals optional sep ci idx = Err e
  | Ok b => exists o, py_bus ent name signals optional sep ci idx = Ok o /\
      (forall a h, dict_get b a = Some h -> dict_get o a = Some (PHdl h)) /\
      (forall V (obj : object V) strict, py_drive o obj strict = drive V b obj strict) /\
      (forall V (value : handle -> V), py_capture o value = capture V b value) /\
      (forall V (value : handle -> V) obj strict, py_sample o value obj strict = sample V b value obj strict)
  end.
Proof.
  intro N. pose proof (bus_stands ent name signals optional sep ci idx (fun a Ha => proj1 (N a Ha))) as B.
  destruct (bus_init ent name signals optional sep ci idx) as [b|e] eqn:E; [|exact B]. clear B.
  destruct (names_exact ent name signals optional sep ci idx b (fun a Ha => proj1 (N a Ha)) E) as (o & E1 & E2 & E3 & E4 & E5). exists o. split; [exact E1|]. split; [exact E2|].
  assert (X : forall m, In m method_names -> dict_get b m = None).
  { intros m Hm. apply (unasked ent name signals optional sep ci idx b m E). intro Ha. exact (proj2 (N m Ha) Hm). }
  repeat split; intros; [rewrite E3|rewrite E4|rewrite E5]; rewrite X by (cbn; tauto); reflexivity.
Qed.
