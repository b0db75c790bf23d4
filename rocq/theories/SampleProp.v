(** SampleProp.v -- C123. *)
From Verif Require Import Base BusModel BusSpec SampleModel SampleSpec SampleProof.
Local Open Scope list_scope.
Local Open Scope string_scope.
Local Open Scope list_scope.

(** C123.  False of the code with cocotb 1.x: an attribute that is a BinaryValue with fewer bits
    than the signal keeps the rightmost bits only ... *)
Theorem C123_narrow_refuted :
  forall s n e s0, n < length s ->
    exists obj', sample_1x [("a", Some (HSig 0))] (fun _ => PBin s (Some (length s)) e)
                           [("a", PBin s0 (Some n) e)] true = (obj', Ok tt)
      /\ exists x, dict_get obj' "a" = Some x /\ shows x <> Some s
         /\ exists pre r, shows x = Some r /\ s = pre ++ r /\ length r = n.
Proof.
  intros s n e s0 H. eexists. split; [reflexivity|]. eexists. split; [reflexivity|]. cbn [shows].
  assert (L := adjust_length s n e). split.
  - intros [= E]. rewrite E in L. lia.
  - destruct (adjust_long s n e) as (pre & E); [lia|]. exists pre. eexists. split; [reflexivity|]. auto.
Qed.
Print Assumptions C123_narrow_refuted.

(** ... and one with more bits and the default byte order gets the zeros on the right, which
    multiplies the number. *)
Theorem C123_wide_refuted :
  forall s k s0, 0 < k ->
    exists obj', sample_1x [("a", Some (HSig 0))] (fun _ => PBin s (Some (length s)) true)
                           [("a", PBin s0 (Some (length s + k)) true)] true = (obj', Ok tt)
      /\ exists x r, dict_get obj' "a" = Some x /\ shows x = Some r
         /\ forall z, bval s = Some z -> bval r = Some (z * 2 ^ Z.of_nat k)%Z.
Proof.
  intros s k s0 H. eexists. split; [reflexivity|]. eexists _, _. split; [reflexivity|]. split; [reflexivity|].
  exact (wide_value s k H).
Qed.
Print Assumptions C123_wide_refuted.

(** If every attribute that is a BinaryValue can hold the signal's bits, sampling gives every
    shared attribute the bits of its signal and leaves the other attributes alone; attributes that
    are BinaryValues keep their own options. *)
Theorem C123_value_partial :
  forall (b : bus) (value : handle -> pyobj) strict (obj : object pyobj),
    fully_bound b -> NoDup (map fst b) ->
    (strict = true -> forall a, In a (map fst b) -> has_attr obj a) ->
    (forall a h x, dict_get b a = Some (Some h) -> dict_get obj a = Some x -> fits x (value h)) ->
    exists obj', sample_1x b value obj strict = (obj', Ok tt)
      /\ map fst obj' = map fst obj
      /\ forall a x, dict_get obj a = Some x ->
           exists x', dict_get obj' a = Some x'
             /\ match dict_get b a with
                | Some (Some h) =>
                    shows x' = shows (value h)
                    /\ (shows x <> None -> shows (value h) <> None -> options x' = options x)
                | _ => x' = x
                end.
Proof.
  intros b value strict obj Hf Hn Hs Hfit.
  destruct (run_spec _ _ _ _ _ b value strict obj Hf Hn Hs (fun a h x _ _ => attr_1x x (value h)))
    as (o & E & Hk & Hv).
  exists o. split; [exact E|]. split; [exact Hk|]. intros a x Hx. eexists. split; [apply Hv; exact Hx|].
  destruct (dict_get b a) as [[h|]|] eqn:Eb; [|reflexivity|reflexivity].
  split; [apply attr_1x_shows; eapply Hfit; eassumption|apply attr_1x_options].
Qed.
Print Assumptions C123_value_partial.

(** Objects of any class.  Each shared attribute becomes what its own set_binstr makes of the
    signal's bits, or the signal's value if one of the two has no such method or set_binstr
    itself raises AttributeError. *)
Theorem C123_any_class_partial :
  forall (A V : Type) (set_binstr : A -> bits -> set_result A) (get_binstr : V -> option bits) (as_attr : V -> A)
         (b : bus) (value : handle -> V) strict (obj : object A),
    fully_bound b -> NoDup (map fst b) ->
    (strict = true -> forall a, In a (map fst b) -> has_attr obj a) ->
    (forall x s x' e, set_binstr x s = SDone x' (Err e) -> e = EAttribute) ->
    exists obj', sample_objects A V set_binstr get_binstr as_attr b value obj strict = (obj', Ok tt)
      /\ map fst obj' = map fst obj
      /\ forall a x, dict_get obj a = Some x ->
           exists x', dict_get obj' a = Some x'
             /\ match dict_get b a with
                | Some (Some h) =>
                    (exists s u, get_binstr (value h) = Some s /\ set_binstr x s = SDone x' (Ok u))
                    \/ (x' = as_attr (value h)
                        /\ forall s y u, get_binstr (value h) = Some s -> set_binstr x s <> SDone y (Ok u))
                | _ => x' = x
                end.
Proof. exact any_class. Qed.
Print Assumptions C123_any_class_partial.

(** An exception of set_binstr reaches the caller; the attributes before it have been sampled,
    the later ones have not. *)
Theorem C123_exception_partial :
  forall (A V : Type) (set_binstr : A -> bits -> set_result A) (get_binstr : V -> option bits) (as_attr : V -> A)
         (b1 b2 : bus) a h (value : handle -> V) strict (obj : object A) x s x' e,
    fully_bound b1 -> NoDup (map fst (b1 ++ (a, Some h) :: b2)) ->
    (strict = true -> forall k, In k (map fst b1) -> has_attr obj k) ->
    (forall k g y, dict_get b1 k = Some (Some g) -> dict_get obj k = Some y ->
       forall t, get_binstr (value g) = Some t -> exists y', set_binstr y t = SDone y' (Ok tt)) ->
    dict_get obj a = Some x -> get_binstr (value h) = Some s ->
    set_binstr x s = SDone x' (Err e) -> e <> EAttribute ->
    exists obj', sample_objects A V set_binstr get_binstr as_attr (b1 ++ (a, Some h) :: b2) value obj strict
                 = (obj', Err e)
      /\ dict_get obj' a = Some x'
      /\ (forall k y, dict_get obj k = Some y -> ~ In k (map fst b1) -> k <> a -> dict_get obj' k = Some y)
      /\ (forall k g y t y', dict_get b1 k = Some (Some g) -> dict_get obj k = Some y ->
            get_binstr (value g) = Some t -> set_binstr y t = SDone y' (Ok tt) -> dict_get obj' k = Some y').
Proof. exact any_exception. Qed.
Print Assumptions C123_exception_partial.

(** Where attributes or values have no such methods (cocotb 2.x), this is the model of C10. *)
Theorem C123_plain_partial :
  forall (V : Type) (set_binstr : V -> bits -> set_result V) (get_binstr : V -> option bits) (b : bus)
         (value : handle -> V) strict (obj : object V),
    (forall v, get_binstr v = None) \/ (forall x s, set_binstr x s = SNoMethod) ->
    sample_objects V V set_binstr get_binstr (fun v => v) b value obj strict = sample V b value obj strict.
Proof. intros V sb gb b value strict obj H. now apply run_plain. Qed.
Print Assumptions C123_plain_partial.

Example C123_nonvacuous :
  let b : bus := [("data", Some (HSig 1)); ("valid", Some (HSig 2)); ("tag", Some (HSig 3))] in
  let value h := match h with
                 | HSig 1 => PBin [L1; L0; L1] (Some 3) true
                 | HSig 2 => PBin [L1] (Some 1) true
                 | _ => PBin [L1; L1] (Some 2) true
                 end in
  let obj := [("valid", POther 7); ("data", PBin [] (Some 3) false); ("mine", POther 9); ("tag", PBin [L0] None false)] in
  fully_bound b /\ NoDup (map fst b) /\ (forall a, In a (map fst b) -> has_attr obj a)
  /\ (forall a h x, dict_get b a = Some (Some h) -> dict_get obj a = Some x -> fits x (value h))
  /\ sample_1x b value obj true
     = ([("valid", PBin [L1] (Some 1) true); ("data", PBin [L1; L0; L1] (Some 3) false); ("mine", POther 9);
         ("tag", PBin [L1; L1] None false)], Ok tt)
  /\ sample_1x b value [("data", PBin [] (Some 2) true); ("tag", PBin [] (Some 4) true)] false
     = ([("data", PBin [L0; L1] (Some 2) true); ("tag", PBin [L1; L1; L0; L0] (Some 4) true)], Ok tt).
Proof.
  cbn zeta. split; [|split; [|split; [|split]]].
  - intros a h H. cbn in H. intuition congruence.
  - repeat constructor; cbn; intuition discriminate.
  - cbn. intros a [<-|[<-|[<-|[]]]]; vm_compute; eauto.
  - intros a h x. cbn [dict_get].
    repeat (match goal with |- context [String.eqb ?k a] => destruct (String.eqb_spec k a) as [<-|] end; cbn [dict_get];
            [intros [= <-]; vm_compute; intros [= <-]; reflexivity || exact I|]). discriminate.
  - split; vm_compute; reflexivity.
Qed.
