(** SampleProof.v -- lemmas for C123. *)
From Verif Require Import Base BusModel BusSpec BusProof CompatModel BitsLemmas CompatProof SampleModel SampleSpec.
Local Open Scope list_scope.

Section Generic.
Variables (A V : Type) (set_binstr : A -> bits -> set_result A) (get_binstr : V -> option bits) (as_attr : V -> A).
Notation one := (sample_attr A V set_binstr get_binstr as_attr).
Notation run := (sample_objects A V set_binstr get_binstr as_attr).

Lemma run_spec (b : bus) (value : handle -> V) strict : forall (obj : object A),
  fully_bound b -> NoDup (map fst b) ->
  (strict = true -> forall a, In a (map fst b) -> has_attr obj a) ->
  (forall a h x, dict_get b a = Some (Some h) -> dict_get obj a = Some x -> snd (one x (value h)) = Ok tt) ->
  exists obj', run b value obj strict = (obj', Ok tt)
    /\ map fst obj' = map fst obj
    /\ (forall a x, dict_get obj a = Some x ->
          dict_get obj' a = Some (match dict_get b a with
                                  | Some (Some h) => fst (one x (value h))
                                  | _ => x
                                  end)).
Proof.
  induction b as [|[a oh] r IH]; cbn; intros obj Hf Hn Hs Hr0.
  - exists obj. repeat split; auto.
  - apply fully_bound_cons in Hf. destruct Hf as ((h & E) & Hf). cbn in E. subst oh.
    inversion Hn as [|x l Hx Hr]; subst.
    assert (Hga : dict_get r a = None) by now apply dict_get_notin.
    assert (Hne : forall k h', dict_get r k = Some h' -> String.eqb a k = false).
    { intros k h' Hk. destruct (String.eqb_spec a k) as [->|]; [congruence|reflexivity]. }
    destruct (dict_get obj a) as [x0|] eqn:Ea.
    + assert (R := Hr0 a h x0). rewrite String.eqb_refl in R. specialize (R eq_refl Ea).
      destruct (one x0 (value h)) as [x1 o1] eqn:E1. cbn in R. subst o1.
      destruct (IH (dict_set obj a x1) Hf Hr) as (obj' & -> & Hk & Hv).
      { intros Hst k Hk. unfold has_attr. rewrite dict_get_set. destruct (String.eqb a k); [eauto|].
        apply Hs; auto. }
      { intros k h' y Hk Hy. assert (N := Hne _ _ Hk). rewrite dict_get_set, N in Hy.
        apply (Hr0 k); [now rewrite N|exact Hy]. }
      exists obj'. split; [reflexivity|]. split; [rewrite Hk; eapply dict_set_keys; eauto|].
      intros k y Ek. destruct (String.eqb_spec a k) as [->|Hak].
      * rewrite (Hv k x1); [rewrite Hga; rewrite Ea in Ek; injection Ek as <-; now rewrite E1|].
        rewrite dict_get_set, String.eqb_refl. reflexivity.
      * apply Hv. rewrite dict_get_set. destruct (String.eqb_spec a k); [contradiction|exact Ek].
    + destruct strict.
      * exfalso. destruct (Hs eq_refl a (or_introl eq_refl)) as (v & C). congruence.
      * destruct (IH obj Hf Hr) as (obj' & -> & Hk & Hv); [discriminate| |].
        { intros k h' y Hk Hy. apply (Hr0 k); [now rewrite (Hne _ _ Hk)|exact Hy]. }
        exists obj'. split; [reflexivity|]. split; [exact Hk|]. intros k v Ek.
        destruct (String.eqb_spec a k) as [->|Hak]; [congruence|]. now apply Hv.
Qed.

(** an exception of set_binstr ends the sampling there *)
Lemma run_raise (b1 b2 : bus) a h (value : handle -> V) strict x x' e : forall (obj : object A),
  fully_bound b1 -> NoDup (map fst (b1 ++ (a, Some h) :: b2)) ->
  (strict = true -> forall k, In k (map fst b1) -> has_attr obj k) ->
  (forall k g y, dict_get b1 k = Some (Some g) -> dict_get obj k = Some y -> snd (one y (value g)) = Ok tt) ->
  dict_get obj a = Some x -> one x (value h) = (x', Err e) ->
  exists obj', run (b1 ++ (a, Some h) :: b2) value obj strict = (obj', Err e)
    /\ map fst obj' = map fst obj
    /\ (forall k y, dict_get obj k = Some y ->
          dict_get obj' k = Some (if String.eqb k a then x'
                                  else match dict_get b1 k with
                                       | Some (Some g) => fst (one y (value g))
                                       | _ => y
                                       end)).
Proof.
  induction b1 as [|[c ch] r IH]; cbn [map app fst]; intros obj Hf Hn Hs Hok Ha Hx.
  - cbn. rewrite Ha, Hx. exists (dict_set obj a x'). split; [reflexivity|].
    split; [eapply dict_set_keys; eauto|]. intros k y Ek. rewrite dict_get_set.
    rewrite (String.eqb_sym k a). destruct (String.eqb a k); auto.
  - apply fully_bound_cons in Hf. destruct Hf as ((g & E) & Hf). cbn in E. subst ch.
    inversion Hn as [|z l Hz Hr]; subst.
    assert (Hca : c <> a). { intros ->. apply Hz. rewrite map_app. apply in_or_app. right. now left. }
    assert (Hgc : dict_get r c = None).
    { apply dict_get_notin. intros C. apply Hz. rewrite map_app. apply in_or_app. now left. }
    assert (Hne : forall k h', dict_get r k = Some h' -> String.eqb c k = false).
    { intros k h' Hk. destruct (String.eqb_spec c k) as [->|]; [congruence|reflexivity]. }
    cbn [sample_objects]. destruct (dict_get obj c) as [x0|] eqn:Ec.
    + assert (R := Hok c g x0). cbn in R. rewrite String.eqb_refl in R. specialize (R eq_refl Ec).
      destruct (one x0 (value g)) as [x1 o1] eqn:E1. cbn in R. subst o1.
      destruct (IH (dict_set obj c x1) Hf Hr) as (obj' & -> & Hk & Hv).
      { intros Hst k Hk. unfold has_attr. rewrite dict_get_set. destruct (String.eqb c k); [eauto|].
        apply Hs; cbn; auto. }
      { intros k h' y Hk Hy. assert (N := Hne _ _ Hk). rewrite dict_get_set, N in Hy.
        apply (Hok k); [cbn; now rewrite N|exact Hy]. }
      { rewrite dict_get_set. destruct (String.eqb_spec c a); [contradiction|exact Ha]. }
      { exact Hx. }
      exists obj'. split; [reflexivity|]. split; [rewrite Hk; eapply dict_set_keys; eauto|].
      intros k y Ek. cbn [dict_get]. destruct (String.eqb_spec c k) as [->|Hck].
      * rewrite (Hv k x1) by (rewrite dict_get_set, String.eqb_refl; reflexivity).
        rewrite Hgc. rewrite Ec in Ek. injection Ek as <-. rewrite E1. reflexivity.
      * apply Hv. rewrite dict_get_set. destruct (String.eqb_spec c k); [contradiction|exact Ek].
    + destruct strict.
      * exfalso. destruct (Hs eq_refl c (or_introl eq_refl)) as (v & C). congruence.
      * destruct (IH obj Hf Hr) as (obj' & -> & Hk & Hv); [discriminate| |exact Ha|exact Hx|].
        { intros k h' y Hk Hy. apply (Hok k); [cbn; now rewrite (Hne _ _ Hk)|exact Hy]. }
        exists obj'. split; [reflexivity|]. split; [exact Hk|]. intros k v Ek. cbn [dict_get].
        destruct (String.eqb_spec c k) as [->|Hck]; [congruence|]. now apply Hv.
Qed.
End Generic.

(** without set_binstr or get_binstr methods: the plain model *)
Lemma run_plain {V} (set_binstr : V -> bits -> set_result V) (get_binstr : V -> option bits) (b : bus)
      (value : handle -> V) strict :
  (forall v, get_binstr v = None) \/ (forall x s, set_binstr x s = SNoMethod) ->
  forall obj : object V, sample_objects V V set_binstr get_binstr (fun v => v) b value obj strict
                         = sample V b value obj strict.
Proof.
  intros H. assert (S : forall x v, sample_attr V V set_binstr get_binstr (fun v => v) x v = (v, Ok tt)).
  { intros x v. unfold sample_attr. destruct H as [H|H]; [now rewrite H|].
    destruct (get_binstr v); [now rewrite H|reflexivity]. }
  induction b as [|[a oh] r IH]; cbn; intros obj; [reflexivity|].
  destruct (dict_get obj a); [|now rewrite IH]. destruct oh; [|reflexivity]. now rewrite S.
Qed.

Lemma attr_1x x v : snd (sample_attr pyobj pyobj set_binstr_1x get_binstr_1x (fun v => v) x v) = Ok tt.
Proof. destruct v as [s n e|k], x as [s' [m|] e'|k']; reflexivity. Qed.

Lemma attr_1x_shows x v :
  fits x v -> shows (fst (sample_attr pyobj pyobj set_binstr_1x get_binstr_1x (fun v => v) x v)) = shows v.
Proof.
  destruct v as [s n e|k], x as [s' [m|] e'|k']; cbn; try reflexivity. intros H. f_equal.
  unfold adjust_1x. rewrite H, Nat.ltb_irrefl, Nat.sub_diag. reflexivity.
Qed.

Lemma attr_1x_options x v :
  shows x <> None -> shows v <> None ->
  options (fst (sample_attr pyobj pyobj set_binstr_1x get_binstr_1x (fun v => v) x v)) = options x.
Proof. destruct v as [s n e|k], x as [s' [m|] e'|k']; cbn; congruence. Qed.

Lemma adjust_length s n e : length (adjust_1x s n e) = n.
Proof.
  unfold adjust_1x. destruct (Nat.ltb_spec (length s) n) as [H|H].
  - destruct e; rewrite app_length; unfold zeros; rewrite repeat_length; lia.
  - rewrite skipn_length. lia.
Qed.

(** a longer value loses its leftmost bits; a shorter one gets zeros on the side the byte order says *)
Lemma adjust_long s n e : n <= length s -> exists pre, s = pre ++ adjust_1x s n e.
Proof.
  intros H. unfold adjust_1x. destruct (Nat.ltb_spec (length s) n); [lia|].
  exists (firstn (length s - n) s). now rewrite firstn_skipn.
Qed.

Lemma wide_value s k : 0 < k ->
  forall z, bval s = Some z -> bval (adjust_1x s (length s + k) true) = Some (z * 2 ^ Z.of_nat k)%Z.
Proof.
  intros H z Hz. unfold adjust_1x. destruct (Nat.ltb_spec (length s) (length s + k)); [|lia].
  replace (length s + k - length s) with k by lia.
  rewrite bval_app, Hz, bval_zeros. unfold zeros. rewrite repeat_length. f_equal. lia.
Qed.

Lemma any_class :
  forall (A V : Type) (set_binstr : A -> bits -> set_result A) (get_binstr : V -> option bits) (as_attr : V -> A)
         (b : bus) (value : handle -> V) strict (obj : object A),
    fully_bound b -> NoDup (map fst b) ->
    (strict = true -> forall a, In a (map fst b) -> has_attr obj a) ->
    (forall x s x' e, set_binstr x s = SDone x' (Err e) -> e = EAttribute) ->
    exists obj', sample_objects A V set_binstr get_binstr as_attr b value obj strict = (obj', Ok tt)
      /\ map fst obj' = map fst obj
      /\ forall a x, dict_get obj a = Some x ->
           exists x', dict_get obj' a = Some x'
             /\ match dict_get b a with
                | Some (Some h) =>
                    (exists s u, get_binstr (value h) = Some s /\ set_binstr x s = SDone x' (Ok u))
                    \/ (x' = as_attr (value h)
                        /\ forall s y u, get_binstr (value h) = Some s -> set_binstr x s <> SDone y (Ok u))
                | _ => x' = x
                end.
Proof.
  intros A V sb gb aa b value strict obj Hf Hn Hs He.
  destruct (run_spec A V sb gb aa b value strict obj Hf Hn Hs) as (o & E & Hk & Hv).
  { intros a h x _ _. unfold sample_attr. destruct (gb (value h)) as [s|]; [|reflexivity].
    destruct (sb x s) as [|x' [[]|e]] eqn:Es; try reflexivity. rewrite (He _ _ _ _ Es). reflexivity. }
  exists o. split; [exact E|]. split; [exact Hk|]. intros a x Hx. eexists. split; [apply Hv; exact Hx|].
  destruct (dict_get b a) as [[h|]|]; [|reflexivity|reflexivity].
  unfold sample_attr. destruct (gb (value h)) as [s|] eqn:Eg; [|right; split; [reflexivity|discriminate]].
  destruct (sb x s) as [|x' [u|e]] eqn:Es.
  - right. split; [reflexivity|]. intros s' y u [= <-]. congruence.
  - left. exists s, u. auto.
  - right. rewrite (He _ _ _ _ Es). split; [reflexivity|]. intros s' y u [= <-]. congruence.
Qed.

Lemma any_exception :
  forall (A V : Type) (set_binstr : A -> bits -> set_result A) (get_binstr : V -> option bits) (as_attr : V -> A)
         (b1 b2 : bus) a h (value : handle -> V) strict (obj : object A) x s x' e,
    fully_bound b1 -> NoDup (map fst (b1 ++ (a, Some h) :: b2)) ->
    (strict = true -> forall k, In k (map fst b1) -> has_attr obj k) ->
    (forall k g y, dict_get b1 k = Some (Some g) -> dict_get obj k = Some y ->
       forall t, get_binstr (value g) = Some t -> exists y', set_binstr y t = SDone y' (Ok tt)) ->
    dict_get obj a = Some x -> get_binstr (value h) = Some s ->
    set_binstr x s = SDone x' (Err e) -> e <> EAttribute ->
    exists obj', sample_objects A V set_binstr get_binstr as_attr (b1 ++ (a, Some h) :: b2) value obj strict
                 = (obj', Err e)
      /\ dict_get obj' a = Some x'
      /\ (forall k y, dict_get obj k = Some y -> ~ In k (map fst b1) -> k <> a -> dict_get obj' k = Some y)
      /\ (forall k g y t y', dict_get b1 k = Some (Some g) -> dict_get obj k = Some y ->
            get_binstr (value g) = Some t -> set_binstr y t = SDone y' (Ok tt) -> dict_get obj' k = Some y').
Proof.
  intros A V sb gb aa b1 b2 a h value strict obj x s x' e Hf Hn Hs Hok Ha Hg Hx He.
  destruct (run_raise A V sb gb aa b1 b2 a h value strict x x' e obj Hf Hn Hs) as (o & E & Hk & Hv).
  - intros k g y H1 H2. unfold sample_attr. destruct (gb (value g)) as [t|] eqn:Et; [|reflexivity].
    destruct (Hok k g y H1 H2 t Et) as (y' & ->). reflexivity.
  - exact Ha.
  - unfold sample_attr. rewrite Hg, Hx. destruct e; try reflexivity. congruence.
  - exists o. split; [exact E|]. split; [rewrite (Hv a x Ha), String.eqb_refl; reflexivity|]. split.
    + intros k y Hy Hin Hka. rewrite (Hv k y Hy). destruct (String.eqb_spec k a); [contradiction|].
      destruct (dict_get b1 k) as [[g|]|] eqn:Eb; try reflexivity. exfalso. apply Hin.
      apply dict_get_In in Eb. now apply in_map with (f := fst) in Eb.
    + intros k g y t y' H1 H2 H3 H4. rewrite (Hv k y H2), H1. unfold sample_attr. rewrite H3, H4.
      destruct (String.eqb_spec k a) as [->|]; [|reflexivity]. exfalso.
      apply dict_get_In in H1. apply in_map with (f := fst) in H1. cbn in H1.
      rewrite map_app in Hn. apply NoDup_remove_2 in Hn. apply Hn. apply in_or_app. now left.
Qed.
