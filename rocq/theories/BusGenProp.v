(** BusGenProp.v -- C05 and C06: for which entities they fail. *)
From Verif Require Import BusModel BusSpec BusProof BusProp.
Local Open Scope list_scope.

(** C05, false for every entity: with the default settings construction never raises, whatever
    signals are missing (what happens later is C05_missing_required_deferred_partial). *)
Lemma add_default ent b a n : add_signal ent b a n None true = Ok (dict_set b a (case_insens_getattr ent n)).
Proof. reflexivity. Qed.
Theorem C05_never_raises_refuted :
  forall ent name signals optional sep, exists b, bus_init ent name signals optional sep true None = Ok b.
Proof.
  intros ent name signals optional sep. unfold bus_init.
  assert (R : forall sigs b, exists b', init_required ent name sep None true sigs b = Ok b').
  { induction sigs as [|[a s] r IH]; intro b; [exists b; reflexivity|]. cbn [init_required]. rewrite add_default. apply IH. }
  assert (O : forall sigs b, exists b', init_optional ent name sep None true sigs b = Ok b').
  { induction sigs as [|[a s] r IH]; intro b; [exists b; reflexivity|]. cbn [init_optional]. rewrite add_default.
    destruct (case_insens_getattr ent (signame name sep s)); apply IH. }
  destruct (R (build_sig_attr_dict signals) []) as (b & ->). apply O.
Qed.
Print Assumptions C05_never_raises_refuted.

(** C06, first half, false for every bus with case_insensitive=False: an optional signal that the
    entity has in another case only makes construction raise AttributeError, although all required
    signals are there. *)
Theorem C06_other_case_refuted :
  forall ent name signals optional sep a s,
    (forall a s, In (a, s) (requested signals) -> has_exact ent (full_name name sep s)) ->
    In (a, s) (requested optional) -> has_ci ent (full_name name sep s) -> ~ has_exact ent (full_name name sep s) ->
    bus_init ent name signals optional sep false None = Err EAttribute.
Proof.
  intros ent name signals optional sep a s R Hi Hc Hn. unfold bus_init.
  assert (T : exists b, init_required ent name sep None false (build_sig_attr_dict signals) [] = Ok b).
  { apply init_required_total; [exact I|]. intros a0 s0 H0. apply build_In in H0. exact (R a0 s0 H0). }
  destruct T as (b & ->). cbn [rbind]. apply build_In in Hi.
  assert (A : forall sigs b, In (a, s) sigs -> init_optional ent name sep None false sigs b = Err EAttribute); [|apply A; exact Hi].
  clear - Hc Hn. induction sigs as [|[a0 s0] r IH]; intros b Hi; [destruct Hi|]. cbn [init_optional]. rewrite full_name_signame.
  destruct Hi as [E|Hi].
  - injection E as -> ->. destruct (ci_has _ _ Hc) as (h & ->). rewrite add_missing_cs by exact Hn. reflexivity.
  - destruct (case_insens_getattr ent (full_name name sep s0)) as [h|]; [|apply IH, Hi].
    unfold add_signal. destruct (getattr_exact ent (full_name name sep s0)) as [h'|e] eqn:E; cbn [rbind]; [apply IH, Hi|].
    assert (X : forall l e, getattr_exact l (full_name name sep s0) = Err e -> e = EAttribute).
    { clear. induction l as [|[k v] l IH]; intro e; cbn [getattr_exact]; [congruence|]. destruct (String.eqb k _); [discriminate|apply IH]. }
    rewrite (X _ _ E). reflexivity.
Qed.
Print Assumptions C06_other_case_refuted.

(** C06, second half, false for every entity in which a member that differs in case comes before
    the exactly named one (in the order of dir, capitals come first): the attribute is bound to
    the former. *)
Theorem C06_first_in_dir_refuted :
  forall before m h' after name signals optional sep a s,
    let ent := before ++ (m, h') :: after in
    one_signal_each (requested signals ++ requested optional) -> In (a, s) (requested signals ++ requested optional) ->
    same_name m (full_name name sep s) -> ~ has_ci before (full_name name sep s) ->
    exists b, bus_init ent name signals optional sep true None = Ok b /\ dict_get b a = Some (Some h').
Proof.
  intros before m h' after name signals optional sep a s ent O Hi Sm Nb.
  assert (G : case_insens_getattr ent (full_name name sep s) = Some h').
  { unfold ent. clear - Sm Nb. induction before as [|[k v] r IH]; cbn [app case_insens_getattr].
    - apply same_name_fold in Sm. rewrite Sm, String.eqb_refl. reflexivity.
    - destruct (String.eqb_spec (casefold k) (casefold (full_name name sep s))) as [E|E].
      + exfalso. apply Nb. exists k, v. split; [left; reflexivity|apply same_name_fold; exact E].
      + apply IH. intros (k' & v' & J & Q). apply Nb. exists k', v'. split; [right; exact J|exact Q]. }
  assert (K : forall sigs b b', (forall s', In (a, s') sigs -> s' = s) -> (dict_get b a = Some (Some h') \/ In (a, s) sigs) ->
     (init_required ent name sep None true sigs b = Ok b' \/ init_optional ent name sep None true sigs b = Ok b') -> dict_get b' a = Some (Some h')).
  { induction sigs as [|[k t] r IH]; intros b b' U D E.
    - destruct D as [D|[]]. destruct E as [E|E]; injection E as <-; exact D.
    - assert (U' : forall s', In (a, s') r -> s' = s) by (intros s' J; apply U; right; exact J).
      assert (Step : forall b0, b0 = dict_set b k (case_insens_getattr ent (full_name name sep t)) -> dict_get b0 a = Some (Some h') \/ In (a, s) r).
      { intros b0 ->. rewrite dict_get_set. destruct (String.eqb_spec k a) as [->|N].
        - left. rewrite (U t (or_introl eq_refl)), G. reflexivity.
        - destruct D as [D|[D|D]]; [left; exact D|congruence|right; exact D]. }
      destruct E as [E|E].
      + cbn [init_required] in E. rewrite full_name_signame, add_default in E. cbn [rbind] in E. apply (IH _ _ U' (Step _ eq_refl)). left. exact E.
      + cbn [init_optional] in E. rewrite full_name_signame, add_default in E. cbn [rbind] in E.
        destruct (case_insens_getattr ent (full_name name sep t)) as [hh|] eqn:F.
        * apply (IH _ _ U' (Step _ eq_refl)). right. exact E.
        * apply (IH b b' U'); [|right; exact E]. destruct D as [D|[D|D]]; [left; exact D| |right; exact D]. injection D as -> ->. congruence. }
  destruct (C05_never_raises_refuted ent name signals optional sep) as (b & Eb). exists b. split; [exact Eb|].
  unfold bus_init in Eb. destruct (init_required ent name sep None true (build_sig_attr_dict signals) []) as [b1|e] eqn:E1; [|discriminate]. cbn [rbind] in Eb.
  assert (U1 : forall s', In (a, s') (build_sig_attr_dict signals) -> s' = s) by (intros s' J; apply build_In in J; apply (O a); [apply in_or_app; left; exact J|exact Hi]).
  assert (U2 : forall s', In (a, s') (build_sig_attr_dict optional) -> s' = s) by (intros s' J; apply build_In in J; apply (O a); [apply in_or_app; right; exact J|exact Hi]).
  apply (K _ b1 b U2); [|right; exact Eb]. apply in_app_or in Hi. destruct Hi as [Hi|Hi].
  - left. apply (K _ [] b1 U1); [right; apply build_In; exact Hi|left; exact E1].
  - right. apply build_In. exact Hi.
Qed.
Print Assumptions C06_first_in_dir_refuted.

(** ** cases *)
Local Open Scope string_scope.
Local Open Scope list_scope.
Example exb_gen :
  bus_init [] (Some "s") (SigList ["data"; "valid"]) (SigList []) "_" true None = Ok [("data", None); ("valid", None)] /\
  has_ci ex_ent (full_name (Some "s") "_" "valid") /\ ~ has_exact ex_ent (full_name (Some "s") "_" "valid") /\
  bus_init ex_ent (Some "s") (SigList ["ready"]) (SigList ["valid"]) "_" false None = Err EAttribute /\
  same_name "DATA" (full_name None "_" "data") /\ ~ has_ci [("CLK", HSig 0)] (full_name None "_" "data") /\
  bus_init ([("CLK", HSig 0)] ++ ("DATA", HSig 1) :: [("data", HSig 2)]) None (SigList ["data"]) (SigList []) "_" true None = Ok [("data", Some (HSig 1))].
Proof.
  split; [reflexivity|]. split; [exists "S_VALID", (HSig 1); split; [cbn; auto|apply same_name_fold; reflexivity]|].
  split; [intros (h & H); cbn in H; intuition discriminate|]. split; [vm_compute; reflexivity|].
  split; [apply same_name_fold; reflexivity|]. split; [apply ci_none; vm_compute; reflexivity|]. vm_compute. reflexivity.
Qed.

(** C08, false for every bus whose first signals are attributes of the object: the failing strict
    drive has written them. *)
Theorem C08_never_atomic_refuted :
  forall (V : Type) (b1 b2 : bus) a oh (obj : object V),
    b1 <> [] -> fully_bound b1 -> (forall k, In k (map fst b1) -> has_attr obj k) -> ~ has_attr obj a ->
    snd (drive V (b1 ++ (a, oh) :: b2) obj true) = Err EAttribute /\ fst (drive V (b1 ++ (a, oh) :: b2) obj true) <> [].
Proof.
  intros V b1 b2 a oh obj Ne Hf Ha Hn. rewrite (drive_strict_missing b1 b2 a oh obj Hf Ha Hn). split; [reflexivity|]. cbn [fst].
  destruct b1 as [|[k kh] r]; [contradiction|]. apply fully_bound_cons in Hf. destruct Hf as ((h & E) & _). cbn in E. subst kh.
  destruct (Ha k (or_introl eq_refl)) as (v & Ev). unfold expected_writes. cbn [flat_map fst snd]. rewrite Ev. discriminate.
Qed.
Print Assumptions C08_never_atomic_refuted.

(** C09, false for every signal named like an attribute of dict: the value is in the capture, but
    attribute access gives the dict's own attribute. *)
Theorem C09_every_dict_name_refuted :
  forall (V : Type) (b : bus) (value : handle -> V) name h,
    In name dict_attr_names -> fully_bound b -> dict_get b name = Some (Some h) ->
    exists c, capture V b value = Ok c /\ dict_get c name = Some (value h) /\ capture_getattr V c name = Ok (AMethod V).
Proof.
  intros V b value name h Hi Hf Hb. destruct (capture_spec b value Hf) as (c & E & _ & G). exists c. split; [exact E|].
  split; [rewrite G, Hb; reflexivity|]. unfold capture_getattr. replace (existsb (String.eqb name) dict_attr_names) with true; [reflexivity|].
  symmetry. apply existsb_exists. exists name. split; [exact Hi|apply String.eqb_refl].
Qed.
Print Assumptions C09_every_dict_name_refuted.

Example exb_gen2 :
  let b : bus := [("valid", Some (HSig 1)); ("items", Some (HSig 4))] in
  fully_bound b /\ In "items" dict_attr_names /\ dict_get b "items" = Some (Some (HSig 4)) /\
  ~ has_attr [("valid", 3)] "items" /\ drive nat b [("valid", 3)] true = ([(HSig 1, 3)], Err EAttribute).
Proof.
  cbn zeta. split; [intros a h H; cbn in H; intuition congruence|]. split; [cbn; auto 9|]. split; [reflexivity|].
  split; [intros (v & H); discriminate|reflexivity].
Qed.
