(** BusRefProp.v -- C05, C06, C09, C46: refutations for every case of the kind. *)
From Verif Require Import BusModel BusSpec BusProof BusProp AvMemModel.
Local Open Scope list_scope.

Lemma required_default ent name sep sigs : forall b, exists b', init_required ent name sep None true sigs b = Ok b'.
Proof.
  induction sigs as [|[a s] r IH]; intro b; [exists b; reflexivity|]. cbn [init_required add_signal rbind]. apply IH.
Qed.
Lemma optional_default ent name sep sigs : forall b, exists b', init_optional ent name sep None true sigs b = Ok b'.
Proof.
  induction sigs as [|[a s] r IH]; intro b; [exists b; reflexivity|]. cbn [init_optional].
  destruct (case_insens_getattr ent (signame name sep s)); [cbn [add_signal rbind]|]; apply IH.
Qed.

(** C05, refuted for every bus with the default settings (case_insensitive=True, no index):
    construction never fails, whatever is missing; every missing signal is bound to None. *)
Theorem C05_never_reported_refuted : forall ent name signals optional sep,
  exists b, bus_init ent name signals optional sep true None = Ok b /\
    (one_signal_each (requested signals ++ requested optional) ->
     forall a s, In (a, s) (requested signals) -> ~ has_ci ent (full_name name sep s) -> dict_get b a = Some None).
Proof.
  intros. unfold bus_init. destruct (required_default ent name sep (build_sig_attr_dict signals) []) as [b1 E1].
  destruct (optional_default ent name sep (build_sig_attr_dict optional) b1) as [b2 E2].
  assert (E : bus_init ent name signals optional sep true None = Ok b2) by (unfold bus_init; rewrite E1; exact E2).
  exists b2. split; [rewrite E1; exact E2|]. intros H1 a s H2 H3.
  destruct (bus_missing_deferred _ _ _ _ _ _ _ _ H1 H2 H3 E) as (A & _). exact A.
Qed.
Print Assumptions C05_never_reported_refuted.

(** C06, first half, refuted for every optional signal that is there in another case only: with
    case_insensitive=False construction fails. *)
Theorem C06_other_case_refuted : forall ent name signals optional sep idx a s,
  In (a, s) (requested optional) -> has_ci ent (full_name name sep s) -> ~ has_exact ent (full_name name sep s) ->
  exists e, bus_init ent name signals optional sep false idx = Err e.
Proof.
  intros ent name signals optional sep idx a s Hi Hc Hx. unfold bus_init.
  destruct (init_required ent name sep idx false (build_sig_attr_dict signals) []) as [b|e]; [|exists e; reflexivity]. cbn [rbind].
  apply build_In in Hi. revert b. induction (build_sig_attr_dict optional) as [|[a' s'] r IH]; intro b; [destruct Hi|].
  cbn [init_optional]. destruct Hi as [E|Hi].
  - inversion E; subst. rewrite full_name_signame. destruct (ci_has _ _ Hc) as [h ->]. rewrite add_missing_cs by exact Hx. exists EAttribute. reflexivity.
  - destruct (case_insens_getattr ent (signame name sep s')); [|apply IH; exact Hi].
    destruct (add_signal ent b a' (signame name sep s') idx false) as [b'|e]; [|exists e; reflexivity]. cbn [rbind]. apply IH. exact Hi.
Qed.
Print Assumptions C06_other_case_refuted.

Lemma ci_first e1 n' h' e2 n : ~ has_ci e1 n -> same_name n' n -> case_insens_getattr (e1 ++ (n', h') :: e2) n = Some h'.
Proof.
  intros H S. apply ci_none in H. induction e1 as [|[m x] e1 IH]; cbn [app case_insens_getattr] in *.
  - apply same_name_fold in S. rewrite S, String.eqb_refl. reflexivity.
  - destruct (String.eqb (casefold m) (casefold n)); [discriminate|]. apply IH. exact H.
Qed.
(** C06, second half, refuted for every entity in which a member that differs only in case
    comes before the exactly named one: the attribute is bound to the former. *)
Theorem C06_first_wins_refuted : forall e1 n' h' e2 h name sep a s,
  let n := full_name name sep s in
  n' <> n -> same_name n' n -> ~ has_ci e1 n -> In (n, h) e2 ->
  bus_init (e1 ++ (n', h') :: e2) name (SigDict [(a, s)]) (SigList []) sep true None = Ok [(a, Some h')].
Proof.
  intros e1 n' h' e2 h name sep a s n _ S H _. unfold bus_init. cbn [build_sig_attr_dict init_required fold_left].
  rewrite full_name_signame. cbn [add_signal]. fold n. unfold add_signal. cbn [rbind]. rewrite (ci_first e1 n' h' e2 n H S). reflexivity.
Qed.
Print Assumptions C06_first_wins_refuted.

(** C09, refuted for every signal named like an attribute of dict: attribute access never gives
    the value that was captured. *)
Theorem C09_every_dict_name_refuted : forall (V : Type) (b : bus) (value : handle -> V) c a,
  capture V b value = Ok c -> In a dict_attr_names -> In a (map fst b) ->
  (exists v, dict_get c a = Some v) /\ capture_getattr V c a = Ok (AMethod V).
Proof.
  intros V b value c a Hc Ha Hb. split.
  - destruct (dict_get c a) as [v|] eqn:E; [exists v; reflexivity|]. exfalso. apply dict_get_none in E. apply E.
    clear E Ha. revert c Hc. induction b as [|[k [h|]] r IH]; intros c Hc; [destruct Hb| |discriminate].
    cbn [capture] in Hc. destruct (capture V r value) as [x|]; [|discriminate]. cbn [rbind] in Hc. inversion Hc; subst. cbn [map fst].
    cbn [map fst In] in Hb. destruct Hb as [->|Hb]; [left; reflexivity|right; apply IH; [exact Hb|reflexivity]].
  - unfold capture_getattr. assert (E : existsb (String.eqb a) dict_attr_names = true); [|rewrite E; reflexivity].
    apply existsb_exists. exists a. split; [exact Ha|apply String.eqb_refl].
Qed.
Print Assumptions C09_every_dict_name_refuted.

(** C46, refuted for every set of options that is not the default: all memories constructed
    later without options have them, however many there are in between. *)
Theorem C46_every_refuted : forall d u n,
  fold_left construct (u :: repeat no_props n) d = construct d u /\
  (fold_left construct (u :: repeat no_props n) d = construct d no_props <-> construct d u = d).
Proof.
  intros d u n.
  assert (N : forall x, construct x no_props = x) by (intros [? ? ?]; reflexivity).
  assert (F : forall m x, fold_left construct (repeat no_props m) x = x).
  { induction m as [|m IH]; intro x; [reflexivity|]. cbn [repeat fold_left]. rewrite N. apply IH. }
  cbn [fold_left]. rewrite F, N. split; [reflexivity|]. split; auto.
Qed.
Print Assumptions C46_every_refuted.

(** ** cases *)
Example exbr_missing : exists b, bus_init ex_ent (Some "s"%string) (SigList ["nope"%string]) (SigList []) "_" true None = Ok b /\
  ~ has_ci ex_ent (full_name (Some "s"%string) "_" "nope").
Proof. eexists. split; [vm_compute; reflexivity|]. apply ci_none. vm_compute. reflexivity. Qed.
Example exbr_case : has_ci ex_ent (full_name (Some "s"%string) "_" "valid") /\ ~ has_exact ex_ent (full_name (Some "s"%string) "_" "valid").
Proof.
  destruct C05_nonvacuous as (_ & _ & H). split; [|exact H].
  destruct (case_insens_getattr ex_ent (full_name (Some "s"%string) "_" "valid")) as [h|] eqn:E; [|vm_compute in E; discriminate].
  destruct (ci_some _ _ _ E) as (m & H1 & H2). exists m, h. auto.
Qed.
Example exbr_first : bus_init [("x"%string, HSig 9); ("DATA"%string, HSig 1); ("data"%string, HSig 2)] None (SigDict [("d"%string, "data"%string)]) (SigList []) "_" true None
  = Ok [("d"%string, Some (HSig 1))].
Proof.
  apply (C06_first_wins_refuted [("x"%string, HSig 9)] "DATA"%string (HSig 1) [("data"%string, HSig 2)] (HSig 2) None "_" "d" "data").
  - discriminate.
  - apply same_name_fold. vm_compute. reflexivity.
  - apply ci_none. vm_compute. reflexivity.
  - left. reflexivity.
Qed.
Example exbr_dict : In "keys"%string dict_attr_names /\ In "keys"%string (map fst ex_bus).
Proof. split; cbn; auto 20. Qed.
Example exbr_shared : construct default_props (UProps (Some false) None None) <> default_props.
Proof. vm_compute. discriminate. Qed.
