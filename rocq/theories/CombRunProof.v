(** CombRunProof.v -- proofs about runs of the script: the files found and written. *)
From Verif Require Import CombProof CombSpec CombHeapModel CombHeapSpec CombHeapProof CombHeapProof2 CombHeapAgree CombRunModel CombRunSpec.
From Coq Require Import Lia Arith Permutation.
Local Open Scope list_scope.
Local Notation length := List.length.

Section NodeInd.
  Variable P : node -> Prop.
  Hypothesis HF : forall c, P (File c).
  Hypothesis HD : forall es, Forall (fun e => P (snd e)) es -> P (Dir es).
  Hypothesis HL : P DirLink.
  Hypothesis HK : P Locked.
  Fixpoint node_ind2 (n : node) : P n :=
    match n with
    | File c => HF c
    | Dir es => HD es ((fix go (es : list (string * node)) : Forall (fun e => P (snd e)) es :=
                          match es with [] => Forall_nil _ | e :: es => Forall_cons e (node_ind2 (snd e)) (go es) end) es)
    | DirLink => HL
    | Locked => HK
    end.
End NodeInd.

Lemma tidy_dir es : tidy (Dir es) <-> NoDup (map fst es) /\ Forall (fun e => tidy (snd e)) es.
Proof.
  cbn [tidy]. apply and_iff_compat_l. induction es as [|[k n] es IH].
  - split; constructor.
  - rewrite IH. split; [intros [A B]; constructor; assumption|intros H; inversion H; subst; split; assumption].
Qed.
Lemma entry_in k n es : NoDup (map fst es) -> entry k es = Some n <-> In (k, n) es.
Proof.
  induction es as [|[k' n'] es IH]; cbn [entry map fst In]; intros N; [split; [discriminate|intros []]|].
  inversion N as [|? ? NI N']; subst. destruct (String.eqb_spec k' k) as [->|D].
  - split; [intros [= ->]; left; reflexivity|]. intros [[= ->]|I]; [reflexivity|]. exfalso. apply NI, in_map_iff. exists (k, n). auto.
  - rewrite (IH N'). split; [auto|]. intros [[= A B]|I]; [congruence|exact I].
Qed.
Lemma entry_some k n es : entry k es = Some n -> In (k, n) es.
Proof.
  induction es as [|[k' n'] es IH]; cbn [entry]; [discriminate|]. destruct (String.eqb_spec k' k) as [->|D]; [intros [= ->]; left; reflexivity|right; auto].
Qed.
Lemma lookup_app p : forall n q, lookup n (p ++ q) = match lookup n p with Some m => lookup m q | None => None end.
Proof.
  induction p as [|k p IH]; intros n q; [reflexivity|]. cbn [lookup app]. destruct n as [c|es| |]; try reflexivity.
  destruct (entry k es); [apply IH|reflexivity].
Qed.
Lemma lookup_tidy p : forall n m, tidy n -> lookup n p = Some m -> tidy m.
Proof.
  induction p as [|k p IH]; cbn [lookup]; intros n m T L; [injection L as <-; exact T|]. destruct n as [c|es| |]; try discriminate.
  apply tidy_dir in T as [N F]. destruct (entry k es) as [x|] eqn:E; [|discriminate]. apply entry_some in E.
  apply (IH x); [|exact L]. rewrite Forall_forall in F. exact (F _ E).
Qed.

(** ** find_all *)
Lemma found_iff name n : tidy n -> forall root p, In p (find_below name root n) <->
  exists below c, p = root ++ below ++ [name] /\ lookup n (below ++ [name]) = Some (File c).
Proof.
  induction n as [c|es IH| |] using node_ind2; intros T root p;
    try (cbn [find_below]; split; [intros []|intros ([|k b] & c' & _ & H); discriminate H]).
  apply tidy_dir in T as [N F]. cbn [find_below]. rewrite in_app_iff, in_flat_map. split.
  - intros [I|([k n] & I & J)].
    + destruct (existsb _ es) eqn:X; [|destruct I]. destruct I as [<-|[]]. apply existsb_exists in X as ([k n] & I & Q).
      apply andb_true_iff in Q as [Q R]. apply String.eqb_eq in Q as ->. destruct n as [c| | |]; try discriminate R.
      exists [], c. split; [reflexivity|]. cbn [app lookup]. rewrite (proj2 (entry_in name (File c) es N) I). reflexivity.
    + rewrite Forall_forall in IH, F. apply (IH _ I (F _ I)) in J as (b & c & -> & L). exists (k :: b), c. split; [rewrite <- app_assoc; reflexivity|].
      cbn [app lookup]. rewrite (proj2 (entry_in k n es N) I). exact L.
  - intros ([|k b] & c & -> & L); cbn [app lookup] in L.
    + left. destruct (entry name es) as [n|] eqn:E; [|discriminate]. injection L as ->. apply entry_some in E.
      assert (X : existsb (fun '(k, c) => String.eqb k name && is_file c) es = true).
      { apply existsb_exists. exists (name, File c). split; [exact E|]. rewrite String.eqb_refl. reflexivity. }
      rewrite X. left. reflexivity.
    + right. destruct (entry k es) as [n|] eqn:E; [|discriminate]. apply entry_some in E. exists (k, n). split; [exact E|].
      rewrite Forall_forall in IH, F. apply (IH _ E (F _ E)). exists b, c. rewrite <- app_assoc. split; [reflexivity|exact L].
Qed.
Lemma found_root name n : forall root p, In p (find_below name root n) -> exists b, p = root ++ b ++ [name].
Proof.
  induction n as [c|es IH| |] using node_ind2; intros root p; cbn [find_below]; try (intros []).
  rewrite in_app_iff, in_flat_map. intros [I|([k n] & I & J)].
  - destruct (existsb _ es); [|destruct I]. destruct I as [<-|[]]. exists []. reflexivity.
  - rewrite Forall_forall in IH. apply (IH _ I) in J as (b & ->). exists (k :: b). rewrite <- app_assoc. reflexivity.
Qed.
Lemma nodup_app {T} (a b : list T) : NoDup a -> NoDup b -> (forall x, In x a -> ~ In x b) -> NoDup (a ++ b).
Proof.
  induction a as [|x a IH]; intros A B D; [exact B|]. inversion A; subst. cbn [app]. constructor.
  - rewrite in_app_iff. intros [I|I]; [contradiction|exact (D x (or_introl eq_refl) I)].
  - apply IH; [assumption|exact B|]. intros y Y. apply D. right; exact Y.
Qed.
Lemma found_nodup name n : tidy n -> forall root, NoDup (find_below name root n).
Proof.
  induction n as [c|es IH| |] using node_ind2; intros T root; try constructor.
  apply tidy_dir in T as [N F]. cbn [find_below]. apply nodup_app.
  - destruct (existsb _ es); repeat constructor. intros [].
  - revert N F. induction IH as [|[k n] es P _ IHes]; intros N F; [constructor|]. cbn [flat_map map fst snd] in *.
    inversion N as [|? ? NI N']; inversion F as [|? ? Tn F']; subst. apply nodup_app; [apply P, Tn|apply IHes; assumption|].
    intros p I J. apply found_root in I as (b & ->). apply in_flat_map in J as ([k' n'] & I' & J). apply found_root in J as (b' & E).
    rewrite <- !app_assoc in E. apply app_inv_head in E. cbn [app] in E. injection E as -> _. apply NI, in_map_iff. exists (k', n'). auto.
  - intros p I J. destruct (existsb _ es); [|destruct I]. destruct I as [<-|[]]. apply in_flat_map in J as ([k n] & I & J).
    apply found_root in J as (b & E). rewrite <- app_assoc in E. apply app_inv_head in E. cbn [app] in E. injection E as _ E. destruct b; discriminate E.
Qed.
Lemma find_all_iff fs dir : tidy fs -> NoDup (find_all fs "results.xml" dir) /\
  forall p, In p (find_all fs "results.xml" dir) <-> input fs dir p.
Proof.
  intros T. unfold find_all, input. destruct (lookup fs dir) as [n|] eqn:L.
  - pose proof (lookup_tidy _ _ _ T L) as Tn. split; [apply found_nodup, Tn|]. intros p. rewrite (found_iff _ _ Tn). split.
    + intros (b & c & -> & E). split; [exists b; reflexivity|]. exists c. rewrite lookup_app, L. exact E.
    + intros [(b & ->) (c & E)]. exists b, c. split; [reflexivity|]. rewrite lookup_app, L in E. exact E.
  - split; [constructor|]. intros p. split; [intros []|]. intros [(b & ->) (c & E)]. rewrite lookup_app, L in E. discriminate E.
Qed.

(** ** parse_all *)
Lemma parse_some fs p x : parse fs p = Some x <-> lookup fs p = Some (File (Some x)).
Proof. unfold parse. destruct (lookup fs p) as [[c| | |]|]; split; intros H; try discriminate H; [subst; reflexivity|injection H as ->; reflexivity]. Qed.
Lemma parse_all_some fs ps : (forall p, In p ps -> exists x, parse fs p = Some x) ->
  exists xs, parse_all fs ps = Some xs /\ Forall2 (fun p x => lookup fs p = Some (File (Some x))) ps xs.
Proof.
  induction ps as [|p ps IH]; intros H; [exists []; split; [reflexivity|constructor]|].
  destruct (H p (or_introl eq_refl)) as (x & X). destruct (IH (fun q Q => H q (or_intror Q))) as (xs & E & F).
  exists (x :: xs). cbn [parse_all]. rewrite X, E. split; [reflexivity|]. constructor; [apply parse_some, X|exact F].
Qed.
Lemma parse_all_none fs ps p : In p ps -> parse fs p = None -> parse_all fs ps = None.
Proof.
  induction ps as [|q ps IH]; [intros []|]. intros [->|I] E; cbn [parse_all]; [rewrite E; reflexivity|].
  rewrite (IH I E). destruct (parse fs q); reflexivity.
Qed.

(** ** write *)
Lemma entry_set k n es j : entry j (set_entry k n es) = if String.eqb k j then Some n else entry j es.
Proof.
  induction es as [|[k' n'] es IH]; cbn [set_entry entry]; [reflexivity|].
  destruct (String.eqb_spec k' k) as [->|D]; cbn [entry].
  - destruct (String.eqb k j); reflexivity.
  - destruct (String.eqb_spec k' j) as [->|D']; [|exact IH]. destruct (String.eqb_spec k j); [congruence|reflexivity].
Qed.
Lemma set_names k n es : map fst (set_entry k n es) = match entry k es with Some _ => map fst es | None => map fst es ++ [k] end.
Proof.
  induction es as [|[k' n'] es IH]; cbn [set_entry entry map fst app]; [reflexivity|].
  destruct (String.eqb_spec k' k) as [->|D]; cbn [map fst]; [reflexivity|]. rewrite IH. destruct (entry k es); reflexivity.
Qed.
Lemma entry_none k es : entry k es = None -> ~ In k (map fst es).
Proof.
  induction es as [|[k' n'] es IH]; cbn [entry map fst In]; [intros _ []|]. destruct (String.eqb_spec k' k); [discriminate|].
  intros E [A|A]; [contradiction|exact (IH E A)].
Qed.
Lemma set_tidy k n es : tidy (Dir es) -> tidy n -> tidy (Dir (set_entry k n es)).
Proof.
  rewrite !tidy_dir. intros [N F] T. split.
  - rewrite set_names. destruct (entry k es) eqn:E; [exact N|]. apply nodup_app; [exact N|repeat constructor; intros []|].
    intros x X [<-|[]]. exact (entry_none _ _ E X).
  - clear N. induction F as [|[k' n'] es A F IH]; cbn [set_entry]; [repeat constructor; exact T|].
    destruct (String.eqb k' k); constructor; try assumption.
Qed.
Lemma write_tidy x p : forall n n', tidy n -> write n p x = Some n' -> tidy n'.
Proof.
  induction p as [|k p IH]; intros n n' T W; [discriminate W|]. cbn [write] in W.
  destruct p as [|k2 p].
  - destruct n as [c|es| |]; try discriminate W. destruct (entry k es) as [[c| | |]|]; try discriminate W; injection W as <-; apply set_tidy; try exact T; exact I.
  - destruct n as [c|es| |]; try discriminate W. destruct (entry k es) as [m|] eqn:E; [|discriminate W].
    destruct (write m (k2 :: p) x) as [m'|] eqn:W'; [|discriminate W]. injection W as <-. apply set_tidy; [exact T|].
    apply (IH m); [|exact W']. apply tidy_dir in T as [_ F]. apply entry_some in E. rewrite Forall_forall in F. exact (F _ E).
Qed.
Lemma write_lookup x p : forall n n', write n p x = Some n' -> forall q,
  (q = p -> lookup n' q = Some (File (Some x))) /\
  (q <> p -> (forall c, lookup n' q = Some (File c) <-> lookup n q = Some (File c)) /\
             ((exists es, lookup n' q = Some (Dir es)) <-> (exists es, lookup n q = Some (Dir es)))).
Proof.
  induction p as [|k p IH]; intros n n' W q; [discriminate W|]. cbn [write] in W. destruct p as [|k2 p].
  - destruct n as [c|es| |]; try discriminate W.
    assert (E : n' = Dir (set_entry k (File (Some x)) es) /\ (entry k es = None \/ exists c, entry k es = Some (File c))).
    { destruct (entry k es) as [[c| | |]|]; try discriminate W; injection W as <-; (split; [reflexivity|]); [right; exists c|left]; reflexivity. }
    clear W. destruct E as [-> E]. split.
    + intros ->. cbn [lookup]. rewrite entry_set, String.eqb_refl. reflexivity.
    + intros D. destruct q as [|j q].
      * cbn [lookup]. split; [intros c; split; discriminate|]. split; intros _; eexists; reflexivity.
      * cbn [lookup]. rewrite entry_set. destruct (String.eqb_spec k j) as [->|Dj]; [|tauto].
        destruct q as [|i q]; [congruence|]. cbn [lookup].
        destruct E as [->|[c ->]]; cbn [lookup]; (split; [intros; split; discriminate|split; intros [? H]; discriminate H]).
  - destruct n as [c|es| |]; try discriminate W. destruct (entry k es) as [m|] eqn:E; [|discriminate W].
    destruct (write m (k2 :: p) x) as [m'|] eqn:W'; [|discriminate W]. injection W as <-. specialize (IH m m' W'). split.
    + intros ->. change (lookup (Dir (set_entry k m' es)) (k :: k2 :: p)) with (match entry k (set_entry k m' es) with Some n => lookup n (k2 :: p) | None => None end).
      rewrite entry_set, String.eqb_refl. exact (proj1 (IH (k2 :: p)) eq_refl).
    + intros D. destruct q as [|j q].
      * cbn [lookup]. split; [intros c; split; discriminate|]. split; intros _; eexists; reflexivity.
      * cbn [lookup]. rewrite entry_set. destruct (String.eqb_spec k j) as [->|Dj]; [|tauto]. rewrite E.
        apply (IH q). congruence.
Qed.
Lemma write_ok x p : forall n, writable n p -> exists n', write n p x = Some n'.
Proof.
  induction p as [|k p IH]; intros n (dir & name & E & (es & L) & H); [destruct dir; discriminate E|].
  destruct dir as [|k' dir].
  - cbn [app] in E. injection E as -> ->. cbn [lookup] in L. injection L as ->. cbn [write]. cbn [lookup] in H.
    destruct H as [H|[c H]]; destruct (entry name es) as [m|]; try discriminate H; [eexists; reflexivity|]. injection H as ->. eexists; reflexivity.
  - cbn [app] in E. injection E as <- ->. cbn [lookup] in L, H. destruct n as [c|es'| |]; try discriminate L.
    destruct (entry k es') as [m|] eqn:Em; [|discriminate L].
    destruct (IH m) as (m' & W); [exists dir, name; split; [reflexivity|]; split; [exists es; exact L|exact H]|].
    cbn [write]. rewrite Em, W. destruct (dir ++ [name]) as [|a b] eqn:A; [destruct dir; discriminate A|]. eexists. reflexivity.
Qed.
Lemma write_needs x p : forall n n', write n p x = Some n' -> writable n p.
Proof.
  induction p as [|k p IH]; intros n n' W; [discriminate W|]. cbn [write] in W. destruct p as [|k2 p].
  - destruct n as [c|es| |]; try discriminate W. exists [], k. split; [reflexivity|]. split; [exists es; reflexivity|]. cbn [lookup].
    destruct (entry k es) as [[c| | |]|]; try discriminate W; [right; exists c; reflexivity|left; reflexivity].
  - destruct n as [c|es| |]; try discriminate W. destruct (entry k es) as [m|] eqn:E; [|discriminate W].
    destruct (write m (k2 :: p) x) as [m'|] eqn:W'; [|discriminate W]. destruct (IH m m' W') as (dir & name & A & (es' & L) & H).
    exists (k :: dir), name. rewrite A. split; [reflexivity|]. cbn [lookup]. rewrite E. rewrite A in H. split; [exists es'; exact L|exact H].
Qed.
Lemma write_again x p : forall n n', write n p x = Some n' -> write n' p x = Some n'.
Proof.
  assert (SE : forall k n es, set_entry k n (set_entry k n es) = set_entry k n es).
  { intros k n es. induction es as [|[k' n'] es IH]; cbn [set_entry].
    - rewrite String.eqb_refl. reflexivity.
    - destruct (String.eqb k' k) eqn:Q; cbn [set_entry]; rewrite Q; [reflexivity|rewrite IH; reflexivity]. }
  induction p as [|k p IH]; intros n n' W; [discriminate W|]. cbn [write] in W. destruct p as [|k2 p].
  - destruct n as [c|es| |]; try discriminate W.
    assert (E : n' = Dir (set_entry k (File (Some x)) es)) by (destruct (entry k es) as [[c| | |]|]; try discriminate W; injection W as <-; reflexivity).
    subst n'. cbn [write]. rewrite entry_set, String.eqb_refl, SE. reflexivity.
  - destruct n as [c|es| |]; try discriminate W. destruct (entry k es) as [m|] eqn:E; [|discriminate W].
    destruct (write m (k2 :: p) x) as [m'|] eqn:W'; [|discriminate W]. injection W as <-.
    change (write (Dir (set_entry k m' es)) (k :: k2 :: p) x) with
      (match entry k (set_entry k m' es) with Some n => match write n (k2 :: p) x with Some n => Some (Dir (set_entry k n (set_entry k m' es))) | None => None end | None => None end).
    rewrite entry_set, String.eqb_refl, (IH m m' W'), SE. reflexivity.
Qed.
(** a file that is not called results.xml, or lies elsewhere, does not change what is found *)
Lemma find_below_set name root k n es : (is_file n = true -> k <> name) -> (forall m, entry k es = Some m -> is_file m = is_file n) ->
  find_below name (root ++ [k]) n = match entry k es with Some m => find_below name (root ++ [k]) m | None => [] end ->
  find_below name root (Dir (set_entry k n es)) = find_below name root (Dir es).
Proof.
  intros A B C. cbn [find_below]. f_equal.
  - replace (existsb (fun '(k0, c) => String.eqb k0 name && is_file c) (set_entry k n es))
      with (existsb (fun '(k0, c) => String.eqb k0 name && is_file c) es); [reflexivity|].
    clear C. induction es as [|[k' n'] es IH]; cbn [set_entry existsb entry] in *.
    + destruct (String.eqb_spec k name) as [->|]; [|reflexivity]. destruct (is_file n); [destruct (A eq_refl eq_refl)|reflexivity].
    + destruct (String.eqb_spec k' k) as [->|D]; cbn [existsb].
      * rewrite (B n' eq_refl). reflexivity.
      * rewrite (IH B). reflexivity.
  - induction es as [|[k' n'] es IH]; cbn [set_entry flat_map entry] in *.
    + rewrite C. reflexivity.
    + destruct (String.eqb_spec k' k) as [->|D]; cbn [flat_map].
      * rewrite C. reflexivity.
      * rewrite (IH B C). reflexivity.
Qed.
Lemma find_below_write name x p : forall n n' root, write n p x = Some n' -> (forall b, p <> b ++ [name]) ->
  find_below name root n' = find_below name root n /\ is_file n' = is_file n.
Proof.
  induction p as [|k p IH]; intros n n' root W D; [discriminate W|]. cbn [write] in W. destruct p as [|k2 p].
  - assert (K : k <> name) by (intros ->; exact (D [] eq_refl)). destruct n as [c|es| |]; try discriminate W.
    assert (E : n' = Dir (set_entry k (File (Some x)) es) /\ (entry k es = None \/ exists c, entry k es = Some (File c))).
    { destruct (entry k es) as [[c| | |]|]; try discriminate W; injection W as <-; (split; [reflexivity|]); [right; exists c|left]; reflexivity. }
    clear W. destruct E as [-> E]. split; [|reflexivity]. apply find_below_set; [intros _; exact K| |].
    + intros m M. destruct E as [E|[c E]]; rewrite E in M; [discriminate|]. injection M as <-. reflexivity.
    + destruct E as [->|[c ->]]; reflexivity.
  - destruct n as [c|es| |]; try discriminate W. destruct (entry k es) as [m|] eqn:E; [|discriminate W].
    destruct (write m (k2 :: p) x) as [m'|] eqn:W'; [|discriminate W]. injection W as <-.
    assert (D' : forall b, k2 :: p <> b ++ [name]) by (intros b Q; apply (D (k :: b)); rewrite Q; reflexivity).
    destruct (IH m m' (root ++ [k]) W' D') as [A B]. split; [|reflexivity].
    assert (F : is_file m' = false) by (destruct m as [c|es'| |]; try (destruct p; discriminate W'); exact B).
    apply find_below_set; [rewrite F; discriminate| |rewrite E; exact A].
    intros m0 M. rewrite E in M. injection M as <-. symmetry. exact B.
Qed.
Lemma find_all_write fs fs' p x dir : write fs p x = Some fs' -> (forall b, p <> dir ++ b ++ ["results.xml"]) ->
  find_all fs' "results.xml" dir = find_all fs "results.xml" dir.
Proof.
  unfold find_all. revert fs fs' p. assert (G : forall d fs fs' p, write fs p x = Some fs' -> (forall b, p <> d ++ b ++ ["results.xml"]) -> forall root,
    match lookup fs' d with Some n => find_below "results.xml" root n | None => [] end
    = match lookup fs d with Some n => find_below "results.xml" root n | None => [] end).
  2:{ intros fs fs' p W D. exact (G dir fs fs' p W D dir). }
  induction d as [|j d IH]; intros fs fs' p W D root.
  - cbn [lookup]. apply (find_below_write "results.xml" x p fs fs' root W D).
  - destruct p as [|k p]; [discriminate W|]. cbn [write] in W. destruct fs as [c|es| |]; try (destruct p; discriminate W).
    destruct p as [|k2 p].
    + assert (E : fs' = Dir (set_entry k (File (Some x)) es) /\ (entry k es = None \/ exists c, entry k es = Some (File c))).
      { destruct (entry k es) as [[c| | |]|]; try discriminate W; injection W as <-; (split; [reflexivity|]); [right; exists c|left]; reflexivity. }
      destruct E as [-> E]. cbn [lookup]. rewrite entry_set. destruct (String.eqb_spec k j) as [->|]; [|reflexivity].
      destruct E as [->|[c ->]]; destruct d; reflexivity.
    + destruct (entry k es) as [m|] eqn:E; [|discriminate W]. destruct (write m (k2 :: p) x) as [m'|] eqn:W'; [|discriminate W].
      injection W as <-. cbn [lookup]. rewrite entry_set. destruct (String.eqb_spec k j) as [->|]; [|reflexivity]. rewrite E.
      apply (IH m m' (k2 :: p) W'). intros b Q. apply (D b). rewrite Q. reflexivity.
Qed.
