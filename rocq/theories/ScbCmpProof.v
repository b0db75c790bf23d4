(** ScbCmpProof.v *)
From Verif Require Import Base ScoreboardModel ScoreboardSpec ScoreboardProof ScbCmpModel ScbCmpSpec.
From Coq Require Import Permutation.
Local Open Scope list_scope.

Section Proofs.
Context {T : Type} (eqb : T -> T -> bool) (cmp : list (T * T) -> T -> T -> nat * option exn).
Notation run := (custom_run T eqb cmp).
Notation recv := (custom_receive T eqb cmp).

Lemma exps_app (a b : list (ev T)) : exps (a ++ b) = exps a ++ exps b.
Proof. apply flat_map_app. Qed.
Lemma gots_app (a b : list (ev T)) : gots (a ++ b) = gots a ++ gots b.
Proof. apply flat_map_app. Qed.
Lemma run_snoc imm depth h e : run imm depth (h ++ [e]) =
  match e with Exp t => custom_expect T (run imm depth h) t | Got t => recv imm depth (run imm depth h) t end.
Proof. unfold custom_run. rewrite fold_left_app. reflexivity. Qed.
Lemma early_prefix (h : list (ev T)) e : never_early (h ++ [e]) -> never_early h.
Proof. intros H p q E. apply (H p (q ++ [e])). rewrite E, app_assoc. reflexivity. Qed.

Lemma step_alive imm depth s t : c_dead s = None ->
  match c_out s with
  | [] => recv imm depth s t = Custom [] (S (c_errors s)) (c_calls s) (if imm then Some EAssertion else None)
  | out => exists e rest, consumes eqb depth out t e rest
      /\ recv imm depth s t = Custom rest (c_errors s + fst (cmp (c_calls s) t e)) (c_calls s ++ [(t, e)]) (snd (cmp (c_calls s) t e))
  end.
Proof.
  intro D. unfold custom_receive. rewrite D. destruct (c_out s) as [|h r] eqn:O.
  - unfold pick. destruct (find_match _ _ _ _ _) as [k|] eqn:F; [|reflexivity].
    destruct (Z.to_nat (depth + 1)); discriminate.
  - destruct (pick_consumes (fun _ => 0) eqb (fun _ => ""%string) (fun _ _ x => x) depth h r t) as (e & rest & P & C). exists e, rest. split; [exact C|].
    rewrite P. destruct (cmp (c_calls s) t e) as [n x]. reflexivity.
Qed.
Lemma step_dead imm depth s t x : c_dead s = Some x -> recv imm depth s t = s.
Proof. intro D. unfold custom_receive. rewrite D. reflexivity. Qed.
Lemma step_first imm s t h r : c_dead s = None -> c_out s = h :: r ->
  recv imm 0 s t = Custom r (c_errors s + fst (cmp (c_calls s) t h)) (c_calls s ++ [(t, h)]) (snd (cmp (c_calls s) t h)).
Proof.
  intros D O. unfold custom_receive. rewrite D, O. unfold pick. change (Z.to_nat (0 + 1)) with 1.
  cbn [find_match]. destruct (eqb h t); cbn [pop nth_error firstn skipn app];
    destruct (cmp (c_calls s) t h) as [n x]; reflexivity.
Qed.

Lemma counted_app a : forall b c, counted T cmp b (a ++ c) = counted T cmp b a + counted T cmp (b ++ a) c.
Proof.
  induction a as [|[t e] a IH]; intros b c; cbn [app counted]; [rewrite app_nil_r; reflexivity|].
  rewrite IH, <- app_assoc. cbn [app]. lia.
Qed.
Lemma combine_snoc {A B} (a : list A) (b : list B) x y : length a = length b ->
  combine (a ++ [x]) (b ++ [y]) = combine a b ++ [(x, y)].
Proof.
  revert b. induction a as [|z a IH]; intros [|w b] L; cbn in *; try lia; [reflexivity|]. rewrite IH by lia. reflexivity.
Qed.
Lemma combine_firstn_r {A B} (a : list A) (b : list B) : combine a (firstn (length a) b) = combine a b.
Proof. revert b. induction a as [|z a IH]; intros [|w b]; cbn; try reflexivity. rewrite IH. reflexivity. Qed.
Lemma firstn_more {A} (l : list A) n x r : skipn n l = x :: r -> firstn (S n) l = firstn n l ++ [x] /\ skipn (S n) l = r.
Proof.
  revert l. induction n as [|n IH]; intros [|y l] H; try discriminate.
  - cbn in *. injection H as <- <-. auto.
  - cbn [skipn] in H. destruct (IH l H) as [A1 A2]. split; [|exact A2].
    change (firstn (S (S n)) (y :: l)) with (y :: firstn (S n) l). rewrite A1. reflexivity.
Qed.

Lemma in_order imm hist : never_raises T cmp -> never_early hist ->
  let s := run imm 0 hist in
  c_calls s = combine (gots hist) (exps hist) /\ c_dead s = None
  /\ c_out s = skipn (length (gots hist)) (exps hist)
  /\ c_errors s = counted T cmp [] (combine (gots hist) (exps hist)).
Proof.
  intro NR. induction hist as [|e h IH] using rev_ind; intro NE; [cbn; auto|].
  specialize (IH (early_prefix h e NE)). cbn zeta in *. destruct IH as (A & B & C & D).
  pose proof (NE h [e] eq_refl) as L0. rewrite run_snoc, exps_app, gots_app.
  destruct e as [t|t]; cbn [exps gots flat_map app] in *.
  - rewrite app_nil_r. fold (gots h) in *. fold (exps h) in *.
    assert (E : combine (gots h) (exps h ++ [t]) = combine (gots h) (exps h)).
    { rewrite <- combine_firstn_r, firstn_app. replace (length (gots h) - length (exps h)) with 0 by lia.
      rewrite firstn_O, app_nil_r, combine_firstn_r. reflexivity. }
    rewrite E. unfold custom_expect. cbn [c_calls c_dead c_out c_errors].
    split; [exact A|]. split; [exact B|]. split; [|exact D]. rewrite C, skipn_app.
    replace (length (gots h) - length (exps h)) with 0 by lia. reflexivity.
  - rewrite app_nil_r. fold (gots h) in *. fold (exps h) in *.
    pose proof (NE (h ++ [Got t]) [] (eq_sym (app_nil_r _))) as L1. rewrite exps_app, gots_app, !app_length in L1.
    cbn [exps gots flat_map app length] in L1. fold (gots h) in L1. fold (exps h) in L1. rewrite app_nil_r in * || idtac.
    destruct (skipn (length (gots h)) (exps h)) as [|x r] eqn:S.
    { assert (length (skipn (length (gots h)) (exps h)) = 0) by (rewrite S; reflexivity). rewrite skipn_length in H. lia. }
    destruct (firstn_more _ _ _ _ S) as [F1 F2].
    assert (E : combine (gots h ++ [t]) (exps h) = combine (gots h) (exps h) ++ [(t, x)]).
    { rewrite <- (combine_firstn_r (gots h ++ [t])), app_length. cbn [length]. rewrite Nat.add_1_r, F1, combine_snoc.
      - rewrite combine_firstn_r. reflexivity.
      - rewrite firstn_length. lia. }
    rewrite (step_first imm (run imm 0 h) t x r B C). cbn [c_calls c_dead c_out c_errors]. rewrite E, A.
    split; [reflexivity|]. split; [apply NR|]. split; [rewrite app_length; cbn [length]; rewrite Nat.add_1_r; symmetry; exact F2|].
    rewrite counted_app, <- D. cbn. lia.
Qed.

Lemma in_order_verdict imm hist : never_raises T cmp -> never_early hist ->
  (custom_result T (run imm 0 hist) = Ok tt
   <-> length (gots hist) = length (exps hist) /\ counted T cmp [] (combine (gots hist) (exps hist)) = 0).
Proof.
  intros NR NE. destruct (in_order imm hist NR NE) as (_ & _ & C & D). pose proof (NE hist [] (eq_sym (app_nil_r _))) as L.
  unfold custom_result. rewrite C, D, skipn_length.
  destruct (Nat.eqb_spec (length (exps hist) - length (gots hist)) 0) as [E|E]; cbn [negb].
  - destruct (Nat.eqb_spec (counted T cmp [] (combine (gots hist) (exps hist))) 0) as [F|F]; cbn [negb].
    + split; [intros _; split; [lia|exact F]|reflexivity].
    + split; [discriminate|intros [_ H]; contradiction].
  - split; [discriminate|]. intros [H _]. lia.
Qed.

Lemma consumes_perm depth out t e rest : consumes eqb depth out t e rest -> Permutation (e :: rest) out.
Proof. intros [l1 e0 l2 t0 _ _ _|h r t0 _]; [apply Permutation_middle|apply Permutation_refl]. Qed.

Lemma any_depth_calls imm depth hist : never_raises T cmp -> never_early hist ->
  let s := run imm depth hist in
  map fst (c_calls s) = gots hist /\ Permutation (map snd (c_calls s) ++ c_out s) (exps hist)
  /\ c_dead s = None /\ c_errors s = counted T cmp [] (c_calls s).
Proof.
  intro NR. induction hist as [|e h IH] using rev_ind; intro NE; [cbn; auto|].
  specialize (IH (early_prefix h e NE)). cbn zeta in *. destruct IH as (A & B & C & D).
  rewrite run_snoc, exps_app, gots_app. destruct e as [t|t].
  - cbn [exps gots flat_map app]. rewrite app_nil_r. unfold custom_expect. cbn [c_calls c_dead c_out c_errors].
    split; [exact A|]. split; [|split; [exact C|exact D]]. rewrite app_assoc. apply Permutation_app_tail, B.
  - pose proof (NE (h ++ [Got t]) [] (eq_sym (app_nil_r _))) as L1. rewrite exps_app, gots_app, !app_length in L1.
    cbn [exps gots flat_map app length] in *. fold (gots h) in *. fold (exps h) in *. rewrite app_nil_r in *.
    pose proof (step_alive imm depth (run imm depth h) t C) as S.
    destruct (c_out (run imm depth h)) as [|x r] eqn:O.
    + apply Permutation_length in B. rewrite app_nil_r, map_length, <- (map_length fst), A in B. lia.
    + destruct S as (e & rest & Cn & ->). cbn [c_calls c_dead c_out c_errors]. rewrite !map_app, A. cbn [map fst snd].
      split; [reflexivity|]. split.
      * rewrite <- app_assoc. cbn [app]. rewrite <- B. apply Permutation_app_head. exact (consumes_perm _ _ _ _ _ Cn).
      * split; [apply NR|]. rewrite counted_app, <- D. cbn. lia.
Qed.

Lemma dead_forever imm depth h1 h2 x : c_dead (run imm depth h1) = Some x ->
  c_calls (run imm depth (h1 ++ h2)) = c_calls (run imm depth h1)
  /\ c_errors (run imm depth (h1 ++ h2)) = c_errors (run imm depth h1)
  /\ c_dead (run imm depth (h1 ++ h2)) = Some x.
Proof.
  intro D. induction h2 as [|e h IH] using rev_ind; [rewrite app_nil_r; auto|].
  destruct IH as (A & B & C). rewrite app_assoc, run_snoc. destruct e as [t|t].
  - cbn. auto.
  - rewrite (step_dead imm depth _ t x C). auto.
Qed.
End Proofs.

(** with Scoreboard's own compare this is ScoreboardModel.v *)
Section Own.
Context {T : Type} (ty : T -> nat) (eqb : T -> T -> bool) (str : T -> string) (fn : nat -> list T -> T -> T).

Definition agrees (m loc : nat) (depth : Z) (strict imm0 : bool) (s : sb T) (c : custom T) : Prop :=
  heap s loc = c_out c /\ errors s = c_errors c /\ dead s = (match c_dead c with Some _ => [m] | None => [] end)
  /\ cbs s m = [CbCheck (mkIface (EList loc) depth strict)] /\ expected s = [(m, EList loc)] /\ imm s = imm0.

Lemma own_step m loc depth strict im s c e : agrees m loc depth strict im s c ->
  agrees m loc depth strict im
    (fst (sb_step T ty eqb str fn s (match e with Exp t => SExpect loc t | Got t => SRecv m t end)))
    (match e with
     | Exp t => custom_expect T c t
     | Got t => custom_receive T eqb (own_compare ty eqb str strict im) im depth c t
     end).
Proof.
  intros (A & B & C & D & E & F). destruct e as [t|t]; cbn [sb_step].
  - unfold agrees. cbn. unfold upd_fun. rewrite Nat.eqb_refl, A. auto 10.
  - unfold receive, custom_receive. rewrite C. destruct (c_dead c) as [x|] eqn:X.
    + cbn [existsb]. rewrite Nat.eqb_refl. cbn. unfold agrees. rewrite X. auto 10.
    + cbn [existsb]. rewrite D. cbn [deliver]. unfold check_received. cbn [i_exp i_depth i_strict]. rewrite A.
      destruct (pop T (c_out c) (pick T eqb depth (c_out c) t)) as [[e rest]|].
      * unfold compare, own_compare. cbn [imm set_heap]. rewrite F.
        assert (G : forall b : bool,
          agrees m loc depth strict im
           (fst (let (s', r) := (let (s1, r0) := (if b then (set_heap T s loc rest, Ok tt) else (add_error T (set_heap T s loc rest), if im then Err EAssertion else Ok tt)) in match r0 with Ok _ => (s1, Ok tt) | Err x => (s1, Err x) end) in
                 match r with Ok _ => (s', Ok tt) | Err x => (mkSb T (heap s') (fcalls s') (errors s') (expected s') (imm s') (cbs s') (m :: dead s'), Err x) end))
           (let '(n, x) := if b then (0, None) else (1, if im then Some EAssertion else None) in Custom rest (c_errors c + n) (c_calls c ++ [(t, e)]) x)).
        { intros []; [|destruct im]; unfold agrees; cbn; unfold upd_fun; rewrite ?Nat.eqb_refl, ?B, ?C, ?D, ?E, ?F, ?X, ?Nat.add_0_r, ?Nat.add_1_r; auto 10. }
        destruct strict; cbn [andb].
        -- destruct (Nat.eqb (ty t) (ty e)); cbn [andb negb]; [destruct (eqb t e); cbn [negb]; [exact (G true)|exact (G false)]|exact (G false)].
        -- destruct (String.eqb (str t) (str e)); cbn [negb]; [exact (G true)|exact (G false)].
      * rewrite F. destruct im; unfold agrees; cbn; rewrite ?A, ?B, ?C, ?D, ?E, ?F; auto 10.
Qed.

Lemma own_run m loc depth strict im hist :
  let s := fst (sb_run T ty eqb str fn (fst (add_interface T (sb_init T im) m true (EList loc) NoFn depth strict)) (ops_of m loc hist)) in
  let c := custom_run T eqb (own_compare ty eqb str strict im) im depth hist in
  heap s loc = c_out c /\ errors s = c_errors c /\ (In m (dead s) <-> c_dead c <> None) /\ result T s = custom_result T c.
Proof.
  cbn zeta.
  assert (G : forall hist s c, agrees m loc depth strict im s c -> agrees m loc depth strict im
    (fst (sb_run T ty eqb str fn s (ops_of m loc hist)))
    (fold_left (fun s e => match e with Exp t => custom_expect T s t
                                   | Got t => custom_receive T eqb (own_compare ty eqb str strict im) im depth s t end) hist c)).
  { clear hist. induction hist as [|e h IH]; intros s c A; [exact A|]. cbn [ops_of map sb_run fold_left].
    pose proof (own_step m loc depth strict im s c e A) as S.
    destruct (sb_step T ty eqb str fn s _) as [s1 x]. cbn [fst] in S. specialize (IH s1 _ S). unfold ops_of in IH.
    destruct (sb_run T ty eqb str fn s1 _) as [s2 xs]. exact IH. }
  specialize (G hist (fst (add_interface T (sb_init T im) m true (EList loc) NoFn depth strict)) (custom_init T)).
  assert (I : agrees m loc depth strict im (fst (add_interface T (sb_init T im) m true (EList loc) NoFn depth strict)) (custom_init T)).
  { unfold agrees. cbn. unfold upd_fun. rewrite Nat.eqb_refl. auto 10. }
  specialize (G I). unfold custom_run. destruct G as (A & B & C & D & E & F).
  split; [exact A|]. split; [exact B|]. split.
  - rewrite C. destruct (c_dead _); cbn; [split; [discriminate|auto]|]. split; [intros []|congruence].
  - unfold result, custom_result. rewrite E, B. cbn [existsb snd leftover]. rewrite A, Bool.orb_false_r. reflexivity.
Qed.
End Own.
