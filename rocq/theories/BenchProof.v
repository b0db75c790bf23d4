(** BenchProof.v *)
From Verif Require Import BenchModel ScoreboardSpec BenchSpec ScoreboardProof.
From Coq Require Import Permutation.
Local Open Scope list_scope.

Section Proofs.
Context {A T : Type}.
Variable ty : T -> nat.
Variable eqb : T -> T -> bool.
Variable str : T -> string.
Variable fn : nat -> list T -> T -> T.
Hypothesis eqb_spec : forall a b, eqb a b = true <-> a = b.
Notation receive := (receive T ty eqb str fn).
Notation sb_run := (sb_run T ty eqb str fn).
Notation chan := (chan A T).
Notation step := (bench_step A T ty eqb str fn).

Definition check (c : chan) : callback := CbCheck (mkIface (EList (h_loc c)) (Z.of_nat (h_depth c)) true).

(** ** building *)
Definition built (chans : list chan) (s : sb T) : Prop :=
  (forall c, In c chans -> cbs s (h_mon c) = [check c]) /\
  expected s = map (fun c => (h_mon c, EList (h_loc c))) chans.

Lemma set_expected_new d m e : ~ In m (map fst d) -> set_expected d m e = d ++ [(m, e)].
Proof.
  induction d as [|[m' e'] r IH]; cbn; [reflexivity|]. intro H.
  destruct (Nat.eqb_spec m' m); [tauto|]. rewrite IH by tauto. reflexivity.
Qed.
Lemma build_gen im rest : forall done s,
  separate (done ++ rest) -> built done s -> errors s = 0 -> dead s = [] -> imm s = im ->
  (forall c, In c done -> heap s (h_loc c) = h_first c) ->
  (forall m, ~ In m (map h_mon done) -> cbs s m = []) ->
  let s' := fold_left (fun s c =>
     fst (add_interface T (set_heap T s (h_loc c) (h_first c)) (h_mon c) true (EList (h_loc c)) NoFn
                        (Z.of_nat (h_depth c)) true)) rest s in
  built (done ++ rest) s' /\ errors s' = 0 /\ dead s' = [] /\
  forall c, In c (done ++ rest) -> heap s' (h_loc c) = h_first c.
Proof.
  induction rest as [|c rest IH]; intros done s Hn [B1 B2] He Hd Hi Hh Hc.
  - cbn. rewrite app_nil_r. repeat split; assumption.
  - cbn [fold_left]. destruct Hn as [N1 N2].
    assert (M1 : ~ In (h_mon c) (map h_mon done)).
    { rewrite map_app in N1. cbn in N1. apply NoDup_remove_2 in N1. intro C. apply N1. apply in_or_app. auto. }
    assert (M2 : ~ In (h_loc c) (map h_loc done)).
    { rewrite map_app in N2. cbn in N2. apply NoDup_remove_2 in N2. intro C. apply N2. apply in_or_app. auto. }
    set (s1 := fst _).
    replace (done ++ c :: rest) with ((done ++ [c]) ++ rest) by (rewrite <- app_assoc; reflexivity).
    apply (IH (done ++ [c]) s1).
    + split; rewrite <- app_assoc; assumption.
    + split.
      * intros x Hx. apply in_app_or in Hx. unfold s1. cbn. unfold upd_fun. destruct Hx as [Hx|[->|[]]].
        -- destruct (Nat.eqb_spec (h_mon x) (h_mon c)) as [E|E]; [|apply B1, Hx].
           exfalso. apply M1. rewrite <- E. apply in_map, Hx.
        -- rewrite Nat.eqb_refl. rewrite Hc by exact M1. reflexivity.
      * unfold s1. cbn. rewrite B2, map_app. apply set_expected_new. rewrite map_map. exact M1.
    + exact He.
    + exact Hd.
    + exact Hi.
    + intros x Hx. apply in_app_or in Hx. unfold s1. cbn. unfold upd_fun. destruct Hx as [Hx|[->|[]]].
      * destruct (Nat.eqb_spec (h_loc x) (h_loc c)) as [E|E]; [|apply Hh, Hx].
        exfalso. apply M2. rewrite <- E. apply in_map, Hx.
      * rewrite Nat.eqb_refl. reflexivity.
    + intros m Hm. rewrite map_app in Hm. unfold s1. cbn. unfold upd_fun.
      destruct (Nat.eqb_spec m (h_mon c)) as [->|E]; [exfalso; apply Hm, in_or_app; cbn; auto|].
      apply Hc. intro C. apply Hm, in_or_app. auto.
Qed.
Lemma build_ok im chans : separate chans ->
  let s := build A T im chans in
  built chans s /\ errors s = 0 /\ dead s = [] /\ forall c, In c chans -> heap s (h_loc c) = h_first c.
Proof.
  intro Hn. apply (build_gen im chans []); try reflexivity; try assumption.
  - split; [intros c []|reflexivity].
  - intros c [].
Qed.

(** ** the model's appends *)
Lemma expect_frame loc ts : forall s, let s' := fst (sb_run s (map (SExpect loc) ts)) in
  cbs s' = cbs s /\ expected s' = expected s /\ errors s' = errors s /\ dead s' = dead s /\ imm s' = imm s /\
  heap s' loc = heap s loc ++ ts /\ forall l, l <> loc -> heap s' l = heap s l.
Proof.
  induction ts as [|t ts IH]; intros s; cbn zeta; cbn [map].
  - cbn. rewrite app_nil_r. auto 10.
  - rewrite fst_run_cons. cbn [ScoreboardModel.sb_step fst].
    destruct (IH (set_heap T s loc (heap s loc ++ [t]))) as (H1 & H2 & H3 & H4 & H5 & H6 & H7).
    repeat split; try assumption.
    + rewrite H6. cbn. unfold upd_fun. rewrite Nat.eqb_refl, <- app_assoc. reflexivity.
    + intros l Hl. rewrite H7 by exact Hl. cbn. unfold upd_fun. destruct (Nat.eqb_spec l loc); [contradiction|reflexivity].
Qed.

(** ** one reception *)
Lemma receive_chan s c t : cbs s (h_mon c) = [check c] -> dead s = [] ->
  let s' := fst (receive s (h_mon c) t) in
  cbs s' = cbs s /\ expected s' = expected s /\ (forall l, l <> h_loc c -> heap s' l = heap s l) /\
  ((exists l1 l2, heap s (h_loc c) = l1 ++ t :: l2 /\ length l1 <= h_depth c /\ ~ In t l1 /\
      heap s' (h_loc c) = l1 ++ l2 /\ errors s' = errors s /\ dead s' = []) \/
   ((forall l1 l2, heap s (h_loc c) = l1 ++ t :: l2 -> h_depth c < length l1) /\ errors s' = S (errors s))).
Proof.
  intros Hc Hd s'.
  destruct (receive s (h_mon c) t) as [s1 r] eqn:E. cbn [fst] in s'. subst s'.
  destruct (receive_frame ty eqb str fn _ _ _ _ _ E) as (F1 & F2 & F3 & _).
  split; [exact F3|]. split; [exact F2|]. split.
  - intros l Hl. change s1 with (fst (s1, r)). rewrite <- E. apply receive_heap. rewrite Hc. intros x [<-|[]]. cbn. intro C. injection C as C. auto.
  - (* put the state in the single-interface form *)
    set (s0 := mkSb T (heap s) (fcalls s) (errors s) [(h_mon c, EList (h_loc c))] (imm s) (cbs s) (dead s)).
    assert (S0 : single s0 (h_mon c) (h_loc c) (h_depth c)) by (split; [exact Hc|reflexivity]).
    destruct (receive_single ty eqb str fn eqb_spec s0 (h_mon c) (h_loc c) (h_depth c) t S0 Hd) as (s0' & E0 & _ & _ & R).
    assert (X : heap s0' = heap s1 /\ errors s0' = errors s1 /\ dead s0' = dead s1).
    { rewrite <- E0. change s1 with (fst (s1, r)). rewrite <- E. clear. unfold s0, ScoreboardModel.receive. cbn [dead cbs].
      destruct (existsb (Nat.eqb (h_mon c)) (dead s)); [cbn; auto|].
      assert (G : forall cl a b, heap a = heap b -> errors a = errors b -> dead a = dead b -> imm a = imm b -> fcalls a = fcalls b ->
        let x := deliver T ty eqb str fn a cl t in let y := deliver T ty eqb str fn b cl t in
        snd x = snd y /\ heap (fst x) = heap (fst y) /\ errors (fst x) = errors (fst y) /\ dead (fst x) = dead (fst y)).
      { induction cl as [|[i|] cl IH]; intros a b H1 H2 H3 H4 H5; cbn [deliver]; [cbn; auto| |apply IH; assumption].
        assert (K : let x := check_received T ty eqb str fn a i t in let y := check_received T ty eqb str fn b i t in
          snd x = snd y /\ heap (fst x) = heap (fst y) /\ errors (fst x) = errors (fst y) /\ dead (fst x) = dead (fst y) /\ imm (fst x) = imm (fst y) /\ fcalls (fst x) = fcalls (fst y)).
        { unfold check_received. destruct (i_exp i) as [l|f].
          - rewrite H1. destruct (pop T (heap b l) (pick T eqb (i_depth i) (heap b l) t)) as [[e rest]|].
            + unfold ScoreboardModel.compare. cbn. destruct (i_strict i && negb (ty t =? ty e)); cbn; [rewrite H1, H2, H4; auto 10|].
              destruct (negb _); cbn; rewrite H1, ?H2, ?H4; auto 10.
            + cbn. rewrite H2, H4. auto 10.
          - unfold ScoreboardModel.compare. cbn. rewrite H5. destruct (i_strict i && negb (ty t =? ty (fn f (fcalls b f) t))); cbn; [rewrite H2, H4; auto 10|].
            destruct (negb _); cbn; rewrite ?H2, ?H4; auto 10. }
        cbn zeta in K. destruct (check_received T ty eqb str fn a i t) as [a' ra], (check_received T ty eqb str fn b i t) as [b' rb].
        cbn [fst snd] in K. destruct K as (-> & K1 & K2 & K3 & K4 & K5). destruct rb; [apply IH; assumption|cbn; auto]. }
      specialize (G (cbs s (h_mon c)) s0 s). unfold s0 in G. cbn [heap errors dead imm fcalls] in G.
      specialize (G eq_refl eq_refl eq_refl eq_refl eq_refl). cbn zeta in G.
      destruct (deliver T ty eqb str fn {| heap := heap s |} _ _) as [x rx]. destruct (deliver T ty eqb str fn s _ _) as [y ry].
      cbn [fst snd] in G. destruct G as (-> & G1 & G2 & G3). destruct ry; cbn; rewrite ?G1, ?G2, ?G3; auto. }
    destruct X as (X1 & X2 & X3). rewrite X1, X2, X3 in R. cbn [heap errors s0] in R.
    destruct R as [(l1 & l2 & R1 & R2 & R3 & R4 & R5 & R6 & _)|(R1 & _ & R3 & _)]; [left; exists l1, l2; auto 10|right; auto].
Qed.

(** ** errors stay *)
Lemma step_errors chans b e : errors (b_sb b) <= errors (b_sb (step chans b e)).
Proof.
  destruct e as [k a|k t]; cbn; destruct (nth_error chans k) as [c|]; cbn; try lia.
  - destruct (expect_frame (h_loc c) (h_model c (b_seen b k) a) (b_sb b)) as (_ & _ & -> & _). lia.
  - destruct (receive (b_sb b) (h_mon c) t) as [s' r] eqn:E. apply receive_frame in E. cbn. tauto.
Qed.
Lemma fold_errors chans l : forall b, errors (b_sb b) <= errors (b_sb (fold_left (step chans) l b)).
Proof.
  induction l as [|e l IH]; intro b; cbn; [lia|]. pose proof (step_errors chans b e). specialize (IH (step chans b e)). lia.
Qed.

Lemma accept_exps d (ts : list T) : forall out l, accept_first d out (map Exp ts ++ l) <-> accept_first d (out ++ ts) l.
Proof.
  induction ts as [|t ts IH]; intros out l; cbn [map app].
  - rewrite app_nil_r. tauto.
  - split.
    + intro H. inversion H; subst. rewrite IH in *. rewrite <- app_assoc in *. assumption.
    + intro H. constructor. rewrite IH, <- app_assoc. exact H.
Qed.

Lemma nth_loc chans k k' (c c' : chan) : NoDup (map h_loc chans) -> nth_error chans k = Some c -> nth_error chans k' = Some c' ->
  k <> k' -> h_loc c' <> h_loc c.
Proof.
  intros Hn H H' Hk E. apply Hk. apply (NoDup_nth_error (map h_loc chans)) with (i := k) (j := k'); [exact Hn| |].
  - rewrite map_length. apply nth_error_Some. congruence.
  - rewrite (map_nth_error h_loc _ _ H), (map_nth_error h_loc _ _ H'). congruence.
Qed.

Lemma verdict_gen chans (Hn : separate chans) l : forall b,
  built chans (b_sb b) -> errors (b_sb b) = 0 -> dead (b_sb b) = [] ->
  (result T (b_sb (fold_left (step chans) l b)) = Ok tt <->
   forall k c, nth_error chans k = Some c ->
     accept_first (h_depth c) (heap (b_sb b) (h_loc c)) (channel_history (h_model c) k (b_seen b k) l)).
Proof.
  destruct Hn as [N1 N2].
  induction l as [|e l IH]; intros b B He Hd.
  - cbn. destruct (result_iff (b_sb b)) as (R & _). rewrite R, (proj2 B). split.
    + intros (_ & H) k c Hc. rewrite (H (h_mon c) (h_loc c)); [constructor|].
      apply in_map_iff. exists c. split; [reflexivity|]. eapply nth_error_In; eauto.
    + intro H. split; [exact He|]. intros m loc Hi. apply in_map_iff in Hi. destruct Hi as (c & [= <- <-] & Hi).
      apply In_nth_error in Hi. destruct Hi as (k & Hk). specialize (H k c Hk). inversion H. reflexivity.
  - cbn [fold_left]. destruct e as [k a|k t]; cbn [bench_step].
    + destruct (nth_error chans k) as [c|] eqn:Ek.
      * destruct (expect_frame (h_loc c) (h_model c (b_seen b k) a) (b_sb b)) as (F1 & F2 & F3 & F4 & F5 & F6 & F7).
        rewrite IH; cbn [b_sb b_seen].
        -- split; intros H k' c' Hk'; specialize (H k' c' Hk'); cbn [channel_history] in *; unfold upd_fun in *.
           ++ destruct (Nat.eqb_spec k k') as [<-|Nk].
              ** assert (c' = c) by congruence. subst c'. rewrite Nat.eqb_refl in H. rewrite F6 in H. now apply accept_exps.
              ** destruct (Nat.eqb_spec k' k); [congruence|]. rewrite F7 in H by (eapply nth_loc; eauto). exact H.
           ++ destruct (Nat.eqb_spec k k') as [<-|Nk].
              ** assert (c' = c) by congruence. subst c'. rewrite Nat.eqb_refl. rewrite F6. now apply accept_exps.
              ** destruct (Nat.eqb_spec k' k); [congruence|]. rewrite F7 by (eapply nth_loc; eauto). exact H.
        -- destruct B as [B1 B2]. split; [intros x Hx; rewrite F1; apply B1, Hx|rewrite F2; exact B2].
        -- rewrite F3. exact He.
        -- rewrite F4. exact Hd.
      * rewrite IH by assumption. split; intros H k' c' Hk'; specialize (H k' c' Hk'); cbn [channel_history] in *;
          (destruct (Nat.eqb_spec k k') as [<-|Nk]; [congruence|exact H]).
    + destruct (nth_error chans k) as [c|] eqn:Ek.
      * destruct (receive_chan (b_sb b) c t) as (F1 & F2 & F3 & R); [apply (proj1 B); eapply nth_error_In; eauto|exact Hd|].
        destruct R as [(l1 & l2 & R1 & R2 & R3 & R4 & R5 & R6)|(R1 & R2)].
        -- rewrite IH; cbn [b_sb b_seen].
           ++ split; intros H k' c' Hk'; specialize (H k' c' Hk'); cbn [channel_history] in *.
              ** destruct (Nat.eqb_spec k k') as [<-|Nk].
                 --- assert (c' = c) by congruence. subst c'. rewrite R4 in H. rewrite R1. now constructor.
                 --- rewrite F3 in H by (eapply nth_loc; eauto). exact H.
              ** destruct (Nat.eqb_spec k k') as [<-|Nk].
                 --- assert (c' = c) by congruence. subst c'. rewrite R4. rewrite R1 in H.
                     inversion H as [| |l1' t' l2' l' Hl Hni Ha]; subst.
                     match goal with E : _ = l1 ++ t :: l2 |- _ => symmetry in E; apply first_split in E; auto; destruct E as (-> & ->) end. exact Ha.
                 --- rewrite F3 by (eapply nth_loc; eauto). exact H.
           ++ destruct B as [B1 B2]. split; [intros x Hx; rewrite F1; apply B1, Hx|rewrite F2; exact B2].
           ++ congruence.
           ++ exact R6.
        -- split.
           ++ intro C. exfalso. set (b1 := Bench _ _) in C.
              pose proof (fold_errors chans l b1) as M. unfold b1 in M at 1. cbn [b_sb] in M. rewrite R2 in M.
              rewrite result_errors in C; [discriminate|lia].
           ++ intro H. specialize (H k c Ek). cbn [channel_history] in H. rewrite Nat.eqb_refl in H.
              inversion H as [| |l1 t' l2 l' Hl Hni Ha]; subst.
              match goal with E : _ ++ _ :: _ = heap _ _ |- _ => symmetry in E; apply R1 in E; lia end.
      * rewrite IH by assumption. split; intros H k' c' Hk'; specialize (H k' c' Hk'); cbn [channel_history] in *;
          (destruct (Nat.eqb_spec k k') as [<-|Nk]; [congruence|exact H]).
Qed.

Lemma verdict_iff im chans l : separate chans ->
  (bench_verdict A T ty eqb str fn im chans l = Ok tt <->
   forall k c, nth_error chans k = Some c ->
     accept (h_depth c) (h_first c) (channel_history (h_model c) k [] l)).
Proof.
  intro Hn. destruct (build_ok im chans Hn) as (B & He & Hd & Hh).
  unfold bench_verdict, bench_run. rewrite (verdict_gen chans Hn l (Bench (build A T im chans) (fun _ => [])) B He Hd).
  cbn [b_sb b_seen]. split; intros H k c Hk; specialize (H k c Hk); rewrite Hh in *; try (eapply nth_error_In; eauto).
  - now apply accept_first_accept.
  - now apply (accept_accept_first ty eqb str fn eqb_spec).
Qed.

(** ** in order *)
Lemma history_gots (model : list A -> A -> list T) k l : forall bef, gots (channel_history model k bef l) = outputs k l.
Proof.
  induction l as [|[k' a|k' t] l IH]; intro bef; cbn; [reflexivity| |]; destruct (Nat.eqb k' k); cbn; try apply IH.
  - unfold gots. rewrite flat_map_app. fold (gots (channel_history model k (bef ++ [a]) l)). rewrite IH.
    replace (flat_map _ (map Exp (model bef a))) with (@nil T); [reflexivity|].
    induction (model bef a); cbn; auto.
  - f_equal. apply IH.
Qed.
Lemma exps_map (ts : list T) : exps (map Exp ts) = ts.
Proof. induction ts; cbn; [reflexivity|]. f_equal. assumption. Qed.
Lemma gots_map (ts : list T) : gots (map Exp ts) = [].
Proof. induction ts; cbn; auto. Qed.
Lemma history_exps (model : list A -> A -> list T) k l : forall bef, exps (channel_history model k bef l) = predicted model bef (inputs k l).
Proof.
  induction l as [|[k' a|k' t] l IH]; intro bef; cbn; [reflexivity| |]; destruct (Nat.eqb k' k); cbn; try apply IH.
  unfold exps. rewrite flat_map_app. fold (exps (map Exp (model bef a))). fold (exps (channel_history model k (bef ++ [a]) l)).
  rewrite exps_map, IH. reflexivity.
Qed.
Lemma history_app (model : list A -> A -> list T) k l1 l2 : forall bef,
  channel_history model k bef (l1 ++ l2) = channel_history model k bef l1 ++ channel_history model k (bef ++ inputs k l1) l2.
Proof.
  induction l1 as [|[k' a|k' t] l IH]; intro bef; cbn; [now rewrite app_nil_r| |]; destruct (Nat.eqb k' k); cbn; rewrite ?IH; try reflexivity.
  - rewrite <- !app_assoc. reflexivity.
Qed.
(** prefixes of the channel's history end, up to further predictions, at an event *)
Lemma history_prefix (model : list A -> A -> list T) k l : forall bef p q, channel_history model k bef l = p ++ q ->
  exists l1 l2, l = l1 ++ l2 /\ gots p = outputs k l1 /\ length (predicted model bef (inputs k l1)) <= length (exps p).
Proof.
  induction l as [|[k' a|k' t] l IH]; intros bef p q E; cbn [channel_history] in E.
  - destruct p; [|discriminate]. exists [], []. repeat split. cbn. lia.
  - destruct (Nat.eqb k' k) eqn:Ek.
    + destruct (Nat.le_gt_cases (length (model bef a)) (length p)) as [H|H].
      * assert (P : exists p', p = map Exp (model bef a) ++ p' /\ channel_history model k (bef ++ [a]) l = p' ++ q).
        { exists (skipn (length (model bef a)) p). assert (F : firstn (length (model bef a)) p = map Exp (model bef a)).
          { assert (G : firstn (length (model bef a)) (p ++ q) = map Exp (model bef a)).
            { rewrite <- E. rewrite firstn_app, map_length, Nat.sub_diag. cbn. rewrite app_nil_r. apply firstn_all2. rewrite map_length. lia. }
            rewrite firstn_app in G. replace (length (model bef a) - length p) with 0 in G by lia. cbn in G. rewrite app_nil_r in G. exact G. }
          split; [rewrite <- F at 1; symmetry; apply firstn_skipn|].
          apply (app_inv_head (map Exp (model bef a))). rewrite E, app_assoc. f_equal. rewrite <- F. symmetry. apply firstn_skipn. }
        destruct P as (p' & -> & E'). destruct (IH _ _ _ E') as (l1 & l2 & -> & G & L).
        exists (BIn k' a :: l1), l2. split; [reflexivity|]. split.
        -- unfold gots. rewrite flat_map_app. fold (gots (map Exp (model bef a))). fold (gots p'). rewrite gots_map, G. reflexivity.
        -- cbn. rewrite Ek. cbn. unfold exps. rewrite flat_map_app. fold (exps (map Exp (model bef a))). fold (exps p'). rewrite exps_map, !app_length. apply Nat.add_le_mono_l. exact L.
      * exists [], (BIn k' a :: l). split; [reflexivity|].
        assert (P : p = firstn (length p) (map Exp (model bef a))).
        { assert (G : firstn (length p) (map Exp (model bef a) ++ channel_history model k (bef ++ [a]) l) = p).
          { rewrite E, firstn_app, Nat.sub_diag. cbn. rewrite app_nil_r. apply firstn_all. }
          rewrite firstn_app, map_length in G. replace (length p - length (model bef a)) with 0 in G by lia.
          cbn in G. rewrite app_nil_r in G. symmetry. exact G. }
        rewrite firstn_map in P. split; [rewrite P, gots_map; reflexivity|]. cbn. lia.
    + destruct (IH _ _ _ E) as (l1 & l2 & -> & G & L). exists (BIn k' a :: l1), l2. split; [reflexivity|].
      split; [exact G|]. cbn. rewrite Ek. exact L.
  - destruct (Nat.eqb k' k) eqn:Ek.
    + destruct p as [|e p].
      * exists [], (BOut k' t :: l). repeat split. cbn. lia.
      * cbn [app] in E. injection E as <- E. destruct (IH _ _ _ E) as (l1 & l2 & -> & G & L).
        exists (BOut k' t :: l1), l2. split; [reflexivity|]. split.
        -- cbn. rewrite Ek. cbn. f_equal. exact G.
        -- exact L.
    + destruct (IH _ _ _ E) as (l1 & l2 & -> & G & L). exists (BOut k' t :: l1), l2. split; [reflexivity|].
      split; [|exact L]. rewrite G. cbn. rewrite Ek. reflexivity.
Qed.

Lemma in_order_iff (c : chan) k l :
  accept 0 (h_first c) (channel_history (h_model c) k [] l) <->
  outputs k l = should c (inputs k l) /\
  forall p q, l = p ++ q -> length (outputs k p) <= length (should c (inputs k p)).
Proof.
  assert (E : accept 0 (h_first c) (channel_history (h_model c) k [] l) <-> accept_first 0 (h_first c) (channel_history (h_model c) k [] l)).
  { split; [apply (accept_accept_first ty eqb str fn eqb_spec)|apply accept_first_accept]. }
  rewrite E, (accept0_inorder ty eqb str fn eqb_spec), history_exps, history_gots. unfold should.
  split.
  - intros [H1 H2]. split; [symmetry; exact H1|]. intros p q ->. rewrite history_app in H2.
    specialize (H2 _ _ eq_refl). rewrite history_gots, history_exps in H2. rewrite app_length. exact H2.
  - intros [H1 H2]. split; [symmetry; exact H1|]. intros p q Ep.
    destruct (history_prefix _ _ _ _ _ _ Ep) as (l1 & l2 & -> & G & L). rewrite G.
    specialize (H2 l1 l2 eq_refl). rewrite app_length in H2. lia.
Qed.
Lemma bench_in_order im chans l : separate chans -> (forall c, In c chans -> h_depth c = 0) ->
  (bench_verdict A T ty eqb str fn im chans l = Ok tt <->
   forall k c, nth_error chans k = Some c ->
     outputs k l = should c (inputs k l) /\
     forall p q, l = p ++ q -> length (outputs k p) <= length (should c (inputs k p))).
Proof.
  intros Hn H0. rewrite verdict_iff by exact Hn.
  split; intros H k c Hk; specialize (H k c Hk); rewrite (H0 c) in * by (eapply nth_error_In; eauto); now apply in_order_iff.
Qed.
End Proofs.

(** ** the flip-flop test bench *)
Section Dff.
Context {T : Type}.
Lemma predicted_id (l : list T) : forall bef, predicted (fun _ a => [a]) bef l = l.
Proof. induction l as [|a l IH]; intro bef; cbn; [reflexivity|]. f_equal. apply IH. Qed.
Lemma dff_in cs (z : T) : inputs 0 (dff_cycles cs ++ [BOut 0 z]) = map (fun c => snd (fst c)) cs.
Proof. unfold dff_cycles. induction cs as [|[[[] d] q] cs IH]; cbn in *; [reflexivity| |]; f_equal; exact IH. Qed.
Lemma dff_out cs (z : T) : outputs 0 (dff_cycles cs ++ [BOut 0 z]) = map snd cs ++ [z].
Proof. unfold dff_cycles. induction cs as [|[[[] d] q] cs IH]; cbn in *; [reflexivity| |]; f_equal; exact IH. Qed.
Lemma dff_early cs (z : T) : forall p q, dff_cycles cs ++ [BOut 0 z] = p ++ q ->
  length (outputs 0 p) <= S (length (inputs 0 p)).
Proof.
  unfold dff_cycles. induction cs as [|[[o d] x] cs IH]; intros p q E.
  - destruct p as [|e [|e2 p]]; cbn in E; [cbn; lia| |destruct p; discriminate]. injection E as <- _. cbn. lia.
  - destruct o; (destruct p as [|e [|e2 p]]; cbn [flat_map app] in E; [cbn; lia|injection E as <- _; cbn; lia|]);
      injection E as <- <- E; specialize (IH _ _ E); unfold outputs, inputs in *; cbn [flat_map Nat.eqb app length]; lia.
Qed.
End Dff.
