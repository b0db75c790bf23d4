(** ScoreboardProof.v *)
From Verif Require Import ScoreboardModel ScoreboardSpec.
From Coq Require Import Permutation.
Local Open Scope list_scope.

Section Proofs.
Context {T : Type}.
Variable ty : T -> nat.
Variable eqb : T -> T -> bool.
Variable str : T -> string.
Variable fn : nat -> list T -> T -> T.

Notation compare := (compare T ty eqb str).
Notation check_received := (check_received T ty eqb str fn).
Notation deliver := (deliver T ty eqb str fn).
Notation receive := (receive T ty eqb str fn).
Notation sb_step := (sb_step T ty eqb str fn).
Notation sb_run := (sb_run T ty eqb str fn).

Notation passes := (passes ty eqb str).

Lemma compare_pass s got exp st : passes st got exp -> compare s got exp st = (s, Ok tt).
Proof.
  unfold ScoreboardSpec.passes, ScoreboardModel.compare. destruct st; cbn [andb].
  - intros (H1 & H2). rewrite H1, Nat.eqb_refl. cbn. now rewrite H2.
  - intros H. rewrite H, String.eqb_refl. reflexivity.
Qed.

Lemma compare_fail s got exp st :
  ~ passes st got exp -> compare s got exp st = (add_error T s, if imm s then Err EAssertion else Ok tt).
Proof.
  unfold ScoreboardSpec.passes, ScoreboardModel.compare. destruct st; cbn [andb].
  - intros H. destruct (Nat.eqb_spec (ty got) (ty exp)) as [E|E]; cbn [negb]; [|reflexivity].
    destruct (eqb got exp) eqn:E2; [|reflexivity]. exfalso. auto.
  - intros H. destruct (String.eqb_spec (str got) (str exp)) as [E|E]; cbn [negb]; [contradiction|reflexivity].
Qed.

Lemma passes_dec st got exp : passes st got exp \/ ~ passes st got exp.
Proof.
  unfold ScoreboardSpec.passes. destruct st.
  - destruct (Nat.eq_dec (ty got) (ty exp)); destruct (eqb got exp); intuition congruence.
  - destruct (String.string_dec (str got) (str exp)); auto.
Qed.

(** C20 *)
Lemma compare_iff s got exp st :
  (passes st got exp /\ compare s got exp st = (s, Ok tt))
  \/ (~ passes st got exp /\ compare s got exp st = (add_error T s, if imm s then Err EAssertion else Ok tt)).
Proof.
  destruct (passes_dec st got exp); [left; split; [|apply compare_pass] | right; split; [|apply compare_fail]]; auto.
Qed.

(** find_match *)
Lemma find_match_some n : forall l t i, find_match T eqb n l t = Some i ->
  exists l1 e l2, l = l1 ++ e :: l2 /\ length l1 = i /\ i < n /\ eqb e t = true
               /\ (forall x, In x l1 -> eqb x t = false).
Proof.
  induction n as [|n IH]; intros [|e r] t i; cbn; try discriminate.
  destruct (eqb e t) eqn:E; intros H.
  - injection H as <-. exists [], e, r. cbn. repeat split; auto; try lia.
  - destruct (find_match T eqb n r t) as [j|] eqn:F; [|discriminate]. injection H as <-.
    destruct (IH _ _ _ F) as (l1 & e' & l2 & -> & H2 & H3 & H4 & H5).
    exists (e :: l1), e', l2. cbn. repeat split; auto; try lia. intros x [<-|Hx]; auto.
Qed.

Lemma find_match_none n : forall l t, find_match T eqb n l t = None ->
  forall l1 e l2, l = l1 ++ e :: l2 -> length l1 < n -> eqb e t = false.
Proof.
  induction n as [|n IH]; intros [|a r] t; cbn; intros H l1 e l2 El Hl; try lia.
  - destruct l1; discriminate.
  - destruct (eqb a t) eqn:E; [discriminate|].
    destruct (find_match T eqb n r t) as [j|] eqn:F; [discriminate|].
    destruct l1 as [|b l1]; cbn in El, Hl; injection El as -> ->; [exact E|].
    eapply IH; [exact F|reflexivity|lia].
Qed.

Lemma find_match_first n : forall l1 e l2 t,
  length l1 < n -> eqb e t = true -> (forall x, In x l1 -> eqb x t = false) ->
  find_match T eqb n (l1 ++ e :: l2) t = Some (length l1).
Proof.
  induction n as [|n IH]; intros [|a l1] e l2 t Hl He Hb; cbn in *; try lia.
  - now rewrite He.
  - rewrite (Hb a) by auto. rewrite IH; auto. lia.
Qed.

Lemma pop_mid (l1 : list T) e l2 : pop T (l1 ++ e :: l2) (length l1) = Some (e, l1 ++ l2).
Proof.
  unfold pop. rewrite nth_error_app2 by lia. rewrite Nat.sub_diag. cbn [nth_error].
  rewrite firstn_app, Nat.sub_diag, firstn_all, firstn_O, app_nil_r.
  rewrite skipn_app, skipn_all2 by lia. replace (S (length l1) - length l1) with 1 by lia. reflexivity.
Qed.

(** C17: the window *)
Lemma check_window s i loc l1 e l2 t :
  i_exp i = EList loc -> heap s loc = l1 ++ e :: l2 ->
  (Z.of_nat (length l1) <= i_depth i)%Z ->
  eqb e t = true -> (forall x, In x l1 -> eqb x t = false) ->
  check_received s i t = compare (set_heap T s loc (l1 ++ l2)) t e (i_strict i).
Proof.
  intros Hi Hh Hl He Hb. unfold ScoreboardModel.check_received. rewrite Hi, Hh. unfold pick.
  rewrite find_match_first by (auto; lia). now rewrite pop_mid.
Qed.

Lemma check_nomatch s i loc h r t :
  i_exp i = EList loc -> heap s loc = h :: r ->
  (forall l1 e l2, h :: r = l1 ++ e :: l2 -> (Z.of_nat (length l1) <= i_depth i)%Z -> eqb e t = false) ->
  check_received s i t = compare (set_heap T s loc r) t h (i_strict i).
Proof.
  intros Hi Hh Hn. unfold ScoreboardModel.check_received. rewrite Hi, Hh. unfold pick.
  destruct (find_match T eqb (Z.to_nat (i_depth i + 1)) (h :: r) t) as [k|] eqn:F.
  - apply find_match_some in F. destruct F as (l1 & e & l2 & E & H2 & H3 & H4 & _).
    rewrite (Hn l1 e l2 E) in H4 by lia. discriminate.
  - reflexivity.
Qed.

Lemma check_empty s i loc t :
  i_exp i = EList loc -> heap s loc = [] ->
  check_received s i t = (add_error T s, if imm s then Err EAssertion else Ok tt).
Proof.
  intros Hi Hh. unfold ScoreboardModel.check_received. rewrite Hi, Hh.
  unfold pick, pop. destruct (find_match _ _ _ _ _) as [[|k]|]; reflexivity.
Qed.

Lemma pick_consumes depth h r t :
  exists e rest, pop T (h :: r) (pick T eqb depth (h :: r) t) = Some (e, rest)
              /\ consumes eqb depth (h :: r) t e rest.
Proof.
  unfold pick. destruct (find_match T eqb (Z.to_nat (depth + 1)) (h :: r) t) as [k|] eqn:F.
  - apply find_match_some in F. destruct F as (l1 & e & l2 & E & <- & H3 & H4 & H5). rewrite E, pop_mid.
    exists e, (l1 ++ l2). split; [reflexivity|]. constructor; auto. lia.
  - exists h, r. split; [reflexivity|]. apply cons_head. intros l1 e l2 E Hl.
    eapply find_match_none; [exact F|exact E|lia].
Qed.

(** C16, C17: one reception against a list *)
Lemma check_list s i loc t :
  i_exp i = EList loc ->
  let s' := fst (check_received s i t) in
  (forall l, l <> loc -> heap s' l = heap s l) /\
  match heap s loc with
  | [] => heap s' loc = [] /\ errors s' = S (errors s)
  | out => exists e rest, consumes eqb (i_depth i) out t e rest /\ heap s' loc = rest
             /\ ((passes (i_strict i) t e /\ errors s' = errors s)
                 \/ (~ passes (i_strict i) t e /\ errors s' = S (errors s)))
  end.
Proof.
  intros Hi. cbn zeta. unfold ScoreboardModel.check_received. rewrite Hi.
  destruct (heap s loc) as [|h r] eqn:Eh.
  - replace (pop T [] (pick T eqb (i_depth i) [] t)) with (@None (T * list T))
      by (unfold pop; destruct (pick _ _ _ _ _); reflexivity).
    cbn. auto.
  - destruct (pick_consumes (i_depth i) h r t) as (e & rest & -> & Hc).
    destruct (compare_iff (set_heap T s loc rest) t e (i_strict i)) as [(P & ->)|(P & ->)]; cbn; unfold upd_fun.
    + split; [intros l Hl; destruct (Nat.eqb_spec l loc); [contradiction|reflexivity]|].
      exists e, rest. rewrite Nat.eqb_refl. auto.
    + split; [intros l Hl; destruct (Nat.eqb_spec l loc); [contradiction|reflexivity]|].
      exists e, rest. rewrite Nat.eqb_refl. auto.
Qed.

(** which expected transaction a reception is compared with *)
Definition consumed (s : sb T) (i : iface) (t : T) : option T :=
  match i_exp i with
  | EFun f => Some (fn f (fcalls s f) t)
  | EList l => nth_error (heap s l) (pick T eqb (i_depth i) (heap s l) t)
  end.

Definition good (s : sb T) (i : iface) (t : T) : Prop :=
  exists e, consumed s i t = Some e /\ passes (i_strict i) t e.

(** C16 / C19: error count and exception of one reception *)
Lemma check_received_cases s i t :
  let '(s', r) := check_received s i t in
  imm s' = imm s /\ expected s' = expected s /\ cbs s' = cbs s /\ dead s' = dead s
  /\ ((good s i t /\ errors s' = errors s /\ r = Ok tt)
      \/ (~ good s i t /\ errors s' = S (errors s) /\ r = if imm s then Err EAssertion else Ok tt)).
Proof.
  unfold ScoreboardModel.check_received, good, consumed. destruct (i_exp i) as [l|f].
  - unfold pop. destruct (nth_error (heap s l) _) as [e|] eqn:E.
    + destruct (compare_iff (set_heap T s l (firstn (pick T eqb (i_depth i) (heap s l) t) (heap s l)
                 ++ skipn (S (pick T eqb (i_depth i) (heap s l) t)) (heap s l))) t e (i_strict i)) as [(P & ->)|(P & ->)];
        cbn; repeat split; auto.
      * left. eauto.
      * right. repeat split; auto. intros (e' & E' & P'). injection E' as <-. contradiction.
    + cbn. repeat split; auto. right. repeat split; auto. intros (e' & E' & _). discriminate.
  - match goal with |- context [compare ?s1 ?a ?b ?c] => destruct (compare_iff s1 a b c) as [(P & ->)|(P & ->)] end;
      cbn; repeat split; auto.
    + left. eauto.
    + right. repeat split; auto. intros (e' & E' & P'). injection E' as <-. contradiction.
Qed.

Lemma deliver_frame l : forall s t s' r, deliver s l t = (s', r) ->
  imm s' = imm s /\ expected s' = expected s /\ cbs s' = cbs s /\ dead s' = dead s
  /\ errors s <= errors s' /\ (imm s = false -> r = Ok tt)
  /\ (imm s = true -> (r = Ok tt /\ errors s' = errors s) \/ (r = Err EAssertion /\ errors s' = S (errors s))).
Proof.
  induction l as [|[i|] l IH]; cbn; intros s t s' r H.
  - injection H as <- <-. repeat split; auto.
  - assert (C := check_received_cases s i t). destruct (check_received s i t) as [s1 r1].
    destruct C as (C1 & C2 & C3 & C4 & C5). destruct r1 as [u|e].
    + apply IH in H. destruct H as (H1 & H2 & H3 & H4 & H5 & H6 & H7). rewrite C1 in *.
      split; [exact H1|]. split; [congruence|]. split; [congruence|]. split; [congruence|].
      split; [destruct C5 as [(_ & E & _)|(_ & E & _)]; lia|]. split; [exact H6|].
      intros Hi. destruct C5 as [(_ & E & _)|(_ & E & E')]; [rewrite <- E; auto|]. rewrite Hi in E'. discriminate.
    + injection H as <- <-. destruct C5 as [(_ & _ & E)|(_ & E & E')]; [discriminate|].
      repeat split; auto; try lia.
      * intros Hi. rewrite Hi in E'. discriminate.
      * intros Hi. right. rewrite Hi in E'. injection E' as <-. auto.
  - apply IH in H. exact H.
Qed.

Lemma receive_frame s m t s' r : receive s m t = (s', r) ->
  imm s' = imm s /\ expected s' = expected s /\ cbs s' = cbs s
  /\ errors s <= errors s' /\ (imm s = false -> r = Ok tt)
  /\ (imm s = true -> (r = Ok tt /\ errors s' = errors s) \/ (r = Err EAssertion /\ errors s' = S (errors s))).
Proof.
  unfold ScoreboardModel.receive. destruct (existsb _ _).
  - intros H. injection H as <- <-. repeat split; auto.
  - destruct (deliver s (cbs s m) t) as [s1 r1] eqn:E. apply deliver_frame in E.
    destruct E as (H1 & H2 & H3 & H4 & H5 & H6 & H7).
    destruct r1 as [[]|e]; intros H; injection H as <- <-; cbn; repeat split; auto.
Qed.

Lemma step_mono s o s' r : sb_step s o = (s', r) -> errors s <= errors s' /\ imm s' = imm s.
Proof.
  destruct o as [l t|m t|m im e cf d st]; cbn.
  - intros H. injection H as <- <-. cbn. auto.
  - intros H. apply receive_frame in H. tauto.
  - unfold add_interface. destruct im; cbn; [destruct cf; cbn|]; intros H; injection H as <- <-; cbn; auto.
Qed.

Lemma run_mono ops : forall s s' xs, sb_run s ops = (s', xs) -> errors s <= errors s' /\ imm s' = imm s.
Proof.
  induction ops as [|o ops IH]; cbn; intros s s' xs H; [injection H as <- <-; auto|].
  destruct (sb_step s o) as [s1 x] eqn:E1. destruct (sb_run s1 ops) as [s2 ys] eqn:E2. injection H as <- <-.
  apply step_mono in E1. apply IH in E2. split; [lia|]. destruct E1, E2. congruence.
Qed.

(** C19: without fail_immediately no reception ever raises *)
Lemma run_no_raise ops : forall s s' xs, imm s = false -> sb_run s ops = (s', xs) ->
  forall k m t, nth_error ops k = Some (SRecv m t) -> nth_error xs k = Some (Ok tt).
Proof.
  induction ops as [|o ops IH]; cbn; intros s s' xs Hi H k m t Hk; [destruct k; discriminate|].
  destruct (sb_step s o) as [s1 x] eqn:E1. destruct (sb_run s1 ops) as [s2 ys] eqn:E2. injection H as <- <-.
  destruct k as [|k]; cbn in *.
  - injection Hk as ->. cbn in E1. apply receive_frame in E1. f_equal. tauto.
  - apply step_mono in E1. eapply IH; [|exact E2|exact Hk]. destruct E1; congruence.
Qed.

Lemma result_errors s : errors s <> 0 -> result T s = Err EAssertion.
Proof.
  intros H. unfold result. destruct (existsb _ _); [reflexivity|].
  destruct (Nat.eqb_spec (errors s) 0); [contradiction|reflexivity].
Qed.

Lemma check_outcome s i t :
  errors (fst (check_received s i t)) = errors s /\ snd (check_received s i t) = Ok tt
  \/ errors (fst (check_received s i t)) = S (errors s)
     /\ snd (check_received s i t) = if imm s then Err EAssertion else Ok tt.
Proof.
  unfold ScoreboardModel.check_received. destruct (i_exp i) as [l|f].
  - destruct (pop T (heap s l) _) as [[e rest]|].
    + unfold ScoreboardModel.compare. cbn. destruct (_ && _); cbn; [auto|]. destruct (negb _); cbn; auto.
    + cbn. auto.
  - unfold ScoreboardModel.compare. cbn. destruct (_ && _); cbn; [auto|]. destruct (negb _); cbn; auto.
Qed.
Lemma deliver_users s l t : Forall (fun c => c = CbUser) l -> deliver s l t = (s, Ok tt).
Proof. induction 1 as [|c l -> _ IH]; cbn; [reflexivity|exact IH]. Qed.
Lemma deliver_one before s i after t : Forall (fun c => c = CbUser) before -> Forall (fun c => c = CbUser) after ->
  deliver s (before ++ CbCheck i :: after) t = check_received s i t.
Proof.
  intros Hb Ha. induction Hb as [|c l -> _ IH]; cbn [app deliver].
  - destruct (check_received s i t) as [s' [[]|e]]; [|reflexivity]. apply deliver_users, Ha.
  - exact IH.
Qed.

(** C21 *)
Lemma result_iff s :
  (result T s = Ok tt <-> errors s = 0 /\ forall m l, In (m, EList l) (expected s) -> heap s l = [])
  /\ (result T s <> Ok tt -> result T s = Err EAssertion).
Proof.
  unfold result. destruct (existsb _ _) eqn:E.
  - split; [|auto]. split; [discriminate|]. intros (_ & H). apply existsb_exists in E.
    destruct E as ((m & e) & Hi & Hl). destruct e as [l|f]; cbn in Hl; [|discriminate].
    rewrite (H m l Hi) in Hl. discriminate.
  - destruct (Nat.eqb_spec (errors s) 0) as [E0|E0]; cbn [negb].
    + split; [|congruence]. split; [|reflexivity]. intros _. split; [exact E0|]. intros m l Hi.
      destruct (heap s l) as [|x r] eqn:Eh; [reflexivity|]. exfalso.
      assert (C : existsb (fun me => leftover T s (snd me)) (expected s) = true).
      { apply existsb_exists. exists (m, EList l). split; [exact Hi|]. cbn. now rewrite Eh. }
      congruence.
    + split; [|auto]. split; [discriminate|]. intros (H & _). contradiction.
Qed.

Lemma compare_heap s a b c : heap (fst (compare s a b c)) = heap s.
Proof. destruct (compare_iff s a b c) as [(_ & ->)|(_ & ->)]; reflexivity. Qed.

Lemma check_heap s i t l : i_exp i <> EList l -> heap (fst (check_received s i t)) l = heap s l.
Proof.
  unfold ScoreboardModel.check_received. intros H. destruct (i_exp i) as [l'|f] eqn:E.
  - destruct (pop T _ _) as [[e rest]|]; [|reflexivity]. rewrite compare_heap. cbn. unfold upd_fun.
    destruct (Nat.eqb_spec l l'); [congruence|reflexivity].
  - rewrite compare_heap. reflexivity.
Qed.

Lemma deliver_heap cl : forall s t l, (forall c, In c cl -> ~ uses_list c l) ->
  heap (fst (deliver s cl t)) l = heap s l.
Proof.
  induction cl as [|[i|] cl IH]; cbn; intros s t l H; [reflexivity| |apply IH; auto].
  assert (Hi : i_exp i <> EList l) by (intros C; apply (H (CbCheck i)); auto).
  assert (Hc := check_heap s i t l Hi). destruct (check_received s i t) as [s1 [u|e]]; cbn in *; [|exact Hc].
  rewrite IH by auto. exact Hc.
Qed.

Lemma receive_heap s m t l : (forall c, In c (cbs s m) -> ~ uses_list c l) ->
  heap (fst (receive s m t)) l = heap s l.
Proof.
  intros H. unfold ScoreboardModel.receive. destruct (existsb _ _); [reflexivity|].
  assert (D := deliver_heap (cbs s m) s t l H). destruct (deliver s (cbs s m) t) as [s1 [u|e]]; exact D.
Qed.

Lemma set_expected_In d m e : In (m, e) (set_expected d m e).
Proof.
  induction d as [|[m' e'] r IH]; cbn; [auto|]. destruct (Nat.eqb_spec m' m) as [->|]; cbn; auto.
Qed.

Lemma set_expected_keep d m e m' e' : m' <> m -> In (m', e') d -> In (m', e') (set_expected d m e).
Proof.
  intros Hm. induction d as [|[k x] r IH]; cbn; [auto|]. intros [H|H].
  - injection H as -> ->. destruct (Nat.eqb_spec m' m); [contradiction|]. cbn. auto.
  - destruct (Nat.eqb k m); cbn; auto.
Qed.

Lemma step_expected s o s' r : sb_step s o = (s', r) ->
  match o with
  | SAdd m _ e _ _ _ => expected s' = set_expected (expected s) m e
  | _ => expected s' = expected s
  end.
Proof.
  destruct o as [l t|m t|m im e cf d st]; cbn.
  - intros H. injection H as <- <-. reflexivity.
  - intros H. apply receive_frame in H. tauto.
  - unfold add_interface. destruct im; cbn; [destruct cf; cbn|]; intros H; injection H as <- <-; reflexivity.
Qed.

Lemma run_expected_keep ops : forall s s' xs m e, sb_run s ops = (s', xs) ->
  ~ In m (flat_map added ops) -> In (m, e) (expected s) -> In (m, e) (expected s').
Proof.
  induction ops as [|o ops IH]; cbn; intros s s' xs m e H Hn Hi; [injection H as <- <-; auto|].
  destruct (sb_step s o) as [s1 x] eqn:E1. destruct (sb_run s1 ops) as [s2 ys] eqn:E2. injection H as <- <-.
  eapply IH; [exact E2|intros C; apply Hn; apply in_or_app; auto|].
  apply step_expected in E1. destruct o as [l t|k t|k im e' cf d st]; try (rewrite E1; exact Hi).
  rewrite E1. apply set_expected_keep; [|exact Hi]. intros ->. apply Hn. cbn. auto.
Qed.

Lemma run_expected ops : forall s s' xs m im e cf d st,
  sb_run s ops = (s', xs) -> NoDup (flat_map added ops) ->
  In (SAdd m im e cf d st) ops -> In (m, e) (expected s').
Proof.
  induction ops as [|o ops IH]; cbn; intros s s' xs m im e cf d st H Hn Hi; [tauto|].
  destruct (sb_step s o) as [s1 x] eqn:E1. destruct (sb_run s1 ops) as [s2 ys] eqn:E2. injection H as <- <-.
  destruct Hi as [->|Hi].
  - cbn in Hn. inversion Hn as [|a b Ha Hb]; subst. eapply run_expected_keep; [exact E2|exact Ha|].
    apply step_expected in E1. rewrite E1. apply set_expected_In.
  - eapply IH; [exact E2| |exact Hi]. destruct o as [l t|k t|k im' e' cf' d' st']; cbn in Hn; auto.
    now inversion Hn.
Qed.

(** ** one interface, strict types, Python equality is real equality *)
Hypothesis eqb_spec : forall a b, eqb a b = true <-> a = b.

Definition single (s : sb T) (m loc : nat) (d : nat) : Prop :=
  cbs s m = [CbCheck (mkIface (EList loc) (Z.of_nat d) true)] /\ expected s = [(m, EList loc)].

Lemma passes_refl t : passes true t t.
Proof. split; [reflexivity|]. now apply eqb_spec. Qed.

Lemma eqb_neq a b : eqb a b = false <-> a <> b.
Proof.
  split; [intros H C; apply eqb_spec in C; congruence|]. intros H. destruct (eqb a b) eqn:E; [|reflexivity].
  apply eqb_spec in E. contradiction.
Qed.

Inductive accept_first (d : nat) : list T -> list (ev T) -> Prop :=
| af_nil : accept_first d [] []
| af_exp out t l : accept_first d (out ++ [t]) l -> accept_first d out (Exp t :: l)
| af_got l1 t l2 l : length l1 <= d -> ~ In t l1 -> accept_first d (l1 ++ l2) l ->
                     accept_first d (l1 ++ t :: l2) (Got t :: l).

Lemma result_single s m loc d : single s m loc d -> errors s = 0 ->
  (result T s = Ok tt <-> heap s loc = []).
Proof.
  intros (_ & He) H0. destruct (result_iff s) as (R & _). rewrite R. rewrite He. split.
  - intros (_ & H). apply (H m). now left.
  - intros H. split; [exact H0|]. intros m' l [E|[]]. injection E as <- <-. exact H.
Qed.

Lemma first_split (l1 l2 l1' l2' : list T) t :
  l1 ++ t :: l2 = l1' ++ t :: l2' -> ~ In t l1 -> ~ In t l1' -> l1 = l1' /\ l2 = l2'.
Proof.
  revert l1'. induction l1 as [|a l1 IH]; intros [|b l1'] H Hn Hn'; cbn in *.
  - injection H as ->. auto.
  - injection H as -> _. tauto.
  - injection H as -> _. tauto.
  - injection H as -> H. destruct (IH l1' H) as (-> & ->); auto.
Qed.

Lemma errors_fail ops s : errors s <> 0 -> result T (fst (sb_run s ops)) <> Ok tt.
Proof.
  intros H. destruct (sb_run s ops) as [s' xs] eqn:E. apply run_mono in E. cbn.
  rewrite result_errors; [discriminate|lia].
Qed.

Lemma fst_run_cons s o ops : fst (sb_run s (o :: ops)) = fst (sb_run (fst (sb_step s o)) ops).
Proof. cbn. destruct (sb_step s o) as [s1 x]. cbn. destruct (sb_run s1 ops). reflexivity. Qed.

Lemma receive_single s m loc d t : single s m loc d -> dead s = [] ->
  exists s', fst (receive s m t) = s' /\ single s' m loc d /\ imm s' = imm s
   /\ ((exists l1 l2, heap s loc = l1 ++ t :: l2 /\ length l1 <= d /\ ~ In t l1
          /\ heap s' loc = l1 ++ l2 /\ errors s' = errors s /\ dead s' = [] /\ snd (receive s m t) = Ok tt)
       \/ ((forall l1 l2, heap s loc = l1 ++ t :: l2 -> d < length l1)
          /\ heap s' loc = tl (heap s loc) /\ errors s' = S (errors s)
          /\ snd (receive s m t) = if imm s then Err EAssertion else Ok tt)).
Proof.
  intros (Hc & He) Hd. unfold ScoreboardModel.receive. rewrite Hd, Hc. cbn [existsb ScoreboardModel.deliver].
  set (i := mkIface (EList loc) (Z.of_nat d) true).
  destruct (find_match T eqb (S d) (heap s loc) t) as [k|] eqn:F.
  - apply find_match_some in F. destruct F as (l1 & e & l2 & Hh & Hk & Hlt & Hee & Hb).
    apply eqb_spec in Hee. subst e.
    rewrite (check_window s i loc l1 t l2 t) by (try reflexivity; try exact Hh; try (cbn; lia); try (now apply eqb_spec); exact Hb).
    rewrite compare_pass by apply passes_refl. cbn. eexists. split; [reflexivity|]. cbn.
    split; [split; assumption|]. split; [reflexivity|]. left. exists l1, l2. split; [exact Hh|]. split; [lia|].
    split; [intros C; apply Hb in C; apply eqb_neq in C; contradiction|]. unfold upd_fun. rewrite Nat.eqb_refl. auto.
  - assert (Hn := find_match_none _ _ _ F).
    assert (Hn' : forall l1 l2, heap s loc = l1 ++ t :: l2 -> d < length l1).
    { intros l1 l2 E. destruct (Nat.lt_ge_cases d (length l1)) as [H|H]; [exact H|]. exfalso.
      specialize (Hn l1 t l2 E ltac:(lia)). apply eqb_neq in Hn. contradiction. }
    destruct (heap s loc) as [|h r] eqn:Eh.
    + rewrite (check_empty s i loc t) by (auto; reflexivity).
      destruct (imm s) eqn:Ei; cbn; eexists; (split; [reflexivity|]); cbn; (split; [split; assumption|]);
        (split; [assumption|]); right; rewrite Eh; auto.
    + rewrite (check_nomatch s i loc h r t).
      2: reflexivity. 2: exact Eh.
      2:{ intros l1 e l2 E Hl. eapply Hn; [exact E|]. cbn in Hl. lia. }
      rewrite compare_fail.
      2:{ intros (_ & C). apply eqb_spec in C. subst h. specialize (Hn' [] r eq_refl). cbn in Hn'. lia. }
      cbn. destruct (imm s) eqn:Ei; eexists; (split; [reflexivity|]); cbn; (split; [split; assumption|]);
        (split; [assumption|]); right; unfold upd_fun; rewrite Nat.eqb_refl; auto.
Qed.

Lemma pass_iff_first m loc d l : forall s,
  single s m loc d -> errors s = 0 -> dead s = [] ->
  (result T (fst (sb_run s (ops_of m loc l))) = Ok tt <-> accept_first d (heap s loc) l).
Proof.
  induction l as [|[t|t] l IH]; intros s Hs He Hd.
  - cbn. rewrite (result_single s m loc d Hs He). split; [intros ->; constructor|]. intros H. now inversion H.
  - change (ops_of m loc (Exp t :: l)) with (SExpect loc t :: ops_of m loc l).
    rewrite fst_run_cons. cbn [ScoreboardModel.sb_step fst].
    rewrite IH; [|destruct Hs; split; assumption|exact He|exact Hd].
    cbn. unfold upd_fun. rewrite Nat.eqb_refl. split; [now constructor|]. intros H. now inversion H.
  - change (ops_of m loc (Got t :: l)) with (SRecv m t :: ops_of m loc l).
    rewrite fst_run_cons. cbn [ScoreboardModel.sb_step].
    destruct (receive_single s m loc d t Hs Hd) as (s' & -> & Hs' & _ & [(l1 & l2 & H1 & H2 & H3 & H4 & H5 & H6 & _)|(H1 & H2 & H3 & _)]).
    + rewrite IH; [|exact Hs'|congruence|exact H6]. rewrite H4, H1. split.
      * intros H. now constructor.
      * intros H. inversion H as [| |l1' t' l2' l' Hl Hni Ha]; subst.
        match goal with E : _ = _ |- _ => symmetry in E; apply first_split in E; auto end.
        match goal with E : _ /\ _ |- _ => destruct E as (-> & ->) end. assumption.
    + split; [intros C; exfalso; revert C; apply errors_fail; lia|].
      intros H. inversion H as [| |l1 t' l2 l' Hl Hni Ha]; subst.
      match goal with E : _ ++ _ :: _ = heap s loc |- _ => symmetry in E; apply H1 in E; lia end.
Qed.

Lemma accept_first_accept d out l : accept_first d out l -> accept d out l.
Proof. induction 1; constructor; auto. Qed.

(** a transaction may be taken from a place further back in the window *)
Lemma accept_back d (l : list (ev T)) : forall l1 t l2 l3, length l1 + length l2 <= d ->
  accept d (l1 ++ t :: l2 ++ l3) l -> accept d (l1 ++ l2 ++ t :: l3) l.
Proof.
  induction l as [|[x|x] l IH]; intros l1 t l2 l3 Hd H.
  - inversion H as [E| |]. destruct l1; discriminate.
  - inversion H as [|? ? ? H'|]; subst. constructor. rewrite <- !app_assoc in *. cbn [app] in *. rewrite <- app_assoc in H'. apply IH; assumption.
  - inversion H as [| |a ? b ? Ha H' E]; subst. clear H.
    assert (C : (exists u, l1 = a ++ x :: u /\ b = u ++ t :: l2 ++ l3) \/ (a = l1 /\ x = t /\ b = l2 ++ l3)
             \/ (exists u v, a = l1 ++ t :: u /\ ((exists w, l2 = u ++ x :: w /\ b = w ++ l3) \/ (exists w, u = l2 ++ w /\ l3 = w ++ x :: v /\ b = v)))).
    { clear - E. revert a E. induction l1 as [|y l1 IH]; intros a E.
      - destruct a as [|z a]; cbn [app] in E; injection E as <- E; [right; left; auto|]. right. right.
        revert a E. induction l2 as [|y l2 IH2]; intros a E.
        + exists a, b. split; [reflexivity|]. right. exists a. cbn [app] in E. auto.
        + destruct a as [|w a]; cbn [app] in E; injection E as <- E.
          * exists [], b. split; [reflexivity|]. left. exists l2. auto.
          * destruct (IH2 a E) as (u & v & Eu & [(q & -> & ->)|(q & -> & -> & ->)]); injection Eu as ->.
            -- exists (w :: u), v. split; [reflexivity|]. left. exists q. auto.
            -- exists (w :: l2 ++ q), v. split; [reflexivity|]. right. exists q. auto.
      - destruct a as [|z a]; cbn [app] in E; injection E as <- E.
        + left. exists l1. auto.
        + destruct (IH a E) as [(u & -> & ->)|[(-> & -> & ->)|(u & v & -> & K)]].
          * left. exists u. auto.
          * right. left. auto.
          * right. right. exists u, v. auto. }
    clear E. destruct C as [(u & -> & ->)|[(-> & -> & ->)|(u & v & -> & [(w & -> & ->)|(w & -> & -> & ->)])]].
    + rewrite <- app_assoc. cbn [app]. constructor; [exact Ha|]. rewrite app_assoc. apply IH.
      * rewrite app_length in *. cbn [length] in Hd. lia.
      * rewrite <- app_assoc. exact H'.
    + rewrite app_assoc. constructor; [rewrite app_length; lia|]. rewrite <- app_assoc. exact H'.
    + rewrite <- app_assoc. cbn [app]. rewrite app_assoc. constructor; [rewrite app_length in *; cbn [length] in *; lia|].
      replace ((l1 ++ u) ++ w ++ t :: l3) with (l1 ++ (u ++ w) ++ t :: l3) by (rewrite !app_assoc; reflexivity). apply IH.
      * rewrite !app_length in *. cbn [length] in *. lia.
      * rewrite <- !app_assoc in *. exact H'.
    + replace (l1 ++ l2 ++ t :: w ++ x :: v) with ((l1 ++ l2 ++ t :: w) ++ x :: v) by (rewrite <- !app_assoc; reflexivity).
      constructor; [rewrite !app_length in *; cbn [length] in *; rewrite app_length in Ha; lia|].
      rewrite <- !app_assoc in *. cbn [app] in *. apply IH; [exact Hd|]. rewrite <- ?app_assoc in H'. exact H'.
Qed.
(** so taking the first one is as good *)
Lemma accept_accept_first d l : forall out, accept d out l -> accept_first d out l.
Proof.
  assert (Dec : forall a b : T, {a = b} + {a <> b}).
  { intros a b. destruct (eqb a b) eqn:E; [left; apply eqb_spec; exact E|right; apply eqb_neq; exact E]. }
  induction l as [|[t|t] l IH]; intros out H.
  - inversion H. constructor.
  - inversion H; subst. constructor. auto.
  - inversion H as [| |l1 ? l2 ? H1 H2]; subst. clear H. destruct (in_dec Dec t l1) as [Hi|Hi].
    + assert (K : exists a b, l1 = a ++ t :: b /\ ~ In t a).
      { clear - Hi Dec. induction l1 as [|y l1 IH]; [contradiction|]. destruct (Dec y t) as [->|N]; [exists [], l1; auto|].
        destruct Hi as [->|Hi]; [contradiction N; reflexivity|]. destruct (IH Hi) as (a & b & -> & Ha). exists (y :: a), b. split; [reflexivity|]. intros [->|C]; [apply N; reflexivity|auto]. }
      destruct K as (a & b & -> & Ha). rewrite app_length in H1. cbn [length] in H1. rewrite <- app_assoc in *. cbn [app] in *.
      constructor; [lia|exact Ha|]. apply IH. apply accept_back; [lia|exact H2].
    + constructor; [exact H1|exact Hi|]. apply IH. exact H2.
Qed.

Notation start := (start T).

Lemma start_single im m loc d :
  single (start im m loc d) m loc d /\ errors (start im m loc d) = 0 /\ dead (start im m loc d) = []
  /\ heap (start im m loc d) loc = [].
Proof.
  unfold ScoreboardSpec.start, single. cbn. unfold upd_fun. rewrite Nat.eqb_refl. repeat split; reflexivity.
Qed.

(** C18 *)
Lemma reorder_iff im m loc d l :
  result T (fst (sb_run (start im m loc d) (ops_of m loc l))) = Ok tt <-> accept d [] l.
Proof.
  destruct (start_single im m loc d) as (H1 & H2 & H3 & H4).
  rewrite (pass_iff_first m loc d l _ H1 H2 H3), H4. split; [apply accept_first_accept|].
  apply accept_accept_first.
Qed.

(** a larger depth accepts more *)
Lemma accept_mono d d' out (l : list (ev T)) : d <= d' -> accept d out l -> accept d' out l.
Proof. intros Hd. induction 1; constructor; auto; lia. Qed.
(** what is accepted is what was expected, up to the order, each after it was expected *)
Lemma accept_perm d out (l : list (ev T)) : accept d out l ->
  Permutation (out ++ exps l) (gots l) /\ forall p q, l = p ++ q -> length (gots p) <= length out + length (exps p).
Proof.
  induction 1 as [|out t l _ [IH1 IH2]|l1 t l2 l _ _ [IH1 IH2]]; cbn [exps gots flat_map app].
  - split; [constructor|]. intros p q E. destruct p; [cbn; lia|discriminate].
  - split; [rewrite <- app_assoc in IH1; exact IH1|]. intros [|e p] q E; [cbn; lia|]. injection E as <- E.
    specialize (IH2 p q E). rewrite app_length in IH2. cbn in *. fold (exps p) (gots p) in *. lia.
  - split.
    + rewrite <- app_assoc. cbn [app]. rewrite <- Permutation_middle. constructor. rewrite app_assoc. exact IH1.
    + intros [|e p] q E; [cbn; lia|]. injection E as <- E. specialize (IH2 p q E). rewrite app_length in *. cbn in *. fold (exps p) (gots p) in *. lia.
Qed.

(** C15 *)
Lemma accept0_inorder l : forall out,
  accept_first 0 out l <->
  (out ++ exps l = gots l /\ forall p q, l = p ++ q -> length (gots p) <= length out + length (exps p)).
Proof.
  induction l as [|[t|t] l IH]; intros out; cbn [exps gots flat_map app].
  - split.
    + intros H. inversion H; subst. split; [reflexivity|]. intros p q E. destruct p; [cbn; lia|discriminate].
    + rewrite app_nil_r. intros (-> & _). constructor.
  - fold (exps l). fold (gots l). split.
    + intros H. inversion H; subst. rewrite IH in *. match goal with H : _ /\ _ |- _ => destruct H as (H1 & H2) end.
      split; [now rewrite <- app_assoc in H1|]. intros [|e p] q E; [cbn; lia|]. injection E as <- E.
      specialize (H2 p q E). rewrite app_length in H2. cbn in *. fold (exps p) (gots p) in *. lia.
    + intros (H1 & H2). constructor. apply IH. split; [now rewrite <- app_assoc|].
      intros p q E. specialize (H2 (Exp t :: p) q). cbn in H2. rewrite E in H2. specialize (H2 eq_refl).
      rewrite app_length. cbn. fold (exps p) (gots p) in *. lia.
  - fold (exps l). fold (gots l). split.
    + intros H. inversion H as [| |l1 t' l2 l' Hl Hni Ha]; subst. destruct l1; cbn in Hl; [|lia]. cbn in *.
      apply IH in Ha. destruct Ha as (H1 & H2). split; [now rewrite H1|].
      intros [|e p] q E; [cbn; lia|]. injection E as <- E. specialize (H2 p q E). cbn in *.
      fold (exps p) (gots p) in *. lia.
    + intros (H1 & H2). destruct out as [|a out].
      * exfalso. specialize (H2 [Got t] l eq_refl). cbn in H2. lia.
      * cbn in H1. injection H1 as -> H1. change (t :: out) with ([] ++ t :: out). constructor; [cbn; lia|cbn; tauto|].
        cbn. apply IH. split; [exact H1|]. intros p q E. specialize (H2 (Got t :: p) q). cbn in H2. rewrite E in H2.
        specialize (H2 eq_refl). fold (exps p) (gots p) in *. lia.
Qed.

Lemma inorder_iff im m loc l :
  (result T (fst (sb_run (start im m loc 0) (ops_of m loc l))) = Ok tt
   <-> gots l = exps l /\ never_early l).
Proof.
  destruct (start_single im m loc 0) as (H1 & H2 & H3 & H4).
  rewrite (pass_iff_first m loc 0 l _ H1 H2 H3), H4, accept0_inorder. cbn. unfold never_early. intuition.
Qed.
(** ... and at any depth *)
Lemma any_depth im m loc d l :
  let verdict := result T (fst (sb_run (start im m loc d) (ops_of m loc l))) in
  (gots l = exps l -> never_early l -> verdict = Ok tt) /\
  (verdict = Ok tt -> Permutation (exps l) (gots l) /\ never_early l).
Proof.
  cbn zeta. rewrite !reorder_iff. split.
  - intros H1 H2. apply (accept_mono 0); [lia|]. apply (reorder_iff im m loc 0). apply inorder_iff. auto.
  - intro H. apply accept_perm in H. exact H.
Qed.
End Proofs.

(** ** C82 .. C84 *)
Section More.
Context {T : Type} (ty : T -> nat) (eqb : T -> T -> bool) (str : T -> string) (fn : nat -> list T -> T -> T).

Lemma dead_in (m : nat) l : existsb (Nat.eqb m) l = true <-> In m l.
Proof.
  rewrite existsb_exists. split.
  - intros (x & H & E). apply Nat.eqb_eq in E. now subst.
  - intros H. exists m. split; [exact H|apply Nat.eqb_refl].
Qed.
Lemma named (s : sb T) m t : receive_any T ty eqb str fn true s m t = receive T ty eqb str fn s m t.
Proof.
  unfold receive_any, receive. assert (E : forall l s, deliver_any T ty eqb str fn true s l t = deliver T ty eqb str fn s l t).
  { induction l as [|[i|] l IH]; intros s0; cbn; [reflexivity| |apply IH].
    destruct (check_received T ty eqb str fn s0 i t) as [s1 [?|?]]; [apply IH|reflexivity]. }
  rewrite E. reflexivity.
Qed.
Lemma dead_all (s : sb T) m l : In m (dead s) ->
  receive_all T ty eqb str fn false s m l = (s, map (fun _ => Ok tt) l).
Proof.
  intros H. induction l as [|t l IH]; [reflexivity|]. cbn. unfold receive_any. apply dead_in in H. rewrite H, IH. reflexivity.
Qed.
Lemma nameless (s : sb T) m t l i before after :
    ~ In m (dead s) -> cbs s m = before ++ CbCheck i :: after -> Forall (fun c => c = CbUser) before ->
    exists s', receive_all T ty eqb str fn false s m (t :: l) = (s', Err EAttribute :: map (fun _ => Ok tt) l)
      /\ heap s' = heap s /\ errors s' = errors s /\ expected s' = expected s /\ fcalls s' = fcalls s
      /\ result T s' = result T s.
Proof.
  intros Hd Hc Hb.
  assert (D : forall b, Forall (fun c => c = CbUser) b -> deliver_any T ty eqb str fn false s (b ++ CbCheck i :: after) t = (s, Err EAttribute)).
  { induction 1 as [|c b -> _ IH]; [reflexivity|exact IH]. }
  eexists. split.
  - cbn [receive_all]. unfold receive_any at 1. destruct (existsb (Nat.eqb m) (dead s)) eqn:E; [apply dead_in in E; contradiction|].
    rewrite Hc, (D _ Hb). rewrite dead_all; [reflexivity|cbn; auto].
  - repeat split.
Qed.

Lemma set_expected_in d m e : In (m, e) (set_expected d m e).
Proof.
  induction d as [|[m' e'] d IH]; cbn; [auto|]. destruct (Nat.eqb_spec m' m); [subst|]; cbn; auto.
Qed.
Lemma rejected_counts (s : sb T) m im l cf d st t r :
    im = false \/ cf = FnNotCallable -> heap s l = t :: r ->
    exists s', add_interface T s m im (EList l) cf d st = (s', Err EType) /\ result T s' = Err EAssertion.
Proof.
  intros H Hh. eexists. split.
  - unfold add_interface. destruct H as [->| ->]; [reflexivity|]. destruct im; reflexivity.
  - unfold result. cbn.
    match goal with |- (if existsb ?f ?l then _ else _) = _ => assert (E : existsb f l = true) end; [|now rewrite E].
    apply existsb_exists. eexists. split; [apply set_expected_in|]. cbn. rewrite Hh. reflexivity.
Qed.
Lemma rejected_replaces (im : bool) m loc loc' d st (t : T) :
    loc <> loc' ->
    let s := set_heap T (start T im m loc 0) loc [t] in
    result T s = Err EAssertion /\
    exists s', add_interface T s m true (EList loc') FnNotCallable d st = (s', Err EType) /\ result T s' = Ok tt.
Proof.
  intros H s. split.
  - unfold s, result. cbn. unfold upd_fun. rewrite Nat.eqb_refl. reflexivity.
  - eexists. split; [reflexivity|]. unfold s, result. cbn. rewrite Nat.eqb_refl. cbn. unfold upd_fun.
    destruct (Nat.eqb_spec loc' loc); [congruence|]. reflexivity.
Qed.
Lemma add_rejects (s : sb T) m im e cf d st s' r :
    add_interface T s m im e cf d st = (s', r) ->
    (r = Err EType <-> im = false \/ cf = FnNotCallable) /\ (r <> Err EType -> r = Ok tt) /\
    (r = Err EType -> heap s' = heap s /\ fcalls s' = fcalls s /\ errors s' = errors s /\ imm s' = imm s /\ cbs s' = cbs s /\ dead s' = dead s).
Proof.
  unfold add_interface. destruct im, cf; cbn; intros E; injection E as <- <-;
    (split; [split; [intros; try discriminate; auto|intros [?|?]; try discriminate; reflexivity]|
             split; [intros; try reflexivity; congruence|intros; try discriminate; repeat split]]).
Qed.
Lemma constructor_depth : (forall a b, eqb a b = true <-> a = b) ->
    forall depth m loc (a b : T), a <> b ->
      let ops := SAdd m true (EList loc) NoFn 0%Z true :: ops_of m loc [Exp a; Exp b; Got b; Got a] in
      accept 1 [] [Exp a; Exp b; Got b; Got a] /\
      result T (fst (sb_run T ty eqb str fn (sb_construct T depth false) ops)) = Err EAssertion.
Proof.
  intros Heq depth m loc a b Hab ops. split.
  - constructor. constructor. cbn. change [a; b] with ([a] ++ b :: []). constructor; [cbn; lia|]. cbn.
    change [a] with ([] ++ a :: []). constructor; [cbn; lia|]. constructor.
  - pose proof (inorder_iff ty eqb str fn Heq false m loc [Exp a; Exp b; Got b; Got a]) as I.
    assert (E : fst (sb_run T ty eqb str fn (sb_construct T depth false) ops)
      = fst (sb_run T ty eqb str fn (start T false m loc 0) (ops_of m loc [Exp a; Exp b; Got b; Got a]))).
    { unfold ops, start, sb_construct. cbn [sb_run sb_step]. change (Z.of_nat 0) with 0%Z.
      destruct (add_interface T (sb_init T false) m true (EList loc) NoFn 0 true) as [s x]. cbn [fst].
      destruct (sb_run T ty eqb str fn s _) as [s2 xs]. reflexivity. }
    rewrite E. apply result_iff. intros C. apply I in C. destruct C as [C _]. cbn in C. congruence.
Qed.
Lemma interface_depth : (forall a b, eqb a b = true <-> a = b) ->
    forall depth im m loc d (l : list (ev T)),
      let ops := SAdd m true (EList loc) NoFn (Z.of_nat d) true :: ops_of m loc l in
      (result T (fst (sb_run T ty eqb str fn (sb_construct T depth im) ops)) = Ok tt <-> accept d [] l).
Proof.
  intros Heq depth im m loc d l ops. rewrite <- (reorder_iff ty eqb str fn Heq im m loc d l).
  unfold ops, start, sb_construct. cbn [sb_run sb_step].
  destruct (add_interface T (sb_init T im) m true (EList loc) NoFn (Z.of_nat d) true) as [s x]. cbn [fst].
  destruct (sb_run T ty eqb str fn s _) as [s2 xs]. reflexivity.
Qed.
End More.
