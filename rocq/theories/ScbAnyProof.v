(** ScbAnyProof.v -- the scoreboard with transactions of any kind: proofs for C109, C110. *)
From Verif Require Import ScoreboardModel ScoreboardSpec ScoreboardProof.
Local Open Scope list_scope.

Section Any.
Variable T : Type.
Variable ty : T -> nat.
Variable eqb : T -> T -> bool.
Variable str : T -> string.
Variable fn : nat -> list T -> T -> T.
Notation passes := (passes ty eqb str).
Notation check_received := (check_received T ty eqb str fn).
Notation compare := (compare T ty eqb str).
Notation sb_run := (sb_run T ty eqb str fn).
Notation sb_step := (sb_step T ty eqb str fn).

(** ** C109: the window *)

(** the earliest element of a list with a decidable property *)
Lemma earliest (P : T -> Prop) : (forall x, P x \/ ~ P x) ->
  forall l1 e l2, P e -> exists k1 f k2, l1 ++ e :: l2 = k1 ++ f :: k2 /\ length k1 <= length l1
    /\ P f /\ (forall x, In x k1 -> ~ P x).
Proof.
  intros D. induction l1 as [|a l1 IH]; intros e l2 He.
  - exists [], e, l2. cbn. repeat split; auto.
  - destruct (D a) as [Pa|Na].
    + exists [], a, (l1 ++ e :: l2). cbn. repeat split; auto. lia.
    + destruct (IH e l2 He) as (k1 & f & k2 & H1 & H2 & H3 & H4).
      exists (a :: k1), f, k2. cbn. rewrite H1. repeat split; auto; [lia|].
      intros x [<-|Hx]; auto.
Qed.

Lemma window_any (s : sb T) i loc t :
  i_exp i = EList loc -> (0 <= i_depth i)%Z ->
  (forall l1 e l2, heap s loc = l1 ++ e :: l2 -> (Z.of_nat (length l1) <= i_depth i)%Z ->
                   (eqb e t = true <-> passes (i_strict i) t e)) ->
  (forall l1 e l2, heap s loc = l1 ++ e :: l2 -> (Z.of_nat (length l1) <= i_depth i)%Z ->
     passes (i_strict i) t e -> (forall x, In x l1 -> ~ passes (i_strict i) t x) ->
     check_received s i t = (set_heap T s loc (l1 ++ l2), Ok tt)) /\
  ((forall l1 e l2, heap s loc = l1 ++ e :: l2 -> (Z.of_nat (length l1) <= i_depth i)%Z ->
     ~ passes (i_strict i) t e) ->
   errors (fst (check_received s i t)) = S (errors s)).
Proof.
  intros Hi Hd Ha. split.
  - intros l1 e l2 Hh Hl Hp Hb.
    rewrite (check_window ty eqb str fn s i loc l1 e l2 t Hi Hh Hl); [now apply compare_pass| |].
    + now apply (Ha l1 e l2).
    + intros x Hx. destruct (eqb x t) eqn:E; [|reflexivity]. exfalso. apply (Hb x Hx).
      destruct (in_split _ _ Hx) as (a & b & ->).
      apply (Ha a x (b ++ e :: l2)); [rewrite Hh, <- app_assoc; reflexivity| |exact E].
      rewrite app_length in Hl. cbn [length] in Hl. lia.
  - intros Hn. destruct (heap s loc) as [|h r] eqn:Eh.
    + rewrite (check_empty ty eqb str fn s i loc t Hi Eh). reflexivity.
    + rewrite (check_nomatch ty eqb str fn s i loc h r t Hi Eh).
      * rewrite compare_fail; [reflexivity|]. apply (Hn [] h r eq_refl). cbn. lia.
      * intros l1 e l2 E Hl. destruct (eqb e t) eqn:Ee; [|reflexivity]. exfalso.
        apply (Hn l1 e l2 E Hl). now apply (Ha l1 e l2).
Qed.

(** no error is missed, whatever the comparison *)
Lemma window_sound (s : sb T) i loc t :
  i_exp i = EList loc -> (0 <= i_depth i)%Z ->
  errors (fst (check_received s i t)) = errors s ->
  exists l1 e l2, heap s loc = l1 ++ e :: l2 /\ (Z.of_nat (length l1) <= i_depth i)%Z
    /\ passes (i_strict i) t e /\ heap (fst (check_received s i t)) loc = l1 ++ l2.
Proof.
  intros Hi Hd He. destruct (check_list ty eqb str fn s i loc t Hi) as (_ & H).
  destruct (heap s loc) as [|h r] eqn:Eh; [lia|].
  destruct H as (e & rest & Hc & Hr & [(P & _)|(_ & C)]); [|lia].
  destruct Hc as [l1 e l2 t Hl Hm Hb|h' r' t Hn].
  - exists l1, e, l2. auto.
  - exists [], h', r'. cbn. auto.
Qed.

(** ** C110: the verdict *)

Lemma check_depth0 (s : sb T) loc st t :
  check_received s (mkIface (EList loc) 0%Z st) t =
  match heap s loc with
  | [] => (add_error T s, if imm s then Err EAssertion else Ok tt)
  | h :: r => compare (set_heap T s loc r) t h st
  end.
Proof.
  unfold ScoreboardModel.check_received. cbn [i_exp i_depth i_strict]. destruct (heap s loc) as [|h r]; [reflexivity|].
  unfold pick. change (Z.to_nat (0 + 1)) with 1. cbn [find_match].
  destruct (eqb h t); reflexivity.
Qed.

Definition one (s : sb T) (m : nat) (i : iface) : Prop :=
  cbs s m = [CbCheck i] /\ expected s = [(m, i_exp i)].

Lemma receive_one s m i t : cbs s m = [CbCheck i] -> dead s = [] ->
  receive T ty eqb str fn s m t =
  match check_received s i t with
  | (s', Ok _) => (s', Ok tt)
  | (s', Err e) => (mkSb T (heap s') (fcalls s') (errors s') (expected s') (imm s') (cbs s') (m :: dead s'), Err e)
  end.
Proof.
  intros Hc Hd. unfold receive. rewrite Hd, Hc. cbn [existsb deliver].
  destruct (check_received s i t) as [s' [[]|e]]; reflexivity.
Qed.

Lemma errors_end s ops : errors s <> 0 -> result T (fst (sb_run s ops)) <> Ok tt.
Proof. apply errors_fail. Qed.

Lemma list_verdict m loc st : forall (l : list (ev T)) (s : sb T),
  one s m (mkIface (EList loc) 0%Z st) -> dead s = [] -> errors s = 0 ->
  (result T (fst (sb_run s (ops_of m loc l))) = Ok tt <->
   Forall2 (passes st) (gots l) (heap s loc ++ exps l) /\
   (forall p q, l = p ++ q -> length (gots p) <= length (heap s loc) + length (exps p))).
Proof.
  induction l as [|[t|t] l IH]; intros s (Hc & He) Hd H0.
  - cbn [ops_of map ScoreboardModel.sb_run fst]. destruct (result_iff s) as (R & _). rewrite R, He. cbn [gots exps flat_map].
    rewrite app_nil_r. split.
    + intros (_ & H). cbn [i_exp] in H. rewrite (H m loc) by now left. split; [constructor|].
      intros p q E. destruct p; [cbn; lia|discriminate].
    + intros (H & _). split; [exact H0|]. intros m' l' [E|[]]. cbn [i_exp] in E. injection E as <- <-. now inversion H.
  - cbn [ops_of map]. rewrite fst_run_cons. cbn [ScoreboardModel.sb_step fst].
    rewrite (IH (set_heap T s loc (heap s loc ++ [t]))); [|split; [exact Hc|exact He]|exact Hd|exact H0].
    cbn [set_heap heap]. unfold upd_fun. rewrite Nat.eqb_refl. rewrite <- app_assoc.
    change (gots (Exp t :: l)) with (gots l). change (exps (Exp t :: l)) with ([t] ++ exps l).
    rewrite app_length. cbn [length]. split; intros (H1 & H2); (split; [exact H1|]); intros p q E.
    + destruct p as [|x p]; [cbn; lia|]. injection E as <- E. specialize (H2 p q E).
      change (gots (Exp t :: p)) with (gots p). change (length (exps (Exp t :: p))) with (S (length (exps p))). lia.
    + specialize (H2 (Exp t :: p) q (f_equal (cons (Exp t)) E)).
      change (gots (Exp t :: p)) with (gots p) in H2. change (length (exps (Exp t :: p))) with (S (length (exps p))) in H2. lia.
  - cbn [ops_of map]. rewrite fst_run_cons. cbn [ScoreboardModel.sb_step].
    rewrite (receive_one s m _ t Hc Hd), check_depth0.
    change (gots (Got t :: l)) with (t :: gots l). change (exps (Got t :: l)) with (exps l).
    destruct (heap s loc) as [|h r] eqn:Eh.
    + split.
      * intros C. exfalso. revert C. apply errors_end. destruct (imm s); cbn; lia.
      * intros (_ & H). specialize (H [Got t] l eq_refl). cbn in H. lia.
    + destruct (compare_iff ty eqb str (set_heap T s loc r) t h st) as [(P & ->)|(P & ->)].
      * cbn [fst]. rewrite (IH (set_heap T s loc r)); [|split; [exact Hc|exact He]|exact Hd|exact H0].
        cbn [set_heap heap]. unfold upd_fun. rewrite Nat.eqb_refl. cbn [app length]. split; intros (H1 & H2).
        -- split; [now constructor|]. intros p q E. destruct p as [|x p]; [cbn; lia|].
           injection E as <- E. specialize (H2 p q E).
           change (length (gots (Got t :: p))) with (S (length (gots p))). change (exps (Got t :: p)) with (exps p). lia.
        -- inversion H1; subst. split; [assumption|]. intros p q E.
           specialize (H2 (Got t :: p) q (f_equal (cons (Got t)) E)).
           change (length (gots (Got t :: p))) with (S (length (gots p))) in H2.
           change (exps (Got t :: p)) with (exps p) in H2. lia.
      * split.
        -- intros C. exfalso. revert C. apply errors_end. cbn [set_heap imm]. destruct (imm s); cbn; lia.
        -- cbn [app]. intros (C & _). inversion C; subst. contradiction.
Qed.

Lemma start_list_verdict im m loc st (l : list (ev T)) :
  let s := fst (add_interface T (sb_init T im) m true (EList loc) NoFn 0%Z st) in
  result T (fst (sb_run s (ops_of m loc l))) = Ok tt <->
  Forall2 (passes st) (gots l) (exps l) /\ never_early l.
Proof.
  cbn zeta. rewrite list_verdict with (st := st).
  - reflexivity.
  - split; cbn; unfold upd_fun; rewrite ?Nat.eqb_refl; reflexivity.
  - reflexivity.
  - reflexivity.
Qed.

(** a callable *)
Lemma fun_verdict m f d st : forall (l : list T) (s : sb T),
  one s m (mkIface (EFun f) d st) -> dead s = [] -> errors s = 0 ->
  (result T (fst (sb_run s (map (SRecv m) l))) = Ok tt <->
   forall p t q, l = p ++ t :: q -> passes st t (fn f (fcalls s f ++ p) t)).
Proof.
  induction l as [|t l IH]; intros s (Hc & He) Hd H0.
  - cbn [map ScoreboardModel.sb_run fst]. destruct (result_iff s) as (R & _). rewrite R, He. split.
    + intros _ p t q E. destruct p; discriminate.
    + intros _. split; [exact H0|]. intros m' l' [E|[]]. discriminate.
  - cbn [map]. rewrite fst_run_cons. cbn [ScoreboardModel.sb_step].
    rewrite (receive_one s m _ t Hc Hd). unfold ScoreboardModel.check_received. cbn [i_exp i_strict].
    match goal with |- context [ScoreboardModel.compare T ty eqb str ?s1 ?a ?b ?c] =>
      set (s1' := s1); destruct (compare_iff ty eqb str s1' a b c) as [(P & ->)|(P & ->)] end.
    + cbn [fst]. rewrite (IH s1'); [|split; [exact Hc|exact He]|exact Hd|exact H0].
      cbn [s1' fcalls]. unfold upd_fun. rewrite Nat.eqb_refl. split; intros H p t' q E.
      * destruct p as [|x p]; cbn [app] in E; injection E as <- E.
        -- rewrite app_nil_r. exact P.
        -- specialize (H p t' q E). rewrite <- app_assoc in H. exact H.
      * rewrite <- app_assoc. apply (H (t :: p) t' q). cbn [app]. now rewrite E.
    + split.
      * intros C. exfalso. revert C. apply errors_end. cbn [s1' imm]. destruct (imm s); cbn; lia.
      * intros C. exfalso. apply P. specialize (C [] t l eq_refl). now rewrite app_nil_r in C.
Qed.

Lemma start_fun_verdict im m f d st (l : list T) :
  let s := fst (add_interface T (sb_init T im) m true (EFun f) NoFn d st) in
  result T (fst (sb_run s (map (SRecv m) l))) = Ok tt <->
  forall p t q, l = p ++ t :: q -> passes st t (fn f p t).
Proof.
  cbn zeta. rewrite fun_verdict with (f := f) (d := d) (st := st).
  - reflexivity.
  - split; cbn; unfold upd_fun; rewrite ?Nat.eqb_refl; reflexivity.
  - reflexivity.
  - reflexivity.
Qed.
End Any.
