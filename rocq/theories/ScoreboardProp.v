(** ScoreboardProp.v -- C15 .. C21, C82 .. C84. *)
From Verif Require Import ScoreboardModel ScoreboardSpec ScoreboardProof.
From Coq Require Import Permutation.
Local Open Scope list_scope.

(** C15.  For every history of expectations and receptions on one interface
    (reorder_depth 0, strict types), whether or not fail_immediately is set. *)
Theorem C15_in_order_verdict :
  forall (T : Type) (ty : T -> nat) eqb (str : T -> string) fn,
    (forall a b, eqb a b = true <-> a = b) ->
    forall im m loc (l : list (ev T)),
      result T (fst (sb_run T ty eqb str fn (start T im m loc 0) (ops_of m loc l))) = Ok tt
      <-> gots l = exps l /\ never_early l.
Proof. exact @inorder_iff. Qed.
Print Assumptions C15_in_order_verdict.

Example C15_nonvacuous :
  let run l := result nat (fst (sb_run nat (fun _ => 0) Nat.eqb (fun _ => EmptyString) (fun _ _ t => t)
                                       (start nat false 3 4 0) (ops_of 3 4 l))) in
  run [Exp 1; Got 1; Exp 2; Exp 2; Got 2; Got 2] = Ok tt
  /\ run [Got 1; Exp 1] = Err EAssertion /\ run [Exp 1; Exp 2; Got 2; Got 1] = Err EAssertion
  /\ run [Exp 1] = Err EAssertion
  /\ gots [Exp 1; Got 1] = exps [Exp 1; Got 1].
Proof. repeat split. Qed.

(** C16, C17.  One reception of [t] by an interface with an expected list: the
    transaction consumed is the earliest equal one among the first depth+1, else
    the head; the others keep their order; no other list changes; the error
    counter grows by one exactly when nothing was expected or the comparison
    with the consumed transaction fails. *)
Theorem C17_reorder_window :
  forall (T : Type) (ty : T -> nat) eqb (str : T -> string) fn (s : sb T) i loc t,
    i_exp i = EList loc ->
    let s' := fst (check_received T ty eqb str fn s i t) in
    (forall l, l <> loc -> heap s' l = heap s l) /\
    match heap s loc with
    | [] => heap s' loc = [] /\ errors s' = S (errors s)
    | out => exists e rest, consumes eqb (i_depth i) out t e rest /\ heap s' loc = rest
               /\ ((passes ty eqb str (i_strict i) t e /\ errors s' = errors s)
                   \/ (~ passes ty eqb str (i_strict i) t e /\ errors s' = S (errors s)))
    end.
Proof. exact @check_list. Qed.
Print Assumptions C17_reorder_window.

(** C16: the error counter grows by one exactly when nothing was expected or the
    transaction consumed does not pass the comparison. *)
Theorem C16_error_counter :
  forall (T : Type) (ty : T -> nat) eqb (str : T -> string) fn (s : sb T) i loc t,
    i_exp i = EList loc ->
    errors (fst (check_received T ty eqb str fn s i t)) =
      errors s + 1 /\ (heap s loc = []
                       \/ exists e rest, consumes eqb (i_depth i) (heap s loc) t e rest
                                      /\ ~ passes ty eqb str (i_strict i) t e)
    \/ errors (fst (check_received T ty eqb str fn s i t)) = errors s
       /\ exists e rest, consumes eqb (i_depth i) (heap s loc) t e rest
                      /\ passes ty eqb str (i_strict i) t e.
Proof.
  intros T ty eqb str fn s i loc t Hi. destruct (check_list ty eqb str fn s i loc t Hi) as (_ & H).
  destruct (heap s loc) as [|h r].
  - left. split; [lia|auto].
  - destruct H as (e & rest & H1 & _ & [(H2 & H3)|(H2 & H3)]).
    + right. eauto.
    + left. split; [lia|]. right. eauto.
Qed.
Print Assumptions C16_error_counter.

(** C16: with a callable expected output *)
Theorem C16_error_counter_callable :
  forall (T : Type) (ty : T -> nat) eqb (str : T -> string) fn (s : sb T) i f t,
    i_exp i = EFun f ->
    let s' := fst (check_received T ty eqb str fn s i t) in
    heap s' = heap s /\
    ((passes ty eqb str (i_strict i) t (fn f (fcalls s f) t) /\ errors s' = errors s)
     \/ (~ passes ty eqb str (i_strict i) t (fn f (fcalls s f) t) /\ errors s' = S (errors s))).
Proof.
  intros T ty eqb str fn s i f t Hi. cbn zeta. unfold check_received. rewrite Hi.
  match goal with |- context [compare T ty eqb str ?s1 ?a ?b ?c] =>
    destruct (compare_iff ty eqb str s1 a b c) as [(P & ->)|(P & ->)] end; cbn; auto.
Qed.
Print Assumptions C16_error_counter_callable.

(** C16: it never decreases, whatever happens *)
Theorem C16_error_counter_monotone :
  forall (T : Type) (ty : T -> nat) eqb (str : T -> string) fn ops (s s' : sb T) xs,
    sb_run T ty eqb str fn s ops = (s', xs) -> errors s <= errors s' /\ imm s' = imm s.
Proof. exact @run_mono. Qed.
Print Assumptions C16_error_counter_monotone.

(** an expected list and a callable (which expects the double of what was received) *)
Example C16_nonvacuous :
  let s := set_heap nat (sb_init nat false) 4 [1; 2; 3] in
  let check e d t := fst (check_received nat (fun n => if Nat.ltb n 10 then 0 else 1) Nat.eqb (fun _ => "same"%string)
                            (fun _ _ x => 2 * x) s (mkIface e d true) t) in
  errors (check (EList 4) 0%Z 1) = 0 /\ errors (check (EList 4) 0%Z 2) = 1 /\ errors (check (EList 4) 1%Z 2) = 0
  /\ errors (check (EList 4) 0%Z 10) = 1 /\ errors (check (EList 5) 0%Z 1) = 1
  /\ errors (check (EFun 0) 0%Z 0) = 0 /\ errors (check (EFun 0) 0%Z 1) = 1.
Proof. vm_compute. repeat split; reflexivity. Qed.

(** C17: if the types (strict) / strings (not strict) of equal transactions agree,
    a transaction equal to one in the window is no error ... *)
Theorem C17_window_match_no_error :
  forall (T : Type) (ty : T -> nat) eqb (str : T -> string) fn (s : sb T) i loc l1 e l2 t,
    (forall a b, eqb a b = true -> eqb b a = true /\ ty a = ty b /\ str a = str b) ->
    i_exp i = EList loc -> heap s loc = l1 ++ e :: l2 ->
    (Z.of_nat (length l1) <= i_depth i)%Z ->
    eqb e t = true -> (forall x, In x l1 -> eqb x t = false) ->
    check_received T ty eqb str fn s i t = (set_heap T s loc (l1 ++ l2), Ok tt).
Proof.
  intros T ty eqb str fn s i loc l1 e l2 t Heq Hi Hh Hl He Hb.
  rewrite (check_window ty eqb str fn s i loc l1 e l2 t Hi Hh Hl He Hb). apply compare_pass.
  destruct (Heq _ _ He) as (H1 & H2 & H3). unfold passes. destruct (i_strict i); auto.
Qed.
Print Assumptions C17_window_match_no_error.

(** ... otherwise the head is consumed and (strict types) one error is recorded. *)
Theorem C17_no_match_error :
  forall (T : Type) (ty : T -> nat) eqb (str : T -> string) fn (s : sb T) i loc h r t,
    (forall a b, eqb a b = eqb b a) ->
    i_exp i = EList loc -> heap s loc = h :: r -> i_strict i = true -> (0 <= i_depth i)%Z ->
    (forall l1 e l2, h :: r = l1 ++ e :: l2 -> (Z.of_nat (length l1) <= i_depth i)%Z -> eqb e t = false) ->
    check_received T ty eqb str fn s i t
    = (add_error T (set_heap T s loc r), if imm s then Err EAssertion else Ok tt).
Proof.
  intros T ty eqb str fn s i loc h r t Hsym Hi Hh Hst Hd Hn.
  rewrite (check_nomatch ty eqb str fn s i loc h r t Hi Hh Hn), Hst.
  rewrite compare_fail; [reflexivity|]. intros (_ & C).
  rewrite Hsym, (Hn [] h r eq_refl Hd) in C. discriminate.
Qed.
Print Assumptions C17_no_match_error.

Example C17_nonvacuous :
  let s := set_heap nat (sb_init nat false) 4 [1; 2; 3; 2] in
  let check d t := fst (check_received nat (fun _ => 0) Nat.eqb (fun _ => EmptyString) (fun _ _ x => x)
                           s (mkIface (EList 4) d true) t) in
  heap (check 1%Z 2) 4 = [1; 3; 2] /\ errors (check 1%Z 2) = 0
  /\ heap (check 1%Z 3) 4 = [2; 3; 2] /\ errors (check 1%Z 3) = 1
  /\ heap (check 2%Z 3) 4 = [1; 2; 2] /\ errors (check 2%Z 3) = 0.
Proof. vm_compute. repeat split; reflexivity. Qed.

(** C18.  For every interleaving of expectations and receptions, the verdict is exactly
    "every transaction was one of the first d+1 outstanding ones", also when equal
    transactions are expected several times. *)
Theorem C18_bounded_reordering :
  forall (T : Type) (ty : T -> nat) eqb (str : T -> string) fn,
    (forall a b, eqb a b = true <-> a = b) ->
    forall im m loc d (l : list (ev T)),
      result T (fst (sb_run T ty eqb str fn (start T im m loc d) (ops_of m loc l))) = Ok tt
      <-> accept d [] l.
Proof. exact @reorder_iff. Qed.
Print Assumptions C18_bounded_reordering.

(** At every depth: receptions in the expected order, each after its expectation, pass; and
    a pass means that what was received is what was expected, up to the order, and nothing
    came before it was expected. *)
Theorem C18_any_depth :
  forall (T : Type) (ty : T -> nat) eqb (str : T -> string) fn,
    (forall a b, eqb a b = true <-> a = b) ->
    forall im m loc d (l : list (ev T)),
      let verdict := result T (fst (sb_run T ty eqb str fn (start T im m loc d) (ops_of m loc l))) in
      (gots l = exps l -> never_early l -> verdict = Ok tt) /\
      (verdict = Ok tt -> Permutation (exps l) (gots l) /\ never_early l).
Proof. exact @any_depth. Qed.
Print Assumptions C18_any_depth.

(** a transaction that is more than d places early is an error at once *)
Theorem C18_too_early_is_error :
  forall (T : Type) (ty : T -> nat) eqb (str : T -> string) fn,
    (forall a b, eqb a b = true <-> a = b) ->
    forall (s : sb T) m loc d t,
      single s m loc d -> dead s = [] ->
      (forall l1 l2, heap s loc = l1 ++ t :: l2 -> d < length l1) ->
      errors (fst (receive T ty eqb str fn s m t)) = S (errors s).
Proof.
  intros T ty eqb str fn Heq s m loc d t Hs Hd Hn.
  destruct (receive_single ty eqb str fn Heq s m loc d t Hs Hd)
    as (s' & -> & _ & _ & [(l1 & l2 & H1 & H2 & _)|(_ & _ & H & _)]); [|exact H].
  apply Hn in H1. lia.
Qed.
Print Assumptions C18_too_early_is_error.

Example C18_nonvacuous :
  let run d l := result nat (fst (sb_run nat (fun _ => 0) Nat.eqb (fun _ => EmptyString) (fun _ _ t => t)
                                       (start nat true 3 4 d) (ops_of 3 4 l))) in
  run 1 [Exp 1; Exp 2; Exp 3; Got 2; Got 3; Got 1] = Ok tt
  /\ run 1 [Exp 1; Exp 2; Exp 3; Got 3; Got 1; Got 2] = Err EAssertion
  /\ run 2 [Exp 1; Exp 2; Exp 1; Got 1; Got 1; Got 2] = Ok tt
  /\ accept 1 [] [Exp 1; Exp 2; Got 2; Got 1].
Proof.
  repeat split.
  apply acc_exp, acc_exp. cbn. apply (acc_got 1 [1] 2 []); [cbn; lia|]. apply (acc_got 1 [] 1 []); [cbn; lia|]. constructor.
Qed.

(** C19.  fail_immediately=False: no reception raises, in any history ... *)
Theorem C19_never_raises_without :
  forall (T : Type) (ty : T -> nat) eqb (str : T -> string) fn ops (s s' : sb T) xs,
    imm s = false -> sb_run T ty eqb str fn s ops = (s', xs) ->
    forall k m t, nth_error ops k = Some (SRecv m t) -> nth_error xs k = Some (Ok tt).
Proof. exact @run_no_raise. Qed.
Print Assumptions C19_never_raises_without.

(** ... and the failure shows in result. *)
Theorem C19_result_reports :
  forall (T : Type) (s : sb T), errors s <> 0 -> result T s = Err EAssertion.
Proof. exact @result_errors. Qed.
Print Assumptions C19_result_reports.

(** fail_immediately=True: a reception raises AssertionError if and only if it
    was bad (counted as an error). *)
Theorem C19_raises_immediately :
  forall (T : Type) (ty : T -> nat) eqb (str : T -> string) fn (s : sb T) m t s' r,
    receive T ty eqb str fn s m t = (s', r) ->
    imm s' = imm s /\ expected s' = expected s /\ cbs s' = cbs s
    /\ errors s <= errors s' /\ (imm s = false -> r = Ok tt)
    /\ (imm s = true -> (r = Ok tt /\ errors s' = errors s) \/ (r = Err EAssertion /\ errors s' = S (errors s))).
Proof. exact @receive_frame. Qed.
Print Assumptions C19_raises_immediately.

Example C19_nonvacuous :
  let run im l := snd (sb_run nat (fun _ => 0) Nat.eqb (fun _ => EmptyString) (fun _ _ t => t)
                                       (start nat im 3 4 0) (ops_of 3 4 l)) in
  run true [Exp 1; Got 2] = [Ok tt; Err EAssertion] /\ run false [Exp 1; Got 2] = [Ok tt; Ok tt].
Proof. split; reflexivity. Qed.

(** C20.  [passes true got exp] is "same type and equal", [passes false] is
    "same string". *)
Theorem C20_strict_type :
  forall (T : Type) (ty : T -> nat) eqb (str : T -> string) (s : sb T) got exp st,
    (passes ty eqb str st got exp /\ compare T ty eqb str s got exp st = (s, Ok tt))
    \/ (~ passes ty eqb str st got exp
        /\ compare T ty eqb str s got exp st = (add_error T s, if imm s then Err EAssertion else Ok tt)).
Proof. exact @compare_iff. Qed.
Print Assumptions C20_strict_type.

Example C20_nonvacuous :
  passes (fun n => n) Nat.eqb (fun _ => EmptyString) false 1 2
  /\ ~ passes (fun n => n) Nat.eqb (fun _ => EmptyString) true 1 2.
Proof. split; [reflexivity|]. intros (H & _). discriminate. Qed.

(** C21.  A reception changes no list that the receiving monitor does not check
    against. *)
Theorem C21_interfaces_independent :
  forall (T : Type) (ty : T -> nat) eqb (str : T -> string) fn (s : sb T) m t l,
    (forall c, In c (cbs s m) -> ~ uses_list c l) ->
    heap (fst (receive T ty eqb str fn s m t)) l = heap s l.
Proof. exact @receive_heap. Qed.
Print Assumptions C21_interfaces_independent.

(** result passes exactly when there are no errors and no list in the
    interface table has outstanding expectations; callables are ignored. *)
Theorem C21_result_exact :
  forall (T : Type) (s : sb T),
    (result T s = Ok tt <-> errors s = 0 /\ forall m l, In (m, EList l) (expected s) -> heap s l = [])
    /\ (result T s <> Ok tt -> result T s = Err EAssertion).
Proof. exact @result_iff. Qed.
Print Assumptions C21_result_exact.

(** "any interface ever added" is false of the code: adding the same monitor a
    second time hides the first list's leftovers. *)
Theorem C21_leftovers_refuted :
  exists (ops : list (sop nat)) s,
    fst (sb_run nat (fun _ => 0) Nat.eqb (fun _ => EmptyString) (fun _ _ t => t) (sb_init nat true) ops) = s
    /\ In (SAdd 1 true (EList 0) NoFn 0 true) ops
    /\ heap s 0 <> [] /\ result nat s = Ok tt.
Proof.
  exists [SAdd 1 true (EList 0) NoFn 0 true; SExpect 0 7; SAdd 1 true (EList 5) NoFn 0 true].
  eexists. split; [reflexivity|]. split; [cbn; auto|]. split; [vm_compute; discriminate|reflexivity].
Qed.
Print Assumptions C21_leftovers_refuted.

(** When no monitor is added twice, every list ever added is checked. *)
Theorem C21_leftovers_found_partial :
  forall (T : Type) (ty : T -> nat) eqb (str : T -> string) fn ops (s s' : sb T) xs m im l cf d st,
    sb_run T ty eqb str fn s ops = (s', xs) -> NoDup (flat_map added ops) ->
    In (SAdd m im (EList l) cf d st) ops -> heap s' l <> [] ->
    result T s' = Err EAssertion.
Proof.
  intros T ty eqb str fn ops s s' xs m im l cf d st Hr Hn Hi Hh.
  destruct (result_iff s') as (R1 & R2). apply R2. intros C. apply R1 in C. destruct C as (_ & C).
  apply Hh. apply (C m). eapply run_expected; eauto.
Qed.
Print Assumptions C21_leftovers_found_partial.

(** two interfaces with their own lists, the second with an expectation left *)
Example C21_nonvacuous :
  let ops := [SAdd 1 true (EList 0) NoFn 0 true; SAdd 2 true (EList 5) NoFn 0 true; SExpect 0 7; SExpect 5 8; SRecv 1 7] in
  let s := fst (sb_run nat (fun _ => 0) Nat.eqb (fun _ => EmptyString) (fun _ _ t => t) (sb_init nat true) ops) in
  NoDup (flat_map added ops) /\ heap s 0 = [] /\ heap s 5 = [8] /\ result nat s = Err EAssertion
  /\ (forall c, In c (cbs s 1) -> ~ uses_list c 5).
Proof.
  cbn zeta. split; [repeat constructor; cbn; intuition discriminate|].
  split; [vm_compute; reflexivity|]. split; [vm_compute; reflexivity|]. split; [vm_compute; reflexivity|].
  intros c. vm_compute. intros [<-|[]]. discriminate.
Qed.

(** C82 fails: on a monitor without a name the first transaction received raises
    AttributeError, whatever it is and whatever was expected; it is not compared, the
    expected lists and the error counter stay as they are, and the monitor is dead:
    nothing it would receive later is checked either. *)
Theorem C82_nameless_refuted :
  forall (T : Type) (ty : T -> nat) eqb (str : T -> string) fn (s : sb T) m t l i before after,
    ~ In m (dead s) -> cbs s m = before ++ CbCheck i :: after -> Forall (fun c => c = CbUser) before ->
    exists s', receive_all T ty eqb str fn false s m (t :: l) = (s', Err EAttribute :: map (fun _ => Ok tt) l)
      /\ heap s' = heap s /\ errors s' = errors s /\ expected s' = expected s /\ fcalls s' = fcalls s
      /\ result T s' = result T s.
Proof. exact @nameless. Qed.
Print Assumptions C82_nameless_refuted.

(** ... while with a name every transaction is checked as C15 .. C21 say *)
Theorem C82_named_partial :
  forall (T : Type) (ty : T -> nat) eqb (str : T -> string) fn (s : sb T) m t,
    receive_any T ty eqb str fn true s m t = receive T ty eqb str fn s m t.
Proof. exact @named. Qed.
Print Assumptions C82_named_partial.

(** ... that is: with one interface on the monitor (and any other callbacks), a transaction
    received is compared with the expected one it consumes; a match is no error and a
    mismatch is one, and so is a transaction when nothing is expected *)
Theorem C82_compared_partial :
  forall (T : Type) (ty : T -> nat) eqb (str : T -> string) fn (s : sb T) m t i loc before after,
    ~ In m (dead s) -> cbs s m = before ++ CbCheck i :: after ->
    Forall (fun c => c = CbUser) before -> Forall (fun c => c = CbUser) after -> i_exp i = EList loc ->
    let '(s', r) := receive_any T ty eqb str fn true s m t in
    let failed := errors s' = S (errors s) /\ r = if imm s then Err EAssertion else Ok tt in
    match heap s loc with
    | [] => heap s' loc = [] /\ failed
    | out => exists e rest, consumes eqb (i_depth i) out t e rest /\ heap s' loc = rest
               /\ (passes ty eqb str (i_strict i) t e /\ errors s' = errors s /\ r = Ok tt
                   \/ ~ passes ty eqb str (i_strict i) t e /\ failed)
    end.
Proof.
  intros T ty eqb str fn s m t i loc before after Hd Hc Hb Ha Hi.
  pose proof (C17_reorder_window T ty eqb str fn s i loc t Hi) as [_ W].
  pose proof (check_outcome ty eqb str fn s i t) as O.
  rewrite C82_named_partial. unfold receive.
  replace (existsb (Nat.eqb m) (dead s)) with false.
  2:{ symmetry. apply Bool.not_true_iff_false. intro C. apply existsb_exists in C. destruct C as (x & Hx & E).
      apply Nat.eqb_eq in E. subst x. exact (Hd Hx). }
  rewrite Hc. rewrite (deliver_one ty eqb str fn before s i after t Hb Ha).
  destruct (check_received T ty eqb str fn s i t) as [s1 r1]. cbn [fst snd] in W, O.
  destruct r1 as [[]|e]; cbn zeta.
  - destruct (heap s loc) as [|x l].
    + destruct W as [W1 W2]. repeat split; try assumption. destruct O as [[O _]|[O1 O2]]; [lia|exact O2].
    + destruct W as (e & rest & C & H & [[P E]|[P E]]); exists e, rest; (split; [exact C|]); (split; [exact H|]).
      * left. auto.
      * right. repeat split; try assumption. destruct O as [[O _]|[O1 O2]]; [lia|exact O2].
  - cbn [heap errors]. destruct (heap s loc) as [|x l].
    + destruct W as [W1 W2]. repeat split; try assumption. destruct O as [[O _]|[O1 O2]]; [lia|exact O2].
    + destruct W as (e' & rest & C & H & [[P E]|[P E]]); exists e', rest; (split; [exact C|]); (split; [exact H|]).
      * exfalso. destruct O as [[_ O]|[O1 O2]]; [discriminate|lia].
      * right. repeat split; try assumption. destruct O as [[O _]|[O1 O2]]; [lia|exact O2].
Qed.
Print Assumptions C82_compared_partial.

Example C82_nonvacuous :
  let s := start nat true 3 4 0 in
  let s1 := fst (sb_step nat (fun _ => 0) Nat.eqb (fun _ => EmptyString) (fun _ _ t => t) s (SExpect 4 7)) in
  cbs s1 3 = [] ++ CbCheck (mkIface (EList 4) 0 true) :: [] /\ dead s1 = []
  /\ snd (receive_all nat (fun _ => 0) Nat.eqb (fun _ => EmptyString) (fun _ _ t => t) false s1 3 [7; 8]) = [Err EAttribute; Ok tt].
Proof. vm_compute. repeat split. Qed.

(** C83 fails: an interface that is rejected with TypeError is recorded all the same, so
    that its expected list counts in result ... *)
Theorem C83_rejected_refuted :
  forall (T : Type) (s : sb T) m im l cf d st t r,
    im = false \/ cf = FnNotCallable -> heap s l = t :: r ->
    exists s', add_interface T s m im (EList l) cf d st = (s', Err EType) /\ result T s' = Err EAssertion.
Proof. exact @rejected_counts. Qed.
Print Assumptions C83_rejected_refuted.

(** ... also in place of the list of an interface added before, which is no longer checked *)
Theorem C83_replaced_refuted :
  forall (T : Type) (im : bool) m loc loc' d st t,
    loc <> loc' ->
    let s := set_heap T (start T im m loc 0) loc [t] in
    result T s = Err EAssertion /\
    exists s', add_interface T s m true (EList loc') FnNotCallable d st = (s', Err EType) /\ result T s' = Ok tt.
Proof. exact @rejected_replaces. Qed.
Print Assumptions C83_replaced_refuted.

(** ... and what holds: exactly the interfaces with a bad monitor or compare function are
    rejected, and nothing but the table of interfaces changes *)
Theorem C83_partial :
  forall (T : Type) (s : sb T) m im e cf d st s' r,
    add_interface T s m im e cf d st = (s', r) ->
    (r = Err EType <-> im = false \/ cf = FnNotCallable) /\ (r <> Err EType -> r = Ok tt) /\
    (r = Err EType -> heap s' = heap s /\ fcalls s' = fcalls s /\ errors s' = errors s /\ imm s' = imm s /\ cbs s' = cbs s /\ dead s' = dead s).
Proof. exact @add_rejects. Qed.
Print Assumptions C83_partial.

(** C84 fails: the reorder_depth given to the constructor has no effect.  Two different
    transactions that arrive in the other order are within any depth of at least 1, and
    are errors. *)
Theorem C84_constructor_depth_refuted :
  forall (T : Type) (ty : T -> nat) eqb (str : T -> string) fn,
    (forall a b, eqb a b = true <-> a = b) ->
    forall depth m loc (a b : T), a <> b ->
      let ops := SAdd m true (EList loc) NoFn 0%Z true :: ops_of m loc [Exp a; Exp b; Got b; Got a] in
      accept 1 [] [Exp a; Exp b; Got b; Got a] /\
      result T (fst (sb_run T ty eqb str fn (sb_construct T depth false) ops)) = Err EAssertion.
Proof. exact @constructor_depth. Qed.
Print Assumptions C84_constructor_depth_refuted.

(** C84, what holds: the depth given to add_interface is honoured, whatever the constructor
    was given: the verdict is Ok exactly for the histories that are in order up to that depth. *)
Theorem C84_interface_depth_partial :
  forall (T : Type) (ty : T -> nat) eqb (str : T -> string) fn,
    (forall a b, eqb a b = true <-> a = b) ->
    forall depth fail_immediately m loc d (l : list (ev T)),
      let ops := SAdd m true (EList loc) NoFn (Z.of_nat d) true :: ops_of m loc l in
      (result T (fst (sb_run T ty eqb str fn (sb_construct T depth fail_immediately) ops)) = Ok tt <-> accept d [] l).
Proof. exact @interface_depth. Qed.
Print Assumptions C84_interface_depth_partial.

Example C83_nonvacuous :
  let s := set_heap nat (start nat true 3 4 0) 5 [8; 9] in
  heap s 5 = [8; 9] /\ result nat s = Ok tt
  /\ snd (add_interface nat s 6 false (EList 5) NoFn 0%Z true) = Err EType
  /\ result nat (fst (add_interface nat s 6 false (EList 5) NoFn 0%Z true)) = Err EAssertion.
Proof. vm_compute. repeat split. Qed.

Example C84_nonvacuous :
  result nat (fst (sb_run nat (fun _ => 0) Nat.eqb (fun _ => EmptyString) (fun _ _ t => t) (sb_construct nat 1%Z false)
     (SAdd 3 true (EList 4) NoFn 0%Z true :: ops_of 3 4 [Exp 1; Exp 2; Got 2; Got 1]))) = Err EAssertion
  /\ result nat (fst (sb_run nat (fun _ => 0) Nat.eqb (fun _ => EmptyString) (fun _ _ t => t) (sb_construct nat 0%Z false)
     (SAdd 3 true (EList 4) NoFn 1%Z true :: ops_of 3 4 [Exp 1; Exp 2; Got 2; Got 1]))) = Ok tt.
Proof. vm_compute. repeat split. Qed.
