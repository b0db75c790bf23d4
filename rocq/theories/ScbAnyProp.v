(** ScbAnyProp.v -- C109, C110: the scoreboard with transactions of any kind.

    [ty], [eqb] and [str] are Python's type(), == and str() on the transactions; nothing is
    assumed of them except where said.  [passes] (ScoreboardSpec.v) is the documented
    comparison: type and value with strict_type=True, string forms with strict_type=False. *)
From Coq Require Import Ascii.
From Verif Require Import ScoreboardModel ScoreboardSpec ScoreboardProof ScbAnyProof.
Local Open Scope list_scope.

(** C109 in full would be: a transaction that passes the comparison with one of the first
    reorder_depth+1 expected transactions is no error.  [window strict]: this, for one value of
    strict_type, and transactions with an == that is an equivalence. *)
Definition window (strict : bool) : Prop :=
  forall (T : Type) (ty : T -> nat) (eqb : T -> T -> bool) (str : T -> string) fn (s : sb T) i loc l1 e l2 t,
    (forall a, eqb a a = true) -> (forall a b, eqb a b = eqb b a) ->
    (forall a b c, eqb a b = true -> eqb b c = true -> eqb a c = true) ->
    i_exp i = EList loc -> i_strict i = strict ->
    heap s loc = l1 ++ e :: l2 -> (Z.of_nat (length l1) <= i_depth i)%Z ->
    passes ty eqb str strict t e ->
    errors (fst (check_received T ty eqb str fn s i t)) = errors s.

(** values of several types (1, True, 1.0, "1"): a kind and a number *)
Definition val : Type := (nat * nat)%type.
Definition same_num (a b : val) : bool := Nat.eqb (snd a) (snd b).
Definition same_val (a b : val) : bool := Nat.eqb (fst a) (fst b) && Nat.eqb (snd a) (snd b).
Fixpoint digits (n : nat) : string := match n with O => EmptyString | S k => String "1"%char (digits k) end.

(** C109 is false of the code with strict_type=False: the window is searched with ==, not with
    the string forms.  Expected "1", "2" (strings), depth 1, received 2 (a number, whose string
    form is that of the second one): the first one is consumed and an error recorded. *)
Theorem C109_strings_refuted : ~ window false.
Proof.
  intros H.
  specialize (H val fst same_val (fun v => digits (snd v)) (fun _ _ t => t)
                (set_heap val (sb_init val false) 4 [(0, 1); (0, 2)]) (mkIface (EList 4) 1%Z false)
                4 [(0, 1)] (0, 2) [] (1, 2)).
  assert (E : 1 = 0); [|discriminate]. apply H; try reflexivity; cbn; try lia.
  - intros [a b]. unfold same_val. cbn. now rewrite !Nat.eqb_refl.
  - intros [a b] [c d]. unfold same_val. cbn. now rewrite (Nat.eqb_sym a c), (Nat.eqb_sym b d).
  - intros [a b] [c d] [e f]. unfold same_val. cbn. rewrite !Bool.andb_true_iff, !Nat.eqb_eq. lia.
Qed.
Print Assumptions C109_strings_refuted.

(** C109 is false of the code with strict_type=True: the window is searched with ==, without
    looking at types.  Expected True, 1, depth 1, received 1: True == 1, so True is consumed,
    and has the wrong type. *)
Theorem C109_types_refuted : ~ window true.
Proof.
  intros H.
  specialize (H val fst same_num (fun v => digits (snd v)) (fun _ _ t => t)
                (set_heap val (sb_init val false) 4 [(0, 1); (1, 1)]) (mkIface (EList 4) 1%Z true)
                4 [(0, 1)] (1, 1) [] (1, 1)).
  assert (E : 1 = 0); [|discriminate]. apply H; try reflexivity; cbn; try lia.
  - intros [a b]. unfold same_num. cbn. now rewrite !Nat.eqb_refl.
  - intros [a b] [c d]. unfold same_num. cbn. apply Nat.eqb_sym.
  - intros [a b] [c d] [e f]. unfold same_num. cbn. rewrite !Nat.eqb_eq. lia.
Qed.
Print Assumptions C109_types_refuted.

(** C109, what holds: where == agrees with the comparison on the first depth+1 expected
    transactions, a transaction that passes against one of them consumes the earliest such one
    and is no error, the others keep their order; and one that passes against none is one. *)
Theorem C109_window_partial :
  forall (T : Type) (ty : T -> nat) eqb (str : T -> string) fn (s : sb T) i loc t,
    i_exp i = EList loc -> (0 <= i_depth i)%Z ->
    (forall l1 e l2, heap s loc = l1 ++ e :: l2 -> (Z.of_nat (length l1) <= i_depth i)%Z ->
                     (eqb e t = true <-> passes ty eqb str (i_strict i) t e)) ->
    (forall l1 e l2, heap s loc = l1 ++ e :: l2 -> (Z.of_nat (length l1) <= i_depth i)%Z ->
       passes ty eqb str (i_strict i) t e -> (forall x, In x l1 -> ~ passes ty eqb str (i_strict i) t x) ->
       check_received T ty eqb str fn s i t = (set_heap T s loc (l1 ++ l2), Ok tt)) /\
    ((forall l1 e l2, heap s loc = l1 ++ e :: l2 -> (Z.of_nat (length l1) <= i_depth i)%Z ->
       ~ passes ty eqb str (i_strict i) t e) ->
     errors (fst (check_received T ty eqb str fn s i t)) = S (errors s)).
Proof. exact @window_any. Qed.
Print Assumptions C109_window_partial.

(** C109, for every comparison: no error is missed -- without an error, what was consumed is
    one of the first depth+1 expected transactions and passes the comparison. *)
Theorem C109_sound_partial :
  forall (T : Type) (ty : T -> nat) eqb (str : T -> string) fn (s : sb T) i loc t,
    i_exp i = EList loc -> (0 <= i_depth i)%Z ->
    errors (fst (check_received T ty eqb str fn s i t)) = errors s ->
    exists l1 e l2, heap s loc = l1 ++ e :: l2 /\ (Z.of_nat (length l1) <= i_depth i)%Z
      /\ passes ty eqb str (i_strict i) t e
      /\ heap (fst (check_received T ty eqb str fn s i t)) loc = l1 ++ l2.
Proof. exact @window_sound. Qed.
Print Assumptions C109_sound_partial.

(** the hypotheses of C109_window_partial on two strings and a received string *)
Example C109_nonvacuous :
  let s := set_heap val (sb_init val false) 4 [(0, 1); (0, 2)] in
  let str := fun v : val => digits (snd v) in
  let i := mkIface (EList 4) 1%Z false in
  check_received val fst same_val str (fun _ _ t => t) s i (0, 2) = (set_heap val s 4 [(0, 1)], Ok tt)
  /\ errors (fst (check_received val fst same_val str (fun _ _ t => t) s i (0, 3))) = 1.
Proof.
  cbn zeta. split; [|vm_compute; reflexivity].
  apply (proj1 (C109_window_partial val fst same_val (fun v => digits (snd v)) (fun _ _ t => t)
    (set_heap val (sb_init val false) 4 [(0, 1); (0, 2)]) (mkIface (EList 4) 1%Z false) 4 (0, 2)
    eq_refl ltac:(cbn; lia) ltac:(
      intros [|a [|b [|c l1]]] e l2 Hh Hl; cbn in Hh, Hl; try lia;
      [injection Hh as <- _|injection Hh as _ <- _]; unfold passes; vm_compute; intuition congruence))
    [(0, 1)] (0, 2) []); [reflexivity|cbn; lia|reflexivity|].
  intros x [<-|[]]. unfold passes. cbn. discriminate.
Qed.

(** C110.  One interface with a list, reorder_depth 0, any transactions, either strict_type:
    after any interleaving of expectations and receptions, result passes exactly if what was
    received and what was expected agree one by one, and nothing came before it was expected. *)
Theorem C110_list :
  forall (T : Type) (ty : T -> nat) eqb (str : T -> string) fn im m loc strict (l : list (ev T)),
    let s := fst (add_interface T (sb_init T im) m true (EList loc) NoFn 0%Z strict) in
    result T (fst (sb_run T ty eqb str fn s (ops_of m loc l))) = Ok tt <->
    Forall2 (passes ty eqb str strict) (gots l) (exps l) /\ never_early l.
Proof. exact @start_list_verdict. Qed.
Print Assumptions C110_list.

(** with strict_type=False: the two sequences of string forms are the same *)
Theorem C110_strings :
  forall (T : Type) (ty : T -> nat) eqb (str : T -> string) fn im m loc (l : list (ev T)),
    let s := fst (add_interface T (sb_init T im) m true (EList loc) NoFn 0%Z false) in
    result T (fst (sb_run T ty eqb str fn s (ops_of m loc l))) = Ok tt <->
    map str (gots l) = map str (exps l) /\ never_early l.
Proof.
  intros T ty eqb str fn im m loc l. cbn zeta.
  etransitivity; [exact (C110_list T ty eqb str fn im m loc false l)|].
  assert (E : Forall2 (passes ty eqb str false) (gots l) (exps l) <-> map str (gots l) = map str (exps l)).
  { generalize (gots l) (exps l). induction l0 as [|a l0 IH]; intros [|b l1]; cbn; split; intros H; try discriminate; try (now inversion H); auto.
    - inversion H as [|? ? ? ? H1 H2]; subst. unfold passes in H1. apply IH in H2. congruence.
    - injection H as H1 H2. constructor; [exact H1|now apply IH]. }
  rewrite E. reflexivity.
Qed.
Print Assumptions C110_strings.

(** One interface with a function as expected output, which is called with every transaction
    and may remember the earlier ones: result passes exactly if every transaction passes
    against the function's answer to it. *)
Theorem C110_function :
  forall (T : Type) (ty : T -> nat) eqb (str : T -> string) fn im m f depth strict (l : list T),
    let s := fst (add_interface T (sb_init T im) m true (EFun f) NoFn depth strict) in
    result T (fst (sb_run T ty eqb str fn s (map (SRecv m) l))) = Ok tt <->
    forall p t q, l = p ++ t :: q -> passes ty eqb str strict t (fn f p t).
Proof. exact @start_fun_verdict. Qed.
Print Assumptions C110_function.

(** a list of strings against numbers; a function that expects an alternation *)
Example C110_nonvacuous :
  let str := fun v : val => digits (snd v) in
  let run strict l := result val (fst (sb_run val fst same_val str (fun _ _ t => t)
      (fst (add_interface val (sb_init val false) 3 true (EList 4) NoFn 0%Z strict)) (ops_of 3 4 l))) in
  let alt := fun (_ : nat) (p : list val) (_ : val) => (1, if Nat.even (length p) then 5 else 6) in
  let runf l := result val (fst (sb_run val fst same_val str alt
      (fst (add_interface val (sb_init val false) 3 true (EFun 7) NoFn 0%Z true)) (map (SRecv 3) l))) in
  run false [Exp (0, 1); Got (1, 1); Exp (0, 2); Got (1, 2)] = Ok tt
  /\ run true [Exp (0, 1); Got (1, 1); Exp (0, 2); Got (1, 2)] = Err EAssertion
  /\ run false [Exp (0, 1); Exp (0, 2); Got (1, 2); Got (1, 1)] = Err EAssertion
  /\ runf [(1, 5); (1, 6); (1, 5)] = Ok tt /\ runf [(1, 5); (1, 5)] = Err EAssertion.
Proof. vm_compute. repeat split. Qed.
