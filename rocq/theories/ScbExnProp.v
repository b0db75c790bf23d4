(** ScbExnProp.v -- C124: comparisons that raise. *)
From Verif Require Import Base ScoreboardModel ScoreboardSpec ScbCmpModel ScbCmpSpec ScbExnModel ScbExnSpec ScbExnProof.
Local Open Scope list_scope.

(** C124 is false of the code.  If the comparison of a received transaction with the last expected
    one raises (!= with strict types, str() otherwise), the expectation has been consumed and no
    error counted: result passes although nothing has been compared. *)
Theorem C124_list_refuted :
  forall (T : Type) ty py_eq py_ne str report report_unexpected imm strict depth (t x : T) b e,
    py_eq x t = Ok b -> compare_raises T ty py_ne str strict t x e ->
    let s := x_run T ty py_eq py_ne str report report_unexpected XList imm strict depth [Exp x; Got t] in
    x_result T XList s = Ok tt /\ x_dead s = Some e.
Proof. exact @list_false_pass. Qed.
Print Assumptions C124_list_refuted.

(** If a callable expected output raises, result passes, whatever the monitor would receive
    afterwards. *)
Theorem C124_callable_refuted :
  forall (T : Type) ty py_eq py_ne str report report_unexpected f imm strict depth (t : T) e l,
    f [] t = Err e ->
    let s := x_run T ty py_eq py_ne str report report_unexpected (XFun f) imm strict depth (map Got (t :: l)) in
    x_result T (XFun f) s = Ok tt /\ x_dead s = Some e.
Proof. intros T ty eq ne str r ru f imm strict depth t e l F. now apply fun_dead. Qed.
Print Assumptions C124_callable_refuted.

(** What a pass means with a list, whatever raises: either the monitor is alive and every
    transaction received agrees with an expected one of its own and all expected ones came; or
    this holds for the transactions before the one whose comparison raised, one expected
    transaction was left for that one, and nothing was expected later. *)
Theorem C124_list_partial :
  forall (T : Type) ty py_eq py_ne str report report_unexpected imm strict depth (hist : list (ev T)),
    let s := x_run T ty py_eq py_ne str report report_unexpected XList imm strict depth hist in
    x_result T XList s = Ok tt ->
    (x_dead s = None /\ all_agree T ty py_ne str strict (gots hist) (exps hist) [])
    \/ exists e h1 t h2 x, x_dead s = Some e /\ hist = h1 ++ Got t :: h2 /\ exps h2 = []
         /\ all_agree T ty py_ne str strict (gots h1) (exps h1) [x]
         /\ compare_raises T ty py_ne str strict t x e.
Proof. exact @list_verdict. Qed.
Print Assumptions C124_list_partial.

(** ... with a callable, likewise: every transaction agrees with the answer of the callable, or
    those before the one for which the callable or the comparison raised do. *)
Theorem C124_callable_partial :
  forall (T : Type) ty py_eq py_ne str report report_unexpected f imm strict depth (hist : list (ev T)),
    let s := x_run T ty py_eq py_ne str report report_unexpected (XFun f) imm strict depth hist in
    let answered g := forall k t, nth_error g k = Some t ->
                        exists x, f (firstn k g) t = Ok x /\ agrees T ty py_ne str strict t x in
    x_result T (XFun f) s = Ok tt ->
    (x_dead s = None /\ answered (gots hist))
    \/ exists e g1 t g2, x_dead s = Some e /\ gots hist = g1 ++ t :: g2 /\ answered g1
         /\ (f g1 t = Err e \/ exists x, f g1 t = Ok x /\ compare_raises T ty py_ne str strict t x e).
Proof.
  intros T ty eq ne str r ru f imm strict depth hist s answered R.
  destruct (result_ok _ _ R) as (Z0 & _).
  destruct (fun_inv ty eq ne str r ru f imm strict depth hist Z0) as [(D & _ & A)|(e & g1 & t & g2 & D & E & A & B)].
  - left. auto.
  - right. exists e, g1, t, g2. auto.
Qed.
Print Assumptions C124_callable_partial.

(** An exception of == during the search is never followed by a pass: the expectation stays. *)
Theorem C124_search_partial :
  forall (T : Type) ty py_eq py_ne str report report_unexpected imm strict depth (h1 : list (ev T)) t h2 e l1 x l2,
    let run := x_run T ty py_eq py_ne str report report_unexpected XList imm strict depth in
    x_dead (run h1) = None -> x_out (run h1) = l1 ++ x :: l2 -> (Z.of_nat (length l1) <= depth)%Z ->
    (forall y, In y l1 -> py_eq y t = Ok false) -> py_eq x t = Err e ->
    let s' := run (h1 ++ Got t :: h2) in
    x_dead s' = Some e /\ x_errors s' = x_errors (run h1) /\ x_result T XList s' = Err EAssertion.
Proof. exact @search_first. Qed.
Print Assumptions C124_search_partial.

(** A message that raises comes after the error has been counted: the monitor ends with that
    exception, exactly one error is added, and result fails whatever happens later.  The
    transaction may be unexpected, differ from the first equal one of the window (with another
    str() or !=), from the oldest one if none is equal, or from the answer of a callable. *)
Theorem C124_messages_partial :
  forall (T : Type) ty py_eq py_ne str report report_unexpected src imm strict depth (h1 : list (ev T)) t h2 e,
    let run := x_run T ty py_eq py_ne str report report_unexpected src imm strict depth in
    let s := run h1 in
    x_dead s = None ->
    match src with
    | XFun f => exists x, f (gots h1) t = Ok x /\ differ T ty py_ne str strict t x /\ report t x = Err e
    | XList => (x_out s = [] /\ report_unexpected t = Err e)
               \/ (exists l1 x l2, x_out s = l1 ++ x :: l2 /\ (Z.of_nat (length l1) <= depth)%Z /\ (forall y, In y l1 -> py_eq y t = Ok false)
                    /\ py_eq x t = Ok true /\ differ T ty py_ne str strict t x /\ report t x = Err e)
               \/ (exists x l, x_out s = x :: l /\ (forall y, In y (firstn (Z.to_nat (depth + 1)) (x_out s)) -> py_eq y t = Ok false)
                    /\ differ T ty py_ne str strict t x /\ report t x = Err e)
    end ->
    let s' := run (h1 ++ Got t :: h2) in
    x_dead s' = Some e /\ x_errors s' = S (x_errors s) /\ x_result T src s' = Err EAssertion.
Proof. intros T ty eq ne str r ru src. apply messages. Qed.
Print Assumptions C124_messages_partial.

(** If nothing raises this is the scoreboard of C119 with its own compare (which is that of C15 to
    C21, see C119_own_compare). *)
Theorem C124_no_exceptions_partial :
  forall (T : Type) (ty : T -> nat) py_eq py_ne str report report_unexpected eqb st,
    (forall a b, py_eq a b = Ok (eqb a b)) -> (forall a b, py_ne a b = Ok (negb (eqb a b))) ->
    (forall a, str a = Ok (st a)) -> (forall a b, report a b = Ok tt) -> (forall a, report_unexpected a = Ok tt) ->
    forall imm strict depth (hist : list (ev T)),
      let s := x_run T ty py_eq py_ne str report report_unexpected XList imm strict depth hist in
      let c := custom_run T eqb (own_compare ty eqb st strict imm) imm depth hist in
      x_out s = c_out c /\ x_errors s = c_errors c /\ x_dead s = c_dead c.
Proof. exact @total. Qed.
Print Assumptions C124_no_exceptions_partial.

(** numbers; str() of 9 raises, == with 8 raises, 7 == everything *)
Definition ex_str (n : nat) : res string := if n =? 9 then Err (EUser 1) else Ok (if n <? 5 then "a"%string else "b"%string).
Definition ex_eq (a b : nat) : res bool :=
  if (a =? 8) || (b =? 8) then Err EValue else Ok ((a =? b) || (a =? 7) || (b =? 7)).
Definition ex_ne (a b : nat) : res bool := rbind (ex_eq a b) (fun x => Ok (negb x)).
Example C124_nonvacuous :
  let run strict := x_run nat (fun _ => 0) ex_eq ex_ne ex_str (fun _ _ => Ok tt) (fun _ => Ok tt) XList false strict 1 in
  let verdict strict h := (x_result nat XList (run strict h), x_dead (run strict h)) in
  verdict false [Exp 1; Exp 2; Got 2; Got 9] = (Ok tt, Some (EUser 1))
  /\ verdict true [Exp 1; Exp 2; Got 8] = (Err EAssertion, Some EValue)
  /\ verdict true [Exp 1; Exp 2; Got 2; Got 1] = (Ok tt, None)
  /\ verdict true [Exp 1; Exp 2; Got 2; Got 3] = (Err EAssertion, None)
  /\ compare_raises nat (fun _ => 0) ex_ne ex_str false 9 1 (EUser 1)
  /\ all_agree nat (fun _ => 0) ex_ne ex_str false [2] [1; 2] [1].
Proof.
  repeat (split; [vm_compute; reflexivity|]). split; [left; reflexivity|].
  exists [(2, 2)]. split; [reflexivity|]. split; [apply perm_swap|]. repeat constructor. exists "a"%string. split; reflexivity.
Qed.

(** messages that raise KeyError-like exceptions: result fails, the later 1 is not compared *)
Example C124_messages_nonvacuous :
  let run := x_run nat (fun _ => 0) ex_eq ex_ne ex_str (fun _ _ => Err (EUser 2)) (fun _ => Err (EUser 3)) XList false true 1 in
  let verdict h := (x_result nat XList (run h), x_dead (run h), x_errors (run h)) in
  verdict [Exp 1; Exp 2; Got 3; Got 2] = (Err EAssertion, Some (EUser 2), 1)
  /\ verdict [Exp 1; Got 1; Got 2; Got 1] = (Err EAssertion, Some (EUser 3), 1)
  /\ differ nat (fun _ => 0) ex_ne ex_str true 3 1.
Proof. repeat split; vm_compute; reflexivity. Qed.
