(** ScbCmpProp.v -- C119: a sub-class that re-implements Scoreboard.compare. *)
From Verif Require Import Base ScoreboardModel ScoreboardSpec ScbCmpModel ScbCmpSpec ScbCmpProof.
From Coq Require Import Permutation.
Local Open Scope list_scope.

(** C119: without reordering, the n-th transaction received is compared, once, with the n-th
    expected; the verdict is the sub-class's own count and that everything expected came. *)
Theorem C119_in_order : forall T eqb (cmp : list (T * T) -> T -> T -> nat * option exn) imm hist,
  never_raises T cmp -> never_early hist ->
  let s := custom_run T eqb cmp imm 0 hist in
  c_calls s = combine (gots hist) (exps hist) /\ c_dead s = None
  /\ (custom_result T s = Ok tt
      <-> length (gots hist) = length (exps hist) /\ counted T cmp [] (combine (gots hist) (exps hist)) = 0).
Proof.
  intros T eqb cmp imm hist NR NE. destruct (in_order eqb cmp imm hist NR NE) as (A & B & _). cbn zeta.
  split; [exact A|]. split; [exact B|]. exact (in_order_verdict eqb cmp imm hist NR NE).
Qed.
Print Assumptions C119_in_order.

(** C119: with any reorder depth it is called for the transactions received, in order, and with
    every expected transaction at most once. *)
Theorem C119_once_each : forall T eqb (cmp : list (T * T) -> T -> T -> nat * option exn) imm depth hist,
  never_raises T cmp -> never_early hist ->
  let s := custom_run T eqb cmp imm depth hist in
  map fst (c_calls s) = gots hist /\ Permutation (map snd (c_calls s) ++ c_out s) (exps hist)
  /\ c_dead s = None /\ c_errors s = counted T cmp [] (c_calls s).
Proof. intros. apply any_depth_calls; assumption. Qed.
Print Assumptions C119_once_each.

(** C119: which expected transaction a call gets, whatever compare does; a transaction that
    comes when nothing is expected is an error without a call. *)
Theorem C119_argument : forall T eqb (cmp : list (T * T) -> T -> T -> nat * option exn) imm depth hist t,
  let s := custom_run T eqb cmp imm depth hist in
  let s' := custom_run T eqb cmp imm depth (hist ++ [Got t]) in
  c_dead s = None ->
  (c_out s = [] -> c_calls s' = c_calls s /\ c_errors s' = S (c_errors s)
                   /\ c_dead s' = if imm then Some EAssertion else None)
  /\ (c_out s <> [] -> exists e, consumes eqb depth (c_out s) t e (c_out s')
                   /\ c_calls s' = c_calls s ++ [(t, e)]
                   /\ c_errors s' = c_errors s + fst (cmp (c_calls s) t e)
                   /\ c_dead s' = snd (cmp (c_calls s) t e)).
Proof.
  intros T eqb cmp imm depth hist t s s' D. subst s'. rewrite run_snoc. fold s.
  pose proof (step_alive eqb cmp imm depth s t D) as S. destruct (c_out s) as [|h r] eqn:O.
  - rewrite S. cbn. split; [auto|congruence].
  - destruct S as (e & rest & C & ->). cbn. split; [discriminate|]. intros _. exists e. auto.
Qed.
Print Assumptions C119_argument.

(** C119: what compare raises ends the monitor: there are no calls after it. *)
Theorem C119_raise_ends : forall T eqb (cmp : list (T * T) -> T -> T -> nat * option exn) imm depth h1 h2 x,
  c_dead (custom_run T eqb cmp imm depth h1) = Some x ->
  c_calls (custom_run T eqb cmp imm depth (h1 ++ h2)) = c_calls (custom_run T eqb cmp imm depth h1)
  /\ c_errors (custom_run T eqb cmp imm depth (h1 ++ h2)) = c_errors (custom_run T eqb cmp imm depth h1).
Proof.
  intros T eqb cmp imm depth h1 h2 x D. destruct (dead_forever eqb cmp imm depth h1 h2 x D) as (A & B & _). auto.
Qed.
Print Assumptions C119_raise_ends.

(** C119: with Scoreboard's own compare this is the scoreboard of C13-C19. *)
Theorem C119_own_compare : forall T ty eqb str fn m loc depth strict imm (hist : list (ev T)),
  let s := fst (sb_run T ty eqb str fn
                  (fst (add_interface T (sb_init T imm) m true (EList loc) NoFn depth strict)) (ops_of m loc hist)) in
  let c := custom_run T eqb (own_compare ty eqb str strict imm) imm depth hist in
  heap s loc = c_out c /\ errors s = c_errors c /\ (In m (dead s) <-> c_dead c <> None)
  /\ result T s = custom_result T c.
Proof. intros. apply own_run. Qed.
Print Assumptions C119_own_compare.

(** a tolerance of one: 5 for 6 is fine, 7 for 9 is an error *)
Definition close (before : list (nat * nat)) (got exp : nat) : nat * option exn :=
  (if (got - exp) + (exp - got) <=? 1 then 0 else 1, None).
Example C119_nonvacuous :
  let good := [Exp 6; Exp 2; Got 5; Exp 9; Got 2; Got 8] in
  let bad := [Exp 6; Exp 9; Got 5; Got 7] in
  never_raises nat close
  /\ c_calls (custom_run nat Nat.eqb close false 0 good) = [(5, 6); (2, 2); (8, 9)]
  /\ custom_result nat (custom_run nat Nat.eqb close false 0 good) = Ok tt
  /\ custom_result nat (custom_run nat Nat.eqb close false 0 bad) = Err EAssertion
  /\ c_calls (custom_run nat Nat.eqb close false 1 [Exp 6; Exp 2; Got 2; Got 5]) = [(2, 2); (5, 6)]
  /\ c_dead (custom_run nat Nat.eqb (fun b g e => (0, Some EValue)) false 0 [Exp 6; Got 6; Exp 7; Got 7]) = Some EValue.
Proof. cbn zeta. split; [intros b t e; reflexivity|]. vm_compute. auto. Qed.
Example C119_nonvacuous_early : never_early [Exp 6; Exp 2; Got 5; Exp 9; Got 2; Got 8].
Proof.
  intros p q E. do 7 (destruct p as [|? p]; [vm_compute; lia|cbn [app] in E; try discriminate; injection E as <- E]).
Qed.
