(** ScbRefProp.v -- C109: when the reorder window goes wrong, for transactions of any kind. *)
From Verif Require Import ScoreboardModel ScoreboardSpec ScoreboardProof ScbAnyProof.
Local Open Scope list_scope.

(** C109, false whenever an expected transaction [e] in the window is == to the received one but
    does not pass the comparison of the interface, and no earlier one is ==: an error is
    recorded and [e] is consumed, although a later one in the window ([f]) passes. *)
Theorem C109_equal_first_refuted :
  forall (T : Type) (ty : T -> nat) eqb (str : T -> string) fn (s : sb T) i loc l1 e l2 f l3 t,
    i_exp i = EList loc -> heap s loc = l1 ++ e :: l2 ++ f :: l3 ->
    (Z.of_nat (length (l1 ++ e :: l2)) <= i_depth i)%Z ->
    eqb e t = true -> (forall x, In x l1 -> eqb x t = false) -> ~ passes ty eqb str (i_strict i) t e ->
    passes ty eqb str (i_strict i) t f ->
    errors (fst (check_received T ty eqb str fn s i t)) = S (errors s) /\
    heap (fst (check_received T ty eqb str fn s i t)) loc = l1 ++ l2 ++ f :: l3.
Proof.
  intros T ty eqb str fn s i loc l1 e l2 f l3 t Hi Hh Hl He Hb Hn _.
  rewrite (check_window ty eqb str fn s i loc l1 e (l2 ++ f :: l3) t Hi Hh); [|rewrite app_length in Hl; lia|exact He|exact Hb].
  rewrite compare_fail by exact Hn. cbn. unfold upd_fun. rewrite Nat.eqb_refl. split; reflexivity.
Qed.
Print Assumptions C109_equal_first_refuted.

(** C109, false whenever none of the window is == to the received transaction and the first expected
    one does not pass: an error is recorded and the first one is consumed, although a later one in
    the window ([f], equal only as a string, or with an == that says no) passes. *)
Theorem C109_none_equal_refuted :
  forall (T : Type) (ty : T -> nat) eqb (str : T -> string) fn (s : sb T) i loc h l2 f l3 t,
    i_exp i = EList loc -> heap s loc = h :: l2 ++ f :: l3 ->
    (Z.of_nat (length (h :: l2)) <= i_depth i)%Z ->
    (forall l1 e r, heap s loc = l1 ++ e :: r -> (Z.of_nat (length l1) <= i_depth i)%Z -> eqb e t = false) ->
    ~ passes ty eqb str (i_strict i) t h -> passes ty eqb str (i_strict i) t f ->
    errors (fst (check_received T ty eqb str fn s i t)) = S (errors s) /\
    heap (fst (check_received T ty eqb str fn s i t)) loc = l2 ++ f :: l3.
Proof.
  intros T ty eqb str fn s i loc h l2 f l3 t Hi Hh Hl Hb Hn _.
  rewrite (check_nomatch ty eqb str fn s i loc h (l2 ++ f :: l3) t Hi Hh) by (rewrite <- Hh; exact Hb).
  rewrite compare_fail by exact Hn. cbn. unfold upd_fun. rewrite Nat.eqb_refl. split; reflexivity.
Qed.
Print Assumptions C109_none_equal_refuted.

(** ** cases: numbers n and strings of digits n as pairs; == of 1 and True, str() of 2 and "2" *)
Definition exr_val : Type := (nat * nat)%type.
Definition exr_num (a b : exr_val) : bool := Nat.eqb (snd a) (snd b).
Definition exr_same (a b : exr_val) : bool := Nat.eqb (fst a) (fst b) && Nat.eqb (snd a) (snd b).
Definition exr_str (v : exr_val) : string := if Nat.eqb (snd v) 1 then "1"%string else "2"%string.
(** True, 5, 1 expected; 1 received, depth 2, strict_type=True *)
Example exr_types :
  exr_num (7, 1) (0, 1) = true /\ ~ passes fst exr_num exr_str true (0, 1) (7, 1) /\ passes fst exr_num exr_str true (0, 1) (0, 1) /\
  errors (fst (check_received exr_val fst exr_num exr_str (fun _ _ t => t)
    (set_heap exr_val (sb_init exr_val false) 4 [(7, 1); (0, 5); (0, 1)]) (mkIface (EList 4) 2%Z true) (0, 1))) = 1.
Proof.
  split; [reflexivity|]. split; [intros (A & _); discriminate|]. split; [split; reflexivity|]. reflexivity.
Qed.
(** "1", "2" expected; 2 received, depth 1, strict_type=False *)
Example exr_strings :
  exr_same (3, 1) (0, 2) = false /\ exr_same (3, 2) (0, 2) = false /\ ~ passes fst exr_same exr_str false (0, 2) (3, 1) /\
  passes fst exr_same exr_str false (0, 2) (3, 2) /\
  errors (fst (check_received exr_val fst exr_same exr_str (fun _ _ t => t)
    (set_heap exr_val (sb_init exr_val false) 4 [(3, 1); (3, 2)]) (mkIface (EList 4) 1%Z false) (0, 2))) = 1.
Proof. repeat split; try reflexivity; discriminate. Qed.
