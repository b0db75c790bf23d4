(** BenchProp.v -- C108: a test bench with reference models finds exactly the wrong
    outputs. *)
From Verif Require Import BenchModel ScoreboardSpec BenchSpec BenchProof.
Local Open Scope list_scope.

(** C108: any number of channels, each with its own output monitor, list and reference
    model; whatever the inputs and outputs are and however they are interleaved, the
    result at the end is a pass exactly if in every channel the outputs are those the
    model gives for the inputs, in this order, and none came before the input that
    explains it. *)
Theorem C108_verdict (A T : Type) (ty : T -> nat) (eqb : T -> T -> bool) (str : T -> string)
        (fn : nat -> list T -> T -> T)
        (Heq : forall a b, eqb a b = true <-> a = b)
        (fail_immediately : bool) (chans : list (chan A T)) (l : list (bench_ev A T)) :
  separate chans -> (forall c, In c chans -> h_depth c = 0) ->
  (bench_verdict A T ty eqb str fn fail_immediately chans l = Ok tt <->
   forall k c, nth_error chans k = Some c ->
     outputs k l = should c (inputs k l)
     /\ forall p q, l = p ++ q -> length (outputs k p) <= length (should c (inputs k p))).
Proof. intros. apply bench_in_order; assumption. Qed.
Print Assumptions C108_verdict.

(** ... with reordering: every output is one of the first depth+1 outstanding
    predictions of its channel, and in the end none is left *)
Theorem C108_reordering (A T : Type) (ty : T -> nat) (eqb : T -> T -> bool) (str : T -> string)
        (fn : nat -> list T -> T -> T)
        (Heq : forall a b, eqb a b = true <-> a = b)
        (fail_immediately : bool) (chans : list (chan A T)) (l : list (bench_ev A T)) :
  separate chans ->
  (bench_verdict A T ty eqb str fn fail_immediately chans l = Ok tt <->
   forall k c, nth_error chans k = Some c ->
     accept (h_depth c) (h_first c) (channel_history (h_model c) k [] l)).
Proof. intros. apply verdict_iff; assumption. Qed.
Print Assumptions C108_reordering.

(** a bench that does not pass fails with an assertion, which is what makes the test fail *)
Theorem C108_failure (A T : Type) (ty : T -> nat) (eqb : T -> T -> bool) (str : T -> string)
        (fn : nat -> list T -> T -> T) (fail_immediately : bool) (chans : list (chan A T)) (l : list (bench_ev A T)) :
  let v := bench_verdict A T ty eqb str fn fail_immediately chans l in v = Ok tt \/ v = Err EAssertion.
Proof.
  cbn zeta. unfold bench_verdict, result. destruct (existsb _ _); [auto|]. destruct (negb _); auto.
Qed.
Print Assumptions C108_failure.

(** the channels do not disturb each other: what happens in one has no influence on whether
    another one passes, so each may be looked at by itself *)
Theorem C108_independent (A T : Type) (ty : T -> nat) (eqb : T -> T -> bool) (str : T -> string)
        (fn : nat -> list T -> T -> T)
        (Heq : forall a b, eqb a b = true <-> a = b)
        (im im' : bool) (chans : list (chan A T)) (l : list (bench_ev A T)) :
  separate chans ->
  (bench_verdict A T ty eqb str fn im chans l = Ok tt <->
   forall k c, nth_error chans k = Some c ->
     bench_verdict A T ty eqb str fn im' [c]
       (flat_map (fun e => match e with
                           | BIn k' a => if Nat.eqb k' k then [BIn 0 a] else []
                           | BOut k' t => if Nat.eqb k' k then [BOut 0 t] else [] end) l) = Ok tt).
Proof.
  intro Hn. rewrite verdict_iff by assumption.
  assert (K : forall c k, channel_history (h_model c) k [] l =
     channel_history (h_model c) 0 []
       (flat_map (fun e => match e with
                           | BIn k' a => if Nat.eqb k' k then [BIn 0 a] else []
                           | BOut k' t => if Nat.eqb k' k then [BOut 0 t] else [] end) l)).
  { intros c k. generalize (@nil A). clear.
    induction l as [|[k' a|k' t] r IH]; intro b; cbn; [reflexivity| |]; destruct (Nat.eqb k' k); cbn; rewrite IH; reflexivity. }
  assert (S1 : forall c : chan A T, separate [c]).
  { intro c. split; cbn; constructor; try constructor; auto. }
  split; intros H k c Hk; specialize (H k c Hk).
  - apply verdict_iff; [exact Heq|apply S1|]. intros [|[|k']] c' E; cbn in E; try discriminate. injection E as <-.
    rewrite <- K. exact H.
  - rewrite verdict_iff in H by (try exact Heq; apply S1). rewrite K. exact (H 0 c eq_refl).
Qed.
Print Assumptions C108_independent.

(** the flip-flop test bench of examples/dff passes exactly if the output is the input one
    cycle later, beginning with the initial value -- whichever of the two monitors runs
    first in each of the cycles *)
Theorem C108_dff (T : Type) (ty : T -> nat) (eqb : T -> T -> bool) (str : T -> string)
        (fn : nat -> list T -> T -> T)
        (Heq : forall a b, eqb a b = true <-> a = b)
        (fail_immediately : bool) (init z : T) (cs : list (bool * T * T)) :
  let bench := [Chan 0 0 [init] 0 (fun _ d => [d])] in
  bench_verdict T T ty eqb str fn fail_immediately bench (dff_cycles cs ++ [BOut 0 z]) = Ok tt <->
  map snd cs ++ [z] = init :: map (fun c => snd (fst c)) cs.
Proof.
  cbn zeta. rewrite bench_in_order; [|exact Heq|split; cbn; constructor; try constructor; auto|intros c [<-|[]]; reflexivity].
  split.
  - intro H. destruct (H 0 _ eq_refl) as [E _]. unfold should in E. cbn [h_first h_model] in E.
    rewrite dff_out, dff_in, predicted_id in E. exact E.
  - intros E [|[|k]] c Hc; try discriminate. injection Hc as <-. unfold should. cbn [h_first h_model]. split.
    + rewrite dff_out, dff_in, predicted_id. exact E.
    + intros p q Ep. rewrite predicted_id. cbn [app length]. eapply dff_early. exact Ep.
Qed.
Print Assumptions C108_dff.

(** two channels, one of them counting its inputs; a pass, a wrong output and an output
    before its input *)
Example C108_nonvacuous :
  let chans := [Chan 3 5 [] 0 (fun _ a => [a; a + 1]); Chan 4 6 [9] 0 (fun before _ => [length before])] in
  let v im l := bench_verdict nat nat (fun _ => 0) Nat.eqb (fun _ => EmptyString) (fun _ _ t => t) im chans l in
  separate chans
  /\ v true [BIn 0 7; BOut 1 9; BOut 0 7; BIn 1 1; BIn 1 1; BOut 0 8; BOut 1 0; BOut 1 1] = Ok tt
  /\ v false [BIn 0 7; BOut 1 9; BOut 0 7; BOut 0 7] = Err EAssertion
  /\ v true [BOut 0 7; BIn 0 7; BOut 1 9; BOut 0 8] = Err EAssertion.
Proof.
  cbn zeta. split; [|repeat split; vm_compute; reflexivity].
  split; cbn; repeat (constructor; [cbn; intuition discriminate|]); constructor.
Qed.
