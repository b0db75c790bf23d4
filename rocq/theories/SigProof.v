(** SigProof.v *)
From Verif Require Import Base SigModel SigSpec.
From Coq Require Import Lia.
Local Open Scope list_scope.

Lemma leqb a b : logic_eqb a b = true <-> a = b.
Proof. destruct a, b; cbn; split; congruence. Qed.

Lemma no_rise s : forall v, rises v s = false -> last s v = L1 -> v = L1.
Proof.
  induction s as [|x s IH]; intros v R E; [exact E|].
  cbn [rises] in R. assert (El : last (x :: s) v = last s x) by (destruct s; [reflexivity|]; cbn; clear; revert l; induction s; intro; [reflexivity|]; apply IHs).
  rewrite El in E. destruct v; try reflexivity; destruct x; try discriminate; specialize (IH _ R E); congruence.
Qed.
Lemma no_change s : forall v, changes v s = false -> last s v = v.
Proof.
  induction s as [|x s IH]; intros v R; [reflexivity|].
  cbn [changes] in R. apply Bool.orb_false_iff in R. destruct R as [R1 R2].
  assert (v = x) by (apply leqb; destruct (logic_eqb v x); [reflexivity|discriminate]). subst x.
  destruct s; [reflexivity|]. exact (IH v R2).
Qed.

Section Loop.
Context (want : logic) (fires : logic -> list logic -> bool) (P : logic -> Prop).
(** until the trigger fires only values of [P] are settled to *)
Context (quiet : forall v s, P v -> fires v s = false -> P (last s v)).
Context (kept : forall v, known v -> v <> want -> P v).

Lemma next_fire_spec steps : forall n v, P v ->
  match next_fire fires n v steps with
  | None => Forall P (values v steps)
  | Some (n', v', r) => exists pre, values v steps = pre ++ values v' r /\ Forall P pre /\ n + length pre = S n' /\ length r < length steps
  end.
Proof.
  induction steps as [|s steps IH]; intros n v H; cbn [next_fire].
  - cbn. constructor; [exact H|constructor].
  - destruct (fires v s) eqn:F.
    + exists [v]. cbn [values app length]. split; [reflexivity|]. split; [constructor; [exact H|constructor]|]. lia.
    + specialize (IH (S n) (settled v s) (quiet v s H F)). destruct (next_fire fires (S n) (settled v s) steps) as [[[n' v'] r]|].
      * destruct IH as (pre & E & Fp & L & Lr). exists (v :: pre). cbn [values]. unfold settled in E. rewrite E. cbn [app length].
        split; [reflexivity|]. split; [constructor; assumption|]. lia.
      * cbn [values]. constructor; [exact H|exact IH].
Qed.
Lemma wait_loop_spec fuel : forall n v steps, length steps < fuel ->
  match wait_loop want fires fuel n v steps with
  | Returned m => exists pre post, values v steps = pre ++ want :: post /\ Forall P pre /\ m = n + length pre
  | Raised m e => e = EValue /\ exists pre x post, values v steps = pre ++ x :: post /\ ~ known x /\ Forall P pre /\ m = n + length pre
  | Waiting => Forall P (values v steps)
  end.
Proof.
  induction fuel as [|fuel IH]; intros n v steps L; [lia|]. cbn [wait_loop].
  assert (V : exists post, values v steps = v :: post) by (destruct steps; cbn; eauto). destruct V as [post V].
  assert (K : known v -> match (if logic_eqb v want then Returned n
          else match next_fire fires (S n) v steps with
               | None => Waiting
               | Some (n', v', r) => wait_loop want fires fuel n' v' r
               end) with
    | Returned m => exists pre post, values v steps = pre ++ want :: post /\ Forall P pre /\ m = n + length pre
    | Raised m e => e = EValue /\ exists pre x post, values v steps = pre ++ x :: post /\ ~ known x /\ Forall P pre /\ m = n + length pre
    | Waiting => Forall P (values v steps)
    end).
  { intro Kv. destruct (logic_eqb v want) eqn:E.
    - apply leqb in E. subst want. exists [], post. split; [exact V|]. split; [constructor|cbn; lia].
    - assert (N : v <> want) by (intro; apply leqb in H; congruence).
      pose proof (next_fire_spec steps (S n) v (kept v Kv N)) as F.
      destruct (next_fire fires (S n) v steps) as [[[n' v'] r]|]; [|exact F].
      destruct F as (pre & E1 & Fp & Ln & Lr). specialize (IH n' v' r ltac:(lia)).
      destruct (wait_loop want fires fuel n' v' r) as [m|m e|].
      + destruct IH as (p2 & q & E2 & F2 & M). exists (pre ++ p2), q. rewrite E1, E2, app_assoc, app_length.
        split; [reflexivity|]. split; [apply Forall_app; auto|lia].
      + destruct IH as (-> & p2 & x & q & E2 & Nx & F2 & M). split; [reflexivity|]. exists (pre ++ p2), x, q.
        rewrite E1, E2, app_assoc, app_length. split; [reflexivity|]. split; [exact Nx|]. split; [apply Forall_app; auto|lia].
      + rewrite E1. apply Forall_app; auto. }
  destruct v; try (apply K; unfold known; auto).
  all: split; [reflexivity|]; eexists [], _, post; split; [exact V|]; split; [intros [H|H]; discriminate|]; split; [constructor|cbn; lia].
Qed.
End Loop.

Lemma first_split (P : logic -> Prop) pre x post : Forall (fun y => ~ P y) pre -> P x -> first_step P (pre ++ x :: post) (length pre).
Proof.
  intros F Hx. split.
  - exists x. rewrite nth_error_app2, Nat.sub_diag by lia. split; [reflexivity|exact Hx].
  - intros k y Hk E. rewrite nth_error_app1 in E by exact Hk. rewrite Forall_forall in F. apply F. eapply nth_error_In, E.
Qed.
Lemma first_unique P vs n m : first_step P vs n -> first_step P vs m -> n = m.
Proof.
  intros [(x & Ex & Px) A] [(y & Ey & Py) B].
  destruct (Nat.lt_trichotomy n m) as [H|[H|H]]; [|exact H|]; exfalso; [eapply (B n x)|eapply (A m y)]; eassumption.
Qed.

Lemma quiet_rise v s : v <> L1 -> rises v s = false -> last s v <> L1.
Proof. intros N R E. apply N. eapply no_rise; eassumption. Qed.
Lemma quiet_change v s : v = L1 -> changes v s = false -> last s v = L1.
Proof. intros -> R. apply no_change in R. exact R. Qed.

Lemma wait_signal_thm v steps :
  match wait_for_signal v steps with
  | Returned n => first_step (eq L1) (values v steps) n
  | Raised n e => e = EValue /\ (exists x, nth_error (values v steps) n = Some x /\ ~ known x)
      /\ forall k, k <= n -> nth_error (values v steps) k <> Some L1
  | Waiting => Forall (fun x => x <> L1) (values v steps)
  end.
Proof.
  unfold wait_for_signal.
  pose proof (wait_loop_spec L1 rises (fun x => x <> L1) quiet_rise ltac:(auto) (S (length steps)) 0 v steps ltac:(lia)) as H.
  destruct (wait_loop L1 rises (S (length steps)) 0 v steps) as [n|n e|]; [| |exact H].
  - destruct H as (pre & post & E & F & ->). rewrite E. apply first_split; [|reflexivity].
    eapply Forall_impl; [|exact F]. cbn. congruence.
  - destruct H as (-> & pre & x & post & E & N & F & ->). rewrite E. split; [reflexivity|]. split.
    + exists x. cbn [Nat.add]. rewrite nth_error_app2, Nat.sub_diag by lia. split; [reflexivity|exact N].
    + intros k Hk H. cbn [Nat.add] in Hk. assert (C : k < length pre \/ k = length pre) by lia. destruct C as [C| ->].
      * rewrite nth_error_app1 in H by exact C. rewrite Forall_forall in F. apply (F L1); [eapply nth_error_In, H|reflexivity].
      * rewrite nth_error_app2, Nat.sub_diag in H by lia. injection H as ->. apply N. right. reflexivity.
Qed.

(** without glitches an undefined value is noticed at the call only *)
Lemma smooth_fire steps : Forall (fun s => length s <= 1) steps -> forall n v n' v' r,
  next_fire rises n v steps = Some (n', v', r) -> v' = L1.
Proof.
  intro F. induction F as [|s steps Hs F IH]; intros n v n' v' r E; [discriminate|]. cbn [next_fire] in E.
  destruct (rises v s) eqn:R; [|eapply IH, E]. injection E as _ <- _.
  destruct s as [|x [|y s]]; [discriminate| |cbn in Hs; lia]. unfold settled. cbn. cbn in R. destruct v, x; congruence.
Qed.
Lemma wait_smooth v steps : known v -> Forall (fun s => length s <= 1) steps -> forall n e, wait_for_signal v steps <> Raised n e.
Proof.
  intros K F n e. unfold wait_for_signal. cbn [wait_loop].
  destruct K as [-> | ->]; cbn [logic_eqb]; [|discriminate].
  destruct (next_fire rises 1 L0 steps) as [[[n' v'] r]|] eqn:E; [|discriminate].
  rewrite (smooth_fire steps F _ _ _ _ _ E). destruct (length steps) eqn:Ls; discriminate.
Qed.

Lemma wait_nsignal_thm v steps :
  match wait_for_nsignal v steps with
  | Returned n => first_step (fun x => x <> L1) (values v steps) n /\ nth_error (values v steps) n = Some L0
  | Raised n e => e = EValue /\ first_step (fun x => x <> L1) (values v steps) n /\ nth_error (values v steps) n <> Some L0
  | Waiting => Forall (eq L1) (values v steps)
  end.
Proof.
  unfold wait_for_nsignal.
  pose proof (wait_loop_spec L0 changes (fun x => x = L1) quiet_change ltac:(intros x [K|K] N; congruence) (S (length steps)) 0 v steps ltac:(lia)) as H.
  destruct (wait_loop L0 changes (S (length steps)) 0 v steps) as [n|n e|].
  - destruct H as (pre & post & E & F & ->). rewrite E. split.
    + apply first_split; [eapply Forall_impl; [|exact F]; cbn; tauto|discriminate].
    + cbn [Nat.add]. rewrite nth_error_app2, Nat.sub_diag by lia. reflexivity.
  - destruct H as (-> & pre & x & post & E & N & F & ->). rewrite E. split; [reflexivity|]. split.
    + apply first_split; [eapply Forall_impl; [|exact F]; cbn; tauto|]. intros ->. apply N. right. reflexivity.
    + cbn [Nat.add]. rewrite nth_error_app2, Nat.sub_diag by lia. intro H. injection H as ->. apply N. left. reflexivity.
  - eapply Forall_impl; [|exact H]. cbn. auto.
Qed.
