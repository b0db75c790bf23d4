(** LockRefProp.v -- C26: after which histories exclusion fails. *)
From Verif Require Import LockModel LockSpec LockProof.

(** Every history, of any number of tasks, after which one task has the lock and two others wait
    for it: when the lock is released and both are resumed, both have it. *)
Theorem C26_two_waiters_refuted :
  forall acts t u v, u <> v ->
    let k := lrun acts lock_init in
    holds k t -> stat k u = LkWaiting -> stat k v = LkWaiting ->
    let k' := lrun (acts ++ [KRelease t; KResume u; KResume v]) lock_init in
    holds k' u /\ holds k' v /\ ~ exclusive k'.
Proof.
  intros acts t u v N k Ht Hu Hv k'.
  assert (Ntu : t <> u) by (intros ->; unfold holds in Ht; congruence).
  assert (Ntv : t <> v) by (intros ->; unfold holds in Ht; congruence).
  assert (E : k' = lstep (lstep (lstep k (KRelease t)) (KResume u)) (KResume v)) by (unfold k', lrun; rewrite fold_left_app; reflexivity).
  assert (A : stat (lstep k (KRelease t)) u = LkWoken /\ stat (lstep k (KRelease t)) v = LkWoken).
  { cbn [lstep]. rewrite Ht. cbn. unfold wake_all, set_stat. destruct (Nat.eqb_spec u t); [congruence|]. destruct (Nat.eqb_spec v t); [congruence|].
    rewrite Hu, Hv. auto. }
  destruct A as (Au & Av). set (k1 := lstep k (KRelease t)) in *.
  assert (B : stat (lstep k1 (KResume u)) u = LkHolding /\ stat (lstep k1 (KResume u)) v = LkWoken).
  { cbn [lstep]. rewrite Au. cbn. unfold set_stat. rewrite Nat.eqb_refl. destruct (Nat.eqb_spec v u); [congruence|]. auto. }
  destruct B as (Bu & Bv). set (k2 := lstep k1 (KResume u)) in *.
  assert (C : holds k' u /\ holds k' v).
  { rewrite E. unfold holds. cbn [lstep]. rewrite Bv. cbn. unfold set_stat. rewrite Nat.eqb_refl. destruct (Nat.eqb_spec u v); [congruence|]. auto. }
  split; [apply C|]. split; [apply C|]. intro X. apply N. apply X; apply C.
Qed.
Print Assumptions C26_two_waiters_refuted.

(** Every history after which one task has the lock and another waits for it: when the holder
    releases it and asks again before the other is resumed, both have it. *)
Theorem C26_ask_again_refuted :
  forall acts t u,
    let k := lrun acts lock_init in
    holds k t -> stat k u = LkWaiting ->
    let k' := lrun (acts ++ [KRelease t; KAcquire t; KResume u]) lock_init in
    holds k' t /\ holds k' u /\ ~ exclusive k'.
Proof.
  intros acts t u k Ht Hu k'.
  assert (N : t <> u) by (intros ->; unfold holds in Ht; congruence).
  assert (E : k' = lstep (lstep (lstep k (KRelease t)) (KAcquire t)) (KResume u)) by (unfold k', lrun; rewrite fold_left_app; reflexivity).
  assert (A : stat (lstep k (KRelease t)) u = LkWoken /\ stat (lstep k (KRelease t)) t = LkIdle /\ busy (lstep k (KRelease t)) = false).
  { cbn [lstep]. rewrite Ht. cbn. unfold wake_all, set_stat. destruct (Nat.eqb_spec u t); [congruence|]. rewrite Nat.eqb_refl, Hu. auto. }
  destruct A as (Au & At & Ab). set (k1 := lstep k (KRelease t)) in *.
  assert (B : stat (lstep k1 (KAcquire t)) t = LkHolding /\ stat (lstep k1 (KAcquire t)) u = LkWoken).
  { cbn [lstep]. rewrite At, Ab. cbn. unfold set_stat. rewrite Nat.eqb_refl. destruct (Nat.eqb_spec u t); [congruence|]. auto. }
  destruct B as (Bt & Bu). set (k2 := lstep k1 (KAcquire t)) in *.
  assert (C : holds k' t /\ holds k' u).
  { rewrite E. unfold holds. cbn [lstep]. rewrite Bu. cbn. unfold set_stat. rewrite Nat.eqb_refl. destruct (Nat.eqb_spec t u); [congruence|]. auto. }
  split; [apply C|]. split; [apply C|]. intro X. apply N. apply X; apply C.
Qed.
Print Assumptions C26_ask_again_refuted.

Example exl_gen :
  let acts := [KAcquire 4; KRelease 4; KAcquire 0; KAcquire 1; KAcquire 2] in
  let k := lrun acts lock_init in
  no_failure acts /\ holds k 0 /\ stat k 1 = LkWaiting /\ stat k 2 = LkWaiting.
Proof. cbn zeta. split; [intros t H; repeat destruct H as [H|H]; try discriminate; exact H|]. vm_compute. auto. Qed.
