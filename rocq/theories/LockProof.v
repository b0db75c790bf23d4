(** LockProof.v *)
From Verif Require Import LockModel LockSpec.

Lemma set_same f t s : set_stat f t s t = s.
Proof. unfold set_stat. rewrite Nat.eqb_refl. reflexivity. Qed.
Lemma set_other f t s u : u <> t -> set_stat f t s u = f u.
Proof. unfold set_stat. intro H. apply Nat.eqb_neq in H. rewrite H. reflexivity. Qed.
Lemma set_cases f t s u : (u = t /\ set_stat f t s u = s) \/ (u <> t /\ set_stat f t s u = f u).
Proof. destruct (Nat.eq_dec u t) as [->|N]; [left|right]; split; auto using set_same, set_other. Qed.

(** Invariant for polite schedules: at most one task is out of LkIdle besides a
    single waiter; whoever holds, busy is up and nobody is woken; if somebody is
    woken, nobody holds and nobody else is woken or waits. *)
Definition LInv (k : lock) : Prop :=
  (busy k = true -> busy_event k = false)
  /\ (forall t u, stat k t <> LkIdle -> stat k u <> LkIdle -> stat k t = stat k u -> t = u)
  /\ (forall t, stat k t = LkHolding -> busy k = true)
  /\ (forall t u, stat k t = LkWoken -> stat k u = LkIdle \/ u = t)
  /\ (forall t, stat k t = LkWoken -> busy k = false).

Lemma LInv_init : LInv lock_init.
Proof. unfold LInv. cbn. repeat split; intros; try discriminate; congruence. Qed.

Lemma LInv_step k a : LInv k -> polite_step k a -> LInv (lstep k a).
Proof.
  intros (E & U & H & W & B) P. destruct a as [t|t|t|t]; cbn [lstep].
  - destruct (stat k t) eqn:S; try (repeat split; auto; fail).
    cbn in P. destruct (busy k) eqn:Bk.
    + rewrite (E eq_refl). unfold LInv. cbn.
      assert (NW : forall u, stat k u = LkIdle \/ stat k u = LkHolding).
      { intro u. destruct (P u). destruct (stat k u); auto; congruence. }
      repeat split; auto.
      * intros v u. destruct (set_cases (stat k) t LkWaiting v) as [[-> ->]|[? ->]],
          (set_cases (stat k) t LkWaiting u) as [[-> ->]|[? ->]]; auto.
        -- intros _ _ X. destruct (NW u); congruence.
        -- intros _ _ X. destruct (NW v); congruence.
      * intros v u. destruct (set_cases (stat k) t LkWaiting v) as [[-> ->]|[? ->]]; [congruence|].
        intro X. destruct (NW v); congruence.
      * intros v. destruct (set_cases (stat k) t LkWaiting v) as [[-> ->]|[? ->]]; [congruence|].
        intro X. destruct (NW v); congruence.
    + assert (NW : forall u, stat k u = LkIdle).
      { intro u. destruct (P u). destruct (stat k u) eqn:X; auto; try congruence.
        apply H in X. congruence. }
      unfold grant, LInv. cbn. repeat split; auto.
      * intros v u. destruct (set_cases (stat k) t LkHolding v) as [[-> ->]|[? ->]],
          (set_cases (stat k) t LkHolding u) as [[-> ->]|[? ->]]; auto; rewrite ?NW; congruence.
      * intros v u. destruct (set_cases (stat k) t LkHolding v) as [[-> ->]|[? ->]]; rewrite ?NW; congruence.
      * intros v. destruct (set_cases (stat k) t LkHolding v) as [[-> ->]|[? ->]]; rewrite ?NW; congruence.
  - destruct (stat k t) eqn:S; try (repeat split; auto; fail).
    assert (NW : forall u, u <> t -> stat k u = LkIdle).
    { intros u N. destruct (W t u S); congruence. }
    unfold grant, LInv. cbn. repeat split; auto.
    * intros v u. destruct (set_cases (stat k) t LkHolding v) as [[-> ->]|[? ->]],
        (set_cases (stat k) t LkHolding u) as [[-> ->]|[? ->]]; auto; rewrite ?NW by auto; congruence.
    * intros v u. destruct (set_cases (stat k) t LkHolding v) as [[-> ->]|[? ->]]; rewrite ?NW by auto; congruence.
    * intros v. destruct (set_cases (stat k) t LkHolding v) as [[-> ->]|[? ->]]; rewrite ?NW by auto; congruence.
  - destruct (stat k t) eqn:S; try (repeat split; auto; fail).
    assert (Bk : busy k = true) by (apply (H t S)).
    assert (NW : forall u, u <> t -> stat k u = LkIdle \/ stat k u = LkWaiting).
    { intros u N. destruct (stat k u) eqn:X; auto.
      - apply B in X. congruence.
      - exfalso. apply N. symmetry. apply U; congruence. }
    unfold LInv. cbn. unfold wake_all. repeat split; auto; try discriminate.
    * intros v u. destruct (set_cases (stat k) t LkIdle v) as [[-> ->]|[Nv ->]]; [congruence|].
      destruct (set_cases (stat k) t LkIdle u) as [[-> ->]|[Nu ->]]; [congruence|].
      destruct (NW v Nv) as [Xv|Xv], (NW u Nu) as [Xu|Xu]; rewrite Xv, Xu; try congruence.
      intros _ _ _. apply U; congruence.
    * intros v. destruct (set_cases (stat k) t LkIdle v) as [[-> ->]|[Nv ->]]; [congruence|].
      destruct (NW v Nv) as [Xv|Xv]; rewrite Xv; congruence.
    * intros v u. destruct (set_cases (stat k) t LkIdle v) as [[-> ->]|[Nv ->]]; [congruence|].
      destruct (NW v Nv) as [Xv|Xv]; rewrite Xv; [congruence|]. intros _.
      destruct (set_cases (stat k) t LkIdle u) as [[-> ->]|[Nu ->]]; [auto|].
      destruct (NW u Nu) as [Xu|Xu]; rewrite Xu; [auto|]. right. apply U; congruence.
  - destruct (stat k t) eqn:S; try (repeat split; auto; fail).
    unfold LInv. cbn. repeat split; auto.
    * intros v u. destruct (set_cases (stat k) t LkIdle v) as [[-> ->]|[Nv ->]]; [congruence|].
      destruct (set_cases (stat k) t LkIdle u) as [[-> ->]|[Nu ->]]; [congruence|]. apply U.
    * intros v. destruct (set_cases (stat k) t LkIdle v) as [[-> ->]|[Nv ->]]; [congruence|]. apply H.
    * intros v u. destruct (set_cases (stat k) t LkIdle v) as [[-> ->]|[Nv ->]]; [congruence|].
      destruct (set_cases (stat k) t LkIdle u) as [[-> ->]|[Nu ->]]; [auto|]. apply W.
    * intros v. destruct (set_cases (stat k) t LkIdle v) as [[-> ->]|[Nv ->]]; [congruence|]. apply B.
Qed.

Lemma LInv_run acts : forall k, LInv k -> polite k acts -> LInv (lrun acts k).
Proof.
  induction acts as [|a acts IH]; intros k I P; [exact I|].
  destruct P as [P1 P2]. cbn. apply IH; [apply LInv_step|]; auto.
Qed.

Lemma polite_exclusive acts : polite lock_init acts -> exclusive (lrun acts lock_init).
Proof.
  intro P. destruct (LInv_run acts _ LInv_init P) as (_ & U & _).
  intros t u Ht Hu. unfold holds in *. apply U; congruence.
Qed.

(** Deadlock after a failure. *)
Definition stuck (k : lock) : Prop :=
  busy k = true /\ busy_event k = false
  /\ forall t, stat k t = LkIdle \/ stat k t = LkWaiting.

Lemma stuck_step k a : stuck k -> stuck (lstep k a).
Proof.
  intros (B & E & S). destruct a as [t|t|t|t]; cbn [lstep].
  - destruct (stat k t); try (repeat split; auto; fail). rewrite B, E.
    repeat split; auto. intro u. cbn.
    destruct (set_cases (stat k) t LkWaiting u) as [[-> ->]|[? ->]]; auto.
  - destruct (S t) as [->| ->]; repeat split; auto.
  - destruct (S t) as [->| ->]; repeat split; auto.
  - destruct (S t) as [->| ->]; repeat split; auto.
Qed.

Lemma stuck_run acts : forall k, stuck k -> stuck (lrun acts k).
Proof. induction acts as [|a acts IH]; intros k H; [exact H|]. cbn. apply IH, stuck_step, H. Qed.

Lemma fail_stuck acts t :
  polite lock_init acts -> holds (lrun acts lock_init) t ->
  stuck (lstep (lrun acts lock_init) (KFail t)).
Proof.
  intros P Ht. destruct (LInv_run acts _ LInv_init P) as (E & U & H & W & B).
  set (k := lrun acts lock_init) in *. unfold holds in Ht. cbn [lstep]. rewrite Ht.
  pose proof (H t Ht) as Bk. repeat split; auto.
  intro u. cbn. destruct (set_cases (stat k) t LkIdle u) as [[-> ->]|[N ->]]; [auto|].
  destruct (stat k u) eqn:X; auto.
  - apply B in X. congruence.
  - exfalso. apply N. symmetry. apply U; congruence.
Qed.

Lemma fail_forever acts t later u :
  polite lock_init acts -> holds (lrun acts lock_init) t ->
  ~ holds (lrun later (lstep (lrun acts lock_init) (KFail t))) u.
Proof.
  intros P Ht Hu. destruct (stuck_run later _ (fail_stuck acts t P Ht)) as (_ & _ & S).
  unfold holds in Hu. destruct (S u); congruence.
Qed.

(** Without failures the lock is live: when nobody holds it, either it is free
    for the next caller, or a woken task can take it. *)
Definition Live (k : lock) : Prop :=
  (busy k = true -> exists t, holds k t) /\
  (busy k = false -> forall t, stat k t <> LkWaiting).

Lemma Live_step k a : (forall t, a <> KFail t) -> Live k -> Live (lstep k a).
Proof.
  intros NF [L1 L2]. destruct a as [t|t|t|t]; cbn [lstep].
  - destruct (stat k t) eqn:S; try (split; auto; fail). destruct (busy k) eqn:B.
    + split; [|cbn; congruence]. intros _. destruct (L1 eq_refl) as [u Hu]. exists u.
      unfold holds in *. cbn. rewrite set_other; [exact Hu|congruence].
    + split; [|cbn; discriminate]. intros _. exists t. unfold holds. cbn. apply set_same.
  - destruct (stat k t) eqn:S; try (split; auto; fail).
    split; [|cbn; discriminate]. intros _. exists t. unfold holds. cbn. apply set_same.
  - destruct (stat k t) eqn:S; try (split; auto; fail).
    split; [cbn; discriminate|]. intros _ u. cbn. unfold wake_all.
    destruct (set_stat (stat k) t LkIdle u); congruence.
  - exfalso. apply (NF t). reflexivity.
Qed.

Lemma Live_run acts : forall k, no_failure acts -> Live k -> Live (lrun acts k).
Proof.
  induction acts as [|a acts IH]; intros k N L; [exact L|]. cbn. apply IH.
  - intros t H. apply (N t). right. exact H.
  - apply Live_step; [|exact L]. intros t ->. apply (N t). left. reflexivity.
Qed.

Lemma live_acquire acts t :
  no_failure acts -> let k := lrun acts lock_init in
  (forall u, ~ holds k u) ->
  (stat k t = LkIdle -> holds (lstep k (KAcquire t)) t)
  /\ stat k t <> LkWaiting
  /\ (stat k t = LkWoken -> holds (lstep k (KResume t)) t).
Proof.
  intros N k F. assert (L : Live k).
  { apply Live_run; [exact N|]. split; [discriminate|]. cbn. discriminate. }
  destruct L as [L1 L2].
  assert (B : busy k = false). { destruct (busy k); [destruct (L1 eq_refl) as [u Hu]; destruct (F u Hu)|reflexivity]. }
  split; [|split].
  - intro S. cbn [lstep]. rewrite S, B. unfold holds. cbn. apply set_same.
  - apply L2, B.
  - intro S. cbn [lstep]. rewrite S. unfold holds. cbn. apply set_same.
Qed.
