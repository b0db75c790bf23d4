(** CoEqProof.v -- tasks whose trees of actions are the same at every point. *)
From Verif Require Import Base Async CompatModel CoModel CoAvModel CoAvSpec.
Local Open Scope list_scope.

Section Eq.
Context {TS TI TO : Type}.
Notation co := (co TS TI TO).

Inductive teq {A} : co A -> co A -> Prop :=
| teq_ret a : teq (CRet a) (CRet a)
| teq_exn e : teq (CExn e) (CExn e)
| teq_fuel : teq CFuel CFuel
| teq_get k k' : (forall s, teq (k s) (k' s)) -> teq (CGet k) (CGet k')
| teq_put s k k' : teq k k' -> teq (CPut s k) (CPut s k')
| teq_drive f k k' : teq k k' -> teq (CDrive f k) (CDrive f k')
| teq_input k k' : (forall i, teq (k i) (k' i)) -> teq (CInput k) (CInput k')
| teq_edge k k' : teq k k' -> teq (CEdge k) (CEdge k')
| teq_readonly k k' : teq k k' -> teq (CReadOnly k) (CReadOnly k')
| teq_mid k k' : teq k k' -> teq (CMid k) (CMid k')
| teq_edgeof key k k' : teq k k' -> teq (CEdgeOf key k) (CEdgeOf key k')
| teq_wait k k' : teq k k' -> teq (CWait k) (CWait k')
| teq_set k k' : teq k k' -> teq (CSet k) (CSet k')
| teq_clear k k' : teq k k' -> teq (CClear k) (CClear k').
Hint Constructors teq : core.

Lemma teq_refl {A} (t : co A) : teq t t.
Proof. induction t; auto. Qed.
Lemma teq_trans {A} (t u v : co A) : teq t u -> teq u v -> teq t v.
Proof. intro H. revert v. induction H; intros v V; inversion V; subst; auto. Qed.
Lemma teq_bind {A B} (t : co A) (f g : A -> co B) : (forall a, teq (f a) (g a)) -> teq (cbind t f) (cbind t g).
Proof. intro H. induction t; cbn [cbind]; auto. Qed.
Lemma teq_assoc {A B C} (t : co A) (f : A -> co B) (g : B -> co C) :
  teq (cbind (cbind t f) g) (cbind t (fun a => cbind (f a) g)).
Proof. induction t; cbn [cbind]; auto. apply teq_refl. Qed.
Lemma teq_bind_ret {A} (t : co A) : teq t (cbind t CRet).
Proof. induction t; cbn [cbind]; auto. Qed.
Lemma teq_after {A} n (t u : co A) : teq t u -> teq (after n t) (after n u).
Proof. intro H. induction n; cbn [after]; auto. Qed.

Context {A : Type}.
Notation task := (task TS TI TO A).
Notation mach := (mach TS TI TO A).
Inductive xeq : task -> task -> Prop :=
| xeq_ready t u : teq t u -> xeq (TReady t) (TReady u)
| xeq_edge t u : teq t u -> xeq (TEdge t) (TEdge u)
| xeq_readonly t u : teq t u -> xeq (TReadOnly t) (TReadOnly u)
| xeq_mid t u : teq t u -> xeq (TMid t) (TMid u)
| xeq_edgeof key v t u : teq t u -> xeq (TEdgeOf key v t) (TEdgeOf key v u)
| xeq_wait t u : teq t u -> xeq (TWait t) (TWait u)
| xeq_end r : xeq (TEnd r) (TEnd r).
Hint Constructors xeq : core.

Lemma seg_teq t u : teq t u -> forall s ev wo p o i,
  exists s' ev' wo' o' x y, seg t s ev wo p o i = (s', ev', wo', o', x) /\ seg u s ev wo p o i = (s', ev', wo', o', y) /\ xeq x y.
Proof.
  induction 1; intros s0 ev wo p o i0; cbn [seg]; auto;
    try (repeat eexists; solve [reflexivity|auto]).
  - destruct p; auto; repeat eexists; auto.
  - destruct i0; auto; repeat eexists; auto.
  - destruct p; repeat eexists; auto.
  - destruct i0; repeat eexists; auto.
  - destruct ev; auto; repeat eexists; auto.
Qed.

Definition meq (m m' : mach) : Prop :=
  m_obj m = m_obj m' /\ m_event m = m_event m' /\ m_ph m = m_ph m' /\ m_out m = m_out m' /\ m_trace m = m_trace m' /\
  m_ins m = m_ins m' /\ Forall2 xeq (m_tasks m) (m_tasks m').

Lemma first_ready_xeq l l' : Forall2 xeq l l' ->
  match first_ready l, first_ready l' with
  | None, None => True
  | Some (a, t, b), Some (a', t', b') => Forall2 xeq a a' /\ teq t t' /\ Forall2 xeq b b'
  | _, _ => False
  end.
Proof.
  induction 1 as [|x y l l' H F IH]; [exact I|]. inversion H; subst; cbn; try (now auto);
    destruct (first_ready l) as [[[a b] c]|], (first_ready l') as [[[a' b'] c']|]; auto; destruct IH as (H1 & H2 & H3); auto.
Qed.
Lemma map_xeq (f g : task -> task) l l' : (forall x y, xeq x y -> xeq (f x) (g y)) -> Forall2 xeq l l' -> Forall2 xeq (map f l) (map g l').
Proof. intro H. induction 1; cbn; auto. Qed.
Lemma existsb_xeq (f : task -> bool) l l' : (forall x y, xeq x y -> f x = f y) -> Forall2 xeq l l' -> existsb f l = existsb f l'.
Proof. intro H. induction 1 as [|x y l l' X _ IH]; cbn; [reflexivity|]. now rewrite (H _ _ X), IH. Qed.
Lemma wake_xeq x y : xeq x y -> xeq (on_wake x) (on_wake y).
Proof. intro H; inversion H; subst; cbn; auto. Qed.
Lemma edge_xeq x y : xeq x y -> xeq (on_edge x) (on_edge y).
Proof. intro H; inversion H; subst; cbn; auto. Qed.
Lemma readonly_xeq x y : xeq x y -> xeq (on_readonly x) (on_readonly y).
Proof. intro H; inversion H; subst; cbn; auto. Qed.
Lemma mid_xeq x y : xeq x y -> xeq (on_mid x) (on_mid y).
Proof. intro H; inversion H; subst; cbn; auto. Qed.
Lemma change_xeq i x y : xeq x y -> xeq (on_change i x) (on_change i y).
Proof. intro H; inversion H; subst; cbn; auto. destruct (negb _); auto. Qed.

Lemma step_meq m m' : meq m m' ->
  match step m, step m' with None, None => True | Some a, Some b => meq a b | _, _ => False end.
Proof.
  destruct m as [s ev p o tr l ts], m' as [s' ev' p' o' tr' l' ts']. unfold meq. cbn [m_obj m_event m_ph m_out m_trace m_ins m_tasks].
  intros (<- & <- & <- & <- & <- & <- & F). unfold step. cbn [m_obj m_event m_ph m_out m_trace m_ins m_tasks].
  pose proof (first_ready_xeq ts ts' F) as R. destruct (first_ready ts) as [[[a t] b]|], (first_ready ts') as [[[a' t'] b']|]; try contradiction R.
  - destruct R as (R1 & R2 & R3). destruct (seg_teq t t' R2 s ev false p o (hd_error l)) as (s1 & ev1 & wo & o1 & x & y & -> & -> & X).
    cbn. repeat (split; [reflexivity|]). apply Forall2_app; [|constructor; [exact X|]]; destruct wo; auto using map_xeq, wake_xeq.
  - unfold advance. cbn [m_obj m_event m_ph m_out m_trace m_ins m_tasks]. destruct l as [|i l]; [exact I|].
    rewrite (existsb_xeq (fires i) ts ts') by (auto; intros x y H; inversion H; reflexivity).
    rewrite (existsb_xeq wants_readonly ts ts') by (auto; intros x y H; inversion H; reflexivity).
    rewrite (existsb_xeq wants_mid ts ts') by (auto; intros x y H; inversion H; reflexivity).
    destruct (is_active p && _); [|destruct (negb _ && _); [|destruct (existsb wants_mid ts')]]; cbn;
      repeat (split; [reflexivity|]); auto using map_xeq, change_xeq, readonly_xeq, mid_xeq, edge_xeq.
Qed.
Lemma ends_meq m m2 : ends m m2 -> forall m', meq m m' -> exists m2', ends m' m2' /\ meq m2 m2'.
Proof.
  intros (S & N). revert N. induction S as [m|m m1 m2 S _ IH]; intros N m' E; pose proof (step_meq m m' E) as T.
  - exists m'. split; [|exact E]. split; [constructor|]. rewrite N in T. destruct (step m'); [contradiction T|reflexivity].
  - rewrite S in T. destruct (step m') as [m1'|] eqn:S'; [|contradiction T]. destruct (IH N m1' T) as (m2' & (S2 & N2) & E2).
    exists m2'. split; [|exact E2]. split; [|exact N2]. econstructor; eassumption.
Qed.
Lemma ended_xeq l l' : Forall2 xeq l l' -> map ended l = map ended l'.
Proof. induction 1 as [|x y l l' H _ IH]; [reflexivity|]. cbn. rewrite IH. f_equal. now inversion H. Qed.

(** the same simulation *)
Lemma ends_tasks s ev p o tr l (ts ts' : list task) T R : Forall2 xeq ts ts' ->
  (exists m', ends (Mach s ev p o tr l ts) m' /\ m_trace m' = T /\ map ended (m_tasks m') = R) ->
  exists m', ends (Mach s ev p o tr l ts') m' /\ m_trace m' = T /\ map ended (m_tasks m') = R.
Proof.
  intros F (m & E & Et & Er). destruct (ends_meq _ _ E (Mach s ev p o tr l ts')) as (m' & E' & Q).
  - unfold meq. cbn. now repeat split.
  - exists m'. split; [exact E'|]. destruct Q as (_ & _ & _ & _ & <- & _ & Q). split; [exact Et|]. now rewrite <- (ended_xeq _ _ Q).
Qed.
Lemma xeq_sym_ready (t u : co A) : teq t u -> xeq (TReady t) (TReady u).
Proof. auto. Qed.
Lemma teq_sym (t u : co A) : teq t u -> teq u t.
Proof. induction 1; auto. Qed.
End Eq.
