(** CoProof.v -- lemmas about the scheduler of CoModel.v. *)
From Verif Require Import Base Async CompatModel Handshake MMModel CoModel CoAvModel AvSysSpec CoAvSpec.
Local Open Scope list_scope.

Lemma co_bind_assoc {TS TI TO A B C} (m : M TS TI TO A) (f : A -> M TS TI TO B) (g : B -> M TS TI TO C) w :
  bind (bind m f) g w = bind m (fun a => bind (f a) g) w.
Proof. unfold bind. destruct (m w) as [[a|e| |] w']; reflexivity. Qed.
Lemma co_bind_ext {TS TI TO A B} (m : M TS TI TO A) (f g : A -> M TS TI TO B) w :
  (forall a w', f a w' = g a w') -> bind m f w = bind m g w.
Proof. intro H. unfold bind. destruct (m w) as [[a|e| |] w']; auto. Qed.

Lemma alone_bind {TS TI TO A B} (t : co TS TI TO A) (f : A -> co TS TI TO B) : forall w,
  alone (cbind t f) w = bind (alone t) (fun a => alone (f a)) w.
Proof.
  induction t; intro w; cbn [cbind alone]; try reflexivity;
    rewrite ?co_bind_assoc; try (apply co_bind_ext; intros x w'; try apply H; try apply IHt);
    try (rewrite co_bind_assoc; apply co_bind_ext; intros y w''; apply IHt).
  destruct (snd x); [apply IHt|reflexivity].
Qed.
Lemma alone_loop {TS TI TO L A} (body : L -> co TS TI TO (L + A)) fuel : forall l w,
  alone (cloop fuel body l) w = loop fuel (fun x => alone (body x)) l w.
Proof.
  induction fuel as [|n IH]; intros l w; [reflexivity|]. cbn [cloop loop]. rewrite alone_bind. apply co_bind_ext.
  intros [l'|a] w'; [apply IH|reflexivity].
Qed.

Section Co.
Context {TI TO A : Type}.
Notation co := (co bool TI TO).
Notation task := (task bool TI TO A).
Notation mach := (mach bool TI TO A).
Notation world := (world (bool * bool) TI TO).

Definition mk (w : world) (l : list task) : mach :=
  Mach (fst (st w)) (snd (st w)) (ph w) (out w) (trace w) (ins w) l.
Definition leads (m m' : mach) : Prop := forall m2, ends m' m2 -> ends m m2.

Lemma leads_refl m : leads m m.
Proof. intros m2 H. exact H. Qed.
Lemma leads_trans m1 m2 m3 : leads m1 m2 -> leads m2 m3 -> leads m1 m3.
Proof. unfold leads. auto. Qed.
Lemma leads_step m m' : step m = Some m' -> leads m m'.
Proof. intros H m2 (S & E). split; [|exact E]. econstructor; eassumption. Qed.
Lemma leads_same m m' x : step m' = Some x -> step m = step m' -> leads m m'.
Proof.
  intros S E m2 (H & N). split; [|exact N]. inversion H; subst; [congruence|]. econstructor; [|eassumption]. congruence.
Qed.
Lemma ends_back (m m' m2 : mach) : step m = Some m' -> ends m m2 -> ends m' m2.
Proof. intros S (H & N). inversion H; subst; [congruence|]. split; [|exact N]. congruence. Qed.
Lemma ends_fun (m m1 m2 : mach) : ends m m1 -> ends m m2 -> m1 = m2.
Proof.
  intros (H & N) (H' & N'). revert N m2 H' N'. induction H as [m|m a b S _ IH]; intros N m2 H' N'.
  - inversion H'; subst; [reflexivity|congruence].
  - inversion H'; subst; [congruence|]. rewrite S in H. injection H as <-. auto.
Qed.

(** ** Tasks in the background *)
Definition acq (t : co A) : co A := cbind cacquire (fun _ => t).
Inductive desc := DCall (k : nat) (t : co A) | DSleep (t : co A) | DEnd (r : outcome A).
(** what the other tasks are doing in cycle [now] while the bus is held: waiting for the
    cycle of their call, just about to go on, waiting for the lock *)
Inductive bg (now : nat) : desc -> task -> Prop :=
| bg_early k t : now < k -> bg now (DCall k t) (TEdge (after (k - now - 1) (acq t)))
| bg_ready k t : now <= k -> bg now (DCall k t) (TReady (after (k - now) (acq t)))
| bg_waiting k t : k <= now -> bg now (DCall k t) (TWait (CClear (CPut true t)))
| bg_sleep t : bg now (DSleep t) (TWait t)
| bg_end r : bg now (DEnd r) (TEnd r).
Definition is_ready (x : task) : bool := match x with TReady _ => true | _ => false end.
Definition still (now : nat) (d : desc) (x : task) : Prop := bg now d x /\ is_ready x = false.
Definition is_end (d : desc) : Prop := match d with DEnd _ => True | _ => False end.
Definition no_call (d : desc) : Prop := match d with DCall _ _ => False | _ => True end.
Definition end_of (d : desc) : outcome A := match d with DEnd r => r | _ => Susp end.

(** either the lock is held, or nobody else is there *)
Definition calm (w : world) (D : list desc) : Prop := st w = (true, false) \/ Forall no_call D.

Lemma first_ready_app a t b : Forall (fun x => is_ready x = false) a -> first_ready (a ++ TReady t :: b) = Some (a, t, b).
Proof. induction 1 as [|x a H _ IH]; [reflexivity|]. cbn. rewrite IH. destruct x; try reflexivity. discriminate H. Qed.
Lemma first_ready_none l : Forall (fun x => is_ready x = false) l -> first_ready l = None.
Proof. induction 1 as [|x a H _ IH]; [reflexivity|]. cbn. rewrite IH. destruct x; try reflexivity. discriminate H. Qed.
Lemma still_ready now D l : Forall2 (still now) D l -> Forall (fun x => is_ready x = false) l.
Proof. induction 1 as [|d x D l H _ IH]; constructor; [apply H|exact IH]. Qed.
Lemma still_bg now D l : Forall2 (still now) D l -> Forall2 (bg now) D l.
Proof. induction 1 as [|d x D l H _ IH]; constructor; [apply H|exact IH]. Qed.
Lemma calm_tl w d D : calm w (d :: D) -> calm w D.
Proof. intros [H|H]; [now left|right]. now inversion H. Qed.

(** one step of the first ready task *)
Lemma step_ready w a t b : Forall (fun x => is_ready x = false) a ->
  step (mk w (a ++ TReady t :: b)) =
  let '(s, ev, woke, o, x) := seg t (fst (st w)) (snd (st w)) false (ph w) (out w) (hd_error (ins w)) in
  let wk := if woke then map on_wake else fun l => l in
  Some (mk (World (s, ev) (ph w) o (trace w) (ins w)) (wk a ++ x :: wk b)).
Proof.
  intro H. unfold step. cbn [mk m_tasks m_obj m_event m_ph m_out m_trace m_ins]. rewrite (first_ready_app a t b H).
  destruct (seg _ _ _ _ _ _ _) as [[[[s ev] woke] o] x]. reflexivity.
Qed.

Lemma leads_same_ready w a t b w' a' t' b' : Forall (fun x => is_ready x = false) a' ->
  step (mk w (a ++ TReady t :: b)) = step (mk w' (a' ++ TReady t' :: b')) ->
  leads (mk w (a ++ TReady t :: b)) (mk w' (a' ++ TReady t' :: b')).
Proof.
  intros H E. pose proof (step_ready w' a' t' b' H) as S. destruct (seg _ _ _ _ _ _ _) as [[[[? ?] ?] ?] ?].
  exact (leads_same _ _ _ S E).
Qed.
(** ... or none of the others makes its call in this cycle *)
Definition later (now : nat) (d : desc) : Prop := match d with DCall k _ => now < k | _ => True end.
Definition quietly (w : world) (D : list desc) : Prop := st w = (true, false) \/ Forall (later (length (trace w))) D.
Lemma calm_quietly w D : calm w D -> quietly w D.
Proof. intros [H|H]; [now left|right]. revert H. apply Forall_impl. intros [k t| |]; cbn; tauto. Qed.
Lemma quietly_tl w d D : quietly w (d :: D) -> quietly w D.
Proof. intros [H|H]; [now left|right]. now inversion H. Qed.

(** the pending tasks among [xs] go back to waiting *)
Lemma flush_q w : forall D xs a b, Forall (fun x => is_ready x = false) a -> quietly w D ->
  Forall2 (bg (length (trace w))) D xs ->
  exists xs', Forall2 (still (length (trace w))) D xs' /\ leads (mk w (a ++ xs ++ b)) (mk w (a ++ xs' ++ b)).
Proof.
  induction D as [|d D IH]; intros xs a b Ha C H; inversion H; subst.
  - exists []. split; [constructor|apply leads_refl].
  - assert (X : exists y', still (length (trace w)) d y' /\ leads (mk w (a ++ (y :: l') ++ b)) (mk w (a ++ (y' :: l') ++ b))).
    { inversion H2; subst.
      - eexists. split; [split; [apply bg_early; assumption|reflexivity]|apply leads_refl].
      - destruct (k - length (trace w)) as [|j] eqn:E.
        + destruct C as [C|C]; [|inversion C as [|? ? X _]; subst; cbn in X; lia]. eexists. split; [split; [apply bg_waiting; lia|reflexivity]|]. apply leads_step. cbn [app].
          rewrite (step_ready w a _ _ Ha), C. cbn. rewrite <- C. destruct w; reflexivity.
        + eexists. split; [split; [apply bg_early; lia|reflexivity]|]. apply leads_step. cbn [app].
          rewrite (step_ready w a _ _ Ha). cbn [after seg]. rewrite E. replace (S j - 1) with j by lia. destruct w as [[? ?] ? ? ? ?]. reflexivity.
      - eexists. split; [split; [apply bg_waiting; assumption|reflexivity]|apply leads_refl].
      - eexists. split; [split; [apply bg_sleep|reflexivity]|apply leads_refl].
      - eexists. split; [split; [apply bg_end|reflexivity]|apply leads_refl]. }
    destruct X as (y' & Sy & Ly).
    destruct (IH l' (a ++ [y']) b) as (xs' & F & L).
    + apply Forall_app. split; [exact Ha|]. constructor; [apply Sy|constructor].
    + exact (quietly_tl _ _ _ C).
    + assumption.
    + exists (y' :: xs'). split; [constructor; assumption|]. eapply leads_trans; [exact Ly|]. rewrite <- !app_assoc in L. exact L.
Qed.

Lemma flush w D xs a b : Forall (fun x => is_ready x = false) a -> calm w D ->
  Forall2 (bg (length (trace w))) D xs ->
  exists xs', Forall2 (still (length (trace w))) D xs' /\ leads (mk w (a ++ xs ++ b)) (mk w (a ++ xs' ++ b)).
Proof. intros Ha C H. exact (flush_q w D xs a b Ha (calm_quietly _ _ C) H). Qed.

(** ** Time *)
Lemma still_tick now D l : Forall2 (still now) D l -> Forall2 (bg (S now)) D (map on_edge l).
Proof.
  induction 1 as [|d x D l (H & R) _ IH]; constructor; [|exact IH]. inversion H; subst; cbn; try discriminate R.
  - replace (k - now - 1) with (k - S now) by lia. apply bg_ready. lia.
  - apply bg_waiting. lia.
  - apply bg_sleep.
  - apply bg_end.
Qed.
Lemma still_inert now D l i : Forall2 (still now) D l ->
  existsb (fires i) l = false /\ existsb wants_readonly l = false /\ existsb wants_mid l = false /\
  map (on_change i) l = l /\ map on_readonly l = l /\ map on_mid l = l.
Proof.
  induction 1 as [|d x D l (H & R) _ (H1 & H2 & H3 & H4 & H5 & H6)]; [now repeat split|]. cbn.
  rewrite H1, H2, H3, H4, H5, H6. inversion H; subst; try discriminate R; now repeat split.
Qed.
Lemma still_ended now D l : Forall2 (still now) D l -> map ended l = map end_of D.
Proof.
  induction 1 as [|d x D l (H & R) _ IH]; [reflexivity|]. cbn. rewrite IH. f_equal. inversion H; subst; try reflexivity. 
Qed.
Definition tick (w : world) : world :=
  match ins w with [] => w | i :: r => World (st w) PActive (out w) (trace w ++ [(i, out w)]) r end.

Lemma step_tick w D l i r : Forall2 (still (length (trace w))) D l -> ins w = i :: r ->
  step (mk w l) = Some (mk (tick w) (map on_edge l)).
Proof.
  intros H E. destruct (still_inert _ _ _ i H) as (H1 & H2 & H3 & _).
  unfold step. cbn [mk m_tasks]. rewrite (first_ready_none l (still_ready _ _ _ H)). unfold advance, mk, tick.
  cbn [m_ins m_tasks m_obj m_event m_ph m_out m_trace]. rewrite E, H1, H2, H3, !Bool.andb_false_r.
  destruct w; cbn in *; subst. reflexivity.
Qed.

(** nobody does anything any more *)
Lemma idle : forall l w D xs, ins w = l -> calm w D -> Forall2 (bg (length (trace w))) D xs ->
  exists m', ends (mk w xs) m' /\ m_trace m' = trace w ++ held (out w) (ins w) /\ map ended (m_tasks m') = map end_of D.
Proof.
  induction l as [|i l IH]; intros w D xs E C H;
    destruct (flush w D xs [] [] (Forall_nil _) C H) as (ys & F & L); rewrite !app_nil_r in L; cbn [app] in L.
  - exists (mk w ys). split; [|split].
    + apply L. split; [constructor|]. unfold step. cbn [mk m_tasks]. rewrite (first_ready_none ys (still_ready _ _ _ F)).
      unfold advance. cbn [mk m_ins]. now rewrite E.
    + cbn [mk m_trace]. rewrite E. cbn. now rewrite app_nil_r.
    + exact (still_ended _ _ _ F).
  - pose proof (step_tick w D ys i l F E) as S.
    destruct (IH (tick w) D (map on_edge ys)) as (m' & M1 & M2 & M3).
    + unfold tick. now rewrite E.
    + unfold tick, calm in *. now rewrite E.
    + unfold tick. rewrite E. cbn [trace]. rewrite app_length. cbn. rewrite Nat.add_1_r. apply still_tick, F.
    + exists m'. split; [apply L; exact (leads_step _ _ S _ M1)|]. split; [|exact M3]. rewrite M2. unfold tick. rewrite E.
      cbn. now rewrite <- app_assoc.
Qed.

(** ** One task runs, the others are in the background *)
Fixpoint neutral {B} (t : co B) : Prop :=
  match t with
  | CRet _ | CExn _ | CFuel => True
  | CGet _ | CPut _ _ | CWait _ | CSet _ | CClear _ => False
  | CInput k => forall i, neutral (k i)
  | CDrive _ k | CEdge k | CReadOnly k | CMid k | CEdgeOf _ k => neutral k
  end.
Definition alone_ok {B} (t : co B) (w : world) (D1 D2 : list desc) : Prop :=
  (neutral t /\ st w = (true, false)) \/ (Forall is_end D1 /\ Forall is_end D2).
Definition led {B} (t : co B) (f : B -> co A) (w : world) (D1 D2 : list desc) (m : mach) (x : outcome B * world) : Prop :=
  let stops r w' := exists pre post, Forall2 (still (length (trace w'))) D1 pre /\ Forall2 (bg (length (trace w'))) D2 post /\
    leads m (mk w' (pre ++ r :: post)) in
  match x with
  | (Done a, w') => (neutral t -> st w' = st w) /\ stops (TReady (f a)) w'
  | (Exn e, w') => (neutral t -> st w' = st w) /\ stops (TEnd (Exn e)) w'
  | (Fuel, w') => (neutral t -> st w' = st w) /\ stops (TEnd Fuel) w'
  | (Susp, w') => exists m', ends m m' /\ m_trace m' = history w' /\ map ended (m_tasks m') = map end_of D1 ++ Susp :: map end_of D2
  end.
Lemma led_leads {B} (t t' : co B) f w w' D1 D2 m m' x : leads m m' -> (neutral t -> neutral t' /\ st w' = st w) ->
  led t' f w' D1 D2 m' x -> led t f w D1 D2 m x.
Proof.
  intros L N. destruct x as [[a|e| |] v]; cbn.
  1,2,4: intros (S & pre & post & P1 & P2 & P3); split; [intro Ht; destruct (N Ht) as (N1 & N2); rewrite <- N2; auto|];
    exists pre, post; split; [exact P1|]; split; [exact P2|]; exact (leads_trans _ _ _ L P3).
  intros (m2 & E & R). exists m2. split; [apply L, E|exact R].
Qed.

Lemma seg_woke (t : co A) : forall s ev p o i,
  seg t s ev true p o i = let '(s', ev', _, o', x) := seg t s ev false p o i in (s', ev', true, o', x).
Proof.
  induction t; intros s0 ev p o i0; cbn [seg]; try reflexivity; auto.
  - destruct p; auto.
  - destruct i0; auto.
  - now destruct p.
  - now destruct i0.
  - destruct ev; auto.
  - rewrite (IHt s0 true p o i0). destruct (seg t s0 true false p o i0) as [[[[? ?] ?] ?] ?]. reflexivity.
Qed.
Lemma ends_wake now D l : Forall2 (bg now) D l -> Forall is_end D -> map on_wake l = l.
Proof.
  induction 1 as [|d x D l H _ IH]; intro E; [reflexivity|]. inversion E; subst. cbn. rewrite IH by assumption. f_equal.
  inversion H; subst; cbn in *; try contradiction; reflexivity.
Qed.
Lemma ends_no_call D : Forall is_end D -> Forall no_call D.
Proof. apply Forall_impl. intros [ | | ]; cbn; auto. Qed.

Lemma adv w D1 pre x D2 post : Forall2 (still (length (trace w))) D1 pre -> is_ready x = false ->
  Forall2 (still (length (trace w))) D2 post ->
  step (mk w (pre ++ x :: post)) =
  match ins w with
  | [] => None
  | i :: _ =>
      if is_active (ph w) && fires i x then Some (mk (World (st w) PMid (out w) (trace w) (ins w)) (pre ++ on_change i x :: post))
      else if negb (is_readonly (ph w)) && wants_readonly x then
        Some (mk (World (st w) PReadOnly (out w) (trace w) (ins w)) (pre ++ on_readonly x :: post))
      else if wants_mid x then Some (mk (World (st w) PMid (out w) (trace w) (ins w)) (pre ++ on_mid x :: post))
      else Some (mk (tick w) (map on_edge pre ++ on_edge x :: map on_edge post))
  end.
Proof.
  intros H1 R H2. unfold step. cbn [mk m_tasks]. rewrite first_ready_none.
  2:{ apply Forall_app. split; [exact (still_ready _ _ _ H1)|constructor; [exact R|exact (still_ready _ _ _ H2)]]. }
  unfold advance, mk. cbn [m_ins m_tasks m_obj m_event m_ph m_out m_trace].
  destruct (ins w) as [|i r] eqn:E; [reflexivity|].
  destruct (still_inert _ _ _ i H1) as (A1 & A2 & A3 & A4 & A5 & A6). destruct (still_inert _ _ _ i H2) as (B1 & B2 & B3 & B4 & B5 & B6).
  rewrite !existsb_app, !map_app. cbn [existsb map]. rewrite A1, A2, A3, A4, A5, A6, B1, B2, B3, B4, B5, B6, !Bool.orb_false_r. cbn [orb].
  unfold tick. rewrite E. destruct w as [s p o tr l]. cbn in *. subst.
  destruct (is_active p && fires i x); [reflexivity|]. destruct (negb (is_readonly p) && wants_readonly x); [reflexivity|].
  destruct (wants_mid x); reflexivity.
Qed.
Lemma tick_len w i r : ins w = i :: r -> length (trace (tick w)) = S (length (trace w)).
Proof. intro E. unfold tick. rewrite E. cbn. rewrite app_length. cbn. lia. Qed.

(** a task that waits for a clock edge, for good or until the next one *)
Lemma to_tick_q w D1 pre x D2 post : Forall2 (still (length (trace w))) D1 pre -> is_ready x = false ->
  (forall i, fires i x = false \/ is_active (ph w) = false \/ hd_error (ins w) <> Some i) -> wants_readonly x = false -> wants_mid x = false ->
  quietly w D2 ->
  Forall2 (bg (length (trace w))) D2 post ->
  match ins w with
  | [] => ended x = Susp -> exists m', ends (mk w (pre ++ x :: post)) m' /\ m_trace m' = history w /\
            map ended (m_tasks m') = map end_of D1 ++ Susp :: map end_of D2
  | _ => exists pre' post', Forall2 (bg (length (trace (tick w)))) D1 pre' /\ Forall2 (bg (length (trace (tick w)))) D2 post' /\
            leads (mk w (pre ++ x :: post)) (mk (tick w) (pre' ++ on_edge x :: post'))
  end.
Proof.
  intros H1 R F W1 W2 C2 H2.
  destruct (flush_q w D2 post (pre ++ [x]) []) as (post' & F2 & L2);
    [apply Forall_app; split; [exact (still_ready _ _ _ H1)|constructor; [exact R|constructor]]|exact C2|exact H2|].
  rewrite !app_nil_r, <- !app_assoc in L2. cbn [app] in L2.
  pose proof (adv w D1 pre x D2 post' H1 R F2) as S. destruct (ins w) as [|i r] eqn:E.
  - intro X. exists (mk w (pre ++ x :: post')). split; [apply L2; split; [constructor|exact S]|]. split.
    + unfold history. rewrite E. cbn. now rewrite app_nil_r.
    + cbn [mk m_tasks]. rewrite map_app. cbn [map]. now rewrite (still_ended _ _ _ H1), (still_ended _ _ _ F2), X.
  - assert (Fi : is_active (ph w) && fires i x = false).
    { destruct (F i) as [G|[G|G]]; [now rewrite G, Bool.andb_false_r|now rewrite G|]. elim G. reflexivity. }
    rewrite Fi, W1, W2, Bool.andb_false_r in S. exists (map on_edge pre), (map on_edge post').
    rewrite (tick_len w i r E). split; [apply still_tick, H1|]. split; [apply still_tick, F2|].
    exact (leads_trans _ _ _ L2 (leads_step _ _ S)).
Qed.

Lemma to_tick w D1 pre x D2 post : Forall2 (still (length (trace w))) D1 pre -> is_ready x = false ->
  (forall i, fires i x = false \/ is_active (ph w) = false \/ hd_error (ins w) <> Some i) -> wants_readonly x = false -> wants_mid x = false ->
  calm w D1 -> calm w D2 ->
  Forall2 (bg (length (trace w))) D2 post ->
  match ins w with
  | [] => ended x = Susp -> exists m', ends (mk w (pre ++ x :: post)) m' /\ m_trace m' = history w /\
            map ended (m_tasks m') = map end_of D1 ++ Susp :: map end_of D2
  | _ => exists pre' post', Forall2 (bg (length (trace (tick w)))) D1 pre' /\ Forall2 (bg (length (trace (tick w)))) D2 post' /\
            leads (mk w (pre ++ x :: post)) (mk (tick w) (pre' ++ on_edge x :: post'))
  end.
Proof. intros H1 R F W1 W2 _ C2. exact (to_tick_q w D1 pre x D2 post H1 R F W1 W2 (calm_quietly _ _ C2)). Qed.

(** the simulation is over *)
Lemma stuck_q w D1 pre x D2 post : ins w = [] -> Forall2 (still (length (trace w))) D1 pre -> is_ready x = false -> ended x = Susp ->
  quietly w D2 -> Forall2 (bg (length (trace w))) D2 post ->
  exists m', ends (mk w (pre ++ x :: post)) m' /\ m_trace m' = history w /\
            map ended (m_tasks m') = map end_of D1 ++ Susp :: map end_of D2.
Proof.
  intros E H1 R X C2 H2.
  destruct (flush_q w D2 post (pre ++ [x]) []) as (post' & F2 & L2);
    [apply Forall_app; split; [exact (still_ready _ _ _ H1)|constructor; [exact R|constructor]]|exact C2|exact H2|].
  rewrite !app_nil_r, <- !app_assoc in L2. cbn [app] in L2.
  pose proof (adv w D1 pre x D2 post' H1 R F2) as S. rewrite E in S.
  exists (mk w (pre ++ x :: post')). split; [apply L2; split; [constructor|exact S]|]. split.
  - unfold history. rewrite E. cbn. now rewrite app_nil_r.
  - cbn [mk m_tasks]. rewrite map_app. cbn [map]. now rewrite (still_ended _ _ _ H1), (still_ended _ _ _ F2), X.
Qed.

Lemma stuck w D1 pre x D2 post : ins w = [] -> Forall2 (still (length (trace w))) D1 pre -> is_ready x = false -> ended x = Susp ->
  calm w D2 -> Forall2 (bg (length (trace w))) D2 post ->
  exists m', ends (mk w (pre ++ x :: post)) m' /\ m_trace m' = history w /\
            map ended (m_tasks m') = map end_of D1 ++ Susp :: map end_of D2.
Proof. intros E H1 R X C2. exact (stuck_q w D1 pre x D2 post E H1 R X (calm_quietly _ _ C2)). Qed.

(** ... Edge(signal) *)
Lemma edgeof key v (t : co A) D1 D2 : forall r w i pre post, ins w = i :: r -> logic_eqb (key i) v = true ->
  calm w D1 -> calm w D2 -> Forall2 (still (length (trace w))) D1 pre -> Forall2 (bg (length (trace w))) D2 post ->
  match edge_of_rest logic_eqb key v (out w) (trace w ++ [(i, out w)]) r with
  | None => exists m', ends (mk w (pre ++ TEdgeOf key v t :: post)) m' /\ m_trace m' = trace w ++ held (out w) (ins w) /\
              map ended (m_tasks m') = map end_of D1 ++ Susp :: map end_of D2
  | Some (tr, l) => exists pre' post', Forall2 (still (length tr)) D1 pre' /\ Forall2 (bg (length tr)) D2 post' /\
              leads (mk w (pre ++ TEdgeOf key v t :: post)) (mk (World (st w) PMid (out w) tr l) (pre' ++ TReady t :: post'))
  end.
Proof.
  induction r as [|j r IH]; intros w i pre post E V C1 C2 H1 H2;
    (pose proof (to_tick w D1 pre (TEdgeOf key v t) D2 post H1 eq_refl) as T; rewrite E in T;
     destruct T as (pre' & post' & P1 & P2 & L); try reflexivity; try assumption;
     [intro i0; cbn; destruct (logic_eqb (key i0) v) eqn:V0; [now left|right; right; cbn; congruence]|]).
  - cbn [edge_of_rest].
    destruct (flush (tick w) D1 pre' [] (TEdgeOf key v t :: post') (Forall_nil _)) as (pre2 & Q & L2);
      [unfold tick, calm in *; rewrite E; exact C1|exact P1|]. cbn [app] in L2.
    destruct (stuck (tick w) D1 pre2 (TEdgeOf key v t) D2 post') as (m' & M1 & M2 & M3); try reflexivity; try assumption.
    + unfold tick. now rewrite E.
    + unfold tick, calm in *. now rewrite E.
    + exists m'. split; [exact (L _ (L2 _ M1))|]. split; [|exact M3]. rewrite M2. unfold history, tick. rewrite E. cbn. now rewrite app_nil_r.
  - cbn [edge_of_rest].
    destruct (flush (tick w) D1 pre' [] (TEdgeOf key v t :: post') (Forall_nil _)) as (pre2 & Q & L2);
      [unfold tick, calm in *; rewrite E; exact C1|exact P1|]. cbn [app] in L2.
    assert (T1 : st (tick w) = st w) by (unfold tick; now rewrite E).
    assert (T2 : trace (tick w) = trace w ++ [(i, out w)]) by (unfold tick; now rewrite E).
    assert (T3 : ins (tick w) = j :: r) by (unfold tick; now rewrite E).
    assert (T4 : out (tick w) = out w) by (unfold tick; now rewrite E).
    assert (T5 : ph (tick w) = PActive) by (unfold tick; now rewrite E).
    destruct (logic_eqb (key j) v) eqn:Vj.
    + specialize (IH (tick w) j pre2 post' T3 Vj). unfold calm in *. rewrite T1 in IH. specialize (IH C1 C2 Q P2).
      rewrite T2, T4, T3 in IH. destruct (edge_of_rest _ _ _ _ _ _) as [[tr l]|].
      * destruct IH as (pre3 & post3 & A1 & A2 & A3). exists pre3, post3. split; [exact A1|]. split; [exact A2|].
        exact (leads_trans _ _ _ L (leads_trans _ _ _ L2 A3)).
      * destruct IH as (m' & M1 & M2 & M3). exists m'. split; [exact (L _ (L2 _ M1))|]. split; [|exact M3]. rewrite M2, E. cbn. now rewrite <- app_assoc.
    + destruct (flush (tick w) D2 post' (pre2 ++ [TEdgeOf key v t]) []) as (post2 & Q2 & L3);
        [apply Forall_app; split; [exact (still_ready _ _ _ Q)|now repeat constructor]|unfold calm in *; rewrite T1; exact C2|exact P2|].
      rewrite !app_nil_r, <- !app_assoc in L3. cbn [app] in L3.
      pose proof (adv (tick w) D1 pre2 (TEdgeOf key v t) D2 post2 Q eq_refl Q2) as S. rewrite T3, T5 in S. cbn [is_active fires andb] in S.
      rewrite Vj in S. cbn [negb] in S. rewrite T1, T2, T4 in S. cbn [on_change fires] in S. rewrite Vj in S. cbn [negb] in S.
      exists pre2, post2. rewrite <- T2. split; [exact Q|]. split; [exact (still_bg _ _ _ Q2)|]. rewrite T2.
      exact (leads_trans _ _ _ L (leads_trans _ _ _ L2 (leads_trans _ _ _ L3 (leads_step _ _ S)))).
Qed.

Lemma ok_calm {B} (t : co B) w D1 D2 : alone_ok t w D1 D2 -> calm w D1 /\ calm w D2.
Proof. intros [(_ & H)|(H & H')]; split; try (now left); right; now apply ends_no_call. Qed.
Lemma mk_eta (w : world) l : mk (World (fst (st w), snd (st w)) (ph w) (out w) (trace w) (ins w)) l = mk w l.
Proof. destruct w as [[? ?] ? ? ? ?]. reflexivity. Qed.

Lemma ready_one pre (x : task) : Forall (fun x => is_ready x = false) pre -> is_ready x = false -> Forall (fun x => is_ready x = false) (pre ++ [x]).
Proof. intros H X. apply Forall_app. split; [exact H|constructor; [exact X|constructor]]. Qed.

Lemma settle w pre x D2 post : Forall (fun x => is_ready x = false) pre -> is_ready x = false -> calm w D2 ->
  Forall2 (bg (length (trace w))) D2 post ->
  exists post', Forall2 (still (length (trace w))) D2 post' /\ leads (mk w (pre ++ x :: post)) (mk w (pre ++ x :: post')).
Proof.
  intros R X C H. destruct (flush w D2 post (pre ++ [x]) [] (ready_one _ _ R X) C H) as (post' & F & L).
  rewrite !app_nil_r, <- !app_assoc in L. exists post'. split; [exact F|exact L].
Qed.

(** the first steps of a task that waits *)
Lemma start_wait w pre (t : co A) x post : Forall (fun x => is_ready x = false) pre ->
  seg t (fst (st w)) (snd (st w)) false (ph w) (out w) (hd_error (ins w)) = (fst (st w), snd (st w), false, out w, x) ->
  leads (mk w (pre ++ TReady t :: post)) (mk w (pre ++ x :: post)).
Proof. intros R E. apply leads_step. rewrite (step_ready w pre t post R), E. cbn beta iota zeta. now rewrite mk_eta. Qed.

Theorem lead {B} (t : co B) : forall (f : B -> co A) w D1 pre D2 post,
  alone_ok t w D1 D2 -> Forall2 (still (length (trace w))) D1 pre -> Forall2 (bg (length (trace w))) D2 post ->
  led t f w D1 D2 (mk w (pre ++ TReady (cbind t f) :: post)) (alone t w).
Proof.
  induction t as [a|e| |k IH|s k IH|g k IH|k IH|k IH|k IH|k IH|key k IH|k IH|k IH|k IH]; intros f w D1 pre D2 post OK H1 H2;
    pose proof (still_ready _ _ _ H1) as R1; destruct (ok_calm _ _ _ _ OK) as (C1 & C2); cbn [cbind].
  - cbn. split; [auto|]. exists pre, post. split; [exact H1|]. split; [exact H2|apply leads_refl].
  - cbn. split; [auto|]. exists pre, post. split; [exact H1|]. split; [exact H2|]. now apply start_wait.
  - cbn. split; [auto|]. exists pre, post. split; [exact H1|]. split; [exact H2|]. now apply start_wait.
  - destruct OK as [(N & _)|OK]; [contradiction N|].
    refine (led_leads _ (k (fst (st w))) f w w D1 D2 _ _ _ _ _ (IH (fst (st w)) f w D1 pre D2 post (or_intror OK) H1 H2)); [|intros []].
    apply (leads_same_ready _ _ _ _ _ _ _ _ R1). rewrite !(step_ready w pre _ post R1). reflexivity.
  - destruct OK as [(N & _)|OK]; [contradiction N|].
    refine (led_leads _ k f w (World (s, snd (st w)) (ph w) (out w) (trace w) (ins w)) D1 D2 _ _ _ _ _
              (IH f (World (s, snd (st w)) (ph w) (out w) (trace w) (ins w)) D1 pre D2 post (or_intror OK) H1 H2)); [|intros []].
    apply (leads_same_ready _ _ _ _ _ _ _ _ R1). rewrite !(step_ready _ pre _ post R1). reflexivity.
  - cbn [alone]. unfold bind, drive. destruct (ph w) eqn:P; cbn beta iota.
    2:{ split; [auto|]. exists pre, post. split; [exact H1|]. split; [exact H2|]. apply start_wait; [exact R1|]. cbn [seg]. now rewrite P. }
    all: refine (led_leads _ k f w (World (st w) (ph w) (g (out w)) (trace w) (ins w)) D1 D2 _ _ _ _ _ _);
      [|intro N; split; [exact N|reflexivity]|rewrite P in *; apply IH; [destruct OK as [OK|OK]; [left|right]; exact OK|exact H1|exact H2]];
      apply (leads_same_ready _ _ _ _ _ _ _ _ R1); rewrite !(step_ready _ pre _ post R1); cbn [seg st ph out trace ins fst snd]; rewrite P; reflexivity.
  - cbn [alone]. unfold bind, input. destruct (ins w) as [|i r] eqn:E; cbn beta iota.
    + destruct (stuck w D1 pre (TEnd Susp) D2 post E H1 eq_refl eq_refl C2 H2) as (m' & M1 & M). exists m'. split; [|exact M].
      refine (start_wait w pre _ _ post R1 _ m' M1). cbn [seg]. now rewrite E.
    + refine (led_leads _ (k i) f w w D1 D2 _ _ _ _ _ (IH i f w D1 pre D2 post _ H1 H2)).
      * apply (leads_same_ready _ _ _ _ _ _ _ _ R1). rewrite !(step_ready w pre _ post R1), E. reflexivity.
      * intro N. split; [exact (N i)|reflexivity].
      * destruct OK as [(N & S)|OK]; [left; split; [exact (N i)|exact S]|right; exact OK].
  - cbn [alone]. unfold bind, edge.
    assert (L : leads (mk w (pre ++ TReady (CEdge (cbind k f)) :: post)) (mk w (pre ++ TEdge (cbind k f) :: post))) by now apply start_wait.
    destruct (ins w) as [|i r] eqn:E; cbn beta iota.
    + destruct (stuck w D1 pre (TEdge (cbind k f)) D2 post E H1 eq_refl eq_refl C2 H2) as (m' & M1 & M). exists m'. split; [exact (L _ M1)|exact M].
    + pose proof (to_tick w D1 pre (TEdge (cbind k f)) D2 post H1 eq_refl) as T. rewrite E in T.
      destruct T as (pre' & post' & P1 & P2 & L2); try reflexivity; try assumption; [now left|].
      destruct (flush (tick w) D1 pre' [] (TReady (cbind k f) :: post') (Forall_nil _)) as (pre2 & Q & L3);
        [unfold tick, calm in *; rewrite E; exact C1|exact P1|]. cbn [app] in L3.
      assert (T : tick w = World (st w) PActive (out w) (trace w ++ [(i, out w)]) r) by (unfold tick; now rewrite E).
      rewrite T in *.
      refine (led_leads _ k f w _ D1 D2 _ _ _ (leads_trans _ _ _ L (leads_trans _ _ _ L2 L3)) _ (IH f _ D1 pre2 D2 post' _ Q P2)).
      * intro N. split; [exact N|reflexivity].
      * destruct OK as [OK|OK]; [left|right]; exact OK.
  - cbn [alone]. unfold bind, readonly. destruct (ph w) eqn:P; cbn beta iota.
    2:{ split; [auto|]. exists pre, post. split; [exact H1|]. split; [exact H2|]. apply start_wait; [exact R1|]. cbn [seg]. now rewrite P. }
    all: assert (L : leads (mk w (pre ++ TReady (CReadOnly (cbind k f)) :: post)) (mk w (pre ++ TReadOnly (cbind k f) :: post)))
      by (apply start_wait; [exact R1|]; cbn [seg]; now rewrite P);
      destruct (ins w) as [|i r] eqn:E; cbn beta iota;
      [destruct (stuck w D1 pre (TReadOnly (cbind k f)) D2 post E H1 eq_refl eq_refl C2 H2) as (m' & M1 & M); exists m'; split; [exact (L _ M1)|exact M]|];
      destruct (settle w pre (TReadOnly (cbind k f)) D2 post R1 eq_refl C2 H2) as (post2 & Q2 & L3);
      pose proof (adv w D1 pre (TReadOnly (cbind k f)) D2 post2 H1 eq_refl Q2) as S; rewrite E, P in S; cbn in S;
      refine (led_leads _ k f w _ D1 D2 _ _ _ (leads_trans _ _ _ L (leads_trans _ _ _ L3 (leads_step _ _ S))) _ (IH f (World (st w) PReadOnly (out w) (trace w) (i :: r)) D1 pre D2 post2 _ H1 (still_bg _ _ _ Q2)));
      [intro N; split; [exact N|reflexivity]|destruct OK as [OK|OK]; [left|right]; exact OK].
  - cbn [alone]. unfold bind, midstep.
    assert (L : leads (mk w (pre ++ TReady (CMid (cbind k f)) :: post)) (mk w (pre ++ TMid (cbind k f) :: post))) by now apply start_wait.
    destruct (ins w) as [|i r] eqn:E; cbn beta iota.
    + destruct (stuck w D1 pre (TMid (cbind k f)) D2 post E H1 eq_refl eq_refl C2 H2) as (m' & M1 & M). exists m'. split; [exact (L _ M1)|exact M].
    + destruct (settle w pre (TMid (cbind k f)) D2 post R1 eq_refl C2 H2) as (post2 & Q2 & L3).
      pose proof (adv w D1 pre (TMid (cbind k f)) D2 post2 H1 eq_refl Q2) as S. rewrite E in S. cbn in S. rewrite !Bool.andb_false_r in S.
      refine (led_leads _ k f w _ D1 D2 _ _ _ (leads_trans _ _ _ L (leads_trans _ _ _ L3 (leads_step _ _ S))) _ (IH f (World (st w) PMid (out w) (trace w) (i :: r)) D1 pre D2 post2 _ H1 (still_bg _ _ _ Q2))).
      * intro N; split; [exact N|reflexivity].
      * destruct OK as [OK|OK]; [left|right]; exact OK.
  - cbn [alone]. unfold bind, edge_of. destruct (ins w) as [|i r] eqn:E; cbn beta iota.
    + destruct (stuck w D1 pre (TEnd Susp) D2 post E H1 eq_refl eq_refl C2 H2) as (m' & M1 & M). exists m'. split; [|exact M].
      refine (start_wait w pre _ _ post R1 _ m' M1). cbn [seg]. now rewrite E.
    + assert (L : leads (mk w (pre ++ TReady (CEdgeOf key (cbind k f)) :: post)) (mk w (pre ++ TEdgeOf key (key i) (cbind k f) :: post))).
      { apply start_wait; [exact R1|]. cbn [seg]. now rewrite E. }
      assert (V : logic_eqb (key i) (key i) = true) by (now destruct (key i)).
      pose proof (edgeof key (key i) (cbind k f) D1 D2 r w i pre post E V C1 C2 H1 H2) as G.
      destruct (edge_of_rest _ _ _ _ _ _) as [[tr l]|].
      * destruct G as (pre2 & post2 & Q1 & Q2 & L2).
        refine (led_leads _ k f w _ D1 D2 _ _ _ (leads_trans _ _ _ L L2) _ (IH f (World (st w) PMid (out w) tr l) D1 pre2 D2 post2 _ Q1 Q2)).
        -- intro N; split; [exact N|reflexivity].
        -- destruct OK as [OK|OK]; [left|right]; exact OK.
      * destruct G as (m' & M1 & M2 & M3). exists m'. split; [exact (L _ M1)|]. split; [|exact M3]. rewrite M2. unfold history. cbn [trace out ins].
        rewrite E. unfold held. cbn [map]. now rewrite app_nil_r.
  - destruct OK as [(N & _)|OK]; [contradiction N|]. cbn [alone]. unfold bind at 1, get. cbn beta iota. destruct (snd (st w)) eqn:V.
    + refine (led_leads _ k f w w D1 D2 _ _ _ _ _ (IH f w D1 pre D2 post (or_intror OK) H1 H2)); [|intros []].
      apply (leads_same_ready _ _ _ _ _ _ _ _ R1). rewrite !(step_ready w pre _ post R1). cbn [seg]. now rewrite V.
    + destruct (idle (ins w) w (D1 ++ DSleep (cbind k f) :: D2) (pre ++ TWait (cbind k f) :: post) eq_refl) as (m' & M1 & M2 & M3).
      * right. destruct OK as (O1 & O2). apply Forall_app. split; [now apply ends_no_call|constructor; [exact I|now apply ends_no_call]].
      * apply Forall2_app; [exact (still_bg _ _ _ H1)|constructor; [constructor|exact H2]].
      * exists m'. split; [refine (start_wait w pre _ _ post R1 _ m' M1); cbn [seg]; now rewrite V|]. split; [exact M2|]. now rewrite M3, map_app.
  - destruct OK as [(N & _)|OK]; [contradiction N|]. destruct OK as (O1 & O2).
    refine (led_leads _ k f w (World (fst (st w), true) (ph w) (out w) (trace w) (ins w)) D1 D2 _ _ _ _ _
              (IH f (World (fst (st w), true) (ph w) (out w) (trace w) (ins w)) D1 pre D2 post (or_intror (conj O1 O2)) H1 H2)); [|intros []].
    apply (leads_same_ready _ _ _ _ _ _ _ _ R1). rewrite !(step_ready _ pre _ post R1). cbn [seg st ph out trace ins fst snd]. rewrite seg_woke.
    destruct (seg _ _ _ _ _ _ _) as [[[[s' ev'] wo] o'] x]. cbn beta iota zeta.
    rewrite (ends_wake _ _ _ (still_bg _ _ _ H1) O1), (ends_wake _ _ _ H2 O2). destruct wo; [|reflexivity].
    now rewrite (ends_wake _ _ _ (still_bg _ _ _ H1) O1), (ends_wake _ _ _ H2 O2).
  - destruct OK as [(N & _)|OK]; [contradiction N|].
    refine (led_leads _ k f w (World (fst (st w), false) (ph w) (out w) (trace w) (ins w)) D1 D2 _ _ _ _ _
              (IH f (World (fst (st w), false) (ph w) (out w) (trace w) (ins w)) D1 pre D2 post (or_intror OK) H1 H2)); [|intros []].
    apply (leads_same_ready _ _ _ _ _ _ _ _ R1). rewrite !(step_ready _ pre _ post R1). reflexivity.
Qed.

(** ** Calls that come one after the other, at most one of them waiting for another *)
Definition is_call (t : co A) : Prop :=
  exists (B : Type) (body : co B) (fin : B -> A), neutral body /\ t = cbind body (fun b => CPut false (CSet (CRet (fin b)))).
(** one call after the other, each not before its cycle *)
Definition one_call (n : nat) (t : co A) : M (bool * bool) TI TO A :=
  fun w => (edges (n - length (trace w)) ;; put (true, false) ;; alone t) w.
Fixpoint one_by_one (cs : list (nat * co A)) (w : world) : list (outcome A) * world :=
  match cs with
  | [] => ([], w)
  | (n, t) :: r =>
      match one_call n t w with
      | (Done a, w') => let '(os, w2) := one_by_one r w' in (Done a :: os, w2)
      | (o, w') => (o :: map (fun _ => Susp) r, w')
      end
  end.
(** the call after the next comes when this one is over *)
Fixpoint one_waits (cs : list (nat * co A)) (w : world) : Prop :=
  match cs with
  | [] => True
  | (n, t) :: r =>
      match one_call n t w with
      | (Done _, w') => match r with _ :: (n3, _) :: _ => length (trace w') < n3 | _ => True end /\ one_waits r w'
      | _ => True
      end
  end.
Fixpoint in_order (cs : list (nat * co A)) : Prop :=
  match cs with
  | [] => True
  | (n, _) :: r => Forall (fun x => n <= fst x) r /\ in_order r
  end.
Definition dcall (x : nat * co A) : desc := DCall (fst x) (snd x).

Lemma walk ev D1 t D2 : Forall is_end D1 -> forall d w pre y post,
  st w = (false, ev) -> Forall2 (still (length (trace w))) D1 pre ->
  y = TReady (after d (acq t)) \/ (exists d', d = S d' /\ y = TEdge (after d' (acq t))) ->
  Forall (fun x => match x with DCall k _ => length (trace w) + d <= k | _ => True end) D2 ->
  Forall2 (bg (length (trace w))) D2 post ->
  match edges d w with
  | (Done _, w') => st w' = st w /\ exists pre' post', Forall2 (still (length (trace w'))) D1 pre' /\ Forall2 (bg (length (trace w'))) D2 post' /\
      (d <> 0 \/ post' = post) /\ length (trace w') = length (trace w) + d /\
      leads (mk w (pre ++ y :: post)) (mk w' (pre' ++ TReady (acq t) :: post'))
  | (_, w') => exists m', ends (mk w (pre ++ y :: post)) m' /\ m_trace m' = history w' /\
      map ended (m_tasks m') = map end_of D1 ++ Susp :: map end_of D2
  end.
Proof.
  intro E1. induction d as [|d IH]; intros w pre y post S H1 Y K H2.
  - destruct Y as [->|(d' & X & _)]; [|discriminate X]. cbn. split; [reflexivity|]. exists pre, post.
    split; [exact H1|]. split; [exact H2|]. split; [now right|]. split; [lia|apply leads_refl].
  - pose proof (still_ready _ _ _ H1) as R1.
    assert (L : leads (mk w (pre ++ y :: post)) (mk w (pre ++ TEdge (after d (acq t)) :: post))).
    { destruct Y as [->|(d' & X & ->)]; [apply start_wait; [exact R1|reflexivity]|injection X as <-; apply leads_refl]. }
    assert (Q : quietly w D2).
    { right. revert K. apply Forall_impl. intros [k u| |]; cbn; lia. }
    cbn [edges]. unfold bind, edge. destruct (ins w) as [|i r] eqn:E; cbn beta iota.
    + destruct (stuck_q w D1 pre (TEdge (after d (acq t))) D2 post E H1 eq_refl eq_refl Q H2) as (m' & M1 & M).
      exists m'. split; [exact (L _ M1)|exact M].
    + pose proof (to_tick_q w D1 pre (TEdge (after d (acq t))) D2 post H1 eq_refl) as T. rewrite E in T.
      destruct T as (pre' & post' & P1 & P2 & L2); try reflexivity; try assumption; [now left|].
      destruct (flush (tick w) D1 pre' [] (TReady (after d (acq t)) :: post') (Forall_nil _)) as (pre2 & Q1 & L3);
        [right; now apply ends_no_call|exact P1|]. cbn [app] in L3.
      assert (T : tick w = World (st w) PActive (out w) (trace w ++ [(i, out w)]) r) by (unfold tick; now rewrite E).
      pose proof (tick_len w i r E) as TL. rewrite T in *.
      specialize (IH (World (st w) PActive (out w) (trace w ++ [(i, out w)]) r) pre2 (TReady (after d (acq t))) post' S Q1 (or_introl eq_refl)).
      assert (K' : Forall (fun x => match x with DCall k _ => length (trace w ++ [(i, out w)]) + d <= k | _ => True end) D2).
      { revert K. apply Forall_impl. intros [k u| |]; cbn; try tauto. rewrite app_length. cbn. lia. }
      specialize (IH K' P2). destruct (edges d _) as [[[]|e| |] w'].
      * destruct IH as (S' & pre3 & post3 & A1 & A2 & A3 & A4 & A5). cbn [st] in S'. split; [exact S'|]. exists pre3, post3.
        split; [exact A1|]. split; [exact A2|]. split; [left; lia|]. split; [rewrite A4, TL; lia|].
        exact (leads_trans _ _ _ L (leads_trans _ _ _ L2 (leads_trans _ _ _ L3 A5))).
      * destruct IH as (m' & M1 & M). exists m'. split; [exact (L _ (L2 _ (L3 _ M1)))|exact M].
      * destruct IH as (m' & M1 & M). exists m'. split; [exact (L _ (L2 _ (L3 _ M1)))|exact M].
      * destruct IH as (m' & M1 & M). exists m'. split; [exact (L _ (L2 _ (L3 _ M1)))|exact M].
Qed.

(** a task at the moment its call is next: it has just been woken, or it has not called yet *)
Definition up (now : nat) (x : nat * co A) (y : task) : Prop :=
  (fst x <= now /\ y = TReady (CClear (CPut true (snd x)))) \/
  (now <= fst x /\ (y = TReady (after (fst x - now) (acq (snd x))) \/
                    exists d, fst x - now = S d /\ y = TEdge (after d (acq (snd x))))).
Definition no_wait (y : task) : Prop := match y with TWait _ => False | _ => True end.

Lemma ends_susp cs : map end_of (map dcall cs) = map (fun _ => Susp) cs.
Proof. rewrite map_map. reflexivity. Qed.
Lemma wake_late now D l : Forall (later now) D -> Forall (fun d => match d with DCall _ _ => True | _ => False end) D ->
  Forall2 (bg now) D l -> map on_wake l = l.
Proof.
  intros L C. induction 1 as [|d x D l H _ IH]; [reflexivity|]. inversion L; inversion C; subst. cbn. rewrite IH by assumption. f_equal.
  inversion H; subst; cbn in *; try reflexivity; try contradiction. lia.
Qed.
Lemma wake_up now x y : bg now (dcall x) y -> up now x (on_wake y).
Proof.
  destruct x as [n t]. unfold up, dcall. cbn [fst snd]. intro H. inversion H; subst; cbn [on_wake].
  - right. split; [lia|]. right. exists (n - now - 1). split; [lia|reflexivity].
  - right. split; [lia|]. now left.
  - left. split; [lia|reflexivity].
Qed.
Lemma bg_later now D l : Forall (later now) D -> Forall (fun d => match d with DCall _ _ => True | _ => False end) D ->
  Forall2 (bg now) D l -> Forall no_wait l.
Proof.
  intros L C. induction 1 as [|d x D l H _ IH]; constructor; inversion L; inversion C; subst; [|auto].
  inversion H; subst; cbn in *; try exact I; try contradiction. lia.
Qed.
Lemma dcalls cs : Forall (fun d => match d with DCall _ _ => True | _ => False end) (map dcall cs).
Proof. induction cs; constructor; [exact I|assumption]. Qed.

Theorem serve cs : forall w ev D1 pre post, st w = (false, ev) -> Forall2 (still (length (trace w))) D1 pre -> Forall is_end D1 ->
  in_order cs -> Forall (fun x => is_call (snd x)) cs -> one_waits cs w ->
  match cs, post with
  | [], [] => True
  | x :: r, y :: post' => up (length (trace w)) x y /\ Forall2 (bg (length (trace w))) (map dcall r) post' /\ Forall no_wait post'
  | _, _ => False
  end ->
  exists m', ends (mk w (pre ++ post)) m' /\ m_trace m' = history (snd (one_by_one cs w)) /\
            map ended (m_tasks m') = map end_of D1 ++ fst (one_by_one cs w).
Proof.
  induction cs as [|[n t] cs IH]; intros w ev D1 pre post S H1 E1 O C W H.
  - destruct post; [|contradiction H]. cbn. rewrite !app_nil_r.
    destruct (idle (ins w) w D1 pre eq_refl) as (m' & M1 & M2 & M3); [right; now apply ends_no_call|exact (still_bg _ _ _ H1)|].
    exists m'. split; [exact M1|]. split; [exact M2|exact M3].
  - destruct post as [|y post]; [contradiction H|]. destruct H as (U & H2 & NW). destruct O as (O1 & O2). inversion C as [|? ? C1 C2]; subst.
    pose proof (still_ready _ _ _ H1) as R1.
    (* the lock is taken *)
    assert (X : match edges (n - length (trace w)) w with
      | (Done _, w') => exists pre' post', Forall2 (still (length (trace w'))) D1 pre' /\ Forall2 (bg (length (trace w'))) (map dcall cs) post' /\
          leads (mk w (pre ++ y :: post)) (mk (World (true, false) (ph w') (out w') (trace w') (ins w')) (pre' ++ TReady t :: post'))
      | (_, w') => exists m', ends (mk w (pre ++ y :: post)) m' /\ m_trace m' = history w' /\
          map ended (m_tasks m') = map end_of D1 ++ Susp :: map end_of (map dcall cs)
      end).
    { destruct U as [(U1 & ->)|(U1 & U2)]; cbn [fst snd] in *.
      - replace (n - length (trace w)) with 0 by lia. cbn. exists pre, post. split; [exact H1|]. split; [exact H2|].
        apply (leads_same_ready _ _ _ _ _ _ _ _ R1). rewrite !(step_ready _ pre _ post R1). reflexivity.
      - pose proof (walk ev D1 t (map dcall cs) E1 (n - length (trace w)) w pre y post S H1 U2) as G.
        assert (K : Forall (fun x => match x with DCall k _ => length (trace w) + (n - length (trace w)) <= k | _ => True end) (map dcall cs)).
        { apply Forall_map. revert O1. apply Forall_impl. intros [k u]. cbn. lia. }
        specialize (G K H2). destruct (edges _ w) as [[[]|e| |] w']; try exact G.
        destruct G as (S' & pre' & post' & G1 & G2 & _ & _ & L). exists pre', post'. split; [exact G1|]. split; [exact G2|].
        refine (leads_trans _ _ _ L _). pose proof (still_ready _ _ _ G1) as R'.
        apply (leads_same_ready _ _ _ _ _ _ _ _ R'). rewrite !(step_ready _ pre' _ post' R'). rewrite S', S. reflexivity. }
    cbn [one_by_one one_waits] in *. unfold one_call in *. unfold bind, put in *.
    destruct (edges (n - length (trace w)) w) as [[[]|e| |] w0] eqn:Ed.
    2:{ exfalso. rewrite edges_spec in Ed. destruct (_ <=? _); discriminate Ed. }
    2:{ cbn. destruct X as (m' & M1 & M2 & M3). exists m'. split; [exact M1|]. split; [exact M2|]. rewrite M3, ends_susp. reflexivity. }
    2:{ exfalso. rewrite edges_spec in Ed. destruct (_ <=? _); discriminate Ed. }
    destruct X as (pre1 & post1 & P1 & P2 & L). cbn [st ph out trace ins] in *.
    destruct C1 as (B & body & fin & Nb & Et). cbn [snd] in Et. subst t.
    set (wl := World (true, false) (ph w0) (out w0) (trace w0) (ins w0)) in *.
    pose proof (lead body (fun b => CPut false (CSet (CRet (fin b)))) wl D1 pre1 (map dcall cs) post1 (or_introl (conj Nb eq_refl)) P1 P2) as G.
    rewrite alone_bind in W |- *. unfold bind in W |- *.
    destruct (alone body wl) as [[b|e| |] w1] eqn:Ab; cbn [led] in G.
    + destruct G as (N1 & pre2 & post2 & Q1 & Q2 & L2). specialize (N1 Nb). cbn in N1.
      cbn [alone] in W |- *. unfold bind, get, put, ret in W |- *. cbn [st ph out trace ins fst snd] in W |- *.
      set (w2 := World (false, true) (ph w1) (out w1) (trace w1) (ins w1)) in *.
      pose proof (still_ready _ _ _ Q1) as R2.
      assert (Wk : map on_wake pre2 = pre2) by exact (ends_wake _ _ _ (still_bg _ _ _ Q1) E1).
      assert (L3 : leads (mk w1 (pre2 ++ TReady (CPut false (CSet (CRet (fin b)))) :: post2))
                         (mk w2 ((pre2 ++ [TEnd (Done (fin b))]) ++ map on_wake post2))).
      { apply leads_step. rewrite (step_ready w1 pre2 _ post2 R2), N1. cbn [seg fst snd]. rewrite Wk, <- app_assoc. reflexivity. }
      destruct W as (W1 & W2).
      destruct (IH w2 true (D1 ++ [DEnd (Done (fin b))]) (pre2 ++ [TEnd (Done (fin b))]) (map on_wake post2)) as (m' & M1 & M2 & M3); auto.
      * apply Forall2_app; [exact Q1|]. constructor; [split; [constructor|reflexivity]|constructor].
      * apply Forall_app. split; [exact E1|]. constructor; [exact I|constructor].
      * destruct cs as [|[k2 t2] r].
        -- inversion Q2; subst. exact I.
        -- cbn [map] in Q2. inversion Q2 as [|? y2 ? post3 B1 B2]; subst. cbn [map]. split; [exact (wake_up _ _ _ B1)|].
           assert (La : Forall (later (length (trace w1))) (map dcall r)).
           { destruct r as [|[k3 t3] r]; [constructor|]. destruct O2 as (_ & O3 & _). cbn [map]. constructor; [exact W1|].
             apply Forall_map. revert O3. apply Forall_impl. intros [k u]. cbn in *. lia. }
           rewrite (wake_late _ _ _ La (dcalls r) B2). split; [exact B2|]. exact (bg_later _ _ _ La (dcalls r) B2).
      * exists m'. split; [exact (L _ (L2 _ (L3 _ M1)))|]. destruct (one_by_one cs w2) as [os wf]. cbn [fst snd] in *. split; [exact M2|].
        rewrite M3, map_app, <- app_assoc. reflexivity.
    + destruct G as (N1 & pre2 & post2 & Q1 & Q2 & L2). specialize (N1 Nb). cbn in N1. cbn.
      destruct (idle (ins w1) w1 (D1 ++ DEnd (Exn e) :: map dcall cs) (pre2 ++ TEnd (Exn e) :: post2) eq_refl (or_introl N1)) as (m' & M1 & M2 & M3).
      { apply Forall2_app; [exact (still_bg _ _ _ Q1)|constructor; [constructor|exact Q2]]. }
      exists m'. split; [exact (L _ (L2 _ M1))|]. split; [exact M2|]. rewrite M3, map_app. cbn [map end_of]. now rewrite ends_susp.
    + destruct G as (m' & M1 & M2 & M3). cbn. exists m'. split; [exact (L _ M1)|]. split; [exact M2|]. rewrite M3, ends_susp. reflexivity.
    + destruct G as (N1 & pre2 & post2 & Q1 & Q2 & L2). specialize (N1 Nb). cbn in N1. cbn.
      destruct (idle (ins w1) w1 (D1 ++ DEnd Fuel :: map dcall cs) (pre2 ++ TEnd Fuel :: post2) eq_refl (or_introl N1)) as (m' & M1 & M2 & M3).
      { apply Forall2_app; [exact (still_bg _ _ _ Q1)|constructor; [constructor|exact Q2]]. }
      exists m'. split; [exact (L _ (L2 _ M1))|]. split; [exact M2|]. rewrite M3, map_app. cbn [map end_of]. now rewrite ends_susp.
Qed.
End Co.
