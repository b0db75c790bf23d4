(** PkGenProof.v -- every execution of a driver while set_valid_generator is called is one of the
    same driver with one generator set beforehand. *)
From Verif Require Import Base Async CompatModel DrvUtilModel AvalonSTModel HandshakeSpec Handshake.
From Verif Require Import StGenModel StGenSpec PktModel PktSpec PkGenModel PkGenSpec.
From Verif Require PktProof PktMonProof StGenProof.
Local Open Scope list_scope.

(** The generator state asking for given gaps: [None] a word without a gap, [Some g] a gap of [g]
    cycles (in which valid is driven low, even if [g] is 0). *)
Fixpoint pairs (gs : list (option nat)) : (Z * Z) * list (Z * Z) :=
  match gs with
  | [] => ((0, 0)%Z, [])
  | None :: r => let '((on, off), t) := pairs r in (((on + 1)%Z, off), t)
  | Some g :: r => let '((on, off), t) := pairs r in ((0%Z, Z.of_nat g), ((on + 1)%Z, off) :: t)
  end.
Definition static (gs : list (option nat)) : valid :=
  let '((on, off), t) := pairs gs in Valid (OnInt on) off (Some t).

Lemma pairs_on gs : (0 <= fst (fst (pairs gs)))%Z.
Proof.
  induction gs as [|[g|] gs IH]; cbn [pairs]; [apply Z.le_refl| |];
    destruct (pairs gs) as [[on off] t]; cbn [fst] in *; lia.
Qed.
Definition gap_of (q : option nat) : nat := match q with Some g => g | None => 0 end.
Lemma throttle_static q gs : throttle (static (q :: gs)) = (gap_of q, static gs).
Proof.
  unfold static. pose proof (pairs_on gs) as P. cbn [pairs].
  destruct q as [g|]; destruct (pairs gs) as [[on off] t]; cbn [fst] in P; unfold throttle; cbn [truthy v_on].
  - replace (0 =? 0)%Z with true by reflexivity. cbn [negb v_off gap_of]. rewrite Nat2Z.id.
    unfold next_valids. cbn [v_gen next_pair]. replace (on + 1 =? 0)%Z with false by lia.
    cbn [v_on v_off v_gen]. replace (on + 1 =? 0)%Z with false by lia. do 3 f_equal. lia.
  - replace (on + 1 =? 0)%Z with false by lia. cbn [negb gap_of v_on v_off v_gen].
    replace (on + 1 =? 0)%Z with false by lia. do 3 f_equal. lia.
Qed.
Lemma static_on q gs : truthy (v_on (static (q :: gs))) = match q with None => true | Some _ => false end.
Proof.
  unfold static. pose proof (pairs_on gs) as P. cbn [pairs].
  destruct q as [g|]; destruct (pairs gs) as [[on off] t]; cbn [fst] in P; cbn [truthy v_on]; [reflexivity|].
  replace (on + 1 =? 0)%Z with false by lia. reflexivity.
Qed.
(** such a state is that of a driver one word after set_valid_generator *)
Lemma static_reached gs : exists g, static gs = snd (throttle (set_valid_generator (Some g))).
Proof.
  unfold static. pose proof (pairs_on gs) as P. destruct (pairs gs) as [[on off] t]. cbn [fst] in P.
  exists (((on + 1)%Z, off) :: t). unfold set_valid_generator, next_valids. cbn [v_gen next_pair v_off].
  replace (on + 1 =? 0)%Z with false by lia. unfold throttle. cbn [v_on truthy].
  replace (on + 1 =? 0)%Z with false by lia. cbn [negb v_on snd v_off v_gen].
  replace (on + 1 =? 0)%Z with false by lia. do 2 f_equal. lia.
Qed.

(** ** The simulation *)
Section Sim.
Context {TO : Type}.
Notation GM := (M valid gcycle TO).
Notation SM := (M valid logic TO).
Notation gworld := (world valid gcycle TO).
Definition lower (s : valid) (w : gworld) : world valid logic TO :=
  World s (ph w) (out w) (bus_only (trace w)) (map fst (ins w)).

Definition sim {A} (m : GM A) (m' : SM A) : Prop := forall w, let '(r, w1) := m w in
  exists gs, (forall B, bounded B (st w) -> calls_bounded B (ins w) ->
                Forall (fun q => gap_of q <= B) gs /\ bounded B (st w1) /\ calls_bounded B (ins w1))
  /\ forall rest, exists s', m' (lower (static (gs ++ rest)) w) = (r, lower s' w1)
     /\ (forall a, r = Done a -> s' = static rest).

Lemma sim_bind A B (m : GM A) m' (f : A -> GM B) f' :
  sim m m' -> (forall a, sim (f a) (f' a)) -> sim (bind m f) (bind m' f').
Proof.
  intros H F w. specialize (H w). unfold bind at 1. destruct (m w) as [r w1].
  destruct H as (gs & Bd & H). destruct r as [a|e| |].
  - specialize (F a w1). destruct (f a w1) as [r2 w2]. destruct F as (gs2 & Bd2 & F).
    exists (gs ++ gs2). split.
    + intros Bn H1 H2. destruct (Bd Bn H1 H2) as (C1 & C2 & C3). destruct (Bd2 Bn C2 C3) as (D1 & D2 & D3).
      split; [apply Forall_app; auto|auto].
    + intro rest. rewrite <- app_assoc. destruct (H (gs2 ++ rest)) as (s1 & E1 & Q1). rewrite (Q1 a eq_refl) in E1.
      destruct (F rest) as (s2 & E2 & Q2). exists s2. split; [|exact Q2]. unfold bind. rewrite E1. exact E2.
  - exists gs. split; [exact Bd|]. intro rest. destruct (H rest) as (s1 & E1 & _). exists s1. split; [|discriminate].
    unfold bind. rewrite E1. reflexivity.
  - exists gs. split; [exact Bd|]. intro rest. destruct (H rest) as (s1 & E1 & _). exists s1. split; [|discriminate].
    unfold bind. rewrite E1. reflexivity.
  - exists gs. split; [exact Bd|]. intro rest. destruct (H rest) as (s1 & E1 & _). exists s1. split; [|discriminate].
    unfold bind. rewrite E1. reflexivity.
Qed.

(** code that does not use the generator *)
Lemma sim_same A (m : GM A) (m' : SM A) :
  (forall w s, m' (lower s w) = (fst (m w), lower s (snd (m w)))) ->
  (forall w B, bounded B (st w) -> calls_bounded B (ins w) -> bounded B (st (snd (m w))) /\ calls_bounded B (ins (snd (m w)))) ->
  sim m m'.
Proof.
  intros H K w. specialize (H w). specialize (K w). destruct (m w) as [r w1]. exists []. split.
  - intros B H1 H2. split; [constructor|apply K; assumption].
  - intro rest. exists (static rest). split; [apply H|reflexivity].
Qed.
Lemma sim_ret A (a : A) : sim (ret a) (ret a).
Proof. apply sim_same; [reflexivity|auto]. Qed.
Lemma sim_raise A e : sim (@raise _ _ _ A e) (raise e).
Proof. apply sim_same; [reflexivity|auto]. Qed.
Lemma sim_res A (r : res A) : sim (of_res r) (of_res r).
Proof. destruct r; [apply sim_ret|apply sim_raise]. Qed.
Lemma sim_drive f : sim (drive f) (drive f).
Proof. apply sim_same; [intros [s p o tr l] s0; destruct p; reflexivity|intros [s p o tr l]; destruct p; auto]. Qed.
Lemma sim_readonly : sim readonly readonly.
Proof.
  apply sim_same; [intros [s p o tr l] s0; destruct p, l; reflexivity|intros [s p o tr l]; destruct p, l; auto].
Qed.
Lemma bus_only_app (a b : list (gcycle * TO)) : bus_only (a ++ b) = bus_only a ++ bus_only b.
Proof. apply map_app. Qed.
Lemma bounded_set B g : gen_bounded B g -> bounded B (set_valid_generator g).
Proof.
  intro H. unfold set_valid_generator, next_valids. cbn [v_gen v_off].
  destruct g as [g|]; [|split; [cbn; lia|discriminate]].
  assert (G : forall l off, (off <= Z.of_nat B)%Z -> (forall p, In p l -> (snd p <= Z.of_nat B)%Z) -> bounded B (next_pair l off)).
  { induction l as [|[on f] l IH]; intros off Ho Hl; cbn [next_pair].
    - split; [exact Ho|]. intros g' p E. injection E as <-. intros [].
    - destruct (on =? 0)%Z; [apply IH; [apply (Hl (on, f)); left; reflexivity|intros; apply Hl; right; assumption]|].
      split; [apply (Hl (on, f)); left; reflexivity|]. intros g' p E. injection E as <-. intro I. apply Hl. right. exact I. }
  apply G; [lia|]. intros p I. exact (H g p eq_refl I).
Qed.
Lemma sim_tick : sim tick edge.
Proof.
  apply sim_same.
  - intros [s p o tr l] s0. destruct l as [|[r [g|]] l]; [reflexivity| |];
      unfold tick, lower; cbn [ins]; unfold bind, edge, apply_call, put, ret; cbn [ins st ph out trace snd fst map];
      rewrite bus_only_app; reflexivity.
  - intros [s p o tr l] B H1 H2. destruct l as [|[r q] l]; [auto|].
    assert (T : calls_bounded B l) by (intros r' g' I; apply (H2 r' g'); right; exact I).
    destruct q as [g|]; cbn; [|auto]. split; [|exact T]. apply bounded_set. apply (H2 r g). left. reflexivity.
Qed.
Lemma sim_ticks n : sim (ticks n) (edges n).
Proof. induction n as [|n IH]; [apply sim_ret|]. apply sim_bind; [apply sim_tick|]. intros _. exact IH. Qed.

Lemma sim_loop L A (body : L -> GM (L + A)) body' n : (forall x, sim (body x) (body' x)) ->
  forall x, sim (loop n body x) (loop n body' x).
Proof.
  intro H. induction n as [|n IH]; intro x; [apply sim_same; [reflexivity|auto]|].
  cbn [loop]. apply sim_bind; [apply H|]. intros [y|a]; [apply IH|apply sim_ret].
Qed.
Lemma sim_for X (body : X -> GM unit) body' : (forall x, sim (body x) (body' x)) ->
  forall l, sim (for_each body l) (for_each body' l).
Proof.
  intros H l. induction l as [|x l IH]; [apply sim_ret|]. cbn [for_each]. apply sim_bind; [apply H|]. intros _. exact IH.
Qed.
Lemma sim_if (b : bool) A (m n : GM A) m' n' : sim m m' -> sim n n' -> sim (if b then m else n) (if b then m' else n').
Proof. destruct b; auto. Qed.

Lemma sim_input A (f : gcycle -> GM A) (f' : logic -> SM A) : (forall c, sim (f c) (f' (fst c))) -> sim (bind input f) (bind input f').
Proof.
  intros H w. destruct w as [s p o tr [|c l]].
  - exists []. split; [auto|]. intro rest. exists (static rest). split; [reflexivity|discriminate].
  - exact (H c (World s p o tr (c :: l))).
Qed.
Lemma sim_wait n : sim (gwait_ready n) (wait_ready n).
Proof.
  apply sim_bind; [apply sim_readonly|]. intros _. apply sim_loop. intros []. unfold gwait_body, wait_body.
  apply sim_input. intro c. apply sim_if; [apply sim_ret|]. apply sim_bind; [apply sim_tick|]. intros _.
  apply sim_bind; [apply sim_readonly|]. intros _. apply sim_ret.
Qed.

Lemma bounded_consume B v : bounded B v -> bounded B (consume v).
Proof. intros [H1 H2]. unfold consume. destruct (v_on v) as [|z]; [split; auto|]. destruct (z =? 0)%Z; split; auto. Qed.
Lemma bounded_next B v : bounded B v -> bounded B (next_valids v).
Proof.
  intros [H1 H2]. unfold next_valids. destruct (v_gen v) as [g|] eqn:E; [|split; [cbn; lia|discriminate]].
  assert (Hg : forall p, In p g -> (snd p <= Z.of_nat B)%Z) by (intros p I; exact (H2 g p eq_refl I)).
  clear E H2. revert H1 Hg. generalize (v_off v) as off. induction g as [|[on f] l IH]; intros off Ho Hl; cbn [next_pair].
  - split; [exact Ho|]. intros g' p E. injection E as <-. intros [].
  - destruct (on =? 0)%Z; [apply IH; [apply (Hl (on, f)); left; reflexivity|intros; apply Hl; right; assumption]|].
    split; [apply (Hl (on, f)); left; reflexivity|]. intros g' p E. injection E as <-. intro I. apply Hl. right. exact I.
Qed.

Lemma edges_st n : forall (v : world valid logic TO) (s' : valid), let '(r1, v1) := edges n v in
  edges n (World s' (ph v) (out v) (trace v) (ins v)) = (r1, World s' (ph v1) (out v1) (trace v1) (ins v1)).
Proof.
  induction n as [|n IH]; intros v s'; [reflexivity|]. cbn [edges]. unfold bind. destruct v as [s0 p o tr [|i l]]; [reflexivity|].
  unfold edge. cbn [ins st ph out trace]. apply (IH (World s0 PActive o (tr ++ [(i, o)]) l) s').
Qed.
Lemma sim_gap set0 : sim (gen_gap set0) (gap_code set0).
Proof.
  intro w. destruct (truthy (v_on (st w))) eqn:T.
  - assert (E : gen_gap set0 w = (Done tt, World (consume (st w)) (ph w) (out w) (trace w) (ins w))).
    { unfold gen_gap, bind, get, put. rewrite T. reflexivity. }
    rewrite E. exists [None]. split.
    + intros B H1 H2. split; [repeat constructor; apply Nat.le_0_l|]. split; [apply bounded_consume; exact H1|exact H2].
    + intro rest. exists (static rest). split; [|reflexivity]. unfold gap_code, bind, get, put. cbn [app lower st].
      rewrite static_on, throttle_static. reflexivity.
  - set (n := Z.to_nat (v_off (st w))).
    assert (E : gen_gap set0 w = bind (bind (drive set0) (fun _ => ticks n))
                  (fun _ => bind get (fun v => put (consume (next_valids v)))) w).
    { unfold gen_gap. unfold bind at 1, get at 1. rewrite T. rewrite !bind_assoc. unfold bind, get, put.
      destruct (drive set0 w) as [[[]|e| |] w1]; try reflexivity. fold n. destruct (ticks n w1) as [[[]|e| |] w2]; reflexivity. }
    rewrite E. clear E.
    assert (S1 : sim (bind (drive set0) (fun _ => ticks n)) (bind (drive set0) (fun _ => edges n))).
    { apply sim_bind; [apply sim_drive|]. intros _. apply sim_ticks. }
    specialize (S1 w). unfold bind at 1.
    assert (N : forall w' r w1, bind (drive set0) (fun _ => edges n) w' = (r, w1) ->
              forall q rest, st w' = static (q :: rest) -> q = Some n ->
              gap_code set0 w' = match r with Done _ => put (static rest) w1 | _ => (r, w1) end).
    { intros w' r w1 E1 q rest Es ->. unfold gap_code. unfold bind at 1, get. rewrite Es, static_on, throttle_static. cbn [fst snd gap_of].
      unfold bind at 1. unfold bind at 1 in E1. destruct (drive set0 w') as [[[]|e| |] w2]; try (injection E1 as <- <-; reflexivity).
      unfold bind. rewrite E1. destruct r as [[]|e| |]; reflexivity. }
    destruct (bind (drive set0) (fun _ => ticks n) w) as [r w1]. destruct S1 as (gs & Bd & S1).
    assert (X : forall q rest, exists s', bind (drive set0) (fun _ => edges n) (lower (static (q :: rest)) w) = (r, lower s' w1)).
    { intros q rest.
      assert (Neut : forall s s', let '(r1, v1) := bind (drive set0) (fun _ => edges n) (lower s w) in
                                   bind (drive set0) (fun _ => edges n) (lower s' w) = (r1, World s' (ph v1) (out v1) (trace v1) (ins v1))).
      { intros s s'. unfold bind, drive, lower. cbn [ph out trace ins st]. destruct (ph w); [|reflexivity|];
          match goal with |- context [edges n ?v] => exact (edges_st n v s') end. }
      destruct (S1 rest) as (s1 & E1 & _). specialize (Neut (static (gs ++ rest)) (static (q :: rest))). rewrite E1 in Neut.
      eexists. exact Neut. }
    destruct r as [[]|e| |].
    + unfold bind, get, put. exists [Some n]. split.
      * intros B H1 H2. destruct (Bd B H1 H2) as (_ & C2 & C3). split; [|split; [apply bounded_consume, bounded_next; exact C2|exact C3]].
        constructor; [|constructor]. cbn [gap_of]. destruct H1 as [H1 _]. unfold n. lia.
      * intro rest. destruct (X (Some n) rest) as (s' & Es). exists (static rest). split; [|reflexivity].
        cbn [app]. rewrite (N _ _ _ Es (Some n) rest eq_refl eq_refl). reflexivity.
    + exists [Some n]. split.
      * intros B H1 H2. destruct (Bd B H1 H2) as (_ & C2 & C3). split; [|auto].
        constructor; [|constructor]. cbn [gap_of]. destruct H1 as [H1 _]. unfold n. lia.
      * intro rest. destruct (X (Some n) rest) as (s' & Es). exists s'. split; [|discriminate].
        cbn [app]. exact (N _ _ _ Es (Some n) rest eq_refl eq_refl).
    + exists [Some n]. split.
      * intros B H1 H2. destruct (Bd B H1 H2) as (_ & C2 & C3). split; [|auto].
        constructor; [|constructor]. cbn [gap_of]. destruct H1 as [H1 _]. unfold n. lia.
      * intro rest. destruct (X (Some n) rest) as (s' & Es). exists s'. split; [|discriminate].
        cbn [app]. exact (N _ _ _ Es (Some n) rest eq_refl eq_refl).
    + exists [Some n]. split.
      * intros B H1 H2. destruct (Bd B H1 H2) as (_ & C2 & C3). split; [|auto].
        constructor; [|constructor]. cbn [gap_of]. destruct H1 as [H1 _]. unfold n. lia.
      * intro rest. destruct (X (Some n) rest) as (s' & Es). exists s'. split; [|discriminate].
        cbn [app]. exact (N _ _ _ Es (Some n) rest eq_refl eq_refl).
Qed.
End Sim.

(** ** The drivers: what relates the steps relates the whole *)
Record closed {TO} (R : forall A : Type, M valid gcycle TO A -> M valid logic TO A -> Prop) : Prop := Closed {
  r_ret : forall A (a : A), R A (ret a) (ret a);
  r_raise : forall A e, R A (raise e) (raise e);
  r_bind : forall A B (m : M valid gcycle TO A) m' (f : A -> M valid gcycle TO B) f',
    R A m m' -> (forall a, R B (f a) (f' a)) -> R B (bind m f) (bind m' f');
  r_loop : forall L A (body : L -> M valid gcycle TO (L + A)) body' n,
    (forall x, R _ (body x) (body' x)) -> forall x, R A (loop n body x) (loop n body' x);
  r_drive : forall f, R unit (drive f) (drive f);
  r_tick : R unit tick edge;
  r_wait : forall n, R unit (gwait_ready n) (wait_ready n);
  r_gap : forall set0, R unit (gen_gap set0) (gap_code set0) }.
Lemma closed_sim {TO} : closed (fun A => @sim TO A).
Proof.
  constructor; [exact (@sim_ret TO)|exact (@sim_raise TO)|exact (@sim_bind TO)|exact (@sim_loop TO)|exact (@sim_drive TO)
    |exact (@sim_tick TO)|exact (@sim_wait TO)|exact (@sim_gap TO)].
Qed.
Lemma closed_same {TO} : closed (fun A => @StGenProof.sim TO A).
Proof.
  constructor; intros.
  - apply StGenProof.sim_ret.
  - apply StGenProof.sim_raise.
  - apply StGenProof.sim_bind; assumption.
  - apply StGenProof.sim_loop; assumption.
  - apply StGenProof.sim_drive.
  - apply StGenProof.sim_tick.
  - apply StGenProof.sim_wait.
  - apply StGenProof.sim_gap.
Qed.

Section Drivers.
Context (R : forall A : Type, M valid gcycle pk_out A -> M valid logic pk_out A -> Prop) (C : closed R).
Let rel {A} (m : M valid gcycle pk_out A) m' := R A m m'.
Lemma rel_if (b : bool) A (m n : M valid gcycle pk_out A) m' n' : rel m m' -> rel n n' -> rel (if b then m else n) (if b then m' else n').
Proof using. destruct b; auto. Qed.
Lemma rel_res A (r : res A) : rel (of_res r) (of_res r).
Proof using C. destruct r; [apply (r_ret _ C)|apply (r_raise _ C)]. Qed.
Lemma rel_for X (body : X -> M valid gcycle pk_out unit) body' : (forall x, rel (body x) (body' x)) ->
  forall l, rel (for_each body l) (for_each body' l).
Proof using C.
  intros H l. induction l as [|x l IH]; [apply (r_ret _ C)|]. cbn [for_each]. apply (r_bind _ C); [apply H|]. intros _. exact IH.
Qed.
Ltac rel_tac :=
  repeat first
    [ apply (r_ret _ C) | apply (r_raise _ C) | apply rel_res | apply (r_drive _ C)
    | (apply (r_bind _ C); [|intro])
    | match goal with |- rel (match ?x with _ => _ end) _ => destruct x end ].
Lemma rel_channel c ch : rel (gpk_channel c ch) (pk_channel c ch).
Proof using C. unfold gpk_channel, pk_channel. rel_tac. Qed.
Lemma rel_when b m m' : rel m m' -> rel (gwhen b m) (when b m').
Proof using C. intro H. apply rel_if; [exact H|apply (r_ret _ C)]. Qed.
Lemma rel_word c str first ch : rel (gpk_word c str first ch) (pk_word c str first ch).
Proof using C.
  unfold gpk_word, pk_word. apply (r_bind _ C); [apply (r_gap _ C)|intros _]. apply (r_bind _ C); [apply (r_drive _ C)|intros _].
  apply (r_bind _ C); [apply rel_channel|intros _]. apply (r_bind _ C); [apply (r_drive _ C)|intros _].
  apply (r_bind _ C); [|intro; rel_tac]. apply rel_if; [|apply (r_ret _ C)].
  apply (r_bind _ C); [apply (r_drive _ C)|intros _]. apply (r_bind _ C); [|intros _; apply (r_ret _ C)].
  apply rel_when. rel_tac.
Qed.
Lemma rel_body c fuel sync ch x : rel (gpk_body c fuel sync ch x) (pk_body c fuel sync ch x).
Proof using C.
  destruct x as [str first]. destruct str as [|b str]; [apply (r_ret _ C)|]. cbn [gpk_body pk_body].
  apply (r_bind _ C); [apply rel_if; [apply (r_tick _ C)|apply (r_ret _ C)]|intros _].
  apply (r_bind _ C); [apply rel_word|intro r]. apply (r_bind _ C); [|intros _; apply (r_ret _ C)].
  unfold pk_wait. apply rel_if; [apply (r_wait _ C)|apply (r_ret _ C)].
Qed.
Lemma rel_defaults c ch : rel (gpk_defaults c ch) (pk_defaults c ch).
Proof using C.
  unfold gpk_defaults, pk_defaults. apply (r_bind _ C); [apply rel_when, (r_drive _ C)|intros _].
  do 3 (apply (r_bind _ C); [apply (r_drive _ C)|intros _]). apply (r_bind _ C); [apply rel_when, (r_drive _ C)|intros _].
  destruct (c_cw c); [apply (r_drive _ C)|]. destruct ch; [apply (r_raise _ C)|apply (r_ret _ C)].
Qed.
Lemma rel_finish c : rel (gpk_finish c) (pk_finish c).
Proof using C.
  unfold gpk_finish, pk_finish. do 5 (apply (r_bind _ C); [apply (r_drive _ C)|intros _]).
  apply (r_bind _ C); [apply rel_when, (r_drive _ C)|intros _]. destruct (c_cw c); [apply (r_drive _ C)|apply (r_ret _ C)].
Qed.
Lemma rel_send c fuel str sync ch : rel (gpk_send c fuel str sync ch) (pk_send c fuel str sync ch).
Proof using C.
  unfold gpk_send, pk_send. apply (r_bind _ C); [apply rel_defaults|intros _].
  apply (r_bind _ C); [apply (r_loop _ C); intro x; apply rel_body|intros _].
  apply (r_bind _ C); [apply (r_tick _ C)|intros _]. apply rel_finish.
Qed.
Lemma rel_send_all c fuel ps : rel (gpk_send_all c fuel ps) (pk_send_all c fuel ps).
Proof using C. apply rel_for. intro p. apply rel_send. Qed.
Lemma rel_iterable c fuel ws sync : rel (gpk_send_iterable c fuel ws sync) (pk_send_iterable c fuel ws sync).
Proof using C.
  unfold gpk_send_iterable, pk_send_iterable. apply (r_bind _ C); [apply (r_loop _ C); intros [l first]|intros _].
  - destruct l as [|w l]; [apply (r_ret _ C)|]. cbn [gpk_iter_body pk_iter_body].
    apply (r_bind _ C); [apply rel_if; [apply (r_tick _ C)|apply (r_ret _ C)]|intros _].
    apply (r_bind _ C); [apply (r_gap _ C)|intros _].
    apply (r_bind _ C); [destruct w; [apply (r_ret _ C)|apply (r_drive _ C)]|intros _].
    apply (r_bind _ C); [|intros _; apply (r_ret _ C)].
    assert (W : rel (if c_ready c then gwait_ready fuel else ret tt) (pk_wait c fuel))
      by (apply rel_if; [apply (r_wait _ C)|apply (r_ret _ C)]).
    destruct w as [[]|]; [exact W|apply (r_ret _ C)|exact W].
  - apply (r_bind _ C); [apply (r_tick _ C)|intros _]. apply (r_drive _ C).
Qed.
End Drivers.

Lemma sim_plain width hr fuel ws : sim (gen_send_all width hr fuel ws) (st_send_all width hr fuel ws).
Proof.
  apply sim_for. intros [v sync]. cbn [fst snd]. unfold gen_send, st_send.
  repeat first [apply sim_drive | apply sim_res | apply sim_tick | apply sim_gap | apply sim_wait | apply sim_ret | apply sim_if
               | (apply sim_bind; [|intro])].
Qed.

(** an execution and its counterpart *)
Lemma sim_static {TO A} (m : M valid gcycle TO A) m' : sim m m' -> forall s p o l,
  let '(r, w) := m (World s p o [] l) in
  exists g s', m' (World (snd (throttle (set_valid_generator (Some g)))) p o [] (map fst l))
               = (r, World s' (ph w) (out w) (bus_only (trace w)) (map fst (ins w))).
Proof.
  intros H s p o l. specialize (H (World s p o [] l)). destruct (m (World s p o [] l)) as [r w].
  destruct H as (gs & _ & H). destruct (H []) as (s' & E & _). destruct (static_reached (gs ++ [])) as [g G].
  exists g, s'. rewrite <- G. exact E.
Qed.

(** ** no calls *)
Lemma same_plain {TO A} (m : M valid gcycle TO A) m' : StGenProof.sim m m' -> forall s p o l, Forall no_call l ->
  let '(r, w) := m (World s p o [] l) in
  m' (World s p o [] (map fst l)) = (r, World (st w) (ph w) (out w) (bus_only (trace w)) (map fst (ins w))).
Proof.
  intros H s p o l N. destruct (H (World s p o [] l) N) as [E _]. destruct (m (World s p o [] l)) as [r w]. exact E.
Qed.

(** ** progress *)
Lemma bounded_throttle B s : bounded B s -> fst (throttle s) <= B /\ bounded B (snd (throttle s)).
Proof.
  intro H. rewrite StGenProof.throttle_consume. split.
  - change (fst (throttle s)) with (StGenProof.n_gap s). rewrite StGenProof.n_gap_eq. destruct H as [H _].
    destruct (truthy (v_on s)); lia.
  - apply bounded_consume. destruct (truthy (v_on s)); [exact H|apply bounded_next, H].
Qed.
Lemma bounded_static B gs : Forall (fun q => gap_of q <= B) gs -> bounded B (static gs).
Proof.
  intro H. unfold static.
  assert (G : (snd (fst (pairs gs)) <= Z.of_nat B)%Z /\ forall p, In p (snd (pairs gs)) -> (snd p <= Z.of_nat B)%Z).
  { induction H as [|[g|] gs Hg _ [IH1 IH2]]; cbn [pairs].
    - split; [cbn; lia|intros p []].
    - destruct (pairs gs) as [[on off] t]. cbn [fst snd gap_of] in *. split; [lia|]. intros p [<-|I]; [exact IH1|apply IH2, I].
    - destruct (pairs gs) as [[on off] t]. cbn [fst snd gap_of] in *. split; assumption. }
  destruct (pairs gs) as [[on off] t]. destruct G as [G1 G2]. split; [exact G1|].
  intros g' p E. injection E as <-. apply G2.
Qed.
Lemma bounded_cost B n : forall s, bounded B s -> PktProof.cost n s <= n * (B + 1) /\ bounded B (PktProof.thr_iter n s).
Proof.
  induction n as [|n IH]; intros s H; [split; [apply Nat.le_0_l|exact H]|]. rewrite PktProof.cost_S. cbn [PktProof.thr_iter].
  destruct (bounded_throttle B s H) as [H1 H2]. destruct (IH _ H2) as [H3 H4]. split; [|exact H4].
  change (S n * (B + 1)) with ((B + 1) + n * (B + 1)). lia.
Qed.
Lemma pwords_length c k base ch f : forall first str, length (PktProof.pwords_ c k base ch f first str) <= f.
Proof.
  induction f as [|f IH]; intros first str; [apply Nat.le_refl|]. cbn [PktProof.pwords_].
  destruct str; [apply Nat.le_0_l|]. cbn [length]. apply le_n_S, IH.
Qed.
Lemma bounded_budget B c k base ps : forall s, bounded B s ->
  PktProof.all_budget c k base ps s <= list_sum (map (fun q => 1 + length (p_data q) * (B + 1)) ps).
Proof.
  induction ps as [|q ps IH]; intros s H; [apply Nat.le_refl|]. cbn [PktProof.all_budget map].
  change (list_sum (?a :: ?l)) with (a + list_sum l).
  set (n := length (PktProof.pwords c k base (p_channel q) true (p_data q))).
  destruct (bounded_cost B n s H) as [H1 H2]. specialize (IH _ H2).
  assert (L : n <= length (p_data q)) by apply pwords_length.
  assert (n * (B + 1) <= length (p_data q) * (B + 1)) by (apply Nat.mul_le_mono_r, L).
  unfold PktProof.pk_budget. fold n. unfold list_sum at 1. cbn [fold_right]. fold (list_sum (map (fun q => 1 + length (p_data q) * (B + 1)) ps)). lia.
Qed.

Lemma pkgen_progress c k ps B s p o fuel l :
  word_bus c k -> Forall (fun q => channel_ok c (p_channel q)) ps ->
  Forall (fun q => length l + length (p_data q) < fuel) ps -> p <> PReadOnly -> bounded B s -> calls_bounded B l ->
  list_sum (map (fun q => 1 + length (p_data q) * (B + 1)) ps) <= HandshakeSpec.ready_cycles (k_accepts (c_ready c)) (map fst l) ->
  exists w, gpk_send_all c fuel ps (World s p o [] l) = (Done tt, w).
Proof.
  intros WB CH Hf Hp Bs Bl Hr. pose proof (rel_send_all _ closed_sim c fuel ps (World s p o [] l)) as S.
  cbn beta in S. destruct (gpk_send_all c fuel ps (World s p o [] l)) as [r w]. destruct S as (gs & Bd & S).
  destruct (Bd B Bs Bl) as (Bg & _). destruct (S []) as (s' & E & _). rewrite app_nil_r in E. clear S Bd.
  unfold lower in E. cbn [ph out trace ins] in E.
  assert (T := PktProof.tx_send_all c k o fuel WB ps (static gs) p o [] (map fst l) CH).
  rewrite map_length in T. specialize (T Hf Hp (free_nil _ _)).
  assert (Hb : PktProof.inv_base c o o) by (repeat split; reflexivity). specialize (T Hb I).
  change (bus_only []) with (@nil (logic * pk_out)) in E. rewrite E in T. cbn [ins trace] in T.
  destruct T as (new & _ & _ & _ & T). destruct r as [[]|e| |]; try contradiction; [exists w; reflexivity|].
  destruct T as (_ & _ & T & _). pose proof (bounded_budget B c k o ps (static gs) (bounded_static B gs Bg)) as Q.
  unfold HandshakeSpec.ready_cycles in *. lia.
Qed.
