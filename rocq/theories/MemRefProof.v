(** MemRefProof.v -- bursts with gaps and bursts directly after another. *)
From Verif Require Import Base Async BitsLemmas CompatModel CompatSpec AvMemModel AvMemSpec AvMemProof AvBurstProof.
Local Open Scope list_scope.

Section Ref.
Context (c : am_cfg).
Notation world := (world am_state am_in am_out).
Notation M := (M am_state am_in am_out).
Hypothesis BB : burst_bus c.

(** a session that begins in a cycle with a write: the beat of that cycle is not looked at *)
Lemma session_any rnd pos m l0 ds acc m' : session c rnd pos m l0 ds acc m' ->
  forall fuel s p o tr cur l, l0 = cur :: l -> length l0 <= fuel ->
  a_resp s = [] -> a_rnd s = rnd -> a_pos s = pos -> (forall x, a_mem s x = m x) ->
  (p_wait (m_props c) = false -> w_wait o = L0) ->
  exists p' o' tr' s' ws,
  respond c fuel (World s p o tr l0 : world) = (Susp, World s' p' o' (tr ++ tr') [])
  /\ (forall x, a_mem s' x = m' x) /\ delivered tr' = pend o ++ map (zbits (m_width c)) ds
  /\ beats_accepted tr' = beats_accepted [(cur, o)] ++ ws /\ map bval ws = map Some acc /\ map fst tr' = l0.
Proof.
  destruct 1 as [pos m cur0|pos m cur0 i l0 ds acc m' R W S
                 |pos m cur0 a d ds b l0 pos' e l' rs acc m' Rb Wb Ea Ebc Ed Hd B He S
                 |pos m cur0 a n q q1 q2 lat bs x l0 rs acc m' Rq F Ea Eal Esz Ebc I Ll Lb S];
    intros fuel s p o tr cur l El Hf Hr Hrnd Hpos Hm Hw; injection El as <- <-;
    (destruct fuel as [|fuel]; [cbn [length] in Hf; lia|]); unfold respond in *.
  - exists PActive, (idle_resp o), [(cur0, o)], s, []. split; [|split; [|split; [|split; [|split]]]].
    + apply loop_susp. apply bind_susp. unfold respond_body. rewrite <- bind_assoc, (bind_done _ _ _ _ _ (edge_resp c BB s p o tr cur0 [] Hr)). reflexivity.
    + exact Hm.
    + rewrite delivered_one, app_nil_r. reflexivity.
    + rewrite app_nil_r. reflexivity.
    + reflexivity.
    + reflexivity.
  - pose proof (body_idle c BB s p o tr cur0 i l0 Hr R W) as E.
    destruct (session_spec c BB _ _ _ _ _ _ _ S fuel s PReadOnly (idle_resp o) (tr ++ [(cur0, o)]) i l0 eq_refl ltac:(cbn [length] in *; lia) Hr Hrnd Hpos Hm Hw (or_introl W))
      as (p' & o' & tr' & s' & ws & E' & Em & D & A & U & X).
    exists p', o', ((cur0, o) :: tr'), s', ws. split; [|split; [|split; [|split; [|split]]]]; try assumption.
    + rewrite (loop_step _ _ _ _ (inl tt) (World s PReadOnly (idle_resp o) (tr ++ [(cur0, o)]) (i :: l0))).
      * unfold respond in E'. rewrite E', <- app_assoc. reflexivity.
      * rewrite (bind_done _ _ _ _ _ E). reflexivity.
    + change ((cur0, o) :: tr') with ([(cur0, o)] ++ tr'). rewrite delivered_app, delivered_one, D. reflexivity.
    + change ((cur0, o) :: tr') with ([(cur0, o)] ++ tr'). rewrite accepted_app, A. reflexivity.
    + cbn [map fst]. rewrite X. reflexivity.
  - subst rnd pos.
    destruct (body_write c BB s p o tr m cur0 a d ds b l0 pos' e l' Hr Hm Hw Rb Wb Ea Ebc Ed Hd B)
      as (p1 & o1 & tr1 & m1 & ws1 & E & Em & D & A & U & X & Wo & Vo).
    assert (Hlen : length (e :: l') <= fuel).
    { assert (HL : length (map fst tr1 ++ e :: l') = length (b :: l0)) by (rewrite X; reflexivity).
      rewrite app_length in HL. cbn [length] in *. lia. }
    assert (Hw1 : p_wait (m_props c) = false -> w_wait o1 = L0) by (intro H; rewrite H in Wo; exact Wo).
    assert (Hc1 : v_write e <> L1 \/ w_wait o1 = L1) by (destruct (p_wait (m_props c)) eqn:PW; [right; exact Wo|left; apply He; reflexivity]).
    destruct (session_spec c BB _ _ _ _ _ _ _ S fuel (at_pos s m1 pos') p1 o1 (tr ++ (cur0, o) :: tr1) e l' eq_refl Hlen Hr eq_refl eq_refl Em Hw1 Hc1)
      as (p' & o' & tr' & s' & ws & E' & Em' & D' & A' & U' & X').
    exists p', o', (((cur0, o) :: tr1) ++ tr'), s', (ws1 ++ ws). split; [|split; [|split; [|split; [|split]]]]; try assumption.
    + rewrite (loop_step _ _ _ _ (inl tt) (World (at_pos s m1 pos') p1 o1 (tr ++ (cur0, o) :: tr1) (e :: l'))).
      * unfold respond in E'. rewrite E', <- app_assoc. reflexivity.
      * rewrite (bind_done _ _ _ _ _ E). reflexivity.
    + change ((cur0, o) :: tr1) with ([(cur0, o)] ++ tr1). rewrite !delivered_app, delivered_one, D, D'.
      unfold pend at 2. rewrite Vo. rewrite app_nil_r. reflexivity.
    + change ((cur0, o) :: tr1) with ([(cur0, o)] ++ tr1). rewrite !accepted_app, A, A', app_assoc. reflexivity.
    + rewrite map_app, U, U'. cbn [map app]. rewrite map_app. reflexivity.
    + rewrite map_app, X', <- X. reflexivity.
  - subst rnd pos.
    destruct (body_read c BB s p o tr m cur0 a n q q1 q2 lat bs x l0 Hr Hm Rq F Ea Eal Esz Ebc I Ll Lb)
      as (o1 & tr1 & E & D & A & X & Wo & _).
    assert (Hlen : length (x :: l0) <= fuel).
    { cbn [length] in *. rewrite !app_length in Hf. cbn [length] in Hf. lia. }
    assert (Hc1 : v_write x <> L1 \/ w_wait o1 = L1).
    { left. rewrite Forall_forall in F. apply F. do 3 right. apply in_or_app. right. apply in_or_app. right. left. reflexivity. }
    destruct (session_spec c BB _ _ _ _ _ _ _ S fuel s PActive o1 (tr ++ (cur0, o) :: tr1) x l0 eq_refl Hlen Hr eq_refl eq_refl Hm (fun _ => Wo) Hc1)
      as (p' & o' & tr' & s' & ws & E' & Em' & D' & A' & U' & X').
    exists p', o', (((cur0, o) :: tr1) ++ tr'), s', ws. split; [|split; [|split; [|split; [|split]]]]; try assumption.
    + rewrite (loop_step _ _ _ _ (inl tt) (World s PActive o1 (tr ++ (cur0, o) :: tr1) (x :: l0))).
      * unfold respond in E'. rewrite E', <- app_assoc. reflexivity.
      * rewrite (bind_done _ _ _ _ _ E). reflexivity.
    + change ((cur0, o) :: tr1) with ([(cur0, o)] ++ tr1). rewrite !delivered_app, delivered_one, D', map_app.
      rewrite <- !app_assoc. f_equal. rewrite app_assoc, D. reflexivity.
    + change ((cur0, o) :: tr1) with ([(cur0, o)] ++ tr1). rewrite !accepted_app, A, A', app_nil_r. reflexivity.
    + rewrite map_app, X'. cbn [map fst]. rewrite X. cbn [app]. rewrite <- app_assoc. reflexivity.
Qed.

(** a write burst, then a beat in the cycle directly after it *)
Lemma lost_beat fuel s p o0 m cur a d ds b l pos' e d2 l' rs acc m' :
  p_wait (m_props c) = false -> a_resp s = [] -> (forall x, a_mem s x = m x) ->
  v_write cur <> L1 -> v_read b <> L1 -> v_write b = L1 ->
  bval (v_addr b) = Some a -> bval (v_bcount b) = Some (Z.of_nat (S (length ds))) -> bval (v_wdata b) = Some d ->
  beats c (a_rnd s) (a_pos s) ds l pos' (e :: l') -> v_write e = L1 -> bval (v_wdata e) = Some d2 ->
  session c (a_rnd s) pos' (stored c m a (d :: ds)) (e :: l') rs acc m' ->
  length (cur :: b :: l) <= fuel ->
  exists w, respond c fuel (World s p (am_init c o0) [] (cur :: b :: l) : world) = (Susp, w)
    /\ map fst (trace w) = cur :: b :: l
    /\ (forall x, a_mem (st w) x = m' x)
    /\ delivered (trace w) = map (zbits (m_width c)) rs
    /\ map bval (beats_accepted (trace w)) = map Some (d :: ds ++ d2 :: acc).
Proof.
  intros PW Hr Hm Wc Rb Wb Ea Ebc Ed B We Ee Se Hf.
  assert (Io : w_wait (am_init c o0) = L0 /\ w_valid (am_init c o0) = L0).
  { destruct BB as (_ & _ & V & _ & Bc & _). unfold am_init. cbn. rewrite V, Bc, PW. auto. }
  destruct Io as (Iw & Iv). set (o := am_init c o0) in *.
  assert (B' : beats c (a_rnd s) (if p_wait (m_props c) then S (a_pos s) else a_pos s) ds l pos' (e :: l')) by (rewrite PW; exact B).
  destruct (body_write c BB s p o [] m cur a d ds b l pos' e l' Hr Hm (fun _ => Iw) Rb Wb Ea Ebc Ed ltac:(congruence) B')
    as (p1 & o1 & tr1 & m1 & ws1 & E & Em & D & A & U & X & Wo & Vo). rewrite PW in Wo.
  destruct fuel as [|fuel]; [cbn [length] in Hf; lia|].
  assert (Hlen : length (e :: l') <= fuel).
  { assert (HL : length (map fst tr1 ++ e :: l') = length (b :: l)) by (rewrite X; reflexivity).
    rewrite app_length in HL. cbn [length] in *. lia. }
  destruct (session_any _ _ _ _ _ _ _ Se fuel (at_pos s m1 pos') p1 o1 ([] ++ (cur, o) :: tr1) e l' eq_refl Hlen Hr eq_refl eq_refl Em (fun _ => Wo))
      as (p' & o' & tr' & s' & ws & E' & Em' & D' & A' & U' & X').
  exists (World s' p' o' (((cur, o) :: tr1) ++ tr') []). split; [|split; [|split; [|split]]]; cbn [trace st].
  - unfold respond in *. rewrite (loop_step _ _ _ _ (inl tt) (World (at_pos s m1 pos') p1 o1 ([] ++ (cur, o) :: tr1) (e :: l'))); [exact E'|].
    rewrite (bind_done _ _ _ _ _ E). reflexivity.
  - rewrite map_app, X', <- X. reflexivity.
  - exact Em'.
  - change ((cur, o) :: tr1) with ([(cur, o)] ++ tr1). rewrite !delivered_app, delivered_one, D, D'. unfold pend. rewrite Iv, Vo. reflexivity.
  - change ((cur, o) :: tr1) with ([(cur, o)] ++ tr1). rewrite !accepted_app, A, A', (accepted_idle [(cur, o)]) by (constructor; [left; exact Wc|constructor]).
    rewrite (accepted_beat e o1 d2 We Wo Ee). cbn [app]. rewrite map_app, U. cbn [map app]. rewrite Ee, U', map_app. reflexivity.
Qed.

(** a burst of two beats with a cycle without write between them *)
Lemma gap_burst fuel s p o0 m cur a d b g d1 e d2 l' rs acc m' :
  p_wait (m_props c) = false -> a_resp s = [] -> (forall x, a_mem s x = m x) ->
  v_write cur <> L1 -> v_read b <> L1 -> v_write b = L1 ->
  bval (v_addr b) = Some a -> bval (v_bcount b) = Some 2%Z -> bval (v_wdata b) = Some d ->
  v_write g <> L1 -> bval (v_wdata g) = Some d1 -> v_write e = L1 -> bval (v_wdata e) = Some d2 ->
  session c (a_rnd s) (a_pos s) (stored c m a [d; d1]) (e :: l') rs acc m' ->
  length (cur :: b :: g :: e :: l') <= fuel ->
  exists w, respond c fuel (World s p (am_init c o0) [] (cur :: b :: g :: e :: l') : world) = (Susp, w)
    /\ map fst (trace w) = cur :: b :: g :: e :: l'
    /\ (forall x, a_mem (st w) x = m' x)
    /\ delivered (trace w) = map (zbits (m_width c)) rs
    /\ map bval (beats_accepted (trace w)) = map Some (d :: d2 :: acc).
Proof.
  intros PW Hr Hm Wc Rb Wb Ea Ebc Ed Wg Eg We Ee Se Hf.
  assert (Io : w_wait (am_init c o0) = L0 /\ w_valid (am_init c o0) = L0).
  { destruct BB as (_ & _ & V & _ & Bc & _). unfold am_init. cbn. rewrite V, Bc, PW. auto. }
  destruct Io as (Iw & Iv). set (o := am_init c o0) in *.
  assert (Oo : idle_resp o = o) by (destruct o as [x y z]; cbn in Iv; subst z; reflexivity).
  pose proof (dsize_pos c BB) as P.
  set (m1 := store_bytes (a_mem s) (a + Z.of_nat (0 * dsize c)) d (dsize c)).
  set (m2 := store_bytes m1 (a + Z.of_nat (1 * dsize c)) d1 (dsize c)).
  assert (W0 : forall s p o tr x l, waitrequest c (World s p o tr (x :: l) : world) = (Done tt, World s p o tr (x :: l))).
  { intros. unfold waitrequest. rewrite PW. reflexivity. }
  assert (Bt : forall s0 p0 o tr k x dx y l, (wait_write ;; midstep) (World s0 p0 o tr (x :: y :: l) : world) = (Done tt, World s0 PMid o tr (x :: y :: l)) ->
    bval (v_wdata x) = Some dx ->
    write_beat c a k (World s0 p0 o tr (x :: y :: l) : world)
    = (Done tt, World (set_mem (store_bytes (a_mem s0) (a + Z.of_nat (k * dsize c)) dx (dsize c)) s0) PActive o (tr ++ [(x, o)]) (y :: l))).
  { intros s0 p0 o1 tr k x dx y l Hw Ex. unfold write_beat. rewrite <- bind_assoc, (bind_done _ _ _ _ _ Hw).
    unfold bind at 1. cbn [sample ph input ins]. destruct (Nat.eqb_spec (dsize c) 0); [lia|].
    unfold bind at 1, bind at 1, toint at 1. rewrite Ex. cbn [ret]. unfold modify, bind at 1, get, put. cbn [st ph out trace ins].
    unfold bind at 1, toint at 1. rewrite Ex. cbn [ret]. unfold bind at 1. cbn [edge ins st out trace]. apply W0. }
  assert (E : respond_body c (World s p o [] (cur :: b :: g :: e :: l') : world)
     = (Done tt, World (set_mem m2 (set_mem m1 s)) PActive o [(cur, o); (b, o); (g, o)] (e :: l'))).
  { rewrite (body_split c BB) by exact Hr. rewrite Oo. destruct BB as (R & W & V & Wt & Bc & BE & _).
    rewrite (is_one_not _ Rb), andb_false_r, W. unfold bind at 1. cbn [ret]. unfold bind at 1. cbn [sample ph input ins].
    rewrite Wb. cbn [is_one logic_eqb andb]. unfold burst_write. rewrite (bind_done _ _ _ _ _ (W0 _ _ _ _ _ _)).
    unfold bind at 1. cbn [sample ph input ins]. unfold bind at 1, toint at 1. rewrite Ea. cbn [ret].
    destruct (Nat.eqb_spec (dsize c) 0); [lia|]. unfold bind at 1. cbn [ret]. unfold need. rewrite BE.
    unfold bind at 1, toint at 1. rewrite Ebc. cbn [ret]. change (seq 0 (Z.to_nat 2)) with [0; 1]. cbn [for_each]. rewrite PW.
    rewrite bind_assoc, (bind_done _ _ _ _ _ (Bt _ _ _ _ _ _ _ _ _ (wait_write_spec s PReadOnly o ([] ++ [(cur, o)]) b (g :: e :: l') Wb ltac:(discriminate)) Ed)).
    rewrite bind_assoc. fold m1.
    assert (Ws : (wait_write ;; midstep) (World (set_mem m1 s) PActive o (([] ++ [(cur, o)]) ++ [(b, o)]) (g :: e :: l') : world)
       = (Done tt, World (set_mem m1 s) PMid o (([] ++ [(cur, o)]) ++ [(b, o)]) (g :: e :: l'))).
    { unfold wait_write. unfold bind, sample. cbn [ph trace app rev]. unfold nzero. rewrite Wb. reflexivity. }
    rewrite (bind_done _ _ _ _ _ (Bt _ _ _ _ _ _ _ _ _ Ws Eg)). reflexivity. }
  assert (Em : forall x, a_mem (set_mem m2 (set_mem m1 s)) x = stored c m a [d; d1] x).
  { intro x. cbn [set_mem a_mem]. rewrite (stored_ext c m (a_mem s)) by (intro y; symmetry; apply Hm).
    assert (E0 : forall (mm : memory) aa, stored c mm aa [] x = mm x).
    { intros mm aa. unfold stored. cbn [length Nat.mul]. destruct (Z.leb_spec aa x), (Z.ltb_spec x (aa + Z.of_nat 0)); cbn [andb]; try reflexivity; lia. }
    rewrite (stored_cons c BB (a_mem s)), stored_cons by exact BB. rewrite E0. unfold m2, m1. f_equal; [f_equal; lia|lia]. }
  destruct fuel as [|fuel]; [cbn [length] in Hf; lia|].
  assert (Hlen : length (e :: l') <= fuel) by (cbn [length] in *; lia).
  destruct (session_any _ _ _ _ _ _ _ Se fuel (set_mem m2 (set_mem m1 s)) PActive o [(cur, o); (b, o); (g, o)] e l' eq_refl Hlen Hr eq_refl eq_refl Em (fun _ => Iw))
      as (p' & o' & tr' & s' & ws & E' & Em' & D' & A' & U' & X').
  exists (World s' p' o' ([(cur, o); (b, o); (g, o)] ++ tr') []). split; [|split; [|split; [|split]]]; cbn [trace st].
  - unfold respond in *. rewrite (loop_step _ _ _ _ (inl tt) (World (set_mem m2 (set_mem m1 s)) PActive o [(cur, o); (b, o); (g, o)] (e :: l'))); [exact E'|].
    rewrite (bind_done _ _ _ _ _ E). reflexivity.
  - rewrite map_app, X'. reflexivity.
  - exact Em'.
  - rewrite delivered_app, D'. unfold pend, delivered. cbn [flat_map fst snd]. rewrite Iv. reflexivity.
  - rewrite accepted_app, A'. change [(cur, o); (b, o); (g, o)] with ([(cur, o)] ++ [(b, o)] ++ [(g, o)]). rewrite !accepted_app.
    rewrite (accepted_idle [(cur, o)]) by (constructor; [left; exact Wc|constructor]).
    rewrite (accepted_idle [(g, o)]) by (constructor; [left; exact Wg|constructor]).
    rewrite (accepted_beat b o d Wb Iw Ed), (accepted_beat e o d2 We Iw Ee). cbn [app map]. rewrite Ed, Ee, U'. reflexivity.
Qed.

(** the word read for an odd word index beyond 2^53: the neighbour with an index divisible by four *)
Lemma float_div_far x d : (0 < d -> Z.odd x = true -> 2 ^ 53 < x < 2 ^ 54 ->
  float_div (x * d) d = if x mod 4 =? 1 then x - 1 else x + 1)%Z.
Proof.
  intros Hd Ho Hx. unfold float_div. rewrite Z.div_mul by lia.
  assert (L : Z.log2 x = 53%Z) by (apply Z.log2_unique; [lia|]; change (Z.succ 53) with 54%Z; lia).
  destruct (Z.eqb_spec x 0); [lia|]. rewrite L. change (0 <=? 52 - 53)%Z with false. cbn iota.
  change (2 ^ (- (52 - 53)))%Z with 2%Z. rewrite Zodd_mod in Ho. apply Zeq_bool_eq in Ho.
  set (k := (x / 2)%Z). assert (Ex : x = (2 * k + 1)%Z) by (pose proof (Z.div_mod x 2 ltac:(lia)); unfold k; lia).
  unfold half_even.
  assert (Q : (x * d / (d * 2))%Z = k) by (symmetry; apply (Z.div_unique_pos _ _ _ d); [lia|rewrite Ex; ring]).
  assert (R : (x * d mod (d * 2))%Z = d) by (symmetry; apply (Z.mod_unique_pos _ _ k); [lia|rewrite Ex; ring]).
  rewrite Q, R. destruct (Z.ltb_spec (2 * d) (d * 2)); [lia|]. destruct (Z.ltb_spec (d * 2) (2 * d)); [lia|].
  destruct (Z.even k) eqn:Ek.
  - apply Z.even_spec in Ek. destruct Ek as (j & Ej).
    replace (x mod 4)%Z with 1%Z by (apply (Z.mod_unique_pos _ _ j); lia). cbn [Z.eqb Pos.eqb]. lia.
  - assert (Ok : Z.odd k = true) by (rewrite <- Z.negb_even, Ek; reflexivity). apply Z.odd_spec in Ok. destruct Ok as (j & Ej).
    replace (x mod 4)%Z with 3%Z by (apply (Z.mod_unique_pos _ _ j); lia). cbn [Z.eqb Pos.eqb]. lia.
Qed.

Lemma far_read fuel s p o0 m cur x n q q1 q2 lat bs e l rs acc m' :
  let d := Z.of_nat (dsize c) in
  let x' := (if x mod 4 =? 1 then x - 1 else x + 1)%Z in
  a_resp s = [] -> (forall z, a_mem s z = m z) -> v_write cur <> L1 ->
  v_read q = L1 -> Forall (fun i => v_write i <> L1) (q :: q1 :: q2 :: lat ++ bs ++ [e]) ->
  bval (v_addr q) = Some (x * d)%Z -> Z.odd x = true -> (2 ^ 53 < x < 2 ^ 54)%Z ->
  bval (v_bcount q) = Some (Z.of_nat (S n)) -> initialised c m (x' * d) (S n) ->
  length lat = p_latency (m_props c) -> length bs = n ->
  session c (a_rnd s) (a_pos s) m (e :: l) rs acc m' ->
  let ins := cur :: q :: q1 :: q2 :: lat ++ bs ++ e :: l in
  length ins <= fuel ->
  exists w, respond c fuel (World s p (am_init c o0) [] ins : world) = (Susp, w)
    /\ map fst (trace w) = ins /\ (forall z, a_mem (st w) z = m' z)
    /\ delivered (trace w) = map (zbits (m_width c)) (range_words c m (x' * d) (S n) ++ rs).
Proof.
  intros d x' Hr Hm Wc Rq F Ea Ho Hx Ebc I Ll Lb Se ins Hf.
  pose proof (dsize_pos c BB) as P.
  assert (Iv : w_valid (am_init c o0) = L0).
  { destruct BB as (_ & _ & V & _ & Bc & _). unfold am_init. cbn. rewrite V. reflexivity. }
  set (o := am_init c o0) in *.
  assert (Hx' : (0 <= x')%Z) by (unfold x'; destruct (x mod 4 =? 1)%Z; lia).
  destruct (body_read_at c BB s p o [] m cur _ x' n q q1 q2 lat bs e l Hr Hm Rq F Ea (float_div_far x d ltac:(unfold d; lia) Ho Hx) Hx' Ebc I Ll Lb)
    as (o1 & tr1 & E & D & A & X & Wo & _).
  destruct fuel as [|fuel]; [unfold ins in Hf; cbn [length] in Hf; lia|].
  assert (Hlen : length (e :: l) <= fuel).
  { unfold ins in Hf. cbn [length] in *. rewrite !app_length in Hf. cbn [length] in Hf. lia. }
  destruct (session_any _ _ _ _ _ _ _ Se fuel s PActive o1 ([] ++ (cur, o) :: tr1) e l eq_refl Hlen Hr eq_refl eq_refl Hm (fun _ => Wo))
      as (p' & o' & tr' & s' & ws & E' & Em' & D' & A' & U' & X').
  exists (World s' p' o' (((cur, o) :: tr1) ++ tr') []). split; [|split; [|split]]; cbn [trace st].
  - unfold respond in *. unfold ins. rewrite (loop_step _ _ _ _ (inl tt) (World s PActive o1 ([] ++ (cur, o) :: tr1) (e :: l))); [exact E'|].
    rewrite (bind_done _ _ _ _ _ E). reflexivity.
  - rewrite map_app, X'. cbn [map fst]. rewrite X. unfold ins. cbn [app]. rewrite <- app_assoc. reflexivity.
  - exact Em'.
  - change ((cur, o) :: tr1) with ([(cur, o)] ++ tr1). rewrite !delivered_app, delivered_one, D', map_app.
    unfold pend at 1. rewrite Iv. cbn [logic_eqb app]. rewrite app_assoc, D. reflexivity.
Qed.
(** a read requested while another one is answered *)
Lemma lost_read fuel s p o0 m cur a n q q1 q2 lat bs e l k r rs acc m' :
  a_resp s = [] -> (forall z, a_mem s z = m z) -> v_write cur <> L1 ->
  v_read q = L1 -> Forall (fun i => v_write i <> L1) (q :: q1 :: q2 :: lat ++ bs ++ [e]) ->
  bval (v_addr q) = Some a -> (a mod Z.of_nat (dsize c) = 0)%Z -> (a / Z.of_nat (dsize c) < 2 ^ 53)%Z ->
  bval (v_bcount q) = Some (Z.of_nat (S n)) -> initialised c m a (S n) ->
  length lat = p_latency (m_props c) -> length bs = n ->
  nth_error (lat ++ bs) k = Some r -> v_read r = L1 ->
  session c (a_rnd s) (a_pos s) m (e :: l) rs acc m' ->
  let ins := cur :: q :: q1 :: q2 :: lat ++ bs ++ e :: l in
  length ins <= fuel ->
  exists w o, respond c fuel (World s p (am_init c o0) [] ins : world) = (Susp, w)
    /\ map fst (trace w) = ins
    /\ nth_error (trace w) (4 + k) = Some (r, o) /\ v_read r = L1 /\ w_wait o = L0
    /\ delivered (trace w) = map (zbits (m_width c)) (range_words c m a (S n) ++ rs).
Proof.
  intros Hr Hm Wc Rq F Ea Eal Esz Ebc I Ll Lb Nk Rr Se ins Hf.
  assert (Iv : w_valid (am_init c o0) = L0).
  { destruct BB as (_ & _ & V & _ & Bc & _). unfold am_init. cbn. rewrite V. reflexivity. }
  set (o := am_init c o0) in *.
  destruct (body_read c BB s p o [] m cur a n q q1 q2 lat bs e l Hr Hm Rq F Ea Eal Esz Ebc I Ll Lb)
    as (o1 & tr1 & E & D & A & X & Wo & Wf).
  destruct fuel as [|fuel]; [unfold ins in Hf; cbn [length] in Hf; lia|].
  assert (Hlen : length (e :: l) <= fuel).
  { unfold ins in Hf. cbn [length] in *. rewrite !app_length in Hf. cbn [length] in Hf. lia. }
  destruct (session_any _ _ _ _ _ _ _ Se fuel s PActive o1 ([] ++ (cur, o) :: tr1) e l eq_refl Hlen Hr eq_refl eq_refl Hm (fun _ => Wo))
      as (p' & o' & tr' & s' & ws & E' & Em' & D' & A' & U' & X').
  destruct tr1 as [|t0 [|t1 [|t2 tr1]]]; try discriminate X. cbn [map fst] in X. injection X as X0 X1 X2 X.
  assert (exists y, nth_error tr1 k = Some (r, y)) as (y & Ny).
  { rewrite <- X in Nk. rewrite nth_error_map in Nk. destruct (nth_error tr1 k) as [[i y]|]; [|discriminate].
    exists y. injection Nk as <-. reflexivity. }
  exists (World s' p' o' (((cur, o) :: t0 :: t1 :: t2 :: tr1) ++ tr') []), y.
  split; [|split; [|split; [|split; [|split]]]]; cbn [trace st].
  - unfold respond in *. unfold ins. rewrite (loop_step _ _ _ _ (inl tt) (World s PActive o1 ([] ++ (cur, o) :: t0 :: t1 :: t2 :: tr1) (e :: l))); [exact E'|].
    rewrite (bind_done _ _ _ _ _ E). reflexivity.
  - rewrite map_app, X'. cbn [map fst]. rewrite X0, X1, X2, X. unfold ins. cbn [app]. rewrite <- app_assoc. reflexivity.
  - cbn [app]. change (4 + k) with (S (S (S (S k)))). cbn [nth_error]. rewrite nth_error_app1; [exact Ny|].
    apply nth_error_Some. congruence.
  - exact Rr.
  - cbn [skipn] in Wf. inversion_clear Wf as [|? ? _ Wf']. rewrite Forall_forall in Wf'. apply (Wf' (r, y)). apply (nth_error_In _ _ Ny).
  - change ((cur, o) :: t0 :: t1 :: t2 :: tr1) with ([(cur, o)] ++ t0 :: t1 :: t2 :: tr1).
    rewrite !delivered_app, delivered_one, D', map_app.
    unfold pend at 1. rewrite Iv. cbn [logic_eqb app]. rewrite app_assoc, D. reflexivity.
Qed.
(** ** bursts with gaps anywhere *)
(** no two cycles without write directly after each other *)
Lemma gap_beats (PW : p_wait (m_props c) = false) a cs : forall s p o tr i0 o1 k e l' ds,
  cs <> [] -> (v_write i0 = L1 /\ p = PActive) \/ v_write (hd e cs) = L1 ->
  (forall j x y, nth_error cs j = Some x -> nth_error cs (S j) = Some y -> v_write x = L1 \/ v_write y = L1) ->
  map (fun i => bval (v_wdata i)) cs = map Some ds -> w_wait o = L0 -> w_valid o = L0 ->
  exists m',
  for_each (write_beat c a) (seq k (length cs)) (World s p o (tr ++ [(i0, o1)]) (cs ++ e :: l') : world) =
  (Done tt, World (set_mem m' s) PActive o (tr ++ (i0, o1) :: held o cs) (e :: l'))
  /\ (forall x, m' x = stored c (a_mem s) (a + Z.of_nat (k * dsize c)) ds x).
Proof.
  pose proof (dsize_pos c BB) as P.
  assert (W0 : forall s p o tr x l, waitrequest c (World s p o tr (x :: l) : world) = (Done tt, World s p o tr (x :: l))).
  { intros. unfold waitrequest. rewrite PW. reflexivity. }
  assert (Bt : forall s0 p0 o tr k x dx y l, (wait_write ;; midstep) (World s0 p0 o tr (x :: y :: l) : world) = (Done tt, World s0 PMid o tr (x :: y :: l)) ->
    bval (v_wdata x) = Some dx ->
    write_beat c a k (World s0 p0 o tr (x :: y :: l) : world)
    = (Done tt, World (set_mem (store_bytes (a_mem s0) (a + Z.of_nat (k * dsize c)) dx (dsize c)) s0) PActive o (tr ++ [(x, o)]) (y :: l))).
  { intros s0 p0 o1 tr k x dx y l Hw Ex. unfold write_beat. rewrite <- bind_assoc, (bind_done _ _ _ _ _ Hw).
    unfold bind at 1. cbn [sample ph input ins]. destruct (Nat.eqb_spec (dsize c) 0); [lia|].
    unfold bind at 1, bind at 1, toint at 1. rewrite Ex. cbn [ret]. unfold modify, bind at 1, get, put. cbn [st ph out trace ins].
    unfold bind at 1, toint at 1. rewrite Ex. cbn [ret]. unfold bind at 1. cbn [edge ins st out trace]. apply W0. }
  induction cs as [|x cs IH]; intros s p o tr i0 o1 k e l' ds Ne Hs Hj Hd Wo Vo; [contradiction|].
  destruct ds as [|dx ds]; [discriminate|]. cbn [map] in Hd. injection Hd as Ex Hd.
  set (m1 := store_bytes (a_mem s) (a + Z.of_nat (k * dsize c)) dx (dsize c)).
  assert (exists y l, cs ++ e :: l' = y :: l) as (y & l & El) by (destruct cs as [|y cs]; [exists e, l'|exists y, (cs ++ e :: l')]; reflexivity).
  assert (Ws : (wait_write ;; midstep) (World s p o (tr ++ [(i0, o1)]) (x :: y :: l) : world) = (Done tt, World s PMid o (tr ++ [(i0, o1)]) (x :: y :: l))).
  { destruct Hs as [(Wi & ->)|Wx].
    - unfold wait_write. unfold bind, sample. cbn [ph trace]. rewrite rev_app_distr. cbn [rev app]. unfold nzero. rewrite Wi. reflexivity.
    - apply wait_write_spec; [exact Wx|]. destruct tr; discriminate. }
  pose proof (Bt s p o _ k x dx y l Ws Ex) as E1. fold m1 in E1.
  assert (Es : forall z, stored c (a_mem s) (a + Z.of_nat (k * dsize c)) (dx :: ds) z
             = stored c m1 (a + Z.of_nat (S k * dsize c)) ds z).
  { intro z. rewrite (stored_cons c BB (a_mem s)). unfold m1. f_equal. lia. }
  cbn [length seq for_each app]. rewrite El, (bind_done _ _ _ _ _ E1). cbn [held map].
  destruct cs as [|x2 cs].
  - cbn [length seq for_each]. injection El as <- <-. destruct ds; [|discriminate]. exists m1. split.
    + rewrite <- app_assoc. reflexivity.
    + intro z. rewrite Es. unfold stored. change (length (@nil Z) * dsize c) with 0.
      set (u := (a + Z.of_nat (S k * dsize c))%Z). destruct (Z.leb_spec u z), (Z.ltb_spec z (u + Z.of_nat 0)); cbn [andb]; try reflexivity; lia.
  - destruct (IH (set_mem m1 s) PActive o (tr ++ [(i0, o1)]) x o (S k) e l' ds ltac:(discriminate)) as (m' & E2 & Em).
    + destruct (Hj 0 x x2 eq_refl eq_refl) as [H|H]; [left; split; [exact H|reflexivity]|right; exact H].
    + intros j u v Hu Hv. exact (Hj (S j) u v Hu Hv).
    + exact Hd.
    + exact Wo.
    + exact Vo.
    + exists m'. split.
      * rewrite <- El. rewrite E2, <- app_assoc. reflexivity.
      * intro z. rewrite Em, Es. reflexivity.
Qed.

Lemma held_accepted o l : w_wait o = L0 ->
  beats_accepted (held o l) = map v_wdata (filter (fun i => logic_eqb (v_write i) L1) l).
Proof.
  intro W. unfold beats_accepted, held. induction l as [|i l IH]; [reflexivity|]. cbn [map flat_map filter fst snd]. rewrite IH, W.
  change (logic_eqb L0 L0) with true. rewrite andb_true_r. destruct (logic_eqb (v_write i) L1); reflexivity.
Qed.

Lemma gaps_burst fuel s p o0 m cur a d ds b cs e l' rs acc m' :
  p_wait (m_props c) = false -> a_resp s = [] -> (forall x, a_mem s x = m x) ->
  v_write cur <> L1 -> v_read b <> L1 -> v_write b = L1 ->
  bval (v_addr b) = Some a -> bval (v_bcount b) = Some (Z.of_nat (S (length cs))) -> bval (v_wdata b) = Some d ->
  (forall j x y, nth_error (b :: cs) j = Some x -> nth_error cs j = Some y -> v_write x = L1 \/ v_write y = L1) ->
  map (fun i => bval (v_wdata i)) cs = map Some ds ->
  session c (a_rnd s) (a_pos s) (stored c m a (d :: ds)) (e :: l') rs acc m' ->
  let ins := cur :: b :: cs ++ e :: l' in
  length ins <= fuel ->
  exists w ws, respond c fuel (World s p (am_init c o0) [] ins : world) = (Susp, w)
    /\ map fst (trace w) = ins
    /\ (forall x, a_mem (st w) x = m' x)
    /\ delivered (trace w) = map (zbits (m_width c)) rs
    /\ beats_accepted (trace w) = map v_wdata (filter (fun i => logic_eqb (v_write i) L1) (b :: cs ++ [e])) ++ ws
    /\ map bval ws = map Some acc.
Proof.
  intros PW Hr Hm Wc Rb Wb Ea Ebc Ed Hj Hd Se is Hf.
  assert (Io : w_wait (am_init c o0) = L0 /\ w_valid (am_init c o0) = L0).
  { destruct BB as (_ & _ & V & _ & Bc & _). unfold am_init. cbn. rewrite V, Bc, PW. auto. }
  destruct Io as (Iw & Iv). set (o := am_init c o0) in *.
  assert (Oo : idle_resp o = o) by (destruct o as [x y z]; cbn in Iv; subst z; reflexivity).
  pose proof (dsize_pos c BB) as P.
  destruct (gap_beats PW a (b :: cs) s PReadOnly o [] cur o 0 e l' (d :: ds) ltac:(discriminate) (or_intror Wb) Hj) as (m1 & E1 & Em1).
  { cbn [map]. rewrite Ed, Hd. reflexivity. }
  { exact Iw. }
  { exact Iv. }
  assert (E : respond_body c (World s p o [] (cur :: b :: cs ++ e :: l') : world)
     = (Done tt, World (set_mem m1 s) PActive o ((cur, o) :: held o (b :: cs)) (e :: l'))).
  { assert (exists y l, cs ++ e :: l' = y :: l) as (y & l & El) by (destruct cs as [|y cs']; [exists e, l'|exists y, (cs' ++ e :: l')]; reflexivity).
    cbn [app] in E1. rewrite El in E1 |- *. rewrite (body_split c BB) by exact Hr. rewrite Oo. destruct BB as (R & W & V & Wt & Bc & BE & _).
    rewrite (is_one_not _ Rb), andb_false_r, W. unfold bind at 1. cbn [ret]. unfold bind at 1. cbn [sample ph input ins].
    rewrite Wb. cbn [is_one logic_eqb andb]. unfold burst_write.
    assert (W0 : forall s p o tr x l, waitrequest c (World s p o tr (x :: l) : world) = (Done tt, World s p o tr (x :: l))).
    { intros. unfold waitrequest. rewrite PW. reflexivity. }
    rewrite (bind_done _ _ _ _ _ (W0 _ _ _ _ _ _)).
    unfold bind at 1. cbn [sample ph input ins]. unfold bind at 1, toint at 1. rewrite Ea. cbn [ret].
    destruct (Nat.eqb_spec (dsize c) 0); [lia|]. unfold bind at 1. cbn [ret]. unfold need. rewrite BE.
    unfold bind at 1, toint at 1. rewrite Ebc. cbn [ret]. rewrite Nat2Z.id. rewrite PW.
    change (S (length cs)) with (length (b :: cs)). rewrite (bind_done _ _ _ _ _ E1). reflexivity. }
  assert (Em : forall x, a_mem (set_mem m1 s) x = stored c m a (d :: ds) x).
  { intro x. cbn [set_mem a_mem]. rewrite Em1. cbn [Nat.mul]. rewrite Z.add_0_r. apply stored_ext. exact Hm. }
  destruct fuel as [|fuel]; [unfold is in Hf; cbn [length] in Hf; lia|].
  assert (Hlen : length (e :: l') <= fuel).
  { unfold is in Hf. cbn [length] in *. rewrite app_length in Hf. cbn [length] in Hf. lia. }
  destruct (session_any _ _ _ _ _ _ _ Se fuel (set_mem m1 s) PActive o ((cur, o) :: held o (b :: cs)) e l' eq_refl Hlen Hr eq_refl eq_refl Em (fun _ => Iw))
      as (p' & o' & tr' & s' & ws & E' & Em' & D' & A' & U' & X').
  exists (World s' p' o' (((cur, o) :: held o (b :: cs)) ++ tr') []), ws. split; [|split; [|split; [|split; [|split]]]]; cbn [trace st].
  - unfold respond in *. unfold is. rewrite (loop_step _ _ _ _ (inl tt) (World (set_mem m1 s) PActive o ((cur, o) :: held o (b :: cs)) (e :: l'))); [exact E'|].
    rewrite (bind_done _ _ _ _ _ E). reflexivity.
  - rewrite map_app, X'. cbn [map fst]. rewrite held_fst. reflexivity.
  - exact Em'.
  - change ((cur, o) :: held o (b :: cs)) with ([(cur, o)] ++ held o (b :: cs)).
    rewrite !delivered_app, delivered_one, delivered_held, D' by exact Iv. unfold pend. rewrite Iv. reflexivity.
  - change ((cur, o) :: held o (b :: cs)) with ([(cur, o)] ++ held o (b :: cs)).
    rewrite !accepted_app, A', held_accepted by exact Iw.
    rewrite (accepted_idle [(cur, o)]) by (constructor; [left; exact Wc|constructor]).
    change [(e, o)] with (held o [e]). rewrite held_accepted by exact Iw. cbn [app].
    change (b :: cs ++ [e]) with ((b :: cs) ++ [e]). rewrite filter_app, map_app, <- app_assoc. reflexivity.
  - exact U'.
Qed.
End Ref.
