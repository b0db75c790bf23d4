(** AxiChanProof.v -- the AXI channels: handshakes, responses, read beats. *)
From Verif Require Import Base Async BitsLemmas CompatModel PktModel HandshakeSpec Handshake AxiModel AxiSpec AxiDataProof AxiReadProof.
Local Open Scope list_scope.

Lemma assign_fits_ok n z : fits_bits n z -> assign_int n z = Ok (zbits n z).
Proof.
  intros [H1 H2]. unfold assign_int. pose proof (Z.pow_nonneg 2 (Z.of_nat n - 1) ltac:(lia)) as P.
  destruct (Z.leb_spec (- 2 ^ (Z.of_nat n - 1)) z) as [H|H]; [|lia].
  destruct (Z.ltb_spec z (2 ^ Z.of_nat n)); [reflexivity|lia].
Qed.
Lemma span_none' {A} (ok : A -> bool) l : Forall (fun i => ok i = false) l -> span ok l = (l, []).
Proof. induction 1 as [|x l H _ IH]; [reflexivity|]. cbn [span]. rewrite H, IH. reflexivity. Qed.

Section Tx'.
Context {TS TI TO : Type} (off : TO -> bool) (acc : TI -> bool).
Lemma tx_edge_any (w : world TS TI TO) (Q : unit -> world TS TI TO -> Prop) :
  off (out w) = false -> free off acc (trace w) ->
  (forall p tr l, p <> PReadOnly -> free off acc tr -> Q tt (World (st w) p (out w) tr l)) ->
  tx off acc edge w [] 1 Q.
Proof.
  intros Ho Hf HQ. destruct w as [s p o tr l].
  pose proof (tx_edge off acc (World s PActive o tr l) Q Ho Hf ltac:(discriminate) HQ) as H. unfold tx in *. unfold edge in *.
  cbn [ins st out trace] in *. destruct l as [|i l]; exact H.
Qed.
Lemma tx_drop {A B} (b : bool) f (k : unit -> M TS TI TO B) s p o tr l ds n Q (r : res A) (set : A -> TO -> TO) v : p <> PReadOnly -> r = Ok v ->
  f = (x <- of_res r ;; drive (set x)) ->
  tx off acc (k tt) (World s p (if b then set v o else o) tr l) ds n Q ->
  tx off acc (bind (if b then f else ret tt) k) (World s p o tr l) ds n Q.
Proof.
  intros Hp -> -> H. destruct b; [|exact H]. refine (tx_step _ _ _ _ _ _ _ _ _ _ _ _ _ H); try reflexivity.
  cbn [of_res]. rewrite (bind_done _ _ _ v (World s p o tr l)) by reflexivity. apply drive_ok, Hp.
Qed.
End Tx'.

(** ** waiting for a ready signal *)
Section Wait.
Context {TO : Type} (key : axi_in -> logic).
Notation W := (World (TS := unit) (TI := axi_in) (TO := TO)).
Definition k1 (i : axi_in) : bool := is1 (key i).

Lemma until1_spec l : forall fuel s p o tr, p <> PReadOnly -> length l < fuel -> exists p',
  until1 key fuel (W s p o tr l) =
  match span k1 l with
  | (_, []) => (Susp, W s p' o (tr ++ held o l) [])
  | (nr, i :: r) => (Done tt, W s PReadOnly o (tr ++ held o nr) (i :: r))
  end.
Proof.
  induction l as [|i l IH]; intros fuel s p o tr Hp Hf.
  - destruct fuel as [|f]; [cbn [length] in Hf; lia|]. exists p. unfold until1. cbn [span held map]. rewrite app_nil_r.
    apply loop_susp. apply bind_susp. unfold readonly. cbn [ph ins]. destruct p; try reflexivity. contradiction.
  - destruct fuel as [|f]; [cbn [length] in Hf; lia|].
    assert (R : readonly (W s p o tr (i :: l)) = (Done tt, W s PReadOnly o tr (i :: l))) by (destruct p; try reflexivity; contradiction).
    cbn [span]. unfold k1 at 1. destruct (is1 (key i)) eqn:K.
    + exists PActive. unfold until1. rewrite (loop_step f _ tt _ (inr tt) (W s PReadOnly o tr (i :: l))).
      * cbn [held map]. rewrite app_nil_r. reflexivity.
      * rewrite (bind_done _ _ _ _ _ R). cbn beta. rewrite (bind_done _ _ _ i (W s PReadOnly o tr (i :: l))) by reflexivity. rewrite K. reflexivity.
    + destruct (IH f s PActive o (tr ++ [(i, o)]) ltac:(discriminate) ltac:(cbn [length] in Hf; lia)) as [p' E].
      exists p'. unfold until1 in *. rewrite (loop_step f _ tt _ (inl tt) (W s PActive o (tr ++ [(i, o)]) l)).
      * rewrite E. destruct (span k1 l) as [nr [|j r]]; cbn [held map]; rewrite <- app_assoc; reflexivity.
      * rewrite (bind_done _ _ _ _ _ R). cbn beta. rewrite (bind_done _ _ _ i (W s PReadOnly o tr (i :: l))) by reflexivity. rewrite K. reflexivity.
Qed.
Lemma until1_edge l fuel s p o tr : p <> PReadOnly -> length l < fuel -> exists p',
  (until1 key fuel ;; edge) (W s p o tr l) =
  match span k1 l with
  | (_, []) => (Susp, W s p' o (tr ++ held o l) [])
  | (nr, i :: r) => (Done tt, W s PActive o (tr ++ held o (nr ++ [i])) r)
  end.
Proof.
  intros Hp Hf. destruct (until1_spec l fuel s p o tr Hp Hf) as [p' E]. exists p'. unfold bind. rewrite E.
  destruct (span k1 l) as [nr [|i r]]; [reflexivity|]. unfold edge. cbn [ins st out trace]. rewrite held_app, app_assoc. reflexivity.
Qed.
End Wait.

Lemma tx_regroup {TS TI TO A B C} off acc (m : M TS TI TO A) (n : M TS TI TO B) (k : M TS TI TO C) w ds x Q :
  tx off acc ((m ;; n) ;; k) w ds x Q -> tx off acc (m ;; n ;; k) w ds x Q.
Proof. unfold tx. rewrite (bind_assoc m (fun _ => n) (fun _ => k) w). exact (fun H => H). Qed.

Section Channels.
Context (c : axi_cfg).
Notation W := (World (TS := unit) (TI := axi_in)).

Lemma bit_length_pow2 size : power_of_two size -> (bit_length size - 1 = Z.log2 size)%Z.
Proof.
  intros [k [Hk ->]]. unfold bit_length. pose proof (Z.pow_pos_nonneg 2 k ltac:(lia) Hk).
  destruct (Z.eqb_spec (2 ^ k) 0); [lia|]. rewrite Z.abs_eq by lia. lia.
Qed.

(** ** the write address channel *)
(** the last cycle is a handshake *)
Definition at_handshake {TI TO} (off : TO -> bool) (acc : TI -> bool) (tr : list (TI * TO)) : Prop :=
  exists t i o, tr = t ++ [(i, o)] /\ off o = true /\ acc i = true.
Lemma handshake_free {TI TO} (off : TO -> bool) (acc : TI -> bool) tr : at_handshake off acc tr -> free off acc tr.
Proof. intros (t & i & o & -> & _ & A). apply free_accept. exact A. Qed.
Lemma transfers_firstn {TI TO} (off : TO -> bool) (acc : TI -> bool) tr k : length (transfers off acc (firstn k tr)) <= length (transfers off acc tr).
Proof. rewrite <- (firstn_skipn k tr) at 2. rewrite transfers_app, app_length. lia. Qed.
Lemma handshake_last {TI TO} (off : TO -> bool) (acc : TI -> bool) tr k : at_handshake off acc tr -> k < length tr ->
  length (transfers off acc (firstn k tr)) < length (transfers off acc tr).
Proof.
  intros (t & i & o & -> & O & A) Hk. rewrite app_length in Hk. cbn [length] in Hk. rewrite firstn_app.
  replace (k - length t) with 0 by lia. cbn [firstn]. rewrite app_nil_r, transfers_app, app_length.
  pose proof (transfers_firstn off acc t k). unfold transfers at 3. unfold transferred. cbn [filter fst snd]. rewrite O, A. cbn [andb map length]. lia.
Qed.

Lemma aw_tx fuel address n b size delay sync s p o tr l :
  fits_bits (x_awidth c) address -> (1 <= n <= 256)%Z -> power_of_two size -> (size <= 128)%Z ->
  may_start sync p -> aw_offered o = false -> free aw_offered aw_accepts tr -> length l < fuel ->
  tx aw_offered aw_accepts (send_write_address c fuel address n b size delay sync) (W s p o tr l)
    [ax_request c o address n b size] (2 + delay)
    (fun _ w => aw_offered (out w) = false /\ at_handshake aw_offered aw_accepts (trace w)).
Proof.
  intros Ha Hn Hsz Hsz2 Hp Ho Hf Hfuel. unfold send_write_address.
  replace (2 + delay) with (1 + delay + 1) by lia.
  assert (G : forall p' tr' l', p' <> PReadOnly -> free aw_offered aw_accepts tr' -> length l' < fuel ->
    tx aw_offered aw_accepts
     (assign (x_awidth c) address ax_set_addr ;; drive (ax_set_valid L1) ;;
      x_when (x_full c) (assign 2 (burst_value b) ax_set_burst) ;;
      x_when (x_full c) (assign 8 (n - 1) ax_set_len) ;;
      x_when (x_full c) (assign 3 (bit_length size - 1) ax_set_size) ;;
      until1 g_awready fuel ;; edge ;; drive (ax_set_valid L0)) (W s p' o tr' l')
     [ax_request c o address n b size] 1
     (fun _ w => aw_offered (out w) = false /\ at_handshake aw_offered aw_accepts (trace w))).
  { intros p' tr' l' Hp' Hf' Hl'. rewrite bit_length_pow2 by exact Hsz.
    unfold assign. eapply (tx_drop _ _ true _ _ s p' o tr' l'); [exact Hp'|apply assign_fits_ok; exact Ha|reflexivity|].
    apply tx_drive; [exact Hp'|].
    eapply tx_drop; [exact Hp'|apply (assign_fits_ok 2 (burst_value b)); destruct b; unfold fits_bits; cbn; lia|reflexivity|].
    eapply tx_drop; [exact Hp'|apply (assign_fits_ok 8 (n - 1)); unfold fits_bits; change (2 ^ Z.of_nat 8)%Z with 256%Z; lia|reflexivity|].
    eapply tx_drop; [exact Hp'|apply (assign_fits_ok 3 (Z.log2 size))|reflexivity|].
    { unfold fits_bits. change (2 ^ Z.of_nat 3)%Z with 8%Z. split; [apply Z.log2_nonneg|]. pose proof (Z.log2_le_mono _ _ Hsz2) as L. change (Z.log2 128) with 7%Z in L. lia. }
    apply tx_regroup. set (o' := if x_full c then _ else _).
    assert (Eo : o' = ax_request c o address n b size).
    { unfold o', ax_request. destruct (x_full c), b; reflexivity. }
    change [ax_request c o address n b size] with ([ax_request c o address n b size] ++ []). change 1 with (1 + 0). apply tx_bind.
    rewrite <- Eo. apply tx_offer; cbn [out trace st ins].
    - apply until1_edge; assumption.
    - rewrite Eo. reflexivity.
    - apply Hf'.
    - intros tr2 i l2 Hi _. apply tx_drive_last; [discriminate|]. cbn [out trace]. split; [reflexivity|]. exists tr2, i, (ax_request c o address n b size). rewrite <- Eo. split; [reflexivity|]. split; [rewrite Eo; reflexivity|exact Hi]. }
  change (tx aw_offered aw_accepts
     (x_when sync edge ;; edges delay ;; (assign (x_awidth c) address ax_set_addr ;; drive (ax_set_valid L1) ;;
      x_when (x_full c) (assign 2 (burst_value b) ax_set_burst) ;;
      x_when (x_full c) (assign 8 (n - 1) ax_set_len) ;;
      x_when (x_full c) (assign 3 (bit_length size - 1) ax_set_size) ;;
      until1 g_awready fuel ;; edge ;; drive (ax_set_valid L0))) (W s p o tr l)
     [ax_request c o address n b size] (1 + delay + 1)
     (fun _ w => aw_offered (out w) = false /\ at_handshake aw_offered aw_accepts (trace w))).
  set (k := assign _ _ _ ;; _) in *. change [ax_request c o address n b size] with ([] ++ [] ++ [ax_request c o address n b size]).
  rewrite <- Nat.add_assoc. apply tx_bind.
  assert (Q2 : forall p' tr' l', p' <> PReadOnly -> free aw_offered aw_accepts tr' -> length l' < fuel ->
    tx aw_offered aw_accepts (edges delay ;; k) (W s p' o tr' l') ([] ++ [ax_request c o address n b size]) (delay + 1)
     (fun _ w => aw_offered (out w) = false /\ at_handshake aw_offered aw_accepts (trace w))).
  { intros p' tr' l' Hp' Hf' Hl'. apply tx_bind. apply tx_edges; cbn [out trace ph st]; try assumption.
    intros p2 tr2 l2 Hp2 Hf2 Hle. cbn [ins] in Hle. apply G; [assumption|assumption|lia]. }
  destruct sync; cbn [x_when].
  - apply tx_edge_any; cbn [out trace st]; try assumption. intros p' tr' l' Hp' Hf' Hle. cbn [ins] in Hle. apply Q2; [assumption|assumption|lia].
  - apply tx_ret. intros _. apply Q2; [apply Hp; reflexivity|exact Hf|exact Hfuel].
Qed.

(** ** the write data channel *)
Lemma sample_loop {TO} l : forall fuel s p (o : TO) tr, length l < fuel -> exists p',
  loop fuel (fun _ : unit => i <- edge_sample ;; if is1 (g_wready i) then ret (inr tt) else ret (inl tt)) tt (W s p o tr l) =
  match span w_accepts l with
  | (_, []) => (Susp, W s p' o (tr ++ held o l) [])
  | (nr, i :: r) => (Done tt, W s PActive o (tr ++ held o (nr ++ [i])) r)
  end.
Proof.
  induction l as [|i l IH]; intros fuel s p o tr Hf; (destruct fuel as [|f]; [cbn [length] in Hf; lia|]).
  - exists p. cbn [span held map]. rewrite app_nil_r. apply loop_susp. reflexivity.
  - cbn [span]. unfold w_accepts at 1. destruct (is1 (g_wready i)) eqn:K.
    + exists PActive. rewrite (loop_step f _ tt _ (inr tt) (W s PActive o (tr ++ [(i, o)]) l)); [reflexivity|].
      rewrite (bind_done _ _ _ i (W s PActive o (tr ++ [(i, o)]) l)) by reflexivity. rewrite K. reflexivity.
    + destruct (IH f s PActive o (tr ++ [(i, o)]) ltac:(cbn [length] in Hf; lia)) as [p' E]. exists p'.
      rewrite (loop_step f _ tt _ (inl tt) (W s PActive o (tr ++ [(i, o)]) l)).
      * rewrite E. destruct (span w_accepts l) as [nr [|j r]]; cbn [held map app]; rewrite <- app_assoc; reflexivity.
      * rewrite (bind_done _ _ _ i (W s PActive o (tr ++ [(i, o)]) l)) by reflexivity. rewrite K. reflexivity.
Qed.

Lemma w_words_ext o o' beats : (x_wlast c = false -> x_last o = x_last o') -> w_words c o beats = w_words c o' beats.
Proof. intro H. induction beats as [|b r IH]; [reflexivity|]. cbn [w_words]. rewrite IH. destruct (x_wlast c); [reflexivity|]. rewrite H by reflexivity. reflexivity. Qed.

Definition beat_fits (b : Z * Z) : Prop := fits_bits (x_width c) (fst b) /\ fits_bits (Z.to_nat (x_bytes c)) (snd b).

Lemma tx_assign {TO B} (off : TO -> bool) (acc : axi_in -> bool) n z (set : bits -> TO -> TO) (k : unit -> M unit axi_in TO B) s p o tr l ds x Q :
  p <> PReadOnly -> fits_bits n z -> tx off acc (k tt) (W s p (set (zbits n z) o) tr l) ds x Q ->
  tx off acc (bind (assign n z set) k) (W s p o tr l) ds x Q.
Proof.
  intros Hp Hz H. exact (tx_drop off acc true _ k s p o tr l ds x Q _ set _ Hp (assign_fits_ok n z Hz) eq_refl H).
Qed.

Lemma beats_tx fuel delay beats : Forall beat_fits beats -> forall s p o tr l,
  p <> PReadOnly -> free w_offered w_accepts tr -> length l < fuel ->
  (delay = 0 \/ (length beats <= 1 /\ w_offered o = false)) ->
  tx w_offered w_accepts (send_beats c fuel delay beats) (W s p o tr l) (w_words c o beats) (delay + length beats)
    (fun _ w => beats = [] \/ w_offered (out w) = false /\ at_handshake w_offered w_accepts (trace w)).
Proof.
  induction 1 as [|[word strobe] r [Hw Hs] _ IH]; intros s p o tr l Hp Hf Hl Hd.
  - cbn [send_beats w_words]. apply tx_ret. cbn [out trace]. auto.
  - cbn [send_beats w_words fst snd length] in *. replace (delay + S (length r)) with (delay + (1 + length r)) by lia.
    match goal with |- tx _ _ _ _ (?x :: ?xs) _ _ => change (x :: xs) with ([] ++ [x] ++ xs) end.
    apply tx_bind.
    assert (G : forall p' tr' l', p' <> PReadOnly -> free w_offered w_accepts tr' -> length l' < fuel ->
      tx w_offered w_accepts
        (drive (w_set_valid L1) ;; assign (x_width c) word w_set_data ;; assign (Z.to_nat (x_bytes c)) strobe w_set_strb ;;
         x_when (x_wlast c) (drive (w_set_last (match r with [] => L1 | _ => L0 end))) ;;
         loop fuel (fun _ : unit => i <- edge_sample ;; if is1 (g_wready i) then ret (inr tt) else ret (inl tt)) tt ;;
         x_when (match r with [] => true | _ => false end) (drive (w_set_valid L0)) ;; send_beats c fuel delay r)
        (W s p' o tr' l')
        ([WOut L1 (zbits (x_width c) word) (zbits (Z.to_nat (x_bytes c)) strobe)
            (if x_wlast c then (match r with [] => L1 | _ => L0 end) else x_last o)] ++ w_words c o r) (1 + length r)
        (fun _ w => (word, strobe) :: r = [] \/ w_offered (out w) = false /\ at_handshake w_offered w_accepts (trace w))).
    { intros p' tr' l' Hp' Hf' Hl'. apply tx_drive; [exact Hp'|]. apply tx_assign; [exact Hp'|exact Hw|]. apply tx_assign; [exact Hp'|exact Hs|].
      unfold x_when at 1. apply tx_when; [exact Hp'|]. set (o' := if x_wlast c then _ else _).
      assert (Eo : o' = WOut L1 (zbits (x_width c) word) (zbits (Z.to_nat (x_bytes c)) strobe)
            (if x_wlast c then (match r with [] => L1 | _ => L0 end) else x_last o)) by (unfold o'; destruct (x_wlast c); reflexivity).
      rewrite <- Eo. apply tx_bind. apply tx_offer; cbn [out trace st ins].
      - apply sample_loop. exact Hl'.
      - rewrite Eo. reflexivity.
      - apply Hf'.
      - intros tr2 i l2 Hi Hle. cbn [ins] in Hle. destruct r as [|b2 r].
        + cbn [x_when]. apply tx_drive; [discriminate|]. cbn [send_beats w_words length]. apply tx_ret. cbn [out trace].
          right. split; [reflexivity|]. exists tr2, i, o'. split; [reflexivity|]. split; [rewrite Eo; reflexivity|exact Hi].
        + cbn [x_when]. refine (tx_step _ _ _ _ _ tt _ _ _ _ eq_refl eq_refl eq_refl _).
          destruct Hd as [Hd|[Hd _]]; [|cbn [length] in Hd; lia].
          rewrite (w_words_ext o o') by (intro E; rewrite Eo, E; reflexivity).
          eapply tx_conseq; [apply IH; [discriminate|apply free_accept; exact Hi|lia|left; exact Hd]|lia|].
          intros _ w [A|A]; [discriminate|]. right. exact A. }
    destruct Hd as [->|[Hd Ho]].
    + apply tx_ret. intros _. apply G; assumption.
    + apply tx_edges; cbn [out trace ph st]; try assumption. intros p2 tr2 l2 Hp2 Hf2 Hle. cbn [ins] in Hle. apply G; [assumption|assumption|lia].
Qed.

Lemma w_tx fuel address data b size delay be sync beats s p o tr l :
  write_beats (x_bytes c) address b size data be = Ok beats -> Forall beat_fits beats -> beats <> [] ->
  may_start sync p -> w_offered o = false -> free w_offered w_accepts tr -> length l < fuel ->
  (delay = 0 \/ length beats <= 1) ->
  tx w_offered w_accepts (send_write_data c fuel address data b size delay be sync) (W s p o tr l)
    (w_words c o beats) (1 + (delay + length beats))
    (fun _ w => w_offered (out w) = false /\ at_handshake w_offered w_accepts (trace w)).
Proof.
  intros Eb Hb Nb Hp Ho Hf Hl Hd. unfold send_write_data. apply (tx_ok _ _ _ _ _ _ _ _ _ Eb).
  change (w_words c o beats) with ([] ++ w_words c o beats). apply tx_bind.
  assert (G : forall p' tr' l', p' <> PReadOnly -> free w_offered w_accepts tr' -> length l' < fuel ->
    tx w_offered w_accepts (send_beats c fuel delay beats) (W s p' o tr' l') (w_words c o beats) (delay + length beats)
    (fun _ w => w_offered (out w) = false /\ at_handshake w_offered w_accepts (trace w))).
  { intros p' tr' l' Hp' Hf' Hl'. eapply tx_conseq; [apply beats_tx; try assumption; destruct Hd; auto|lia|].
    intros _ w [A|A]; [contradiction|exact A]. }
  destruct sync; cbn [x_when].
  - apply tx_edge_any; cbn [out trace st]; try assumption. intros p' tr' l' Hp' Hf' Hle. cbn [ins] in Hle. apply G; [assumption|assumption|lia].
  - apply tx_ret. intros _. apply G; [apply Hp; reflexivity|exact Hf|exact Hl].
Qed.

(** ** the write response *)
Lemma response_spec fuel l : forall s p (o : unit) tr, p <> PReadOnly -> length l < fuel -> exists p',
  write_response (TO := unit) fuel (W s p o tr l) =
  match span b_valid l with
  | (_, []) => (Susp, W s p' o (tr ++ held o l) [])
  | (nr, i :: r) =>
      match bval (g_bresp i) with
      | None => (Exn EValue, W s PReadOnly o (tr ++ held o nr) (i :: r))
      | Some v => (if (v =? 0)%Z then Done tt else Exn (EAXIProtocol v), W s PActive o (tr ++ held o (nr ++ [i])) r)
      end
  end.
Proof.
  intros s p o tr Hp Hf. unfold write_response.
  assert (L : forall l fuel p tr, p <> PReadOnly -> length l < fuel -> exists p',
    loop fuel (fun _ : unit => readonly ;; i <- input ;; if is1 (g_bvalid i)
         then match bval (g_bresp i) with Some v => ret (inr v) | None => raise EValue end else edge ;; ret (inl tt)) tt (W s p o tr l) =
    match span b_valid l with
    | (_, []) => (Susp, W s p' o (tr ++ held o l) [])
    | (nr, i :: r) =>
        match bval (g_bresp i) with
        | None => (Exn EValue, W s PReadOnly o (tr ++ held o nr) (i :: r))
        | Some v => (Done v, W s PReadOnly o (tr ++ held o nr) (i :: r))
        end
    end).
  { clear. induction l as [|i l IH]; intros fuel p tr Hp Hf; (destruct fuel as [|f]; [cbn [length] in Hf; lia|]).
    - exists p. cbn [span held map]. rewrite app_nil_r. apply loop_susp, bind_susp. unfold readonly. cbn [ph ins]. destruct p; try reflexivity. contradiction.
    - assert (R : readonly (W s p o tr (i :: l)) = (Done tt, W s PReadOnly o tr (i :: l))) by (destruct p; try reflexivity; contradiction).
      cbn [span]. unfold b_valid at 1. destruct (is1 (g_bvalid i)) eqn:K.
      + exists PActive. cbn [held map]. rewrite app_nil_r. destruct (bval (g_bresp i)) as [v|] eqn:V.
        * rewrite (loop_step f _ tt _ (inr v) (W s PReadOnly o tr (i :: l))); [reflexivity|].
          rewrite (bind_done _ _ _ _ _ R). cbn beta. rewrite (bind_done _ _ _ i (W s PReadOnly o tr (i :: l))) by reflexivity. rewrite K, V. reflexivity.
        * apply loop_exn. rewrite (bind_done _ _ _ _ _ R). cbn beta. rewrite (bind_done _ _ _ i (W s PReadOnly o tr (i :: l))) by reflexivity. rewrite K, V. reflexivity.
      + destruct (IH f PActive (tr ++ [(i, o)]) ltac:(discriminate) ltac:(cbn [length] in Hf; lia)) as [p' E]. exists p'.
        rewrite (loop_step f _ tt _ (inl tt) (W s PActive o (tr ++ [(i, o)]) l)).
        * rewrite E. destruct (span b_valid l) as [nr [|j r]]; cbn [held map]; rewrite <- app_assoc; reflexivity.
        * rewrite (bind_done _ _ _ _ _ R). cbn beta. rewrite (bind_done _ _ _ i (W s PReadOnly o tr (i :: l))) by reflexivity. rewrite K. reflexivity. }
  destruct (L l fuel p tr Hp Hf) as [p' E]. exists p'. unfold bind at 1. rewrite E.
  destruct (span b_valid l) as [nr [|i r]]; [reflexivity|]. destruct (bval (g_bresp i)) as [v|]; [|reflexivity].
  unfold bind, edge. cbn [ins st out trace]. rewrite held_app, app_assoc. destruct (v =? 0)%Z; reflexivity.
Qed.

(** ** write *)
Lemma bytes_fit w s : axi_bus c -> (0 <= w < 2 ^ (8 * x_bytes c))%Z -> (0 <= s < 2 ^ x_bytes c)%Z -> beat_fits (w, s).
Proof.
  intros (P & L & E) Hw Hs. pose proof (pow2_pos' _ P). split; unfold fits_bits; cbn [fst snd].
  - rewrite E. exact Hw.
  - rewrite Z2Nat.id by lia. exact Hs.
Qed.
Lemma legal_facts a n size b : axi_bus c -> legal_access (x_bytes c) a n size b ->
  let s := size_or (x_bytes c) size in
  check_params (x_bytes c) a n size b = Ok s /\ power_of_two s /\ (s <= 128)%Z /\ (1 <= n <= 256)%Z /\
  exists q, (0 < q)%Z /\ x_bytes c = (q * s)%Z.
Proof.
  intros (P & L & E) [H1 H2] s. pose proof (check_params_spec (x_bytes c) a n size b P ltac:(lia)) as [K _].
  assert (Ps : power_of_two s /\ (s <= x_bytes c)%Z).
  { unfold s. destruct size as [z|]; [apply (H1 z eq_refl)|split; [exact P|cbn; lia]]. }
  split; [apply K; split; assumption|]. split; [apply Ps|]. split; [lia|]. split.
  - destruct H2 as [H2 _]. destruct b; cbn in H2; lia.
  - destruct (pow2_divide s (x_bytes c) (proj1 Ps) P (proj2 Ps)) as [q Eq]. exists q. split; [|exact Eq].
    pose proof (pow2_pos' _ P). pose proof (pow2_pos' _ (proj1 Ps)). nia.
Qed.
Lemma beats_exist a n size b data be : axi_bus c -> legal_access (x_bytes c) a n size b -> n = Z.of_nat (length data) -> be <> [] ->
  exists beats, write_beats (x_bytes c) a b (size_or (x_bytes c) size) data be = Ok beats /\ length beats = length data /\ Forall beat_fits beats.
Proof.
  intros Hb Hl Hn Nb. destruct (legal_facts a n size b Hb Hl) as (_ & Ps & _ & _ & q & Hq & Eq). set (s := size_or (x_bytes c) size) in *.
  pose proof (pow2_pos' _ Ps) as Hs.
  assert (R : forall beats, (forall i w st, nth_error beats i = Some (w, st) -> (0 <= w < 2 ^ (8 * x_bytes c) /\ 0 <= st < 2 ^ x_bytes c)%Z) -> Forall beat_fits beats).
  { intros beats H. apply Forall_forall. intros [w st] Hin. apply In_nth_error in Hin. destruct Hin as [i Hi]. destruct (H i w st Hi). apply bytes_fit; assumption. }
  destruct b.
  - destruct (fixed_thm _ s q a Hs Hq Eq data be Nb) as (beats & E & L & H & _). exists beats. split; [exact E|]. split; [exact L|].
    apply R. intros i w st Hi. destruct (H i w st Hi) as (A & B & _). split; assumption.
  - destruct (incr_thm _ s q a Hs Hq Eq data be Nb) as (beats & E & L & H & _). exists beats. split; [exact E|]. split; [exact L|].
    apply R. intros i w st Hi. destruct (H i w st Hi) as (A & B & _). split; assumption.
  - destruct (advancing _ s q a Hs Hq Eq WRAP data be ltac:(discriminate) Nb) as (beats & Wd & T & ss & E & L & HN & _). exists beats. split; [exact E|]. split; [exact L|].
    apply R. intros i w st Hi. rewrite HN in Hi. destruct (i <? length data); [|discriminate]. inversion Hi; subst w st. split.
    + pose proof (mask_and_shift_bound (nth i Wd 0%Z) (s * 8) (block (x_bytes c) s q a WRAP (Z.of_nat i)) q ltac:(lia) (block_range _ _ _ _ Hs Hq Eq _ _)) as B.
      replace (8 * x_bytes c)%Z with (q * (s * 8))%Z by lia. exact B.
    + pose proof (mask_and_shift_bound (nth i T 0%Z) s (block (x_bytes c) s q a WRAP (Z.of_nat i)) q ltac:(lia) (block_range _ _ _ _ Hs Hq Eq _ _)) as B.
      replace (2 ^ x_bytes c)%Z with (2 ^ (q * s))%Z by (f_equal; symmetry; exact Eq). exact B.
Qed.

Lemma held_length {A B} (o : B) (l : list A) : length (held o l) = length l.
Proof. unfold held. apply map_length. Qed.

(** the cycles of a task, continued while its signals rest *)
Lemma continued {TO} (off : TO -> bool) acc l (w : world unit axi_in TO) n : map fst (trace w) ++ ins w = l ->
  (forall i, stable off acc (trace w ++ [(i, out w)])) -> off (out w) = false -> length (trace w) <= n ->
  let full := trace w ++ held (out w) (firstn (n - length (trace w)) (ins w)) in
  map fst full = firstn n l /\ stable off acc full /\ transfers off acc full = transfers off acc (trace w).
Proof.
  intros E St Ho Hn full. unfold full. split; [|split].
  - rewrite map_app, held_fst, <- E. rewrite firstn_app, map_length. rewrite (firstn_all2 (map fst (trace w))) by (rewrite map_length; exact Hn). reflexivity.
  - set (m := firstn (n - length (trace w)) (ins w)). clearbody m.
    destruct m as [|i m]; [cbn [held map]; rewrite app_nil_r|].
    + destruct (rev (trace w)) as [|x t] eqn:R.
      * assert (T : trace w = []) by (rewrite <- (rev_involutive (trace w)), R; reflexivity). rewrite T. exact Logic.I.
      * specialize (St (fst x)). clear - St. revert St. generalize (trace w) as t0. generalize (fst x, out w) as y.
        intros y t0. induction t0 as [|a t0 IH]; intro H; [exact Logic.I|]. cbn [app stable] in *. destruct H as [H1 H2]. split; [|apply IH; exact H2].
        destruct t0; [exact Logic.I|exact H1].
    + cbn [held map]. change ((i, out w) :: map (fun j => (j, out w)) m) with ([(i, out w)] ++ held (out w) m). rewrite app_assoc.
      apply stable_held; [apply St|]. unfold settled. rewrite rev_app_distr. cbn [rev app fst snd]. congruence.
  - rewrite transfers_app, transfers_idle, app_nil_r by exact Ho. reflexivity.
Qed.
Lemma stable_pre {TI TO} (off : TO -> bool) (acc : TI -> bool) t x : stable off acc (t ++ [x]) -> stable off acc t.
Proof.
  induction t as [|a t IH]; intro H; [exact Logic.I|]. cbn [app stable] in *. destruct H as [H1 H2]. split; [|apply IH; exact H2].
  destruct t; [exact Logic.I|exact H1].
Qed.

Definition complete (oa : ax_out) (ow : w_out) (a : waccess) (beats : list (Z * Z))
           (aw : list (axi_in * ax_out)) (w : list (axi_in * w_out)) : Prop :=
  transfers aw_offered aw_accepts aw =
    [ax_request c oa (wa_address a) (Z.of_nat (length (wa_value a))) (wa_burst a) (size_or (x_bytes c) (wa_size a))] /\
  transfers w_offered w_accepts w = w_words c ow beats.

Lemma write_run_spec fuel a p oa ow l :
  axi_bus c -> legal_access (x_bytes c) (wa_address a) (Z.of_nat (length (wa_value a))) (wa_size a) (wa_burst a) ->
  fits_bits (x_awidth c) (wa_address a) -> wa_be a <> [] -> may_start (wa_sync a) p ->
  aw_offered oa = false -> w_offered ow = false -> length l < fuel -> wa_dlat a = 0 \/ length (wa_value a) = 1 ->
  exists beats, write_beats (x_bytes c) (wa_address a) (wa_burst a) (size_or (x_bytes c) (wa_size a)) (wa_value a) (wa_be a) = Ok beats /\
  length beats = length (wa_value a) /\
  let r := axi_write c fuel a p oa ow l in
  map fst (wr_aw r) = map fst (wr_w r) /\ map fst (wr_aw r) ++ wr_rest r = l /\
  stable aw_offered aw_accepts (wr_aw r) /\ stable w_offered w_accepts (wr_w r) /\
  (wr_result r = Susp /\ wr_rest r = [] /\
     (exists k, transfers aw_offered aw_accepts (wr_aw r) = firstn k
        [ax_request c oa (wa_address a) (Z.of_nat (length (wa_value a))) (wa_burst a) (size_or (x_bytes c) (wa_size a))]) /\
     (exists k, transfers w_offered w_accepts (wr_w r) = firstn k (w_words c ow beats)) /\
     (ready_cycles aw_accepts l < 2 + wa_alat a \/ ready_cycles w_accepts l < 1 + (wa_dlat a + length beats) \/
      exists n, n <= length l /\ complete oa ow a beats (firstn n (wr_aw r)) (firstn n (wr_w r)) /\ Forall (fun i => b_valid i = false) (skipn n l))
   \/
   exists done nr i r', l = done ++ nr ++ i :: r' /\
     complete oa ow a beats (firstn (length done) (wr_aw r)) (firstn (length done) (wr_w r)) /\
     (forall k, k < length done -> ~ complete oa ow a beats (firstn k (wr_aw r)) (firstn k (wr_w r))) /\
     complete oa ow a beats (wr_aw r) (wr_w r) /\ aw_offered (wr_aw_out r) = false /\ w_offered (wr_w_out r) = false /\
     Forall (fun i => b_valid i = false) nr /\ b_valid i = true /\ wr_result r = response_outcome (g_bresp i) /\
     wr_rest r = match bval (g_bresp i) with Some _ => r' | None => i :: r' end).
Proof.
  intros Hb Hl Ha Nb Hp Hoa How Hf Hd. destruct (legal_facts _ _ _ _ Hb Hl) as (Ec & Ps & Ls & Hn & _).
  destruct (beats_exist _ _ _ _ (wa_value a) (wa_be a) Hb Hl eq_refl Nb) as (beats & Eb & Lb & Fb).
  exists beats. split; [exact Eb|]. split; [exact Lb|].
  assert (Bn : beats <> []) by (destruct beats; [cbn [length] in Lb; lia|discriminate]).
  pose proof (tx_result _ _ _ _ _ _ _ _ _ _
    (aw_tx fuel (wa_address a) (Z.of_nat (length (wa_value a))) (wa_burst a) (size_or (x_bytes c) (wa_size a)) (wa_alat a) (wa_sync a) tt p oa [] l
       Ha Hn Ps Ls Hp Hoa (free_nil _ _) Hf) ltac:(intros ? ? [_ H]; exact (handshake_free _ _ _ H))) as TA.
  pose proof (tx_result _ _ _ _ _ _ _ _ _ _
    (w_tx fuel (wa_address a) (wa_value a) (wa_burst a) (size_or (x_bytes c) (wa_size a)) (wa_dlat a) (wa_be a) (wa_sync a) beats tt p ow [] l
       Eb Fb Bn Hp How (free_nil _ _) Hf ltac:(lia)) ltac:(intros ? ? [_ H]; exact (handshake_free _ _ _ H))) as TW.
  unfold axi_write. rewrite Ec.
  destruct (send_write_address c fuel (wa_address a) (Z.of_nat (length (wa_value a))) (wa_burst a) (size_or (x_bytes c) (wa_size a)) (wa_alat a) (wa_sync a) (World tt p oa [] l)) as [ra va].
  destruct (send_write_data c fuel (wa_address a) (wa_value a) (wa_burst a) (size_or (x_bytes c) (wa_size a)) (wa_dlat a) (wa_be a) (wa_sync a) (World tt p ow [] l)) as [rw vw].
  set (req := ax_request _ _ _ _ _ _) in *.
  destruct TA as (IA & SA & TA). destruct TW as (IW & SW & TW).
  assert (LA : length (trace va) + length (ins va) = length l) by (rewrite <- IA, app_length, map_length; reflexivity).
  assert (LW : length (trace vw) + length (ins vw) = length l) by (rewrite <- IW, app_length, map_length; reflexivity).
  (* a task that is still waiting has used all cycles *)
  assert (XA : ra = Susp -> ins va = [] /\ trace va ++ held (out va) (ins va) = trace va).
  { intros ->. destruct TA as (X & _). split; [exact X|]. rewrite X. apply app_nil_r. }
  assert (XW : rw = Susp -> ins vw = [] /\ trace vw ++ held (out vw) (ins vw) = trace vw).
  { intros ->. destruct TW as (X & _). split; [exact X|]. rewrite X. apply app_nil_r. }
  assert (EA : trace va ++ held (out va) (ins va) = trace va ++ held (out va) (firstn (length l - length (trace va)) (ins va))).
  { rewrite firstn_all2 by lia. reflexivity. }
  assert (EW : trace vw ++ held (out vw) (ins vw) = trace vw ++ held (out vw) (firstn (length l - length (trace vw)) (ins vw))).
  { rewrite firstn_all2 by lia. reflexivity. }
  destruct ra as [[]|e| |]; try contradiction; destruct rw as [[]|e| |]; try contradiction.
  - (* both channels done *)
    destruct TA as [TA [OA HA]]. destruct TW as [TW [OW HW]].
    set (rest := if length (ins va) <=? length (ins vw) then ins va else ins vw).
    set (skip := length l - length rest).
    assert (Er : rest = skipn skip l /\ length (trace va) <= skip /\ length (trace vw) <= skip /\ skip + length rest = length l /\ (length (trace va) = skip \/ length (trace vw) = skip)).
    { unfold skip, rest. destruct (Nat.leb_spec (length (ins va)) (length (ins vw))).
      - split; [|lia]. rewrite <- IA at 2. rewrite skipn_app, map_length. rewrite skipn_all2 by (rewrite map_length; lia).
        replace (length l - length (ins va) - length (trace va)) with 0 by lia. reflexivity.
      - split; [|lia]. rewrite <- IW at 2. rewrite skipn_app, map_length. rewrite skipn_all2 by (rewrite map_length; lia).
        replace (length l - length (ins vw) - length (trace vw)) with 0 by lia. reflexivity. }
    destruct Er as (Er & Sa & Sw & Sl & Sx). clearbody rest.
    destruct (response_spec fuel rest tt PActive tt [] ltac:(discriminate) ltac:(lia)) as [p' EB]. rewrite EB. clear EB.
    pose proof (span_app b_valid rest) as Sp. pose proof (span_fst b_valid rest) as Sf.
    (* the channel traces up to n cycles *)
    assert (CH : forall n, skip <= n <= length l ->
      let ta := trace va ++ held (out va) (firstn (n - length (trace va)) (ins va)) in
      let tw := trace vw ++ held (out vw) (firstn (n - length (trace vw)) (ins vw)) in
      map fst ta = map fst tw /\ map fst ta = firstn n l /\ stable aw_offered aw_accepts ta /\ stable w_offered w_accepts tw /\
      complete oa ow a beats ta tw /\ complete oa ow a beats (firstn skip ta) (firstn skip tw) /\
      (forall k, k < skip -> ~ complete oa ow a beats (firstn k ta) (firstn k tw))).
    { intros n Hn' ta tw.
      destruct (continued aw_offered aw_accepts l va n IA SA OA ltac:(lia)) as (A1 & A2 & A3).
      destruct (continued w_offered w_accepts l vw n IW SW OW ltac:(lia)) as (B1 & B2 & B3). fold ta in A1, A2, A3. fold tw in B1, B2, B3.
      split; [congruence|]. split; [exact A1|]. split; [exact A2|]. split; [exact B2|]. split; [split; [rewrite A3; exact TA|rewrite B3; exact TW]|].
      split; [split|].
      - unfold ta. rewrite firstn_app, firstn_all2 by lia. unfold held. rewrite firstn_map. fold (held (out va) (firstn (skip - length (trace va)) (firstn (n - length (trace va)) (ins va)))).
        rewrite transfers_app, transfers_idle, app_nil_r by exact OA. exact TA.
      - unfold tw. rewrite firstn_app, firstn_all2 by lia. unfold held. rewrite firstn_map. fold (held (out vw) (firstn (skip - length (trace vw)) (firstn (n - length (trace vw)) (ins vw)))).
        rewrite transfers_app, transfers_idle, app_nil_r by exact OW. exact TW.
      - intros k Hk [K1 K2]. destruct Sx as [Sx|Sx].
        + unfold ta in K1. rewrite firstn_app in K1. replace (k - length (trace va)) with 0 in K1 by lia. cbn [firstn] in K1. rewrite app_nil_r in K1.
          pose proof (handshake_last _ _ _ k HA ltac:(lia)) as X. rewrite K1, TA in X. unfold req in X. cbn [length] in X. lia.
        + unfold tw in K2. rewrite firstn_app in K2. replace (k - length (trace vw)) with 0 in K2 by lia. cbn [firstn] in K2. rewrite app_nil_r in K2.
          pose proof (handshake_last _ _ _ k HW ltac:(lia)) as X. rewrite K2, TW in X. lia. }
    destruct (span b_valid rest) as [nr [|i r']] eqn:Es; cbn [fst snd] in *.
    + rewrite app_nil_r in Sp. subst nr. cbn [trace ins app wr_result wr_aw wr_w wr_rest]. rewrite !(held_length tt rest). rewrite Sl.
      destruct (CH (length l) ltac:(lia)) as (C1 & C2 & C3 & C4 & C5 & C6 & C7). split; [exact C1|]. split; [rewrite C2, firstn_all, app_nil_r; reflexivity|].
      split; [exact C3|]. split; [exact C4|]. left. split; [reflexivity|]. split; [reflexivity|].
      split; [exists 1; rewrite (proj1 C5); reflexivity|]. split; [exists (length (w_words c ow beats)); rewrite (proj2 C5), firstn_all; reflexivity|].
      right. right. exists skip. split; [lia|]. split; [exact C6|]. rewrite <- Er. exact Sf.
    + assert (Bi : b_valid i = true) by (apply (span_snd b_valid rest i r'); rewrite Es; reflexivity).
      assert (Hl' : l = firstn skip l ++ nr ++ i :: r') by (rewrite Sp, Er, firstn_skipn; reflexivity).
      assert (Lr : length rest = length nr + S (length r')) by (rewrite <- Sp, app_length; reflexivity).
      assert (Fs : length (firstn skip l) = skip) by (rewrite firstn_length; lia).
      destruct (bval (g_bresp i)) as [v|] eqn:V; cbn [trace ins app wr_result wr_aw wr_w wr_rest wr_aw_out wr_w_out].
      * rewrite !(held_length tt (nr ++ [i])), app_length. cbn [length].
        destruct (CH (skip + (length nr + 1)) ltac:(lia)) as (C1 & C2 & C3 & C4 & C5 & C6 & C7). split; [exact C1|].
        split. { rewrite C2. rewrite Hl' at 2. rewrite Hl' at 1. rewrite firstn_app, Fs. rewrite (firstn_all2 (firstn skip l)) by lia.
                 replace (skip + (length nr + 1) - skip) with (length nr + 1) by lia. rewrite firstn_app. rewrite (firstn_all2 nr) by lia.
                 replace (length nr + 1 - length nr) with 1 by lia. cbn [firstn]. rewrite <- !app_assoc. reflexivity. }
        split; [exact C3|]. split; [exact C4|]. right. exists (firstn skip l), nr, i, r'. rewrite Fs.
        split; [exact Hl'|]. split; [exact C6|]. split; [exact C7|]. split; [exact C5|]. split; [exact OA|]. split; [exact OW|]. split; [exact Sf|]. split; [exact Bi|].
        unfold response_outcome. rewrite V. split; reflexivity.
      * rewrite !(held_length tt nr).
        destruct (CH (skip + length nr) ltac:(lia)) as (C1 & C2 & C3 & C4 & C5 & C6 & C7). split; [exact C1|].
        split. { rewrite C2. rewrite Hl' at 2. rewrite Hl' at 1. rewrite firstn_app, Fs. rewrite (firstn_all2 (firstn skip l)) by lia.
                 replace (skip + length nr - skip) with (length nr) by lia. rewrite firstn_app. rewrite firstn_all.
                 rewrite Nat.sub_diag. cbn [firstn]. rewrite app_nil_r, <- app_assoc. reflexivity. }
        split; [exact C3|]. split; [exact C4|]. right. exists (firstn skip l), nr, i, r'. rewrite Fs.
        split; [exact Hl'|]. split; [exact C6|]. split; [exact C7|]. split; [exact C5|]. split; [exact OA|]. split; [exact OW|]. split; [exact Sf|]. split; [exact Bi|].
        unfold response_outcome. rewrite V. split; reflexivity.
  - (* address done, data waiting *)
    destruct TA as [TA [OA _]]. destruct TW as (IW0 & RW & k & TW). destruct (XW eq_refl) as [_ EX].
    cbn [wr_result wr_aw wr_w wr_rest]. rewrite EX, EA.
    destruct (continued aw_offered aw_accepts l va (length l) IA SA OA ltac:(lia)) as (A1 & A2 & A3).
    rewrite IW0, app_nil_r in IW. split; [rewrite A1, firstn_all, IW; reflexivity|]. split; [rewrite A1, firstn_all, app_nil_r; reflexivity|].
    split; [exact A2|]. split; [destruct l as [|i0 l0]; [destruct (trace vw); [exact Logic.I|discriminate]|exact (stable_pre _ _ _ _ (SW i0))]|].
    left. split; [reflexivity|]. split; [reflexivity|]. split; [exists 1; rewrite A3, TA; reflexivity|]. split; [exists k; exact TW|]. right. left. exact RW.
  - destruct TW as [TW [OW _]]. destruct TA as (IA0 & RA & k & TA). destruct (XA eq_refl) as [_ EX].
    cbn [wr_result wr_aw wr_w wr_rest]. rewrite EX, EW.
    destruct (continued w_offered w_accepts l vw (length l) IW SW OW ltac:(lia)) as (A1 & A2 & A3).
    rewrite IA0, app_nil_r in IA. split; [rewrite A1, firstn_all, IA; reflexivity|]. split; [rewrite IA, app_nil_r; reflexivity|].
    split; [destruct l as [|i0 l0]; [destruct (trace va); [exact Logic.I|discriminate]|exact (stable_pre _ _ _ _ (SA i0))]|]. split; [exact A2|].
    left. split; [reflexivity|]. split; [reflexivity|]. split; [exists k; exact TA|]. split; [exists (length (w_words c ow beats)); rewrite A3, TW, firstn_all; reflexivity|]. left. exact RA.
  - destruct TW as (IW0 & RW & kw & TW). destruct TA as (IA0 & RA & k & TA). destruct (XA eq_refl) as [_ EX]. destruct (XW eq_refl) as [_ EX'].
    cbn [wr_result wr_aw wr_w wr_rest]. rewrite EX, EX'. rewrite IA0, app_nil_r in IA. rewrite IW0, app_nil_r in IW.
    split; [congruence|]. split; [rewrite IA, app_nil_r; reflexivity|].
    split; [destruct l as [|i0 l0]; [destruct (trace va); [exact Logic.I|discriminate]|exact (stable_pre _ _ _ _ (SA i0))]|].
    split; [destruct l as [|i0 l0]; [destruct (trace vw); [exact Logic.I|discriminate]|exact (stable_pre _ _ _ _ (SW i0))]|].
    left. split; [reflexivity|]. split; [reflexivity|]. split; [exists k; exact TA|]. split; [exists kw; exact TW|]. left. exact RA.
Qed.
End Channels.
