(** OpbEndProof.v -- an OPB access ends once the slave stops suppressing the timeout (C144). *)
From Verif Require Import Base Async CompatModel PktModel MMModel MMSpec OpbModel OpbSpec.
Local Open Scope list_scope.

Section End.
Context (c : opb_cfg) (before : opb_in).
Notation world := (world bool opb_in opb_out).
Notation M := (M bool opb_in opb_out).

(** [ends_in n r w w']: over, after at most [n] cycles *)
Definition ends_in {A} (n : nat) (w : world) (x : outcome A * world) : Prop :=
  fst x <> Susp /\ fst x <> Fuel /\ length (trace (snd x)) <= length (trace w) + n.

Lemma exn_ends {A} n (w w' : world) e : trace w' = trace w -> @ends_in A n w (Exn e, w').
Proof. intro H. repeat split; try discriminate. cbn. rewrite H. lia. Qed.
Lemma done_ends {A} n (w w' : world) (a : A) : trace w' = trace w -> ends_in n w (Done a, w').
Proof. intro H. repeat split; try discriminate. cbn. rewrite H. lia. Qed.

Lemma sample_some (w : world) : ins w <> [] -> exists i, sample before w = (Done i, w).
Proof.
  intro H. unfold sample, input. destruct (ph w); [eauto| |]; (destruct (ins w) as [|i r]; [now elim H|eauto]).
Qed.

(** one turn of the loop, with a cycle [j] after the next edge *)
Lemma turn count s p o tr x j r :
  (exists out1 w', ack_body before count (World s p o tr (x :: j :: r)) = (out1, w') /\
     match out1 with
     | Done (inl k) => w' = World s PReadOnly o (tr ++ [(x, o)]) (j :: r) /\ k < 16 /\
                       (p_sup j <> L1 -> k = count + 1)
     | Done (inr _) => w' = World s p o tr (x :: j :: r)
     | Exn _ => length (trace w') <= length tr + 1
     | _ => False
     end /\ (p_sup j <> L1 -> 15 <= count -> match out1 with Done (inl _) => False | _ => True end)).
Proof.
  unfold ack_body, bind. destruct (sample_some (World s p o tr (x :: j :: r))) as (i & E); [discriminate|]. rewrite E.
  unfold int_bit. destruct (p_ack i); unfold ret, raise.
  2:{ eexists _, _. split; [reflexivity|]. cbn. split; auto. }
  2,3: eexists _, _; (split; [reflexivity|]); cbn; split; [lia|auto].
  cbn [edge ins st out trace]. unfold readonly. cbn [ph ins]. unfold sample at 1. cbn [ph input ins]. unfold input. cbn [ins].
  destruct (p_sup j) eqn:S; unfold ret, raise.
  - destruct (max_cycles <=? count + 1) eqn:X.
    + eexists _, _. split; [reflexivity|]. cbn. rewrite app_length. cbn. split; [lia|auto].
    + apply Nat.leb_gt in X. unfold max_cycles in X. eexists _, _. split; [reflexivity|]. cbn [fst snd].
      split; [split; [reflexivity|split; [lia|intros _; reflexivity]]|]. intros _ K. lia.
  - eexists _, _. cbn [max_cycles Nat.leb]. split; [reflexivity|]. cbn [fst snd].
    split; [split; [reflexivity|split; [lia|congruence]]|congruence].
  - eexists _, _. split; [reflexivity|]. cbn. rewrite app_length. cbn. split; [lia|auto].
  - eexists _, _. split; [reflexivity|]. cbn. rewrite app_length. cbn. split; [lia|auto].
Qed.

(** no suppression any more *)
Lemma unsuppressed : forall n count fuel s p o tr x b, n = 15 - count -> count < 16 ->
  Forall (fun i => p_sup i <> L1) b -> 16 <= count + length b -> S (length b) < fuel ->
  ends_in (n + 1) (World s p o tr (x :: b)) (loop fuel (ack_body before) count (World s p o tr (x :: b))).
Proof.
  induction n as [|n IH]; intros count fuel s p o tr x b Hn Hc F Hb Hf;
    (destruct b as [|j r]; [cbn in Hb; lia|]); (destruct fuel as [|fuel]; [cbn in Hf; lia|]);
    apply Forall_cons_iff in F; destruct F as [Fj Fr]; cbn [loop]; unfold bind;
    destruct (turn count s p o tr x j r) as (out1 & w' & E & H & K); rewrite E;
    destruct out1 as [[k|u]|e| |]; try contradiction.
  - exfalso. apply K; [exact Fj|lia].
  - subst w'. apply done_ends. reflexivity.
  - repeat split; try discriminate. cbn in *. lia.
  - destruct H as (-> & Hk & Hj). specialize (Hj Fj). subst k.
    destruct (IH (count + 1) fuel s PReadOnly o (tr ++ [(x, o)]) j r) as (A & B & C); [lia|lia|exact Fr|cbn in Hb; lia|cbn in Hf; lia|].
    split; [exact A|split; [exact B|]]. cbn [trace] in *. rewrite app_length in C. cbn [length] in C. lia.
  - subst w'. apply done_ends. reflexivity.
  - repeat split; try discriminate. cbn in *. lia.
Qed.

Lemma suppressed : forall a count fuel s p o tr x b, count < 16 ->
  Forall (fun i => p_sup i <> L1) b -> 16 <= length b -> S (length (a ++ b)) < fuel ->
  ends_in (length a + 16) (World s p o tr (x :: a ++ b)) (loop fuel (ack_body before) count (World s p o tr (x :: a ++ b))).
Proof.
  induction a as [|j a IH]; intros count fuel s p o tr x b Hc F Hb Hf.
  - destruct (unsuppressed (15 - count) count fuel s p o tr x b eq_refl Hc F) as (A & B & C); [lia|exact Hf|].
    split; [exact A|split; [exact B|]]. cbn [app length trace] in *. lia.
  - destruct fuel as [|fuel]; [cbn in Hf; lia|]. cbn [loop app]. unfold bind.
    destruct (turn count s p o tr x j (a ++ b)) as (out1 & w' & E & H & _). rewrite E.
    destruct out1 as [[k|u]|e| |]; try contradiction.
    + destruct H as (-> & Hk & _).
      destruct (IH k fuel s PReadOnly o (tr ++ [(x, o)]) j b) as (A & B & C); [exact Hk|exact F|exact Hb|cbn in Hf; lia|].
      split; [exact A|split; [exact B|]]. cbn [trace length] in *. rewrite app_length in C. cbn [length] in C. lia.
    + subst w'. apply done_ends. reflexivity.
    + repeat split; try discriminate. cbn in *. lia.
Qed.

(** [brief m]: no cycle passes in [m]; given that an input is there, it returns or raises *)
Definition brief {A} (m : M A) : Prop := forall w, ins w <> [] ->
  match m w with
  | (Done _, w') => trace w' = trace w /\ ins w' = ins w /\ st w' = st w
  | (Exn _, w') => trace w' = trace w
  | _ => False
  end.
Lemma brief_drive f : brief (drive f).
Proof. intros w H. unfold drive. destruct (ph w); cbn; auto. Qed.
Lemma brief_res {A} (r : res A) : brief (of_res r).
Proof. intros w H. destruct r; cbn; auto. Qed.
Lemma brief_bind {A B} (m : M A) (f : A -> M B) : brief m -> (forall a, brief (f a)) -> brief (bind m f).
Proof.
  intros H G w N. unfold bind. specialize (H w N). destruct (m w) as [[a|e| |] w1]; try contradiction; [|exact H].
  destruct H as (T & I & S). assert (N1 : ins w1 <> []) by congruence. specialize (G a w1 N1). destruct (f a w1) as [[b|e| |] w2]; try contradiction.
  - destruct G as (T' & I' & S'). repeat split; congruence.
  - congruence.
Qed.
Lemma bind_ends {A B} n (m : M A) (f : A -> M B) w : ins w <> [] -> brief m ->
  (forall a w1, ins w1 = ins w -> trace w1 = trace w -> ends_in n w1 (f a w1)) -> ends_in n w (bind m f w).
Proof.
  intros N H G. unfold bind. specialize (H w N). destruct (m w) as [[a|e| |] w1]; try contradiction.
  - destruct H as (T & I & _). destruct (G a w1 I T) as (X & Y & Z). rewrite T in Z. repeat split; assumption.
  - apply exn_ends. exact H.
Qed.

(** after the wait: no more cycles *)
Definition tail_ok {A} (f : M A) : Prop := forall w, ins w <> [] ->
  fst (f w) <> Susp /\ fst (f w) <> Fuel /\ trace (snd (f w)) = trace w.
Lemma turn_ins count w r w' : ins w <> [] -> ack_body before count w = (Done r, w') -> ins w' <> [].
Proof.
  intro N. destruct (sample_some w N) as (i & E). unfold ack_body, bind. rewrite E. unfold int_bit.
  destruct (p_ack i); unfold ret, raise; try discriminate.
  2:{ intro H. injection H as _ <-. exact N. }
  unfold edge. destruct (ins w) as [|x [|j l]]; try discriminate.
  unfold readonly, sample, input. cbn [ph ins].
  destruct (p_sup j); try discriminate;
    (match goal with |- context [if ?b then _ else _] => destruct b end); intro H; try discriminate; injection H as _ <-; discriminate.
Qed.
Lemma loop_ins fuel : forall count w u w', ins w <> [] -> loop fuel (ack_body before) count w = (Done u, w') -> ins w' <> [].
Proof.
  induction fuel as [|f IH]; intros count w u w' N H; [discriminate|]. cbn [loop] in H. unfold bind in H.
  destruct (ack_body before count w) as [[r|e| |] w1] eqn:E; try discriminate.
  pose proof (turn_ins _ _ _ _ N E) as N1. destruct r as [k|v]; [exact (IH _ _ _ _ N1 H)|].
  injection H as _ <-. exact N1.
Qed.
Lemma wait_ends {A} (f : M A) fuel a b w x : tail_ok f -> ins w = x :: a ++ b ->
  Forall (fun i => p_sup i <> L1) b -> 16 <= length b -> S (length (a ++ b)) < fuel ->
  ends_in (length a + 16) w (bind (wait_ack before fuel) (fun _ => f) w).
Proof.
  intros T I F Hb Hf. unfold bind, wait_ack. destruct w as [s p o tr l]. cbn [ins] in I. subst l.
  destruct (suppressed a 0 fuel s p o tr x b ltac:(lia) F Hb Hf) as (X & Y & Z).
  assert (N0 : ins (World s p o tr (x :: a ++ b)) <> []) by discriminate.
  destruct (loop fuel (ack_body before) 0 (World s p o tr (x :: a ++ b))) as [[u|e| |] w1] eqn:E; cbn in X, Y; try congruence.
  - destruct (T w1 (loop_ins _ _ _ _ _ N0 E)) as (X' & Y' & Z'). split; [exact X'|split; [exact Y'|]]. rewrite Z'. exact Z.
  - repeat split; try discriminate. exact Z.
Qed.
Lemma read_tail_ok : tail_ok (
  i <- sample before ;;
  data <- of_res (match bval (p_dout i) with Some v => Ok v | None => Err EValue end) ;;
  drive (p_set_select L0) ;; release_lock ;; ret data).
Proof.
  intros w N. unfold bind. destruct (sample_some w N) as (i & E). rewrite E. destruct (bval (p_dout i)); cbn [of_res]; unfold ret, raise.
  2: cbn; repeat split; discriminate.
  unfold drive. destruct (ph w); cbn; repeat split; discriminate.
Qed.
Lemma write_tail_ok : tail_ok (drive (p_set_select L0) ;; release_lock).
Proof. intros w N. unfold bind, drive. destruct (ph w); cbn; repeat split; discriminate. Qed.

(** after the synchronisation *)
Lemma read_body_ends fuel address a b w x : ins w = x :: a ++ b ->
  Forall (fun i => p_sup i <> L1) b -> 16 <= length b -> S (length (a ++ b)) < fuel ->
  ends_in (length a + 16) w (
  (v <- of_res (assign_int (p_aw c) address) ;;
  drive (p_set_abus v) ;; drive (p_set_select L1) ;; drive (p_set_rnw L1) ;;
  be <- of_res (assign_int (p_bew c) 15) ;;
  drive (p_set_be be) ;;
  wait_ack before fuel ;;
  i <- sample before ;;
  data <- of_res (match bval (p_dout i) with Some v => Ok v | None => Err EValue end) ;;
  drive (p_set_select L0) ;; release_lock ;; ret data) w).
Proof.
  intros I F Hb Hf.
  apply bind_ends; [rewrite I; discriminate|apply brief_res|]. intros v w1 I1 _.
  apply bind_ends; [rewrite I1, I; discriminate|apply brief_drive|]. intros _ w2 I2 _.
  apply bind_ends; [rewrite I2, I1, I; discriminate|apply brief_drive|]. intros _ w3 I3 _.
  apply bind_ends; [rewrite I3, I2, I1, I; discriminate|apply brief_drive|]. intros _ w4 I4 _.
  apply bind_ends; [rewrite I4, I3, I2, I1, I; discriminate|apply brief_res|]. intros be w5 I5 _.
  apply bind_ends; [rewrite I5, I4, I3, I2, I1, I; discriminate|apply brief_drive|]. intros _ w6 I6 _.
  apply (wait_ends _ fuel a b w6 x read_tail_ok); try assumption. congruence.
Qed.
Lemma write_body_ends fuel address value a b w x : ins w = x :: a ++ b ->
  Forall (fun i => p_sup i <> L1) b -> 16 <= length b -> S (length (a ++ b)) < fuel ->
  ends_in (length a + 16) w (
  (v <- of_res (assign_int (p_aw c) address) ;;
  drive (p_set_abus v) ;; drive (p_set_select L1) ;; drive (p_set_rnw L0) ;;
  be <- of_res (assign_int (p_bew c) 15) ;;
  drive (p_set_be be) ;;
  d <- of_res (assign_int (p_dw c) value) ;;
  drive (p_set_dout d) ;;
  wait_ack before fuel ;;
  drive (p_set_select L0) ;; release_lock) w).
Proof.
  intros I F Hb Hf.
  apply bind_ends; [rewrite I; discriminate|apply brief_res|]. intros v w1 I1 _.
  apply bind_ends; [rewrite I1, I; discriminate|apply brief_drive|]. intros _ w2 I2 _.
  apply bind_ends; [rewrite I2, I1, I; discriminate|apply brief_drive|]. intros _ w3 I3 _.
  apply bind_ends; [rewrite I3, I2, I1, I; discriminate|apply brief_drive|]. intros _ w4 I4 _.
  apply bind_ends; [rewrite I4, I3, I2, I1, I; discriminate|apply brief_res|]. intros be w5 I5 _.
  apply bind_ends; [rewrite I5, I4, I3, I2, I1, I; discriminate|apply brief_drive|]. intros _ w6 I6 _.
  apply bind_ends; [rewrite I6, I5, I4, I3, I2, I1, I; discriminate|apply brief_res|]. intros d w7 I7 _.
  apply bind_ends; [rewrite I7, I6, I5, I4, I3, I2, I1, I; discriminate|apply brief_drive|]. intros _ w8 I8 _.
  apply (wait_ends _ fuel a b w8 x write_tail_ok); try assumption. congruence.
Qed.

Lemma read_ends fuel address (sync : bool) p o tr lead a b :
  length lead = (if sync then 2 else 1) ->
  Forall (fun i => p_sup i <> L1) b -> 16 <= length b -> S (length (a ++ b)) < fuel ->
  let w := World false p o tr (lead ++ a ++ b) in
  ends_in (length lead + length a + 15) w (opb_read c before fuel address sync w).
Proof.
  intros L F Hb Hf w. subst w. unfold opb_read, acquire_lock. unfold bind at 1 2, get, put. cbn [st].
  destruct sync.
  - destruct lead as [|i0 [|x [|y l]]]; try discriminate. unfold bind at 1, edge. cbn [ins app ph out trace st].
    destruct (read_body_ends fuel address a b (World true PActive o (tr ++ [(i0, o)]) (x :: a ++ b)) x eq_refl F Hb Hf) as (A & B & C).
    split; [exact A|split; [exact B|]]. etransitivity; [exact C|]. cbn [trace length]. rewrite app_length. cbn [length]. lia.
  - destruct lead as [|x [|y l]]; try discriminate. unfold bind at 1, ret. cbn [ins app ph out trace st].
    destruct (read_body_ends fuel address a b (World true p o tr (x :: a ++ b)) x eq_refl F Hb Hf) as (A & B & C).
    split; [exact A|split; [exact B|]]. etransitivity; [exact C|]. cbn [trace length]. lia.
Qed.
Lemma write_ends fuel address value (sync : bool) p o tr lead a b :
  length lead = (if sync then 2 else 1) ->
  Forall (fun i => p_sup i <> L1) b -> 16 <= length b -> S (length (a ++ b)) < fuel ->
  let w := World false p o tr (lead ++ a ++ b) in
  ends_in (length lead + length a + 15) w (opb_write c before fuel address value sync w).
Proof.
  intros L F Hb Hf w. subst w. unfold opb_write, acquire_lock. unfold bind at 1 2, get, put. cbn [st].
  destruct sync.
  - destruct lead as [|i0 [|x [|y l]]]; try discriminate. unfold bind at 1, edge. cbn [ins app ph out trace st].
    destruct (write_body_ends fuel address value a b (World true PActive o (tr ++ [(i0, o)]) (x :: a ++ b)) x eq_refl F Hb Hf) as (A & B & C).
    split; [exact A|split; [exact B|]]. etransitivity; [exact C|]. cbn [trace length]. rewrite app_length. cbn [length]. lia.
  - destruct lead as [|x [|y l]]; try discriminate. unfold bind at 1, ret. cbn [ins app ph out trace st].
    destruct (write_body_ends fuel address value a b (World true p o tr (x :: a ++ b)) x eq_refl F Hb Hf) as (A & B & C).
    split; [exact A|split; [exact B|]]. etransitivity; [exact C|]. cbn [trace length]. lia.
Qed.
End End.
