(** AxuRefProof.v -- lemmas for the refutations of C131. *)
From Verif Require Import Base Async BitsLemmas CompatModel HandshakeSpec AxiModel AxiSpec AxiTopProof AxiProp AxuSpec AxuProof.
Local Open Scope Z_scope.

Section Full.
Context (bus : Z).
Hypothesis Hbus : 0 < bus.
Lemma mult x : x mod bus = 0 -> x / bus * bus = x.
Proof. intros H. pose proof (Z.div_mod x bus ltac:(lia)). lia. Qed.

Lemma incr_address i n x : x mod bus = 0 -> beat_address INCR bus n x i = x + i * bus.
Proof. intros H. unfold beat_address, aligned. rewrite mult by assumption. destruct (Z.eqb_spec i 0); lia. Qed.

Lemma shift_mod x i : x mod bus = 0 -> (x + i * bus) mod bus = 0.
Proof. intros H. rewrite Z.mod_add by lia. exact H. Qed.

Lemma lanes_full x k : x mod bus = 0 -> (lanes bus bus x k <-> 0 <= k < bus).
Proof. intros H. unfold lanes, aligned. rewrite mult, H by assumption. lia. Qed.

End Full.

Section Shift.
Context (bus : Z) (mem : Z -> bits) (a A : Z).
Hypothesis Hbus : 0 < bus.
Hypothesis Ha : a mod bus = 0.
Hypothesis HA : A mod bus = 0.
Definition shifted (x : Z) : bits := mem (x - a + A).

(** a beat of another address, seen as a beat of [a] in the shifted memory *)
Lemma shift_beat n n' i d : read_beat_ok bus INCR bus n' A mem i d -> read_beat_ok bus INCR bus n a shifted i d.
Proof.
  intros [L H]. cbn zeta in H. split; [exact L|]. cbn zeta. rewrite (incr_address bus Hbus) in H |- * by assumption.
  intros k Hk. rewrite (lanes_full bus Hbus) in Hk by now apply shift_mod.
  rewrite H by (rewrite (lanes_full bus Hbus) by (now apply shift_mod); exact Hk).
  rewrite !(mult bus Hbus) by now apply shift_mod. unfold shifted. f_equal. lia.
Qed.

Lemma shift_words n : incr_words shifted a bus n = incr_words mem A bus n.
Proof.
  unfold incr_words. apply map_ext. intros j. rewrite Ha, HA. unfold cells. apply flat_map_ext. intros k.
  unfold shifted. f_equal. lia.
Qed.
End Shift.

(** the later beats of an INCR burst, as a burst of their own *)
Lemma later_beat bus n n' a mem k i d : 0 < bus -> 0 < k -> 0 <= i -> read_beat_ok bus INCR bus n a mem (k + i) d ->
  read_beat_ok bus INCR bus n' (aligned a bus + k * bus) mem i d.
Proof.
  intros Hb Hk Hi [L H]. cbn zeta in H. split; [exact L|]. cbn zeta.
  rewrite (incr_address bus Hb).
  - unfold beat_address in H. destruct (Z.eqb_spec (k + i) 0); [lia|].
    replace (aligned a bus + k * bus + i * bus) with (aligned a bus + (k + i) * bus) by lia. exact H.
  - unfold aligned. rewrite Z.mod_add by lia. apply Z.mod_mul. lia.
Qed.

Lemma leftover_thm c fuel a1 s p o tr l pre w h seg f tl a2 w2 h2 seg2 f2 tl2 mem :
  x_full c = true -> ra_burst a1 = INCR -> ra_size a1 = None -> ra_burst a2 = INCR -> ra_size a2 = None ->
  ra_address a2 mod x_bytes c = 0 ->
  read_ok c fuel a1 p l -> undefined_cycles c (ra_sync a1) l pre w h seg f tl ->
  read_ok c fuel a2 PReadOnly (f :: tl) -> read_cycles c true (f :: tl) [f] w2 h2 seg2 f2 tl2 ->
  let b1 := filter r_beat (seg ++ f :: w2 ++ h2 :: seg2 ++ [f2]) in
  let taken := filter r_beat (seg2 ++ [f2]) in
  slave_reads c (ax_request c o (ra_address a1) (ra_length a1) INCR (x_bytes c)) (fun _ => mem) b1 ->
  Z.of_nat (length taken) = ra_length a2 -> first_bad (map rresp_of taken) = None ->
  let r1 := axi_read c fuel a1 (AW s p o tr l) in
  fst r1 = Exn EValue /\
  fst (axi_read c fuel a2 (snd r1)) =
    Done (read_words INCR (fun _ => mem)
            (aligned (ra_address a1) (x_bytes c) + (ra_length a1 - ra_length a2) * x_bytes c) (x_bytes c) (Z.to_nat (ra_length a2))).
Proof.
  intros Hx B1 S1 B2 S2 Al H1 U H2 C2 b1 taken SL Len Bad r1.
  destruct (undefined_read c fuel a1 s p o tr l pre w h seg f tl H1 U) as [_ E1]. cbn zeta in E1.
  unfold r1. rewrite E1. cbn [fst snd]. split; [reflexivity|].
  assert (Sy : ra_sync a2 = true) by (destruct (ra_sync a2) eqn:E; [reflexivity|]; exfalso; apply (ro_start _ _ _ _ _ H2 E); reflexivity).
  rewrite <- Sy in C2.
  destruct (ro_bus _ _ _ _ _ H1) as (Pw & P128 & _).
  assert (Hpos : 0 < x_bytes c) by (destruct Pw as (e & He & ->); apply Z.pow_pos_nonneg; lia).
  assert (N1 : 1 <= ra_length a1 <= 256).
  { destruct (ro_legal _ _ _ _ _ H1) as [_ [HL _]]. rewrite B1 in HL. cbn in HL. lia. }
  assert (N2 : 1 <= ra_length a2 <= 256).
  { destruct (ro_legal _ _ _ _ _ H2) as [_ [HL _]]. rewrite B2 in HL. cbn in HL. lia. }
  unfold slave_reads in SL. rewrite decode_request in SL; [|exact (ro_addr _ _ _ _ _ H1)|exact N1|exact Pw|exact P128|now left].
  cbn [q_beats q_burst q_size q_address] in SL. destruct SL as (Lb & L8 & SB).
  set (before := filter r_beat (seg ++ f :: w2 ++ [h2])).
  assert (Eb : b1 = before ++ taken).
  { unfold b1, before, taken. rewrite <- filter_app. f_equal. rewrite <- app_assoc. f_equal. cbn [app]. f_equal.
    rewrite <- app_assoc. reflexivity. }
  assert (Kb : 0 < Z.of_nat (length before)).
  { unfold before. rewrite filter_app. cbn [filter]. rewrite (uc_beat _ _ _ _ _ _ _ _ _ U), app_length. cbn [length]. lia. }
  assert (Kn : Z.of_nat (length before) = ra_length a1 - ra_length a2).
  { rewrite Eb, app_length in Lb. lia. }
  set (A := aligned (ra_address a1) (x_bytes c) + (ra_length a1 - ra_length a2) * x_bytes c).
  assert (HA : A mod x_bytes c = 0).
  { unfold A, aligned. rewrite Z.mod_add by lia. apply Z.mod_mul. lia. }
  pose proof (C53_read c fuel a2 s PReadOnly) as T.
  match type of E1 with _ = (_, ?v) => match v with AW ?s' ?p' ?o' ?tr' ?l' =>
    specialize (T o' tr' l' [f] w2 h2 seg2 f2 tl2 (fun _ => shifted mem (ra_address a2) A) H2 C2 Hx) end end.
  rewrite B2, S2 in T. cbn [size_or] in T.
  specialize (T ltac:(discriminate) ltac:(reflexivity)). cbn zeta in T. fold taken in T.
  match type of T with ?P -> _ => assert (SR : P) end.
  { unfold slave_reads. rewrite decode_request; [|exact (ro_addr _ _ _ _ _ H2)|exact N2|exact Pw|exact P128|now left].
    cbn [q_beats q_burst q_size q_address]. split; [exact Len|]. split; [intros j x; apply (L8 0%nat)|].
    intros i b Hi. apply (shift_beat (x_bytes c) mem (ra_address a2) A Hpos Al HA (ra_length a2) (ra_length a2)).
    unfold A. rewrite <- Kn. apply (later_beat (x_bytes c) (ra_length a1)); [exact Hpos|exact Kb|lia|].
    rewrite <- Nat2Z.inj_add. eapply SB. rewrite Eb, nth_error_app2 by lia.
    replace (length before + i - length before)%nat with i by lia. exact Hi. }
  rewrite (proj2 (T SR) Bad).
  f_equal. unfold read_words. apply shift_words; assumption.
Qed.
