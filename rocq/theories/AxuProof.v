(** AxuProof.v -- proofs for AxuProp.v. *)
From Verif Require Import Base Async BitsLemmas CompatModel HandshakeSpec Handshake AxiModel AxiSpec AxiDataProof AxiReadProof AxiChanProof AxiRunProof AxiTopProof AxuSpec.
Local Open Scope list_scope.
Notation UW := (World (TS := unit) (TI := axi_in) (TO := ax_out)).

Section Beats.
Context (c : axi_cfg) (size q : Z).
Hypothesis (Hs : (0 < size)%Z) (Hq : (0 < q)%Z) (Hb : x_bytes c = (q * size)%Z) (Hw : Z.of_nat (x_width c) = (8 * x_bytes c)%Z).
Context (f : axi_in) (tl : list axi_in).
Hypothesis (Fb : r_beat f = true) (Fw : length (g_rdata f) = x_width c) (Fu : bval (g_rresp f) = None).

Lemma bad_beat off nr : good size q off -> Forall (fun i => r_beat i = false) nr -> forall fuel s p o tr, p <> PReadOnly ->
  length nr < fuel ->
  read_beat fuel size off (UW s p o tr (nr ++ f :: tl)) = (Exn EValue, UW s PReadOnly o (tr ++ held o nr) (f :: tl)).
Proof.
  intros G F. induction F as [|i nr Hi F IH]; intros fuel s p o tr Hp Hf; (destruct fuel as [|fu]; [cbn [length] in Hf; lia|]).
  - cbn [app held map]. rewrite app_nil_r. unfold read_beat. cbn [loop].
    assert (R : readonly (UW s p o tr (f :: tl)) = (Done tt, UW s PReadOnly o tr (f :: tl))) by (destruct p; try reflexivity; contradiction).
    destruct (good_slice c size q Hs Hb Hw off (g_rdata f) G Fw) as (v & E & _).
    unfold bind at 1. rewrite (bind_done _ _ _ _ _ R). cbn beta.
    rewrite (bind_done _ _ _ f (UW s PReadOnly o tr (f :: tl))) by reflexivity.
    unfold r_beat in Fb. rewrite Fb, E. cbn [of_res]. rewrite (bind_done _ _ _ v (UW s PReadOnly o tr (f :: tl))) by reflexivity.
    rewrite Fu. reflexivity.
  - assert (R : readonly (UW s p o tr (i :: nr ++ f :: tl)) = (Done tt, UW s PReadOnly o tr (i :: nr ++ f :: tl))) by (destruct p; try reflexivity; contradiction).
    cbn [app]. unfold read_beat. rewrite (loop_step fu _ tt _ (inl tt) (UW s PActive o (tr ++ [(i, o)]) (nr ++ f :: tl))).
    + fold (read_beat fu size off). rewrite (IH fu s PActive o (tr ++ [(i, o)]) ltac:(discriminate) ltac:(cbn [length] in Hf; lia)).
      cbn [held map]. rewrite <- app_assoc. reflexivity.
    + rewrite (bind_done _ _ _ _ _ R). cbn beta. rewrite (bind_done _ _ _ i (UW s PReadOnly o tr (i :: nr ++ f :: tl))) by reflexivity.
      unfold r_beat in Hi. rewrite Hi. reflexivity.
Qed.
Lemma good_beat off nr i l : good size q off -> Forall (fun i => r_beat i = false) nr -> r_beat i = true -> r_beat_ok c i ->
  forall fuel s p o tr, p <> PReadOnly -> length nr + S (length l) < fuel ->
  exists v, read_beat fuel size off (UW s p o tr (nr ++ i :: l)) = (Done (v, rresp_of i, g_rlast i), UW s PReadOnly o (tr ++ held o nr) (i :: l)).
Proof.
  intros G F Hi Oi fuel s p o tr Hp Hf.
  destruct (beat_spec c size q Hs Hb Hw off (nr ++ i :: l) G fuel s p o tr Hp ltac:(rewrite app_length; cbn [length]; lia)) as [p' E].
  rewrite (span_split r_beat nr i l F Hi) in E. destruct (E Oi) as (v & _ & _ & E3). exists v. exact E3.
Qed.
Lemma bad_beats b n : forall seg, length seg <= n -> Forall (fun i => r_final c i = false) seg ->
  Forall (fun i => r_beat i = true -> r_beat_ok c i) seg ->
  forall fuel k data rresp off s p o tr, good size q off -> p <> PReadOnly ->
  length seg + S (length tl) < fuel -> length seg < k ->
  loop k (rb_body c size fuel b) (data, rresp, off) (UW s p o tr (seg ++ f :: tl)) = (Exn EValue, UW s PReadOnly o (tr ++ held o seg) (f :: tl)).
Proof.
  induction n as [|n IH]; intros seg Ln Fs Fo fuel k data rresp off s p o tr G Hp Hf Hk; (destruct k as [|k]; [lia|]).
  - destruct seg; [|cbn [length] in Ln; lia]. cbn [loop]. unfold bind at 1. unfold rb_body at 1. unfold bind at 1.
    rewrite (bad_beat off [] G (Forall_nil _) fuel s p o tr Hp ltac:(cbn [length] in *; lia)). reflexivity.
  - pose proof (span_app r_beat seg) as Sa. pose proof (span_fst r_beat seg) as Sf. pose proof (fun i r => span_snd r_beat seg i r) as Ss.
    destruct (span r_beat seg) as [nr [|i r]]; cbn [fst snd] in *.
    + rewrite app_nil_r in Sa. subst nr. cbn [loop]. unfold bind at 1. unfold rb_body at 1. unfold bind at 1.
      rewrite (bad_beat off seg G Sf fuel s p o tr Hp ltac:(lia)). reflexivity.
    + specialize (Ss i r eq_refl). rewrite <- Sa in Fs, Fo. apply Forall_app in Fs, Fo. destruct Fs as [_ Fs]. destruct Fo as [_ Fo].
      inversion Fs as [|? ? Fi Fs']; subst. inversion Fo as [|? ? Oi Fo']; subst.
      rewrite app_length in Ln, Hf, Hk. cbn [length] in Ln, Hf, Hk. rewrite <- app_assoc. cbn [app].
      destruct (good_beat off nr i (r ++ f :: tl) G Sf Ss (Oi Ss) fuel s p o tr Hp ltac:(rewrite app_length; cbn [length]; lia)) as [v E].
      rewrite (loop_step k _ _ _ (inl (data ++ [v], rresp ++ [rresp_of i], next_off (x_bytes c) b size off)) (UW s PActive o ((tr ++ held o nr) ++ [(i, o)]) (r ++ f :: tl))).
      * rewrite (IH r ltac:(lia) Fs' Fo' fuel k _ _ _ s PActive o _ (good_next c size q Hs Hq Hb b off G) ltac:(discriminate) ltac:(lia) ltac:(lia)).
        rewrite held_app. cbn [held map]. rewrite <- !app_assoc. reflexivity.
      * unfold rb_body. rewrite (bind_done _ _ _ _ _ E). unfold r_final in Fi. rewrite Ss in Fi. cbn [andb] in Fi. rewrite Fi. reflexivity.
Qed.
End Beats.

Lemma undefined_read c fuel a s p o tr l pre w h seg f tl : read_ok c fuel a p l -> undefined_cycles c (ra_sync a) l pre w h seg f tl ->
  let req := ax_request c o (ra_address a) (ra_length a) (ra_burst a) (size_or (x_bytes c) (ra_size a)) in
  let o' := ax_set_valid L0 req in
  let after := UW s PReadOnly o' (tr ++ held o pre ++ held req (w ++ [h]) ++ held o' seg) (f :: tl) in
  axi_read_rresp c fuel a (UW s p o tr l) = (Exn EValue, after) /\ axi_read c fuel a (UW s p o tr l) = (Exn EValue, after).
Proof.
  intros [Hb Hl Ha Hp Hf] [El Ep Fw Fh Fs Fo Fb Fd Fu] req o' after.
  enough (E : axi_read_raw c fuel a (UW s p o tr l) = (Exn EValue, after)).
  { split; [unfold axi_read_rresp|unfold axi_read]; unfold bind; rewrite E; reflexivity. }
  destruct (legal_facts c _ _ _ _ Hb Hl) as (_ & Ps & _ & _ & q & Hq & Eq). pose proof (pow2_pos' _ Ps) as Hs.
  pose proof (read_head c fuel a _ s p o tr l Hb Hl Ha eq_refl Hp Hf) as H. cbn zeta in H.
  assert (E1 : (if ra_sync a then firstn 1 l else []) = pre /\ (if ra_sync a then skipn 1 l else l) = w ++ h :: seg ++ f :: tl).
  { subst l. destruct (ra_sync a).
    - destruct pre as [|x [|y pre]]; try discriminate Ep. split; reflexivity.
    - destruct pre; try discriminate Ep. split; reflexivity. }
  destruct E1 as [E1 E2]. rewrite E1, E2 in H. rewrite (span_split ar_accepts w h _ Fw Fh) in H. rewrite H.
  assert (Lr : length seg + S (length tl) < fuel).
  { rewrite El in Hf. rewrite !app_length in Hf. cbn [length] in Hf. rewrite app_length in Hf. cbn [length] in Hf. lia. }
  assert (G : good (size_or (x_bytes c) (ra_size a)) q (ra_address a mod x_bytes c / size_or (x_bytes c) (ra_size a) * size_or (x_bytes c) (ra_size a))).
  { eexists. split; [|reflexivity]. exact (blk_range _ _ _ (ra_address a) Hs Hq Eq). }
  unfold bind. change (read_beats c fuel (ra_burst a)) with (fun size off => loop fuel (rb_body c size fuel (ra_burst a)) ([], [], off)). cbn beta.
  rewrite (bad_beats c _ q Hs Hq Eq (proj2 (proj2 Hb)) f tl Fb Fd Fu (ra_burst a) (length seg) seg (le_n _) Fs Fo) by (try assumption; try discriminate; lia).
  unfold after. rewrite <- !app_assoc. reflexivity.
Qed.
