(** AxiRunProof.v -- AXI reads: the address handshake, the beats, the result. *)
From Verif Require Import Base Async BitsLemmas CompatModel CompatProof PktModel HandshakeSpec Handshake AxiModel AxiSpec AxiDataProof AxiReadProof AxiChanProof.
Local Open Scope list_scope.

Section ReadRun.
Context (c : axi_cfg).
Notation W := (World (TS := unit) (TI := axi_in) (TO := ax_out)).
Context (size q : Z).
Hypothesis (Hs : (0 < size)%Z) (Hq : (0 < q)%Z) (Hb : x_bytes c = (q * size)%Z) (Hw : Z.of_nat (x_width c) = (8 * x_bytes c)%Z).

Definition good (off : Z) : Prop := exists k, (0 <= k < q)%Z /\ off = (k * size)%Z.
Lemma good_next b off : good off -> good (next_off (x_bytes c) b size off).
Proof.
  intros (k & Hk & ->). unfold next_off.
  assert (G : good ((k * size + size) mod x_bytes c)%Z).
  { exists ((k + 1) mod q)%Z. split; [apply Z.mod_pos_bound, Hq|].
    replace (k * size + size)%Z with ((k + 1) * size)%Z by lia. rewrite Hb. apply Z.mul_mod_distr_r; lia. }
  destruct b; try exact G. exists k. auto.
Qed.
Lemma good_slice off (w : bits) : good off -> length w = x_width c ->
  exists v, shift_and_mask w size off = Ok v /\ Z.of_nat (length v) = (8 * size)%Z.
Proof.
  intros (k & Hk & ->) Hl. destruct (shift_and_mask_spec w size (k * size) Hs ltac:(nia)) as (v & E & L & _).
  - rewrite Hl, Hw, Hb. nia.
  - exists v. auto.
Qed.


Lemma beat_spec off l : good off -> forall fuel s p o tr, p <> PReadOnly -> length l < fuel -> exists p',
  match span r_beat l with
  | (_, []) => read_beat fuel size off (W s p o tr l) = (Susp, W s p' o (tr ++ held o l) [])
  | (nr, i :: r) => r_beat_ok c i -> exists v, shift_and_mask (g_rdata i) size off = Ok v /\ Z.of_nat (length v) = (8 * size)%Z /\
      read_beat fuel size off (W s p o tr l) = (Done (v, rresp_of i, g_rlast i), W s PReadOnly o (tr ++ held o nr) (i :: r))
  end.
Proof.
  intro G. induction l as [|i l IH]; intros fuel s p o tr Hp Hf; (destruct fuel as [|f]; [cbn [length] in Hf; lia|]).
  - exists p. cbn [span held map]. rewrite app_nil_r. unfold read_beat. apply loop_susp. apply bind_susp.
    unfold readonly. cbn [ph ins]. destruct p; try reflexivity. contradiction.
  - assert (R : readonly (W s p o tr (i :: l)) = (Done tt, W s PReadOnly o tr (i :: l))) by (destruct p; try reflexivity; contradiction).
    cbn [span]. destruct (r_beat i) eqn:K.
    + exists p. intros [H1 H2]. destruct (good_slice off (g_rdata i) G H1) as (v & E & L). exists v. split; [exact E|]. split; [exact L|].
      unfold read_beat. rewrite (loop_step f _ tt _ (inr (v, rresp_of i, g_rlast i)) (W s PReadOnly o tr (i :: l))).
      * cbn [held map]. rewrite app_nil_r. reflexivity.
      * rewrite (bind_done _ _ _ _ _ R). cbn beta. rewrite (bind_done _ _ _ i (W s PReadOnly o tr (i :: l))) by reflexivity.
        unfold r_beat in K. rewrite K, E. cbn [of_res]. rewrite (bind_done _ _ _ v (W s PReadOnly o tr (i :: l))) by reflexivity.
        unfold rresp_of. destruct (bval (g_rresp i)); [reflexivity|contradiction].
    + destruct (IH f s PActive o (tr ++ [(i, o)]) ltac:(discriminate) ltac:(cbn [length] in Hf; lia)) as [p' E].
      exists p'. assert (St : read_beat (S f) size off (W s p o tr (i :: l)) = read_beat f size off (W s PActive o (tr ++ [(i, o)]) l)).
      { unfold read_beat. rewrite (loop_step f _ tt _ (inl tt) (W s PActive o (tr ++ [(i, o)]) l)); [reflexivity|].
        rewrite (bind_done _ _ _ _ _ R). cbn beta. rewrite (bind_done _ _ _ i (W s PReadOnly o tr (i :: l))) by reflexivity.
        unfold r_beat in K. rewrite K. reflexivity. }
      rewrite St. destruct (span r_beat l) as [nr [|j r]] eqn:Es.
      * rewrite E. cbn [held map]. rewrite <- app_assoc. reflexivity.
      * intro H. destruct (E H) as (v & E1 & E2 & E3). exists v. split; [exact E1|]. split; [exact E2|]. rewrite E3. cbn [held map]. rewrite <- app_assoc. reflexivity.
Qed.

(** the cycles up to the first beat contain no final beat *)
Lemma span_final l : match span r_beat l with
  | (_, []) => span (r_final c) l = (l, []) /\ filter r_beat l = []
  | (nr, i :: r) => filter r_beat nr = [] /\
      (if r_final c i then span (r_final c) l = (nr, i :: r)
       else span (r_final c) l = (nr ++ i :: fst (span (r_final c) r), snd (span (r_final c) r)))
  end.
Proof.
  induction l as [|i l IH]; [split; reflexivity|]. cbn [span]. destruct (r_beat i) eqn:K.
  - split; [reflexivity|]. cbn [app]. destruct (r_final c i); [reflexivity|]. destruct (span (r_final c) l); reflexivity.
  - assert (F : r_final c i = false) by (unfold r_final; rewrite K; reflexivity). rewrite F.
    destruct (span r_beat l) as [nr [|j r]].
    + destruct IH as [-> E]. split; [reflexivity|]. cbn [filter]. rewrite K. exact E.
    + destruct IH as [E1 E2]. split; [cbn [filter]; rewrite K; exact E1|]. destruct (r_final c j); rewrite E2; reflexivity.
Qed.

Definition rb_body (fuel : nat) (b : burst) := fun s : list bits * list Z * Z =>
    let '(data, rresp, off) := s in
    x <- read_beat fuel size off ;;
    let '(w, r, rlast) := x in
    let off := match b with FIXED => off | _ => ((off + size) mod x_bytes c)%Z end in
    if negb (x_full c) || is1 rlast then ret (inr (data ++ [w], rresp ++ [r])) else edge ;; ret (inl (data ++ [w], rresp ++ [r], off)).

Lemma beats_spec b n : forall l fuel f data rresp off s p o tr, length l <= n -> good off -> p <> PReadOnly -> length l < fuel -> length l < f -> exists p',
  match span (r_final c) l with
  | (seg, []) => Forall (fun i => r_beat i = true -> r_beat_ok c i) seg -> loop f (rb_body fuel b) (data, rresp, off) (W s p o tr l) = (Susp, W s p' o (tr ++ held o l) [])
  | (seg, i :: tl) => Forall (fun i => r_beat i = true -> r_beat_ok c i) (seg ++ [i]) ->
      exists ws, extract (x_bytes c) b size off (map g_rdata (filter r_beat (seg ++ [i]))) = Ok ws /\
        Forall (fun w : bits => Z.of_nat (length w) = (8 * size)%Z) ws /\
        loop f (rb_body fuel b) (data, rresp, off) (W s p o tr l) =
          (Done (data ++ ws, rresp ++ map rresp_of (filter r_beat (seg ++ [i]))), W s PReadOnly o (tr ++ held o seg) (i :: tl))
  end.
Proof.
  induction n as [|n IH]; intros l fuel f data rresp off s p o tr Hn G Hp Hf1 Hf2.
  - destruct l; [|cbn [length] in Hn; lia]. exists p. cbn [span]. intros _. cbn [held map]. rewrite app_nil_r.
    destruct f as [|f]; [cbn [length] in Hf2; lia|]. apply loop_susp. apply bind_susp. destruct (beat_spec off [] G fuel s p o tr Hp Hf1) as [p' E]. cbn [span held map] in E.
    rewrite app_nil_r in E. destruct fuel as [|fu]; [cbn [length] in Hf1; lia|]. unfold read_beat. apply loop_susp. apply bind_susp.
    unfold readonly. cbn [ph ins]. destruct p; try reflexivity. contradiction.
  - destruct f as [|f]; [lia|]. destruct (beat_spec off l G fuel s p o tr Hp Hf1) as [p0 EB]. pose proof (span_final l) as SF.
    pose proof (span_app r_beat l) as Sp.
    pose proof (fun i r => span_snd r_beat l i r) as Ss.
    destruct (span r_beat l) as [nr [|i r]] eqn:Es.
    + exists p0. destruct SF as [-> _]. intros _. apply loop_susp. unfold rb_body. apply bind_susp. exact EB.
    + cbn [fst snd] in *. specialize (Ss i r eq_refl). destruct SF as [Fn SF].
      assert (Ll : length l = length nr + S (length r)) by (rewrite <- Sp, app_length; reflexivity).
      assert (Ff : forall x, filter r_beat (nr ++ i :: x) = i :: filter r_beat x) by (intro x; rewrite filter_app, Fn; cbn [filter app]; rewrite Ss; reflexivity).
      destruct (r_final c i) eqn:Fi.
      * exists p0. rewrite SF. intro Ok. rewrite Ff. cbn [filter map extract].
        assert (Oki : r_beat_ok c i) by (rewrite Forall_app in Ok; destruct Ok as [_ Ok]; inversion Ok; auto).
        destruct (EB Oki) as (v & E1 & E2 & E3). rewrite E1. cbn [rbind]. exists [v]. split; [reflexivity|]. split; [repeat constructor; exact E2|].
        apply (loop_step f _ _ _ (inr (data ++ [v], rresp ++ [rresp_of i]))). unfold rb_body. rewrite (bind_done _ _ _ _ _ E3).
        unfold r_final in Fi. rewrite Ss in Fi. cbn [andb] in Fi. rewrite Fi. reflexivity.
      * destruct (span (r_final c) r) as [seg' rest'] eqn:Er. cbn [fst snd] in SF.
        assert (GO : r_beat_ok c i -> exists v, shift_and_mask (g_rdata i) size off = Ok v /\ Z.of_nat (length v) = (8 * size)%Z /\
          forall k, loop (S f) (rb_body fuel b) (data, rresp, off) (W s p o tr l) = k <->
           loop f (rb_body fuel b)
             (data ++ [v], rresp ++ [rresp_of i], next_off (x_bytes c) b size off) (W s PActive o ((tr ++ held o nr) ++ [(i, o)]) r) = k).
        { intro Oki. destruct (EB Oki) as (v & E1 & E2 & E3). exists v. split; [exact E1|]. split; [exact E2|]. intro k.
          rewrite (loop_step f _ _ _ (inl (data ++ [v], rresp ++ [rresp_of i], next_off (x_bytes c) b size off)) (W s PActive o ((tr ++ held o nr) ++ [(i, o)]) r)); [reflexivity|].
          unfold rb_body. rewrite (bind_done _ _ _ _ _ E3). unfold r_final in Fi. rewrite Ss in Fi. cbn [andb] in Fi. rewrite Fi. reflexivity. }
        assert (Ec : forall x, (tr ++ held o nr) ++ [(i, o)] ++ held o x = tr ++ held o (nr ++ i :: x)).
        { intro x. rewrite held_app, !app_assoc. cbn [held map]. rewrite <- !app_assoc. reflexivity. }
        destruct (IH r fuel f (data ++ [match shift_and_mask (g_rdata i) size off with Ok v => v | _ => [] end]) (rresp ++ [rresp_of i]) (next_off (x_bytes c) b size off) s PActive o ((tr ++ held o nr) ++ [(i, o)]) ltac:(lia) (good_next b off G) ltac:(discriminate) ltac:(lia) ltac:(lia)) as [p' E].
        exists p'. rewrite SF. rewrite Er in E. destruct rest' as [|j tl].
        -- intro Ok. rewrite Forall_app in Ok. destruct Ok as [_ Ok]. inversion Ok as [|? ? Oi Or]; subst.
           destruct (GO (Oi Ss)) as (v & E1 & _ & E3). rewrite E1 in E. apply E3. rewrite (E Or), <- app_assoc, Ec. reflexivity.
        -- intro Ok. rewrite <- app_assoc in Ok. cbn [app] in Ok. rewrite Forall_app in Ok. destruct Ok as [_ Ok]. inversion Ok as [|? ? Oi Or]; subst.
           destruct (GO (Oi Ss)) as (v & E1 & E2 & E3). rewrite E1 in E. destruct (E Or) as (ws & X1 & X2 & X3).
           rewrite <- app_assoc. cbn [app]. rewrite Ff. cbn [map extract]. rewrite E1. cbn [rbind]. rewrite X1. cbn [rbind].
           exists (v :: ws). split; [reflexivity|]. split; [constructor; assumption|]. apply E3. rewrite X3. rewrite <- !app_assoc. cbn [app].
           rewrite <- (Ec seg'), <- app_assoc. reflexivity.
Qed.

Lemma realigned_ok a b (ws : list bits) : Forall (fun w : bits => Z.of_nat (length w) = (8 * size)%Z) ws ->
  exists words, realigned a b size ws = Ok words /\ length words = length ws.
Proof.
  intro F. unfold realigned. destruct (Z.eqb_spec (a mod size) 0) as [E|E]; [exists ws; auto|].
  pose proof (Z.mod_pos_bound a size Hs) as R.
  assert (G : exists words, realign_data ws (Z.to_nat (size * 8)) (Z.to_nat (a mod size * 8)) = Ok words /\ length words = length ws).
  { rewrite realign_spec; [|lia|lia|].
    - eexists. split; [reflexivity|]. rewrite map_length, seq_length. reflexivity.
    - eapply Forall_impl; [|exact F]. cbn beta. intros w Hl. lia. }
  destruct b; try exact G.
  clear G. induction F as [|w ws Hl F IH]; [exists []; auto|]. destruct IH as (words & E1 & E2).
    cbn [map sequence fold_right]. fold (sequence (map (fun w => binary_slice w 0 (size * 8 - a mod size * 8 - 1)) ws)). rewrite E1.
    rewrite binary_slice_in by lia. cbn [rbind].
    eexists. split; [reflexivity|]. cbn [length]. congruence.
Qed.
End ReadRun.

Section ReadAll.
Context (c : axi_cfg).
Notation W := (World (TS := unit) (TI := axi_in) (TO := ax_out)).

Lemma x_when_assign {B} (b : bool) n z (set : bits -> ax_out -> ax_out) (k : unit -> M unit axi_in ax_out B) s p o tr l :
  p <> PReadOnly -> fits_bits n z ->
  bind (x_when b (assign n z set)) k (W s p o tr l) = k tt (W s p (if b then set (zbits n z) o else o) tr l).
Proof.
  intros Hp Hz. destruct b; cbn [x_when]; [|reflexivity]. unfold assign. rewrite (assign_fits_ok n z Hz). cbn [of_res].
  rewrite (bind_done _ _ _ tt (W s p (set (zbits n z) o) tr l)); [reflexivity|].
  rewrite (bind_done _ _ _ (zbits n z) (W s p o tr l)) by reflexivity. apply drive_ok, Hp.
Qed.

Definition read_tail (a : raccess) (size : Z) (dr : list bits * list Z) : M unit axi_in ax_out (list bits * list Z) :=
  edge ;;
  let '(data, rresp) := dr in
  (if (Z.of_nat (length data) =? ra_length a)%Z then ret tt else raise EAXILength) ;;
  words <- of_res (realigned (ra_address a) (ra_burst a) size data) ;;
  ret (words, rresp).

Lemma read_head fuel a size s p o tr l :
  axi_bus c -> legal_access (x_bytes c) (ra_address a) (ra_length a) (ra_size a) (ra_burst a) ->
  fits_bits (x_awidth c) (ra_address a) -> size = size_or (x_bytes c) (ra_size a) ->
  may_start (ra_sync a) p -> length l < fuel ->
  let req := ax_request c o (ra_address a) (ra_length a) (ra_burst a) size in
  let pre := if ra_sync a then firstn 1 l else [] in
  let l1 := if ra_sync a then skipn 1 l else l in
  match span ar_accepts l1 with
  | (_, []) => exists p' o', axi_read_raw c fuel a (W s p o tr l) = (Susp, W s p' o' (tr ++ held o pre ++ held req l1) [])
  | (w, h :: rest) =>
      axi_read_raw c fuel a (W s p o tr l) =
      (bind (read_beats c fuel (ra_burst a) size (ra_address a mod x_bytes c / size * size)) (read_tail a size))
        (W s PActive (ax_set_valid L0 req) (tr ++ held o pre ++ held req (w ++ [h])) rest)
  end.
Proof.
  intros Hb Hl Ha Es Hp Hf req pre l1.
  destruct (legal_facts c _ _ _ _ Hb Hl) as (Ec & Ps & Ls & Hn & _). rewrite <- Es in *.
  unfold axi_read_raw. rewrite Ec. cbn [of_res].
  match goal with |- context [bind (ret ?x) ?f ?w] => change (bind (ret x) f w) with (f x w) end. cbn beta zeta.
  set (K := fun _ : unit => assign (x_awidth c) (ra_address a) ax_set_addr ;; _).
  assert (G : forall p1 tr1 l2, p1 <> PReadOnly -> length l2 < fuel ->
    match span ar_accepts l2 with
    | (_, []) => exists p', K tt (W s p1 o tr1 l2) = (Susp, W s p' req (tr1 ++ held req l2) [])
    | (w, h :: rest) => K tt (W s p1 o tr1 l2) =
        (bind (read_beats c fuel (ra_burst a) size (ra_address a mod x_bytes c / size * size)) (read_tail a size))
          (W s PActive (ax_set_valid L0 req) (tr1 ++ held req (w ++ [h])) rest)
    end).
  { intros p1 tr1 l2 Hp1 Hl2. unfold K. clear K.
    rewrite (x_when_assign true (x_awidth c) (ra_address a) ax_set_addr) by assumption.
    rewrite (bind_done _ _ _ tt _ (drive_ok _ _ _ _ _ _ Hp1)).
    rewrite (x_when_assign (x_full c) 8 (ra_length a - 1) ax_set_len) by (try assumption; unfold fits_bits; change (2 ^ Z.of_nat 8)%Z with 256%Z; lia).
    rewrite bit_length_pow2 by exact Ps.
    rewrite (x_when_assign (x_full c) 3 (Z.log2 size) ax_set_size).
    2: exact Hp1.
    2: { unfold fits_bits. change (2 ^ Z.of_nat 3)%Z with 8%Z. split; [apply Z.log2_nonneg|]. pose proof (Z.log2_le_mono _ _ Ls) as L. change (Z.log2 128) with 7%Z in L. lia. }
    rewrite (x_when_assign (x_full c) 2 (burst_value (ra_burst a)) ax_set_burst) by (try assumption; destruct (ra_burst a); unfold fits_bits; cbn; lia).
    set (o' := if x_full c then _ else _). assert (Eo : o' = req) by (unfold o', req, ax_request; destruct (x_full c), (ra_burst a); reflexivity).
    rewrite Eo. destruct (until1_edge g_arready l2 fuel s p1 req tr1 Hp1 Hl2) as [p' E].
    match goal with |- context [(until1 g_arready fuel ;; ?k)] => set (rest_m := k) end.
    assert (R : (until1 g_arready fuel ;; rest_m) (W s p1 req tr1 l2) = ((until1 g_arready fuel ;; edge) ;; (drive (ax_set_valid L0) ;; (dr <- read_beats c fuel (ra_burst a) size (ra_address a mod x_bytes c / size * size) ;; read_tail a size dr))) (W s p1 req tr1 l2)).
    { rewrite bind_assoc. reflexivity. }
    rewrite R. clear R rest_m. unfold k1 in E. fold ar_accepts in E. change (fun i => is1 (g_arready i)) with ar_accepts in E.
    destruct (span ar_accepts l2) as [w [|h rest]].
    - exists p'. apply bind_susp. exact E.
    - rewrite (bind_done _ _ _ _ _ E). rewrite (bind_done _ _ _ tt (W s PActive (ax_set_valid L0 req) (tr1 ++ held req (w ++ [h])) rest)) by reflexivity. reflexivity. }
  unfold pre, l1. destruct (ra_sync a); cbn [x_when].
  - destruct l as [|i l].
    + cbn [skipn span firstn held map]. exists p, o. rewrite !app_nil_r. apply bind_susp. reflexivity.
    + rewrite (bind_done _ _ _ tt (W s PActive o (tr ++ [(i, o)]) l)) by reflexivity. cbn [skipn firstn].
      specialize (G PActive (tr ++ [(i, o)]) l ltac:(discriminate) ltac:(cbn [length] in Hf; lia)).
      destruct (span ar_accepts l) as [w [|h rest]].
      * destruct G as [p' G]. exists p', req. rewrite G. cbn [held map]. rewrite <- app_assoc. reflexivity.
      * rewrite G. cbn [held map]. rewrite <- app_assoc. reflexivity.
  - match goal with |- context [bind (ret ?x) ?f ?w] => change (bind (ret x) f w) with (f x w) end. cbn [held map app].
    specialize (G p tr l (Hp eq_refl) Hf). destruct (span ar_accepts l) as [w [|h rest]].
    + destruct G as [p' G]. exists p', req. exact G.
    + exact G.
Qed.

(** the whole read: address handshake, beats, length check, words *)
Lemma read_run_spec fuel a size s p o tr l :
  axi_bus c -> legal_access (x_bytes c) (ra_address a) (ra_length a) (ra_size a) (ra_burst a) ->
  fits_bits (x_awidth c) (ra_address a) -> size = size_or (x_bytes c) (ra_size a) ->
  may_start (ra_sync a) p -> length l < fuel ->
  let req := ax_request c o (ra_address a) (ra_length a) (ra_burst a) size in
  let pre := if ra_sync a then firstn 1 l else [] in
  let l1 := if ra_sync a then skipn 1 l else l in
  match span ar_accepts l1 with
  | (_, []) => exists p' o', axi_read_raw c fuel a (W s p o tr l) = (Susp, W s p' o' (tr ++ held o pre ++ held req l1) [])
  | (w, h :: rest) =>
      let o' := ax_set_valid L0 req in
      let tr' := tr ++ held o pre ++ held req (w ++ [h]) in
      match span (r_final c) rest with
      | (seg, []) => Forall (fun i => r_beat i = true -> r_beat_ok c i) seg ->
          exists p', axi_read_raw c fuel a (W s p o tr l) = (Susp, W s p' o' (tr' ++ held o' rest) [])
      | (seg, i :: tl) => Forall (fun i => r_beat i = true -> r_beat_ok c i) (seg ++ [i]) ->
          let bs := filter r_beat (seg ++ [i]) in
          exists ws words, extract (x_bytes c) (ra_burst a) size (ra_address a mod x_bytes c / size * size) (map g_rdata bs) = Ok ws /\
            realigned (ra_address a) (ra_burst a) size ws = Ok words /\ length words = length bs /\
            axi_read_raw c fuel a (W s p o tr l) =
            (if (Z.of_nat (length bs) =? ra_length a)%Z then Done (words, map rresp_of bs) else Exn EAXILength,
             W s PActive o' (tr' ++ held o' (seg ++ [i])) tl)
      end
  end.
Proof.
  intros Hb Hl Ha Es Hp Hf req pre l1. pose proof (read_head fuel a size s p o tr l Hb Hl Ha Es Hp Hf) as H. cbn zeta in H.
  fold req in H. fold pre in H. fold l1 in H.
  destruct (legal_facts c _ _ _ _ Hb Hl) as (_ & Ps & _ & _ & q & Hq & Eq). rewrite <- Es in *. pose proof (pow2_pos' _ Ps) as Hs.
  destruct (span ar_accepts l1) as [w [|h rest]] eqn:Sl; [exact H|]. cbn zeta. set (o' := ax_set_valid L0 req) in *.
  set (tr' := tr ++ held o pre ++ held req (w ++ [h])) in *.
  assert (Lr : length rest < fuel).
  { pose proof (span_length ar_accepts l1) as L. rewrite Sl in L. cbn [fst snd length] in L.
    assert (length l1 <= length l) by (unfold l1; destruct (ra_sync a); [rewrite skipn_length|]; lia). lia. }
  assert (G : good size q (ra_address a mod x_bytes c / size * size)).
  { eexists. split; [|reflexivity]. exact (blk_range _ _ _ (ra_address a) Hs Hq Eq). }
  destruct (beats_spec c size q Hs Hq Eq (proj2 (proj2 Hb)) (ra_burst a) (length rest) rest fuel fuel [] [] _ s PActive o' tr' ltac:(lia) G ltac:(discriminate) Lr Lr) as [p' E].
  change (loop fuel (rb_body c size fuel (ra_burst a)) ([], [], (ra_address a mod x_bytes c / size * size)%Z))
    with (read_beats c fuel (ra_burst a) size (ra_address a mod x_bytes c / size * size)) in E.
  rewrite H. destruct (span (r_final c) rest) as [seg [|i tl]].
  - intro Ok. exists p'. apply bind_susp. exact (E Ok).
  - intro Ok. destruct (E Ok) as (ws & E1 & E2 & E3). destruct (realigned_ok c size q Hs Hq Eq (proj2 (proj2 Hb)) (ra_address a) (ra_burst a) ws E2) as (words & E4 & E5).
    set (bs := filter r_beat (seg ++ [i])) in *.
    assert (Lw : length ws = length bs).
    { clear - E1. rewrite <- (map_length g_rdata bs). revert E1. generalize (ra_address a mod x_bytes c / size * size)%Z as off. generalize (map g_rdata bs) as rs. intros rs.
      revert ws. induction rs as [|x rs IH]; intros ws off E; cbn [extract] in E.
      - inversion E. reflexivity.
      - destruct (shift_and_mask x size off) as [v|]; [|discriminate]. cbn [rbind] in E.
        destruct (extract _ _ _ _ rs) as [vs|] eqn:Ev; [|discriminate]. cbn [rbind] in E. inversion E. cbn [length]. f_equal. exact (IH _ _ Ev). }
    exists ws, words. split; [exact E1|]. split; [exact E4|]. split; [congruence|]. rewrite (bind_done _ _ _ _ _ E3). cbn [app].
    unfold read_tail. rewrite (bind_done _ _ _ tt (W s PActive o' (tr' ++ held o' (seg ++ [i])) tl)).
    2: { unfold edge. cbn [ins st out trace]. rewrite held_app, app_assoc. reflexivity. }
    replace (length ws) with (length bs) by (symmetry; exact Lw). destruct (Z.of_nat (length bs) =? ra_length a)%Z.
    + rewrite E4. reflexivity.
    + reflexivity.
Qed.
End ReadAll.
