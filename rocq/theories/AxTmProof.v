(** AxTmProof.v -- the timing of the AXI4 master. *)
From Verif Require Import Base Async BitsLemmas CompatModel PktModel HandshakeSpec Handshake AxiModel AxiSpec AxiDataProof AxiReadProof AxiChanProof AxiTopProof TmSpec TmProof.
Local Open Scope list_scope.

Definition b2n (b : bool) : nat := if b then 1 else 0.

Section Time.
Context (c : axi_cfg).
Notation W := (World (TS := unit) (TI := axi_in)).

(** the cycles before the first offer *)
Lemma lead_cycles {TO} sync delay s p (o : TO) tr l : may_start sync p -> exists p', p' <> PReadOnly /\
  (x_when sync edge ;; edges delay) (W s p o tr l) =
  if b2n sync + delay <=? length l
  then (Done tt, W s p' o (tr ++ held o (firstn (b2n sync + delay) l)) (skipn (b2n sync + delay) l))
  else (Susp, W s (match l with [] => p | _ => PActive end) o (tr ++ held o l) []).
Proof.
  intro Hp. destruct sync; cbn [b2n x_when Nat.add].
  - destruct l as [|i l].
    + exists PActive. split; [discriminate|]. cbn. rewrite app_nil_r. reflexivity.
    + exists PActive. split; [discriminate|]. unfold bind, edge. cbn [ins st out trace]. rewrite edges_spec. cbn [ins st out trace ph length firstn skipn Nat.leb].
      destruct (delay <=? length l); rewrite <- app_assoc; cbn [app held map].
      * destruct delay; reflexivity.
      * destruct l; reflexivity.
  - exists (match delay with O => p | _ => PActive end). split; [destruct delay; [apply Hp; reflexivity|discriminate]|].
    unfold bind, ret. rewrite edges_spec. cbn [ins st out trace ph]. destruct (delay <=? length l); reflexivity.
Qed.

Lemma assign_ok {TO} n z (set : bits -> TO -> TO) s p o tr l : p <> PReadOnly -> fits_bits n z ->
  assign n z set (W s p o tr l) = (Done tt, W s p (set (zbits n z) o) tr l).
Proof. intros Hp Hz. unfold assign. rewrite (assign_fits_ok _ _ Hz). cbn [of_res]. unfold bind, ret. apply drive_ok, Hp. Qed.
Lemma when_assign_ok {TO} b n z (set : bits -> TO -> TO) s p o tr l : p <> PReadOnly -> fits_bits n z ->
  x_when b (assign n z set) (W s p o tr l) = (Done tt, W s p (if b then set (zbits n z) o else o) tr l).
Proof. intros Hp Hz. destruct b; cbn [x_when]; [apply assign_ok; assumption|reflexivity]. Qed.

Definition ax_on (x : axi_in * ax_out) : bool := aw_offered (snd x).
Definition w_on (x : axi_in * w_out) : bool := w_offered (snd x).

(** one offer: [set] drives the payload and valid, in no time *)
Lemma offer_time key acc (set : M unit axi_in ax_out unit) fuel sync delay s p o tr l :
  (forall i, acc i = is1 (key i)) -> may_start sync p -> aw_offered o = false -> length l < fuel ->
  (forall s p o tr l, p <> PReadOnly -> exists o', set (W s p o tr l) = (Done tt, W s p o' tr l) /\ aw_offered o' = true) ->
  exists r w new rest,
    (x_when sync edge ;; edges delay ;; set ;; until1 key fuel ;; edge ;; drive (ax_set_valid L0)) (W s p o tr l) = (r, w) /\
    trace w = tr ++ new /\ on_time acc [b2n sync + delay] l (map ax_on new) rest /\
    match rest with
    | Some l1 => r = Done tt /\ w = W s PActive (out w) (trace w) l1 /\ aw_offered (out w) = false
    | None => r = Susp /\ ins w = []
    end.
Proof.
  intros Hk Hp Ho Hf Hs. rewrite <- bind_assoc. unfold bind at 1.
  destruct (lead_cycles sync delay s p o tr l Hp) as (p1 & P1 & E). rewrite E. clear E.
  set (n := b2n sync + delay). pose proof (time_one acc n l) as T. destruct (Nat.leb_spec n (length l)) as [L|L].
  2:{ do 4 eexists. split; [reflexivity|]. split; [reflexivity|]. split; [|instantiate (1 := None); split; reflexivity].
      unfold ax_on. rewrite (held_map aw_offered), Ho. exact T. }
  destruct (Hs s p1 o (tr ++ held o (firstn n l)) (skipn n l) P1) as (o1 & E & O1). rewrite (bind_done _ _ _ _ _ E).
  rewrite <- bind_assoc. unfold bind at 1.
  destruct (until1_edge key (skipn n l) fuel s p1 o1 (tr ++ held o (firstn n l)) P1 ltac:(rewrite skipn_length; lia)) as [p2 E2]. rewrite E2. clear E2 E.
  assert (Es : forall l0, span (k1 key) l0 = span acc l0).
  { clear - Hk. induction l0 as [|i l0 IH]; [reflexivity|]. cbn [span]. rewrite IH, Hk. reflexivity. }
  rewrite Es. pose proof (span_app acc (skipn n l)) as A.
  assert (I : map ax_on (held o (firstn n l)) = repeat false n).
  { unfold ax_on. rewrite (held_map aw_offered), Ho, firstn_length_le by exact L. reflexivity. }
  destruct (span acc (skipn n l)) as [nr [|i r]]; cbn [fst snd] in *.
  - do 4 eexists. split; [reflexivity|]. split; [cbn [trace]; rewrite <- app_assoc; reflexivity|]. split; [|instantiate (1 := None); split; reflexivity].
    rewrite map_app, I. unfold ax_on. rewrite (held_map aw_offered), O1. rewrite app_nil_r in *. rewrite <- A. exact T.
  - rewrite drive_ok by discriminate. do 4 eexists. split; [reflexivity|]. split; [cbn [trace]; rewrite <- app_assoc; reflexivity|].
    split; [|instantiate (1 := Some r); split; [reflexivity|split; reflexivity]].
    rewrite map_app, I. unfold ax_on. rewrite (held_map aw_offered), O1, app_length, repeat_app. exact T.
Qed.

Lemma aw_time fuel address n b size delay sync s p o tr l :
  fits_bits (x_awidth c) address -> (1 <= n <= 256)%Z -> power_of_two size -> (size <= 128)%Z ->
  may_start sync p -> aw_offered o = false -> length l < fuel ->
  exists r w new rest,
    send_write_address c fuel address n b size delay sync (W s p o tr l) = (r, w) /\
    trace w = tr ++ new /\ on_time aw_accepts [b2n sync + delay] l (map ax_on new) rest /\
    match rest with
    | Some l1 => r = Done tt /\ w = W s PActive (out w) (trace w) l1 /\ aw_offered (out w) = false
    | None => r = Susp /\ ins w = []
    end.
Proof.
  intros Ha Hn Hsz Hsz2 Hp Ho Hf.
  set (set5 := assign (x_awidth c) address ax_set_addr ;; drive (ax_set_valid L1) ;;
      x_when (x_full c) (assign 2 (burst_value b) ax_set_burst) ;;
      x_when (x_full c) (assign 8 (n - 1) ax_set_len) ;;
      x_when (x_full c) (assign 3 (bit_length size - 1) ax_set_size)).
  destruct (offer_time g_awready aw_accepts set5 fuel sync delay s p o tr l (fun i => eq_refl) Hp Ho Hf) as (r & w & new & rest & E & R).
  { clear - Ha Hn Hsz Hsz2. intros s p o tr l Hp. unfold set5. rewrite bit_length_pow2 by exact Hsz.
    rewrite (bind_done _ _ _ _ _ (assign_ok _ _ _ _ _ _ _ _ Hp Ha)). rewrite (bind_done _ _ _ _ _ (drive_ok _ _ _ _ _ _ Hp)).
    assert (F2 : fits_bits 2 (burst_value b)) by (destruct b; unfold fits_bits; cbn; lia).
    assert (F8 : fits_bits 8 (n - 1)) by (unfold fits_bits; change (2 ^ Z.of_nat 8)%Z with 256%Z; lia).
    assert (F3 : fits_bits 3 (Z.log2 size)).
    { unfold fits_bits. change (2 ^ Z.of_nat 3)%Z with 8%Z. split; [apply Z.log2_nonneg|]. pose proof (Z.log2_le_mono _ _ Hsz2) as L. change (Z.log2 128) with 7%Z in L. lia. }
    rewrite (bind_done _ _ _ _ _ (when_assign_ok _ _ _ _ _ _ _ _ _ Hp F2)).
    rewrite (bind_done _ _ _ _ _ (when_assign_ok _ _ _ _ _ _ _ _ _ Hp F8)).
    rewrite (when_assign_ok _ _ _ _ _ _ _ _ _ Hp F3). eexists. split; [reflexivity|]. destruct (x_full c); reflexivity. }
  exists r, w, new, rest. split; [|exact R]. rewrite <- E. unfold send_write_address, set5.
  unfold bind at 1. symmetry. unfold bind at 1. destruct (x_when sync edge (W s p o tr l)) as [[[]|e| |] w1]; try reflexivity.
  unfold bind at 1. symmetry. unfold bind at 1. destruct (edges delay w1) as [[[]|e| |] w2]; try reflexivity.
  symmetry. rewrite !bind_assoc.
  unfold bind at 1. symmetry. unfold bind at 1. destruct (assign _ _ _ w2) as [[[]|e| |] w3]; try reflexivity.
  symmetry. rewrite !bind_assoc.
  unfold bind at 1. symmetry. unfold bind at 1. destruct (drive _ w3) as [[[]|e| |] w4]; try reflexivity.
  symmetry. rewrite !bind_assoc.
  unfold bind at 1. symmetry. unfold bind at 1. destruct (x_when _ _ w4) as [[[]|e| |] w5]; try reflexivity.
  symmetry. rewrite !bind_assoc. reflexivity.
Qed.

(** the data channel, with a delay before each beat; valid remains during the delays after the first *)
Lemma beats_time fuel delay beats : Forall (beat_fits c) beats -> beats <> [] -> forall s p o tr l,
  p <> PReadOnly -> length l < fuel ->
  exists r w new rest v,
    send_beats c fuel delay beats (W s p o tr l) = (r, w) /\ trace w = tr ++ new /\
    on_time w_accepts (repeat delay (length beats)) l v rest /\ length new = length v /\
    map w_on new = repeat (w_offered o) (Nat.min delay (length v)) ++ repeat true (length v - delay) /\
    match rest with
    | Some l1 => r = Done tt /\ ins w = l1 /\ w_offered (out w) = false
    | None => r = Susp /\ ins w = []
    end.
Proof.
  induction 1 as [|[word strobe] r [Hw Hs] _ IH]; intros Nb s p o tr l Hp Hl; [contradiction|]. cbn [send_beats fst snd length repeat] in *.
  pose proof (time_one w_accepts delay l) as T.
  unfold bind at 1. rewrite edges_spec. cbn [ins st out trace ph]. destruct (Nat.leb_spec delay (length l)) as [L|L].
  2:{ do 4 eexists. exists (repeat false (length l)). split; [reflexivity|]. split; [reflexivity|].
      split; [instantiate (1 := None); exact (time_cons w_accepts delay _ _ _ _ T)|]. unfold held at 1. rewrite map_length, repeat_length. split; [reflexivity|].
      split; [|split; reflexivity]. unfold w_on. rewrite (held_map w_offered), Nat.min_r by lia.
      replace (length l - delay) with 0 by lia. rewrite app_nil_r. reflexivity. }
  set (p1 := match delay with O => p | _ => PActive end). assert (P1 : p1 <> PReadOnly) by (destruct delay; [exact Hp|discriminate]).
  set (tr1 := tr ++ held o (firstn delay l)).
  rewrite (bind_done _ _ _ _ _ (drive_ok _ _ _ _ _ _ P1)).
  rewrite (bind_done _ _ _ _ _ (assign_ok _ _ _ _ _ _ _ _ P1 Hw)). rewrite (bind_done _ _ _ _ _ (assign_ok _ _ _ _ _ _ _ _ P1 Hs)).
  assert (X : forall v o, exists o', x_when (x_wlast c) (drive (w_set_last v)) (W s p1 o tr1 (skipn delay l)) = (Done tt, W s p1 o' tr1 (skipn delay l)) /\ w_offered o' = w_offered o).
  { intros v o0. destruct (x_wlast c); cbn [x_when]; [rewrite drive_ok by exact P1|]; eexists; split; reflexivity. }
  match goal with |- context[w_set_strb ?a ?b] => set (o0 := w_set_strb a b) end.
  destruct (X (match r with [] => L1 | _ => L0 end) o0) as (o1 & E1 & O1). rewrite (bind_done _ _ _ _ _ E1). clear X E1.
  change (w_offered o0) with true in O1.
  unfold bind at 1. destruct (sample_loop (skipn delay l) fuel s p1 o1 tr1 ltac:(rewrite skipn_length; lia)) as [p2 E2]. rewrite E2. clear E2.
  pose proof (span_app w_accepts (skipn delay l)) as A.
  assert (I : map w_on (held o (firstn delay l)) = repeat (w_offered o) delay).
  { unfold w_on. rewrite (held_map w_offered), firstn_length_le by exact L. reflexivity. }
  destruct (span w_accepts (skipn delay l)) as [nr [|i r']]; cbn [fst snd] in *.
  { rewrite app_nil_r in *. do 4 eexists. exists (repeat false delay ++ repeat true (length nr)). split; [reflexivity|]. split; [cbn [trace]; unfold tr1; rewrite <- app_assoc; reflexivity|].
    split; [instantiate (1 := None); exact (time_cons w_accepts delay _ _ _ _ T)|].
    assert (Ll : length l = delay + length nr) by (rewrite A, skipn_length; lia).
    rewrite !app_length, !repeat_length. unfold held. rewrite !map_length, firstn_length_le, skipn_length by exact L. split; [lia|].
    split; [|split; reflexivity]. rewrite map_app. fold (held o (firstn delay l)). fold (held o1 (skipn delay l)). rewrite I. unfold w_on. rewrite (held_map w_offered), O1, skipn_length, Nat.min_l by lia.
    f_equal. f_equal. lia. }
  assert (N1 : map w_on (held o1 (nr ++ [i])) = repeat true (length nr + 1)).
  { unfold w_on. rewrite (held_map w_offered), O1, app_length. reflexivity. }
  assert (Lr : length r' < length l). { apply (f_equal (@length _)) in A. rewrite app_length, skipn_length in A. cbn [length] in A. lia. }
  assert (V1 : length (repeat false delay ++ repeat true (length nr) ++ [true]) = delay + (length nr + 1)).
  { rewrite !app_length, !repeat_length. cbn [length]. lia. }
  assert (H1 : length (held o (firstn delay l) ++ held o1 (nr ++ [i])) = delay + (length nr + 1)).
  { unfold held. rewrite app_length, !map_length, firstn_length_le, app_length by exact L. reflexivity. }
  destruct r as [|b2 r].
  - cbn [x_when]. assert (PA : PActive <> PReadOnly) by discriminate. rewrite (bind_done _ _ _ _ _ (drive_ok _ _ _ _ _ _ PA)). cbn [send_beats repeat length].
    do 4 eexists. exists (repeat false delay ++ repeat true (length nr) ++ [true]).
    split; [reflexivity|]. split; [cbn [trace]; unfold tr1; rewrite <- app_assoc; reflexivity|]. split; [exact T|]. split; [lia|].
    split; [|split; [reflexivity|split; reflexivity]]. rewrite map_app, I, N1, V1, Nat.min_l by lia. f_equal. f_equal. lia.
  - cbn [x_when]. unfold bind at 1. cbn [ret].
    destruct (IH ltac:(discriminate) s PActive o1 (tr1 ++ held o1 (nr ++ [i])) r' ltac:(discriminate) ltac:(lia)) as (rr & w & new & rest & v & E & Tr & T2 & Lv & Mv & C).
    exists rr, w, ((held o (firstn delay l) ++ held o1 (nr ++ [i])) ++ new), rest, ((repeat false delay ++ repeat true (length nr) ++ [true]) ++ v).
    split; [exact E|]. split; [rewrite Tr; unfold tr1; rewrite <- !app_assoc; reflexivity|].
    split; [exact (time_cons w_accepts delay _ _ _ _ T _ _ T2)|]. split; [rewrite !(app_length _ new), !(app_length _ v), H1, V1, Lv; reflexivity|].
    split; [|exact C]. rewrite !map_app, I, N1, Mv, O1, <- repeat_app, (app_length _ v), V1. rewrite (Nat.min_l delay (delay + _ + _)) by lia. rewrite <- app_assoc, <- repeat_app. f_equal. f_equal. lia.
Qed.

Lemma w_time fuel address data b size delay be sync beats s p o tr l :
  write_beats (x_bytes c) address b size data be = Ok beats -> Forall (beat_fits c) beats -> beats <> [] ->
  may_start sync p -> w_offered o = false -> length l < fuel ->
  exists r w new rest v,
    send_write_data c fuel address data b size delay be sync (W s p o tr l) = (r, w) /\ trace w = tr ++ new /\
    on_time w_accepts (b2n sync + delay :: repeat delay (length beats - 1)) l v rest /\ length new = length v /\
    map w_on new = repeat false (Nat.min (b2n sync + delay) (length v)) ++ repeat true (length v - (b2n sync + delay)) /\
    match rest with
    | Some l1 => r = Done tt /\ ins w = l1 /\ w_offered (out w) = false
    | None => r = Susp /\ ins w = []
    end.
Proof.
  intros Eb Fb Nb Hp Ho Hf. unfold send_write_data. rewrite Eb. cbn [of_res]. unfold bind at 1. cbn [ret].
  assert (Lb : repeat delay (length beats) = delay :: repeat delay (length beats - 1)).
  { destruct beats; [contradiction|]. cbn [length repeat]. rewrite Nat.sub_succ, Nat.sub_0_r. reflexivity. }
  destruct sync; cbn [x_when b2n].
  - unfold bind at 1. unfold edge. cbn [ins st out trace]. destruct l as [|i l].
    { exists Susp, (W s p o tr []), [], None, []. split; [reflexivity|]. split; [rewrite app_nil_r; reflexivity|]. split; [apply (ot_gap w_accepts _ _ []); cbn; lia|]. rewrite Nat.min_r by (cbn; lia). repeat split. }
    destruct (beats_time fuel delay beats Fb Nb s PActive o (tr ++ [(i, o)]) l ltac:(discriminate) ltac:(cbn [length] in Hf; lia)) as (rr & w & new & rest & v & E & Tr & T & Lv & Mv & C).
    exists rr, w, ((i, o) :: new), rest, (false :: v). split; [exact E|]. split; [rewrite Tr, <- app_assoc; reflexivity|].
    split; [rewrite Lb in T; exact (idle_more w_accepts 1 delay _ (i :: l) v rest T ltac:(cbn; lia))|]. split; [cbn [length]; lia|].
    split; [|exact C]. cbn [map length Nat.add Nat.min Nat.sub repeat app]. rewrite Mv, Ho. unfold w_on at 1. cbn [snd]. rewrite Ho. reflexivity.
  - unfold bind at 1. cbn [ret]. destruct (beats_time fuel delay beats Fb Nb s p o tr l (Hp eq_refl) Hf) as (rr & w & new & rest & v & E & Tr & T & Lv & Mv & C).
    exists rr, w, new, rest, v. rewrite Lb in T. rewrite Ho in Mv. cbn [Nat.add]. auto 10.
Qed.
End Time.

(** with a receiver that is always ready *)
Lemma time_ready {TI} (acc : TI -> bool) gs l v rest : on_time acc gs l v rest -> Forall (fun i => acc i = true) l ->
  list_sum gs + length gs <= length l -> rest = Some (skipn (list_sum gs + length gs) l) /\ length v = list_sum gs + length gs.
Proof.
  induction 1 as [l|g gs idle waits i l v rest L F A _ IH|g gs idle waits L F|g gs l L]; intros R B; cbn [list_sum fold_right length] in *.
  - auto.
  - assert (W : waits = []).
    { destruct waits as [|y ws]; [reflexivity|]. apply Forall_app in R. destruct R as [_ R]. pose proof (Forall_inv R) as X. pose proof (Forall_inv F) as Y. cbv beta in *. congruence. }
    subst waits. cbn [app length] in *. rewrite !app_length in B. cbn [length] in B. unfold list_sum in *.
    destruct IH as [-> E]; [apply Forall_app in R; destruct R as [_ R]; exact (Forall_inv_tail R)|lia|].
    split.
    + f_equal. rewrite skipn_app, (skipn_all2 idle) by lia. cbn [app].
      replace (g + fold_right Init.Nat.add 0 gs + S (length gs) - length idle) with (S (fold_right Init.Nat.add 0 gs + length gs)) by lia. reflexivity.
    + rewrite app_length, repeat_length. cbn [Nat.add repeat app length]. rewrite E. lia.
  - exfalso. assert (W : waits = []).
    { destruct waits as [|y ws]; [reflexivity|]. apply Forall_app in R. destruct R as [_ R]. pose proof (Forall_inv R) as X. pose proof (Forall_inv F) as Y. cbv beta in *. congruence. }
    subst waits. rewrite app_nil_r in B. unfold list_sum in B. lia.
  - exfalso. unfold list_sum in B. lia.
Qed.
Lemma sum_repeat d n : list_sum (repeat d n) = n * d.
Proof. induction n as [|n IH]; [reflexivity|]. cbn [repeat list_sum fold_right]. unfold list_sum in IH. rewrite IH. reflexivity. Qed.

Lemma time_length {TI} (acc : TI -> bool) gs l v rest : on_time acc gs l v rest ->
  match rest with Some r => r = skipn (length v) l /\ length v <= length l | None => length v = length l end.
Proof.
  induction 1 as [l|g gs idle waits i l v rest L F A _ IH|g gs idle waits L F|g gs l L].
  - split; [reflexivity|cbn; lia].
  - destruct rest as [r|].
    + destruct IH as [-> B]. rewrite !app_length, !repeat_length, skipn_app, (skipn_all2 idle) by lia. cbn [app length].
      rewrite skipn_app, (skipn_all2 waits) by lia. cbn [app].
      replace (g + (length waits + 1 + length v) - length idle - length waits) with (S (length v)) by lia. split; [reflexivity|lia].
    + rewrite !app_length, !repeat_length. cbn [length]. lia.
  - rewrite !app_length, !repeat_length. lia.
  - apply repeat_length.
Qed.

Section Write.
Context (c : axi_cfg).
Notation ready := (Forall (fun i => b_valid i = false)).

Lemma write_time fuel a p oa ow l : write_any c fuel a p oa ow l ->
  let r := axi_write c fuel a p oa ow l in
  let x := b2n (wa_sync a) in
  exists va ra vw rw,
    on_time aw_accepts [x + wa_alat a] l va ra /\
    on_time w_accepts (x + wa_dlat a :: repeat (wa_dlat a) (length (wa_value a) - 1)) l vw rw /\
    map ax_on (wr_aw r) = va ++ repeat false (length (wr_aw r) - length va) /\
    map w_on (wr_w r) = repeat false (Nat.min (x + wa_dlat a) (length vw)) ++ repeat true (length vw - (x + wa_dlat a))
                        ++ repeat false (length (wr_w r) - length vw) /\
    match ra, rw with
    | Some la, Some lw =>
        let rest := if length la <=? length lw then la else lw in
        (Forall (fun i => b_valid i = false) rest /\ wr_result r = Susp) \/
        (exists nr i r', rest = nr ++ i :: r' /\ Forall (fun i => b_valid i = false) nr /\ b_valid i = true /\
           wr_result r = response_outcome (g_bresp i) /\
           wr_rest r = match bval (g_bresp i) with Some _ => r' | None => i :: r' end)
    | _, _ => wr_result r = Susp
    end.
Proof.
  intros [Hb Hl Ha Nb Hp Hoa How Hf]. cbv zeta.
  destruct (legal_facts c _ _ _ _ Hb Hl) as (Ec & Ps & Ls & Hn & _).
  destruct (beats_exist c _ _ _ _ (wa_value a) (wa_be a) Hb Hl eq_refl Nb) as (beats & Eb & Lb & Fb).
  assert (Bn : beats <> []) by (destruct beats; [cbn [length] in Lb; lia|discriminate]).
  destruct (aw_time c fuel (wa_address a) (Z.of_nat (length (wa_value a))) (wa_burst a) (size_or (x_bytes c) (wa_size a)) (wa_alat a) (wa_sync a) tt p oa [] l Ha Hn Ps Ls Hp Hoa Hf)
    as (ra & va & na & resta & Ea & Ta & Oa & Ca).
  destruct (w_time c fuel (wa_address a) (wa_value a) (wa_burst a) (size_or (x_bytes c) (wa_size a)) (wa_dlat a) (wa_be a) (wa_sync a) beats tt p ow [] l Eb Fb Bn Hp How Hf)
    as (rw & vw & nw & restw & v & Ew & Tw & Ow & Lw & Mw & Cw).
  unfold axi_write. rewrite Ec, Ea, Ew. cbn [app] in Ta, Tw. rewrite Lb in Ow.
  exists (map ax_on na), resta, v, restw. split; [exact Oa|]. split; [exact Ow|].
  assert (XA : forall k : list axi_in, aw_offered (out va) = false ->
    map ax_on (trace va ++ held (out va) k) = map ax_on na ++ repeat false (length (trace va ++ held (out va) k) - length (map ax_on na))).
  { intros k O. rewrite map_app, Ta. f_equal. unfold ax_on. rewrite (held_map aw_offered), O, app_length, map_length. f_equal. unfold held. rewrite map_length. lia. }
  assert (XW : forall k : list axi_in, w_offered (out vw) = false ->
    map w_on (trace vw ++ held (out vw) k) = repeat false (Nat.min (b2n (wa_sync a) + wa_dlat a) (length v)) ++ repeat true (length v - (b2n (wa_sync a) + wa_dlat a)) ++ repeat false (length (trace vw ++ held (out vw) k) - length v)).
  { intros k O. rewrite map_app, Tw, Mw, <- app_assoc. do 2 f_equal. unfold w_on. rewrite (held_map w_offered), O, app_length, Lw. f_equal. unfold held. rewrite map_length. lia. }
  assert (YA : aw_offered (out va) = false \/ ins va = []) by (destruct resta; [left; apply Ca|right; apply Ca]).
  assert (YW : w_offered (out vw) = false \/ ins vw = []) by (destruct restw; [left; apply Cw|right; apply Cw]).
  assert (ZA : map ax_on (trace va ++ held (out va) (ins va)) = map ax_on na ++ repeat false (length (trace va ++ held (out va) (ins va)) - length (map ax_on na))).
  { destruct YA as [O| ->]; [apply XA, O|]. cbn [held map]. rewrite app_nil_r, Ta, map_length, Nat.sub_diag, app_nil_r. reflexivity. }
  assert (ZW : map w_on (trace vw ++ held (out vw) (ins vw)) = repeat false (Nat.min (b2n (wa_sync a) + wa_dlat a) (length v)) ++ repeat true (length v - (b2n (wa_sync a) + wa_dlat a)) ++ repeat false (length (trace vw ++ held (out vw) (ins vw)) - length v)).
  { destruct YW as [O| ->]; [apply XW, O|]. cbn [held map]. rewrite app_nil_r, Tw, Mw, Lw, Nat.sub_diag, app_nil_r. reflexivity. }
  destruct resta as [la|]; [destruct Ca as (-> & Wa & Oa')|destruct Ca as [-> Ia]].
  2:{ destruct restw as [lw|]; [destruct Cw as (-> & _ & _)|destruct Cw as [-> _]]; cbn [wr_aw wr_w wr_result]; auto. }
  destruct restw as [lw|]; [destruct Cw as (-> & Iw & Ow')|destruct Cw as [-> _]]; cbn [wr_aw wr_w wr_result]; [|auto].
  assert (Ia : ins va = la) by (rewrite Wa; reflexivity). rewrite Ia, Iw.
  set (rest := if length la <=? length lw then la else lw).
  assert (Lr : length rest <= length l).
  { pose proof (time_length _ _ _ _ _ Oa) as [-> _]. pose proof (time_length _ _ _ _ _ Ow) as [-> _]. unfold rest. destruct (_ <=? _); rewrite skipn_length; lia. }
  destruct (response_spec fuel rest tt PActive tt [] ltac:(discriminate) ltac:(lia)) as [p' E]. rewrite E. clear E.
  pose proof (span_app b_valid rest) as A. pose proof (span_fst b_valid rest) as F.
  pose proof (fun i r => span_snd b_valid rest i r) as G.
  destruct (span b_valid rest) as [nr [|i r']]; cbn [fst snd] in *.
  - cbn [wr_aw wr_w wr_result]. split; [apply XA, Oa'|]. split; [apply XW, Ow'|]. left. split; [|reflexivity]. rewrite <- A, app_nil_r. exact F.
  - specialize (G i r' eq_refl). unfold response_outcome. destruct (bval (g_bresp i)) as [z|] eqn:Ez; cbn [wr_aw wr_w wr_result wr_rest ins trace].
    + split; [apply XA, Oa'|]. split; [apply XW, Ow'|]. right. exists nr, i, r'. rewrite Ez. auto.
    + split; [apply XA, Oa'|]. split; [apply XW, Ow'|]. right. exists nr, i, r'. rewrite Ez. auto.
Qed.
End Write.

(** ** reads *)
Section Read.
Context (c : axi_cfg).
Notation W := (World (TS := unit) (TI := axi_in)).
Definition read_rest (fuel : nat) (a : raccess) (size : Z) : M unit axi_in ax_out (list bits * list Z) :=
  dr <- read_beats c fuel (ra_burst a) size (ra_address a mod x_bytes c / size * size)%Z ;;
  edge ;;
  let '(data, rresp) := dr in
  (if (Z.of_nat (length data) =? ra_length a)%Z then ret tt else raise EAXILength) ;;
  words <- of_res (realigned (ra_address a) (ra_burst a) size data) ;;
  ret (words, rresp).
(** valid stays low *)
Definition grows {A} (m : M unit axi_in ax_out A) : Prop := forall w, aw_offered (out w) = false ->
  aw_offered (out (snd (m w))) = false /\ exists new, trace (snd (m w)) = trace w ++ new /\ Forall (fun x => aw_offered (snd x) = false) new.
Lemma grows_none {A} (m : M unit axi_in ax_out A) : (forall w, out (snd (m w)) = out w /\ trace (snd (m w)) = trace w) -> grows m.
Proof. intros H w O. destruct (H w) as [-> ->]. split; [exact O|]. exists []. rewrite app_nil_r. auto. Qed.
Lemma grows_ret {A} (a : A) : grows (ret a). Proof. apply grows_none. intro w. auto. Qed.
Lemma grows_raise {A} e : grows (A := A) (raise e). Proof. apply grows_none. intro w. auto. Qed.
Lemma grows_of_res {A} (r : res A) : grows (of_res r). Proof. destruct r; [apply grows_ret|apply grows_raise]. Qed.
Lemma grows_bind {A B} (m : M unit axi_in ax_out A) (f : A -> M unit axi_in ax_out B) : grows m -> (forall a, grows (f a)) -> grows (bind m f).
Proof.
  intros H1 H2 w O. unfold bind. destruct (H1 w O) as (O1 & n1 & E1 & F1). destruct (m w) as [[a|e| |] w1]; cbn [snd] in *; try (split; [exact O1|exists n1; auto]).
  destruct (H2 a w1 O1) as (O2 & n2 & E2 & F2). split; [exact O2|]. exists (n1 ++ n2). rewrite E2, E1, app_assoc. split; [reflexivity|]. apply Forall_app. auto.
Qed.
Lemma grows_edge : grows edge.
Proof.
  intros w O. unfold edge. destruct (ins w) as [|i l]; cbn [snd out trace]; (split; [exact O|]); [exists []; rewrite app_nil_r; auto|].
  eexists. split; [reflexivity|]. constructor; [exact O|constructor].
Qed.
Lemma grows_readonly : grows readonly.
Proof. apply grows_none. intro w. unfold readonly. destruct (ph w), (ins w); auto. Qed.
Lemma grows_input : grows input.
Proof. apply grows_none. intro w. unfold input. destruct (ins w); auto. Qed.
Lemma grows_loop {L A} fuel (body : L -> M unit axi_in ax_out (L + A)) : (forall l, grows (body l)) -> forall l, grows (loop fuel body l).
Proof.
  intro H. induction fuel as [|f IH]; intro l; [apply grows_none; intro w; auto|]. cbn [loop]. apply grows_bind; [apply H|]. intros [l'|a]; [apply IH|apply grows_ret].
Qed.
Lemma rest_grows fuel a size : grows (read_rest fuel a size).
Proof.
  unfold read_rest. apply grows_bind.
  - unfold read_beats. apply grows_loop. intros [[d rr] o]. apply grows_bind.
    + unfold read_beat. apply grows_loop. intro. apply grows_bind; [apply grows_readonly|]. intro.
      apply grows_bind; [apply grows_input|]. intro i. destruct (is1 (g_rvalid i)).
      * apply grows_bind; [apply grows_of_res|]. intro. destruct (bval (g_rresp i)); [apply grows_ret|apply grows_raise].
      * apply grows_bind; [apply grows_edge|]. intro. apply grows_ret.
    + intros [[w r] rl]. destruct (negb _ || _); [apply grows_ret|]. apply grows_bind; [apply grows_edge|]. intro. apply grows_ret.
  - intros [d rr]. apply grows_bind; [apply grows_edge|]. intro.
    apply grows_bind; [destruct (_ =? _)%Z; [apply grows_ret|apply grows_raise]|]. intro. apply grows_bind; [apply grows_of_res|]. intro. apply grows_ret.
Qed.

Lemma read_time fuel a s p o l : read_ok c fuel a p l -> aw_offered o = false ->
  let '(r, w) := axi_read c fuel a (W s p o [] l) in
  exists va rest, on_time ar_accepts [b2n (ra_sync a)] l va rest /\
    map ax_on (trace w) = va ++ repeat false (length (trace w) - length va) /\
    (rest = None -> r = Susp).
Proof.
  intros [Hb Hl Ha Hp Hf] Ho. destruct (legal_facts c _ _ _ _ Hb Hl) as (Ec & Ps & Ls & Hn & _). set (size := size_or (x_bytes c) (ra_size a)) in *.
  set (set5 := assign (x_awidth c) (ra_address a) ax_set_addr ;; drive (ax_set_valid L1) ;;
      x_when (x_full c) (assign 8 (ra_length a - 1) ax_set_len) ;;
      x_when (x_full c) (assign 3 (bit_length size - 1) ax_set_size) ;;
      x_when (x_full c) (assign 2 (burst_value (ra_burst a)) ax_set_burst)).
  destruct (offer_time g_arready ar_accepts set5 fuel (ra_sync a) 0 s p o [] l (fun i => eq_refl) Hp Ho Hf) as (r & w & new & rest & E & T & O & C).
  { clear - Ha Hn Ps Ls. intros s p o tr l Hp. unfold set5. rewrite bit_length_pow2 by exact Ps.
    rewrite (bind_done _ _ _ _ _ (assign_ok _ _ _ _ _ _ _ _ Hp Ha)). rewrite (bind_done _ _ _ _ _ (drive_ok _ _ _ _ _ _ Hp)).
    assert (F2 : fits_bits 2 (burst_value (ra_burst a))) by (destruct (ra_burst a); unfold fits_bits; cbn; lia).
    assert (F8 : fits_bits 8 (ra_length a - 1)) by (unfold fits_bits; change (2 ^ Z.of_nat 8)%Z with 256%Z; lia).
    assert (F3 : fits_bits 3 (Z.log2 size)).
    { unfold fits_bits. change (2 ^ Z.of_nat 3)%Z with 8%Z. split; [apply Z.log2_nonneg|]. pose proof (Z.log2_le_mono _ _ Ls) as L. change (Z.log2 128) with 7%Z in L. lia. }
    rewrite (bind_done _ _ _ _ _ (when_assign_ok _ _ _ _ _ _ _ _ _ Hp F8)).
    rewrite (bind_done _ _ _ _ _ (when_assign_ok _ _ _ _ _ _ _ _ _ Hp F3)).
    rewrite (when_assign_ok _ _ _ _ _ _ _ _ _ Hp F2). eexists. split; [reflexivity|]. destruct (x_full c); reflexivity. }
  assert (Eq : forall w0, axi_read_raw c fuel a w0 =
    bind (x_when (ra_sync a) edge ;; edges 0 ;; set5 ;; until1 g_arready fuel ;; edge ;; drive (ax_set_valid L0)) (fun _ => read_rest fuel a size) w0).
  { intro w0. unfold axi_read_raw. rewrite Ec. cbn [of_res]. unfold bind at 1. cbn [ret]. fold size.
    rewrite bind_assoc. unfold bind at 1. symmetry. unfold bind at 1. destruct (x_when _ edge w0) as [[[]|e| |] w1]; try reflexivity. symmetry.
    cbn [edges]. rewrite bind_assoc. change (bind (ret tt) ?f w1) with (f tt w1). cbv beta.
    unfold set5. rewrite !bind_assoc.
    unfold bind at 1. symmetry. unfold bind at 1. destruct (assign _ _ _ w1) as [[[]|e| |] w3]; try reflexivity.
    symmetry. rewrite !bind_assoc.
    unfold bind at 1. symmetry. unfold bind at 1. destruct (drive _ w3) as [[[]|e| |] w4]; try reflexivity.
    symmetry. rewrite !bind_assoc.
    unfold bind at 1. symmetry. unfold bind at 1. destruct (x_when _ _ w4) as [[[]|e| |] w5]; try reflexivity.
    symmetry. rewrite !bind_assoc.
    unfold bind at 1. symmetry. unfold bind at 1. destruct (x_when _ _ w5) as [[[]|e| |] w6]; try reflexivity.
    symmetry. 
    unfold bind at 1. symmetry. unfold bind at 1. destruct (x_when _ _ w6) as [[[]|e| |] w7]; try reflexivity.
    symmetry. rewrite !bind_assoc.
    unfold bind at 1. symmetry. unfold bind at 1. destruct (until1 _ _ w7) as [[[]|e| |] w8]; try reflexivity.
    symmetry. rewrite !bind_assoc. reflexivity. }
  unfold axi_read. unfold bind at 1. rewrite Eq. unfold bind at 1. rewrite E. rewrite Nat.add_0_r in O.
  destruct rest as [l1|].
  - destruct C as (-> & Ew & Ow). destruct (rest_grows fuel a size w Ow) as (_ & new2 & G & F2).
    assert (R : map ax_on (trace (snd (read_rest fuel a size w))) = map ax_on new ++ repeat false (length (trace (snd (read_rest fuel a size w))) - length (map ax_on new))).
    { rewrite G, T. cbn [app]. rewrite map_app, app_length, map_length. f_equal. replace (length new + length new2 - length new) with (length new2) by lia.
      clear - F2. induction F2 as [|x n H _ IH]; [reflexivity|]. cbn [map length repeat]. f_equal; [exact H|exact IH]. }
    destruct (read_rest fuel a size w) as [[x|e| |] w2]; cbn [snd] in *.
    + destruct (find _ (snd x)); unfold raise, ret; exists (map ax_on new), (Some l1); (split; [exact O|split; [exact R|discriminate]]).
    + exists (map ax_on new), (Some l1); (split; [exact O|split; [exact R|discriminate]]).
    + exists (map ax_on new), (Some l1); (split; [exact O|split; [exact R|discriminate]]).
    + exists (map ax_on new), (Some l1); (split; [exact O|split; [exact R|discriminate]]).
  - destruct C as [-> _]. exists (map ax_on new), None. split; [exact O|]. split; [|reflexivity]. rewrite T. cbn [app]. rewrite map_length, Nat.sub_diag, app_nil_r. reflexivity.
Qed.
End Read.
