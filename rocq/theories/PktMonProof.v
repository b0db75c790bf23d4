(** PktMonProof.v -- the Avalon-ST packet monitor. *)
From Verif Require Import Base Async BitsLemmas CompatSpec CompatModel CompatProof DrvUtilModel MonitorModel
  HandshakeSpec Handshake AvalonSTModel PktModel PktSpec PktProof.
Local Open Scope list_scope.
From Verif Require AvalonSTProof.

Lemma parse_snoc ws w : parse (ws ++ [w]) =
  let '(done, cur) := parse ws in if is_eop w then (done ++ [cur ++ [w]], []) else (done, cur ++ [w]).
Proof. unfold parse. rewrite fold_left_app. cbn [fold_left]. destruct (fold_left _ ws _). reflexivity. Qed.
Lemma current_snoc ws w : current (ws ++ [w]) = if is_eop w then [] else current ws ++ [w].
Proof. unfold current. rewrite parse_snoc. destruct (parse ws), (is_eop w); reflexivity. Qed.
Lemma completed_snoc ws w : completed (ws ++ [w]) =
  if is_eop w then completed ws ++ [current ws ++ [w]] else completed ws.
Proof. unfold completed, current. rewrite parse_snoc. destruct (parse ws), (is_eop w); reflexivity. Qed.

Lemma reset_true s : in_reset_cycle s = true -> in_reset (s_rstn s) (s_rst s) = Ok true.
Proof.
  unfold in_reset_cycle, in_reset. destruct (s_rstn s) as [v|].
  - destruct (bval v) as [[|z|z]|]; try discriminate. reflexivity.
  - destruct (s_rst s) as [v|]; [|discriminate]. destruct (bval v); [|discriminate]. intros ->. reflexivity.
Qed.
Lemma reset_false s : running_cycle s = true -> in_reset (s_rstn s) (s_rst s) = Ok false.
Proof.
  unfold running_cycle, in_reset. destruct (s_rstn s) as [v|].
  - destruct (bval v) as [z|]; try discriminate. intros ->. reflexivity.
  - destruct (s_rst s) as [v|]; [|reflexivity]. destruct (bval v); [|discriminate]. intros ->. reflexivity.
Qed.
Lemma reset_ok s b : in_reset (s_rstn s) (s_rst s) = Ok b ->
  (b = true /\ in_reset_cycle s = true /\ running_cycle s = false) \/ (b = false /\ in_reset_cycle s = false /\ running_cycle s = true).
Proof.
  unfold in_reset_cycle, running_cycle, in_reset. destruct (s_rstn s) as [v|].
  - destruct (bval v) as [[|z|z]|]; try discriminate; intro H; injection H as <-; auto.
  - destruct (s_rst s) as [v|]; [|intro H; injection H as <-; auto].
    destruct (bval v) as [[|z|z]|]; try discriminate; intro H; injection H as <-; auto.
Qed.
Lemma reset_excl s : in_reset_cycle s = true -> running_cycle s = false.
Proof. intro H. destruct (reset_ok s true (reset_true s H)) as [(_ & _ & R)|(E & _)]; [exact R|discriminate]. Qed.

Section Mon.
Context (c : pcfg).

Lemma valid_transfer s : pm_valid c s = transfer c s.
Proof.
  unfold pm_valid, transfer, k_offered, k_accepts, is1. destruct (k_valid (s_bus s)), (c_ready c), (s_ready s); reflexivity.
Qed.

Definition seen1 (s : psample) : list pk_out :=
  if running_cycle s && transfer c s then [s_bus s] else [].
Lemma seen_app a b : seen c (a ++ b) = seen c a ++ seen c b.
Proof. unfold seen. rewrite filter_app, map_app. reflexivity. Qed.
Lemma seen_one s : seen c [s] = seen1 s.
Proof. unfold seen, seen1. cbn. destruct (running_cycle s && transfer c s); reflexivity. Qed.
Lemma seen_snoc l s : seen c (l ++ [s]) = seen c l ++ seen1 s.
Proof. rewrite seen_app, seen_one. reflexivity. Qed.
Lemma idle_snoc l s : idle_run c (l ++ [s]) =
  if running_cycle s then if transfer c s then 0 else S (idle_run c l) else idle_run c l.
Proof.
  unfold idle_run. rewrite filter_app, fold_left_app. cbn. destruct (running_cycle s); reflexivity.
Qed.

Record inv (l : list psample) (m : pmstate) : Prop := Inv {
  iv_in : m_in m = match current (seen c l) with [] => false | _ => true end;
  iv_pkt : m_pkt m = flat_map (word_bytes c) (current (seen c l));
  iv_ne : current (seen c l) <> [] -> m_pkt m <> [];
  iv_ch : m_ch m = first_channel c (current (seen c l));
  iv_chok : c_cw c <> None -> forall f r, current (seen c l) = f :: r -> exists v, bval (k_channel f) = Some v;
  iv_cnt : m_in m = true -> m_cnt m = Z.of_nat (idle_run c l)
}.

(** every word has at least one data bit *)
Definition wide (s : psample) : Prop := 0 < length (k_data (s_bus s)).

Lemma inv_init : inv [] pm_init.
Proof.
  constructor; cbn; try discriminate; try reflexivity.
  - intro H. exfalso. apply H. reflexivity.
  - unfold first_channel. destruct (c_cw c); reflexivity.
Qed.

Lemma convert_ok b high : resolvable b = true -> exists y, convert_binary_to_bytes b high = Ok y /\ length y = nbytes (length b).
Proof.
  intro H. apply bval_resolvable in H as [z H]. unfold convert_binary_to_bytes. rewrite H.
  eexists. split; [reflexivity|]. destruct high; [rewrite rev_length|]; apply z_to_le_length.
Qed.
Lemma convert_ok_res b high y : convert_binary_to_bytes b high = Ok y -> resolvable b = true.
Proof. unfold convert_binary_to_bytes. intro H. apply bval_resolvable. destruct (bval b); [eauto|discriminate]. Qed.
Lemma nbytes_pos n : 0 < n -> 0 < nbytes n.
Proof. intro H. pose proof (nbytes_spec n). lia. Qed.

Lemma create_str value : create_binary (BStr value) (length value) (c_high c) = Ok value.
Proof.
  unfold create_binary, logic_of, logicarray_of_str. destruct (Nat.eqb_spec (length value) 1) as [E|E].
  - destruct value as [|a [|b v]]; cbn in E; try lia. reflexivity.
  - rewrite Nat.eqb_refl. reflexivity.
Qed.

Lemma is1_eop w : is1 (k_eop w) = is_eop w.
Proof. reflexivity. Qed.
Lemma is1_sop w : is1 (k_sop w) = is_sop w.
Proof. reflexivity. Qed.

(** the data of the last word *)
Lemma last_eq e w : is_eop w = true -> (use_empty c = true -> exists n, bval (k_empty w) = Some n) ->
  exists e', (masks c w -> e' <> None) /\ (~ masks c w -> e' = e) /\
  pm_last c e w =
    if negb (resolvable (used c w)) then match e' with None => Err EUnboundLocal | Some _ => Err EAvalonProtocol end
    else if length (used c w) =? 1 then Err EAttribute
    else rbind (convert_binary_to_bytes (used c w) (c_high c)) (fun b => Ok (b, e')).
Proof.
  intros Hl He. unfold pm_last, used. rewrite Hl. cbn [andb].
  destruct (use_empty c) eqn:U.
  - destruct (He eq_refl) as [n Hn]. rewrite Hn. cbn [rbind]. destruct (Z.eqb_spec n 0) as [->|Nz].
    + exists e. split; [|split].
      * intros (_ & _ & x & Hx & X). congruence.
      * reflexivity.
      * rewrite create_str. cbn [rbind]. replace (Z.to_nat (0 * Z.of_nat (c_dbs c))) with 0 by lia.
        cbn [skipn]. rewrite Nat.sub_0_r, firstn_all. destruct (c_high c); reflexivity.
    + exists (Some (n * Z.of_nat (c_dbs c))%Z). split; [discriminate|]. split.
      * intro H. exfalso. apply H. repeat split; eauto.
      * rewrite create_str. cbn [rbind]. unfold drop_right. destruct (c_high c); reflexivity.
  - exists e. split; [intros (_ & U' & _); congruence|]. split; [reflexivity|].
    cbn [rbind Z.eqb]. rewrite create_str. reflexivity.
Qed.

(** when the data part of a word succeeds *)
Lemma last_ok e w b e' : is_eop w = true -> pm_last c e w = Ok (b, e') -> b = word_bytes c w.
Proof.
  intros Hl H. assert (He : use_empty c = true -> exists n, bval (k_empty w) = Some n).
  { intro U. unfold pm_last in H. rewrite U in H. destruct (bval (k_empty w)); [eauto|discriminate]. }
  destruct (last_eq e w Hl He) as (e2 & _ & _ & E). rewrite E in H.
  destruct (negb (resolvable (used c w))); [destruct e2; discriminate|].
  destruct (length (used c w) =? 1); [discriminate|]. unfold word_bytes.
  destruct (convert_binary_to_bytes (used c w) (c_high c)); [|discriminate]. cbn [rbind] in H. congruence.
Qed.
Lemma used_mid w : is_eop w = false -> used c w = k_data w.
Proof. intro H. unfold used. rewrite H. reflexivity. Qed.

Lemma word_nonempty w : is_eop w = false -> 0 < length (k_data w) -> resolvable (k_data w) = true -> word_bytes c w <> [].
Proof.
  intros H Hl Hr. unfold word_bytes. rewrite used_mid by exact H.
  destruct (convert_ok (k_data w) (c_high c) Hr) as (y & -> & Hy). intros ->. cbn [length] in Hy.
  pose proof (nbytes_pos _ Hl). lia.
Qed.

Lemma channel_ok_eq ch w ch' : pm_channel c ch w = Ok ch' ->
  (c_cw c = None -> ch' = ch)
  /\ (c_cw c <> None -> exists v, bval (k_channel w) = Some v /\ ch' = Some v /\ (ch <> None -> ch = Some v)
                                  /\ (ch = None -> (v <= max_channel c)%Z)).
Proof.
  unfold pm_channel. destruct (c_cw c).
  - intro H. split; [discriminate|]. intros _. destruct (bval (k_channel w)) as [v|]; [|discriminate].
    exists v. split; [reflexivity|]. destruct ch as [u|].
    + destruct (Z.eqb_spec v u) as [E|]; [|discriminate]. injection H as <-. rewrite E.
      split; [reflexivity|]. split; [reflexivity|discriminate].
    + destruct (Z.ltb_spec (max_channel c) v); [discriminate|]. injection H as <-.
      split; [reflexivity|]. split; [congruence|]. intros _. lia.
  - intro H. injection H as <-. split; [reflexivity|congruence].
Qed.

(** one step keeps the invariant and reports exactly the packet completed *)
Lemma inv_step l m s r m' : inv l m -> (running_cycle s = true -> transfer c s = true -> wide s) ->
  pm_step c m s = Ok (r, m') ->
  inv (l ++ [s]) m'
  /\ map (reported c) (completed (seen c (l ++ [s])))
     = map (reported c) (completed (seen c l)) ++ match r with Some x => [x] | None => [] end.
Proof.
  intros I W. unfold pm_step. rewrite valid_transfer.
  destruct (in_reset (s_rstn s) (s_rst s)) as [rst|] eqn:R; [|discriminate]. cbn [rbind].
  apply reset_ok in R as [(-> & _ & R)|(-> & _ & R)].
  { intro H. injection H as <- <-. assert (S1 : seen1 s = []) by (unfold seen1; rewrite R; reflexivity).
    split; [|rewrite seen_snoc, S1, !app_nil_r; reflexivity].
    destruct I. constructor; rewrite ?seen_snoc, ?S1, ?app_nil_r; try assumption.
    rewrite idle_snoc, R. assumption. }
  specialize (W R). destruct (transfer c s) eqn:T.
  - specialize (W eq_refl). assert (S1 : seen1 s = [s_bus s]) by (unfold seen1; rewrite R, T; reflexivity).
    rewrite is1_sop, is1_eop.
    set (w := s_bus s) in *.
    intro H.
    assert (Hst : (if is_sop w then match m_pkt m with [] => Ok ([], true) | _ => Err EAvalonProtocol end
                   else Ok (m_pkt m, m_in m)) = Ok (m_pkt m, true)).
    { destruct (is_sop w); [destruct (m_pkt m); [reflexivity|discriminate]|].
      cbn [rbind] in H. destruct (m_in m); [reflexivity|discriminate]. }
    rewrite Hst in H. cbn [rbind negb] in H.
    destruct (is_eop w) eqn:L; cbn [negb] in H.
    + destruct (pm_last c (m_empty m) w) as [[b e]|] eqn:Eb; [|discriminate]. cbn [rbind] in H.
      apply last_ok in Eb; [|exact L]. subst b.
      destruct (pm_channel c (m_ch m) w) as [ch'|] eqn:Ech; [|discriminate]. cbn [rbind] in H.
      apply channel_ok_eq in Ech as [C1 C2].
      injection H as <- <-.
      assert (Cur : current (seen c (l ++ [s])) = []) by (rewrite seen_snoc, S1, current_snoc, L; reflexivity).
      split.
      * constructor; rewrite ?Cur; cbn; try reflexivity; try discriminate; [congruence|].
        unfold first_channel. destruct (c_cw c); reflexivity.
      * rewrite seen_snoc, S1, completed_snoc, L, map_app. cbn [map]. f_equal. f_equal.
        unfold reported. rewrite flat_map_app. cbn [flat_map]. rewrite app_nil_r, (iv_pkt _ _ I).
        destruct (c_report c); [|reflexivity]. f_equal. unfold first_channel.
        pose proof (iv_ch _ _ I) as Ich. unfold first_channel in Ich. destruct (c_cw c) eqn:Cw.
        -- destruct C2 as (v & Hv & -> & Hc & _); [discriminate|].
           destruct (current (seen c l)) as [|f0 r0] eqn:Ec; cbn [app]; [exact Hv|].
           rewrite <- Ich. apply Hc.
           destruct (iv_chok _ _ I) with (f := f0) (r := r0) as [v' Hv']; [congruence|exact Ec|]. congruence.
        -- rewrite C1 by reflexivity. rewrite Ich. reflexivity.
    + destruct (convert_binary_to_bytes (k_data w) (c_high c)) as [b|] eqn:Eb; [|discriminate]. cbn [rbind] in H.
      assert (Wb : b = word_bytes c w) by (unfold word_bytes; rewrite used_mid by exact L; rewrite Eb; reflexivity).
      apply convert_ok_res in Eb. pose proof (word_nonempty w L W Eb) as Wn. subst b.
      destruct (pm_channel c (m_ch m) w) as [ch'|] eqn:Ech; [|discriminate]. cbn [rbind] in H.
      apply channel_ok_eq in Ech as [C1 C2].
      injection H as <- <-.
      assert (Cur : current (seen c (l ++ [s])) = current (seen c l) ++ [w])
        by (rewrite seen_snoc, S1, current_snoc, L; reflexivity).
      split; [|rewrite seen_snoc, S1, completed_snoc, L, app_nil_r; reflexivity].
      constructor; rewrite ?Cur; cbn [m_in m_pkt m_ch m_cnt].
      * destruct (current (seen c l)); reflexivity.
      * rewrite flat_map_app. cbn [flat_map]. rewrite app_nil_r, (iv_pkt _ _ I). reflexivity.
      * intros _ X. apply app_eq_nil in X as [_ X]. contradiction.
      * pose proof (iv_ch _ _ I) as Ich. unfold first_channel in *. destruct (c_cw c) eqn:Cw.
        -- destruct C2 as (v & Hv & -> & Hc & _); [discriminate|].
           destruct (current (seen c l)) as [|f0 r0] eqn:Ec; cbn [app]; [congruence|].
           rewrite <- Ich. symmetry. apply Hc.
           destruct (iv_chok _ _ I) with (f := f0) (r := r0) as [v' Hv']; [congruence|exact Ec|]. congruence.
        -- rewrite C1 by reflexivity. exact Ich.
      * intros Cw f0 r0 Ef. destruct (C2 Cw) as (v & Hv & _).
        destruct (current (seen c l)) as [|f1 r1] eqn:Ec; cbn [app] in Ef; injection Ef as <- <-; [eauto|].
        eapply (iv_chok _ _ I); eassumption.
      * intros _. rewrite idle_snoc, R, T. reflexivity.
  - assert (S1 : seen1 s = []) by (unfold seen1; rewrite R, T; reflexivity).
    intro H. destruct (m_in m) eqn:In.
    + destruct (negb _ && _); [discriminate|]. injection H as <- <-.
      split; [|rewrite seen_snoc, S1, !app_nil_r; reflexivity].
      destruct I as [I1 I2 I3 I4 I5 I6]. rewrite In in I1.
      constructor; rewrite ?seen_snoc, ?S1, ?app_nil_r; cbn [m_in m_pkt m_ch m_cnt]; try assumption.
      intros _. rewrite idle_snoc, R, T, I6 by exact In. lia.
    + injection H as <- <-. split; [|rewrite seen_snoc, S1, !app_nil_r; reflexivity].
      destruct I as [I1 I2 I3 I4 I5 I6].
      constructor; rewrite ?seen_snoc, ?S1, ?app_nil_r; try assumption. congruence.
Qed.

Lemma run_snoc l : forall m reps m1 s, pm_run c m l = (reps, Ok m1) ->
  pm_run c m (l ++ [s]) = match pm_step c m1 s with
                          | Err e => (reps, Err e)
                          | Ok (r, m') => (reps ++ match r with Some x => [x] | None => [] end, Ok m')
                          end.
Proof.
  induction l as [|a l IH]; intros m reps m1 s.
  - cbn. intro H. injection H as <- <-. destruct (pm_step c m s) as [[[r|] m']|]; reflexivity.
  - cbn [pm_run app]. destruct (pm_step c m a) as [[r m2]|]; [|discriminate].
    destruct (pm_run c m2 l) as [reps2 f] eqn:E. intro H. injection H as H ->.
    rewrite (IH _ _ _ s E). destruct (pm_step c m1 s) as [[r' m']|]; subst reps; destruct r; reflexivity.
Qed.
Lemma run_app_err l : forall m reps e l', pm_run c m l = (reps, Err e) -> pm_run c m (l ++ l') = (reps, Err e).
Proof.
  induction l as [|a l IH]; intros m reps e l'; [discriminate|].
  cbn [pm_run app]. destruct (pm_step c m a) as [[r m2]|]; [|congruence].
  destruct (pm_run c m2 l) as [reps2 f] eqn:E. intro H. injection H as H ->. rewrite (IH _ _ _ l' E). subst. reflexivity.
Qed.

Lemma wide_words_snoc l s : wide_words c (l ++ [s]) ->
  wide_words c l /\ (running_cycle s = true -> transfer c s = true -> wide s).
Proof.
  unfold wide_words. rewrite seen_snoc. intro H. apply Forall_app in H as [H1 H2]. split; [exact H1|].
  unfold seen1 in H2. intros R T. rewrite R, T in H2. inversion H2; assumption.
Qed.

(** after any run without an exception *)
Lemma run_ok l : forall reps m, wide_words c l -> pm_run c pm_init l = (reps, Ok m) ->
  inv l m /\ reps = map (reported c) (completed (seen c l)).
Proof.
  induction l as [|s l IH] using rev_ind; intros reps m W H.
  - cbn in H. injection H as <- <-. split; [apply inv_init|reflexivity].
  - apply wide_words_snoc in W as [W1 W2].
    destruct (pm_run c pm_init l) as [reps1 [m1|e]] eqn:E.
    2:{ rewrite (run_app_err _ _ _ _ _ E) in H. discriminate. }
    destruct (IH reps1 m1 W1 eq_refl) as [I ->]. rewrite (run_snoc _ _ _ _ s E) in H.
    destruct (pm_step c m1 s) as [[r m']|] eqn:St; [|discriminate]. injection H as <- <-.
    destruct (inv_step l m1 s r m' I W2 St) as [I' Hr]. split; [exact I'|]. symmetry. exact Hr.
Qed.

(** what the next transferred word does *)
Section Word.
Context (l : list psample) (m : pmstate) (s : psample).
Hypothesis I : inv l m.
Hypothesis R : running_cycle s = true.
Hypothesis T : transfer c s = true.
Let w := s_bus s.
Let ws := seen c l.

Lemma step_misplaced : misplaced ws w -> pm_step c m s = Err EAvalonProtocol.
Proof.
  intro H. unfold pm_step. rewrite reset_false by exact R. cbn [rbind]. rewrite valid_transfer, T.
  fold w. rewrite is1_sop. destruct I as [I1 I2 I3 _ _ _]. fold ws in I1, I3. destruct H as [[H1 H2]|[H1 H2]]; rewrite H2.
  - cbn [rbind]. rewrite I1, H1. reflexivity.
  - specialize (I3 H1). destruct (m_pkt m); [contradiction|reflexivity].
Qed.

Lemma step_placed : ~ misplaced ws w -> pm_step c m s =
  rbind (if is_eop w then pm_last c (m_empty m) w
         else rbind (convert_binary_to_bytes (k_data w) (c_high c)) (fun b => Ok (b, m_empty m))) (fun '(b, e) =>
  rbind (pm_channel c (m_ch m) w) (fun ch =>
  if is_eop w
  then Ok (Some (if c_report c then RChan (m_pkt m ++ b) ch else RData (m_pkt m ++ b)), PM [] false 0 None e)
  else Ok (None, PM (m_pkt m ++ b) true 0 ch e))).
Proof.
  intro H. unfold pm_step. rewrite reset_false by exact R. cbn [rbind]. rewrite valid_transfer, T.
  fold w. rewrite is1_sop, is1_eop. destruct I as [I1 I2 I3 _ _ _]. fold ws in I1, I2, I3.
  assert (Hst : (if is_sop w then match m_pkt m with [] => Ok ([], true) | _ => Err EAvalonProtocol end
                 else Ok (m_pkt m, m_in m)) = Ok (m_pkt m, true)).
  { unfold misplaced in H. destruct (current ws) as [|f r] eqn:Ec.
    - destruct (is_sop w); [rewrite I2; reflexivity|]. exfalso. apply H. left. split; reflexivity.
    - destruct (is_sop w); [exfalso; apply H; right; split; [discriminate|reflexivity]|]. rewrite I1. reflexivity. }
  rewrite Hst. cbn [rbind negb]. destruct (is_eop w); reflexivity.
Qed.

Lemma data_ok : readable c w -> exists e,
  (if is_eop w then pm_last c (m_empty m) w
   else rbind (convert_binary_to_bytes (k_data w) (c_high c)) (fun b => Ok (b, m_empty m))) = Ok (word_bytes c w, e).
Proof.
  intros (Hr & He & _). destruct (is_eop w) eqn:L.
  - destruct (He eq_refl) as [H1 H2]. destruct (last_eq (m_empty m) w L H2) as (e' & _ & _ & E).
    exists e'. rewrite E, Hr. cbn [negb]. rewrite (proj2 (Nat.eqb_neq _ _) H1).
    unfold word_bytes. destruct (convert_ok (used c w) (c_high c) Hr) as (y & -> & _). reflexivity.
  - exists (m_empty m). unfold word_bytes. rewrite used_mid in * by exact L.
    destruct (convert_ok (k_data w) (c_high c) Hr) as (y & -> & _). reflexivity.
Qed.

Lemma chan_bad : readable c w -> bad_channel c ws w -> pm_channel c (m_ch m) w = Err EAvalonProtocol.
Proof.
  intros (_ & _ & Hc) (Cw & B). destruct (Hc Cw) as [v Hv]. unfold pm_channel.
  rewrite (iv_ch _ _ I). unfold first_channel. fold ws.
  destruct (c_cw c) eqn:Ec; [|congruence]. rewrite Hv.
  destruct (current ws) as [|f r] eqn:Ecur.
  - destruct B as (v' & Hv' & B). rewrite Hv in Hv'. injection Hv' as <-.
    rewrite (proj2 (Z.ltb_lt _ _) B). reflexivity.
  - destruct (iv_chok _ _ I) with (f := f) (r := r) as [u Hu]; [congruence|exact Ecur|].
    rewrite Hu. destruct (Z.eqb_spec v u) as [->|]; [|reflexivity]. congruence.
Qed.
Lemma chan_good : readable c w -> ~ bad_channel c ws w ->
  pm_channel c (m_ch m) w = Ok (first_channel c (current ws ++ [w])).
Proof.
  intros (_ & _ & Hc) B. unfold bad_channel in B. unfold pm_channel.
  rewrite (iv_ch _ _ I). unfold first_channel. fold ws.
  destruct (c_cw c) eqn:Ec; [|reflexivity]. destruct Hc as [v Hv]; [congruence|]. rewrite Hv.
  destruct (current ws) as [|f r] eqn:Ecur; cbn [app].
  - destruct (Z.ltb_spec (max_channel c) v); [|congruence].
    exfalso. apply B. split; [discriminate|eauto].
  - destruct (iv_chok _ _ I) with (f := f) (r := r) as [u Hu]; [congruence|exact Ecur|].
    rewrite Hu. destruct (Z.eqb_spec v u) as [->|]; [reflexivity|].
    exfalso. apply B. split; [discriminate|]. rewrite Hv, Hu. congruence.
Qed.

Lemma step_channel : ~ misplaced ws w -> readable c w -> bad_channel c ws w -> pm_step c m s = Err EAvalonProtocol.
Proof.
  intros P Rd B. rewrite step_placed by exact P. destruct (data_ok Rd) as [e ->]. cbn [rbind].
  rewrite chan_bad by assumption. reflexivity.
Qed.
Lemma step_good : ~ misplaced ws w -> readable c w -> ~ bad_channel c ws w -> exists m',
  pm_step c m s = Ok (if is_eop w then Some (reported c (current ws ++ [w])) else None, m').
Proof.
  intros P Rd B. rewrite step_placed by exact P. destruct (data_ok Rd) as [e ->]. cbn [rbind].
  rewrite chan_good by assumption. cbn [rbind]. destruct (is_eop w); eexists; [|reflexivity].
  unfold reported. rewrite flat_map_app, (iv_pkt _ _ I). cbn [flat_map]. rewrite app_nil_r. reflexivity.
Qed.
Lemma step_bad_last : ~ misplaced ws w -> is_eop w = true ->
  (use_empty c = true -> exists n, bval (k_empty w) = Some n) -> resolvable (used c w) = false ->
  (masks c w -> pm_step c m s = Err EAvalonProtocol)
  /\ (~ masks c w -> m_empty m <> None -> pm_step c m s = Err EAvalonProtocol)
  /\ (~ masks c w -> m_empty m = None -> pm_step c m s = Err EUnboundLocal).
Proof.
  intros P L He Hr. rewrite step_placed by exact P. rewrite L.
  destruct (last_eq (m_empty m) w L He) as (e' & E1 & E2 & E). rewrite E, Hr. cbn [negb].
  split; [|split].
  - intro Mk. specialize (E1 Mk). destruct e'; [reflexivity|contradiction].
  - intros Mk N. rewrite (E2 Mk). destruct (m_empty m); [reflexivity|contradiction].
  - intros Mk N. rewrite (E2 Mk), N. reflexivity.
Qed.
End Word.

(** the same on whole runs *)
Lemma run_next l reps m s : wide_words c l -> pm_run c pm_init l = (reps, Ok m) ->
  running_cycle s = true -> transfer c s = true ->
  let w := s_bus s in let ws := seen c l in let next := pm_run c pm_init (l ++ [s]) in
  (misplaced ws w -> next = (reps, Err EAvalonProtocol))
  /\ (~ misplaced ws w -> readable c w -> bad_channel c ws w -> next = (reps, Err EAvalonProtocol))
  /\ (~ misplaced ws w -> readable c w -> ~ bad_channel c ws w ->
      exists m', next = (reps ++ (if is_eop w then [reported c (current ws ++ [w])] else []), Ok m'))
  /\ (~ misplaced ws w -> masks c w -> resolvable (used c w) = false -> next = (reps, Err EAvalonProtocol)).
Proof.
  intros W H R T w ws next. destruct (run_ok l reps m W H) as [I _]. unfold next. rewrite (run_snoc _ _ _ _ s H).
  split; [|split; [|split]].
  - intro A. rewrite (step_misplaced l m s I R T A). reflexivity.
  - intros A B C. rewrite (step_channel l m s I R T A B C). reflexivity.
  - intros A B C. destruct (step_good l m s I R T A B C) as [m' ->]. exists m'. destruct (is_eop (s_bus s)) eqn:E; unfold w; rewrite E; reflexivity.
  - intros A B C. pose proof B as (B1 & B2 & e & B3 & B4).
    destruct (step_bad_last l m s I R T A B1 ltac:(eauto) C) as [-> _]; [|exact B]. reflexivity.
Qed.

Lemma run_unmasked l reps m s : wide_words c l -> pm_run c pm_init l = (reps, Ok m) -> m_empty m = None ->
  running_cycle s = true -> transfer c s = true ->
  let w := s_bus s in
  ~ misplaced (seen c l) w -> is_eop w = true -> (use_empty c = true -> bval (k_empty w) = Some 0%Z) ->
  resolvable (k_data w) = false ->
  pm_run c pm_init (l ++ [s]) = (reps, Err EUnboundLocal).
Proof.
  intros W H E R T w A B C D. destruct (run_ok l reps m W H) as [I _]. rewrite (run_snoc _ _ _ _ s H).
  assert (Mk : ~ masks c w) by (intros (_ & U & e & X & Y); rewrite (C U) in X; congruence).
  assert (Us : used c w = k_data w).
  { unfold used. destruct (is_eop w && use_empty c) eqn:Z; [|reflexivity]. apply andb_true_iff in Z as [_ Z].
    rewrite (C Z). replace (Z.to_nat (0 * Z.of_nat (c_dbs c))) with 0 by lia.
    rewrite Nat.sub_0_r, firstn_all. destruct (c_high c); reflexivity. }
  destruct (step_bad_last l m s I R T A B) as (_ & _ & G); [eauto|unfold w in *; rewrite Us; exact D|].
  rewrite (G Mk E). reflexivity.
Qed.

(** all words of a packet received have the channel reported *)
Definition same_channel (ws : list pk_out) : Prop :=
  exists v, first_channel c ws = Some v /\ Forall (fun w => bval (k_channel w) = Some v) ws.
Lemma run_channel_inv l : forall reps m, wide_words c l -> pm_run c pm_init l = (reps, Ok m) -> c_cw c <> None ->
  Forall same_channel (completed (seen c l)) /\ (current (seen c l) <> [] -> same_channel (current (seen c l))).
Proof.
  induction l as [|s l IH] using rev_ind; intros reps m W H Cw.
  - split; [constructor|]. intro X. exfalso. apply X. reflexivity.
  - apply wide_words_snoc in W as [W1 W2].
    destruct (pm_run c pm_init l) as [reps1 [m1|e]] eqn:E.
    2:{ rewrite (run_app_err _ _ _ _ _ E) in H. discriminate. }
    destruct (IH reps1 m1 W1 eq_refl Cw) as [F1 F2].
    destruct (run_ok l reps1 m1 W1 E) as [I _]. rewrite (run_snoc _ _ _ _ s E) in H.
    rewrite seen_snoc. unfold seen1. destruct (running_cycle s && transfer c s) eqn:RT; [|rewrite app_nil_r; auto].
    apply andb_true_iff in RT as [R T].
    destruct (pm_step c m1 s) as [[r m']|] eqn:St; [|discriminate]. clear H.
    set (w := s_bus s) in *. set (ws := seen c l) in *.
    assert (S : same_channel (current ws ++ [w])).
    { unfold pm_step in St. rewrite reset_false in St by exact R. cbn [rbind] in St. rewrite valid_transfer, T in St.
      fold w in St.
      destruct (if is1 (k_sop w) then _ else _) as [[pkt inp]|]; [|discriminate]. cbn [rbind] in St.
      destruct (negb inp); [discriminate|].
      destruct (if negb (is1 (k_eop w)) then _ else _) as [[b e]|]; [|discriminate]. cbn [rbind] in St.
      destruct (pm_channel c (m_ch m1) w) as [ch'|] eqn:Ech; [|discriminate].
      apply channel_ok_eq in Ech as [_ C2]. destruct (C2 Cw) as (v & Hv & _ & Hc & _).
      rewrite (iv_ch _ _ I) in Hc. fold ws in Hc. unfold same_channel. exists v.
      destruct (current ws) as [|f r0] eqn:Ec; cbn [app].
      - unfold first_channel. destruct (c_cw c); [|congruence]. split; [exact Hv|]. constructor; [exact Hv|constructor].
      - destruct F2 as (u & Hu & Fu); [discriminate|]. rewrite Hu in Hc.
        specialize (Hc ltac:(discriminate)). injection Hc as ->.
        split; [exact Hu|]. change (f :: r0 ++ [w]) with ((f :: r0) ++ [w]). apply Forall_app.
        split; [exact Fu|]. constructor; [exact Hv|constructor]. }
    rewrite completed_snoc, current_snoc. destruct (is_eop w).
    + split; [|intro X; exfalso; apply X; reflexivity]. apply Forall_app. split; [exact F1|]. constructor; [exact S|constructor].
    + split; [exact F1|]. intros _. exact S.
Qed.
Lemma run_channels l reps m : wide_words c l -> pm_run c pm_init l = (reps, Ok m) ->
  c_report c = true -> c_cw c <> None ->
  Forall2 (fun r ws => exists data v, r = RChan data (Some v) /\ Forall (fun w => bval (k_channel w) = Some v) ws)
          reps (completed (seen c l)).
Proof.
  intros W H Rp Cw. destruct (run_channel_inv l reps m W H Cw) as [F _].
  destruct (run_ok l reps m W H) as [_ ->]. clear W H.
  induction F as [|ws wss (v & Hv & Fv) F IH]; cbn [map]; constructor; [|exact IH].
  unfold reported. rewrite Rp, Hv. eauto.
Qed.

(** idle cycles *)
Lemma step_idle l m s : inv l m -> running_cycle s = true -> transfer c s = false ->
  pm_step c m s =
    match current (seen c l) with
    | [] => Ok (None, m)
    | _ => if negb (c_timeout c =? 0)%Z && (c_timeout c <=? Z.of_nat (S (idle_run c l)))%Z
           then Err EAvalonProtocol
           else Ok (None, PM (m_pkt m) true (Z.of_nat (S (idle_run c l))) (m_ch m) (m_empty m))
    end.
Proof.
  intros I R T. unfold pm_step. rewrite reset_false by exact R. cbn [rbind]. rewrite valid_transfer, T.
  pose proof (iv_in _ _ I) as I1. pose proof (iv_cnt _ _ I) as I6.
  destruct (current (seen c l)); rewrite I1; [reflexivity|].
  rewrite I6 by exact I1. replace (Z.of_nat (idle_run c l) + 1)%Z with (Z.of_nat (S (idle_run c l))) by lia. reflexivity.
Qed.

Lemma run_idle l reps m s : wide_words c l -> pm_run c pm_init l = (reps, Ok m) ->
  running_cycle s = true -> transfer c s = false -> (0 <= c_timeout c)%Z ->
  let next := pm_run c pm_init (l ++ [s]) in
  if negb (c_timeout c =? 0)%Z && (match current (seen c l) with [] => false | _ => true end)
     && (c_timeout c <=? Z.of_nat (S (idle_run c l)))%Z
  then next = (reps, Err EAvalonProtocol)
  else exists m', next = (reps, Ok m').
Proof.
  intros W H R T TO next. destruct (run_ok l reps m W H) as [I _]. unfold next. rewrite (run_snoc _ _ _ _ s H).
  rewrite (step_idle l m s I R T). destruct (current (seen c l)).
  - rewrite andb_false_r. cbn [andb]. rewrite app_nil_r. eauto.
  - rewrite andb_true_r. destruct (negb _ && _); [reflexivity|]. rewrite app_nil_r. eauto.
Qed.

(** cycles in reset do not matter *)
Lemma run_reset l : forall m, pm_run c m l = pm_run c m (filter (fun s => negb (in_reset_cycle s)) l).
Proof.
  induction l as [|s l IH]; intro m; [reflexivity|]. cbn [filter]. destruct (in_reset_cycle s) eqn:R; cbn [negb].
  - cbn [pm_run]. unfold pm_step at 1. rewrite reset_true by exact R. cbn [rbind].
    rewrite <- IH. destruct (pm_run c m l). reflexivity.
  - cbn [pm_run]. destruct (pm_step c m s) as [[r m']|]; [|reflexivity]. rewrite IH. reflexivity.
Qed.

(** stalls *)
Lemma filter_filter {A} (f g : A -> bool) (l : list A) : filter g (filter f l) = filter (fun x => f x && g x) l.
Proof.
  induction l as [|x l IH]; [reflexivity|]. cbn [filter]. destruct (f x); cbn [filter andb]; [|exact IH].
  destruct (g x); rewrite IH; reflexivity.
Qed.
Lemma seen_filter l : seen c (filter running_cycle l) = seen c l.
Proof.
  unfold seen. f_equal. rewrite filter_filter. apply filter_ext. intro s. destruct (running_cycle s); reflexivity.
Qed.
Lemma seen_idle mid : Forall (fun s => transfer c s = false) mid -> seen c mid = [].
Proof.
  induction 1 as [|s mid H F IH]; [reflexivity|]. unfold seen in *. cbn [filter]. rewrite H, andb_false_r. exact IH.
Qed.
(** the idle run is at the end *)
Lemma idle_run_tail l : exists pre mid, filter running_cycle l = pre ++ mid /\ length mid = idle_run c l
  /\ Forall (fun s => transfer c s = false) mid.
Proof.
  induction l as [|s l (pre & mid & E & L & F)] using rev_ind.
  - exists [], []. repeat split. constructor.
  - rewrite idle_snoc, filter_app. cbn [filter]. destruct (running_cycle s).
    + destruct (transfer c s) eqn:T.
      * exists (filter running_cycle l ++ [s]), []. rewrite app_nil_r. repeat split. constructor.
      * exists pre, (mid ++ [s]). rewrite E, <- app_assoc, app_length, L. cbn [length]. repeat split; [lia|].
        apply Forall_app. split; [exact F|]. constructor; [exact T|constructor].
    + exists pre, mid. rewrite app_nil_r. auto.
Qed.
Lemma idle_run_ge mid l a : filter running_cycle l = a ++ mid -> Forall (fun s => transfer c s = false) mid ->
  length mid <= idle_run c l.
Proof.
  intros E F. unfold idle_run. rewrite E, fold_left_app.
  assert (G : forall m n, Forall (fun s => transfer c s = false) m -> fold_left (fun n s => if transfer c s then 0 else S n) m n = n + length m).
  { clear. induction m as [|x m IH]; intros n F; [cbn; lia|]. inversion F; subst. cbn [fold_left length]. rewrite H1, IH by assumption. lia. }
  rewrite G by exact F. lia.
Qed.
Lemma stalled_snoc l s : stalled c (l ++ [s]) <->
  stalled c l \/ (running_cycle s = true /\ transfer c s = false /\ current (seen c l) <> [] /\ (0 < c_timeout c)%Z
                  /\ (c_timeout c <= Z.of_nat (S (idle_run c l)))%Z).
Proof.
  unfold stalled. rewrite filter_app. cbn [filter]. split.
  - intros (TO & a & mid & b & E & L & F & Cu). destruct (running_cycle s) eqn:R.
    2:{ left. split; [exact TO|]. exists a, mid, b. rewrite app_nil_r in E. auto. }
    destruct b as [|x b _] using rev_ind.
    + rewrite app_nil_r in E. destruct mid as [|y mid _] using rev_ind; [cbn [length] in L; lia|].
      rewrite app_assoc in E. apply app_inj_tail in E as [E ->]. apply Forall_app in F as [F F1]. inversion F1 as [|? ? T _]; subst.
      right. repeat split; [exact T| |exact TO|].
      * rewrite <- seen_filter, E, seen_app, (seen_idle mid F), app_nil_r. exact Cu.
      * rewrite app_length in L. cbn [length] in L. pose proof (idle_run_ge mid l a E F). lia.
    + rewrite !app_assoc in E. apply app_inj_tail in E as [E ->]. left. split; [exact TO|]. exists a, mid, b.
      rewrite <- app_assoc in E. auto.
  - intros [(TO & a & mid & b & E & L & F & Cu)|(R & T & Cu & TO & Ge)].
    + split; [exact TO|]. exists a, mid, (b ++ if running_cycle s then [s] else []). rewrite E, <- !app_assoc. auto.
    + split; [exact TO|]. rewrite R. destruct (idle_run_tail l) as (pre & mid & E & L & F).
      set (k := length mid - (Z.to_nat (c_timeout c) - 1)).
      exists (pre ++ firstn k mid), (skipn k mid ++ [s]), []. rewrite app_nil_r, <- app_assoc, (app_assoc (firstn k mid)), firstn_skipn, app_assoc, <- E.
      split; [reflexivity|]. split; [|split].
      * rewrite app_length, skipn_length. cbn [length]. subst k. lia.
      * apply Forall_app. split; [|constructor; [exact T|constructor]].
        rewrite <- (firstn_skipn k mid) in F. apply Forall_app in F. apply F.
      * rewrite <- seen_filter, E, seen_app, (seen_idle mid F), app_nil_r in Cu.
        rewrite seen_app, (seen_idle (firstn k mid)), app_nil_r; [exact Cu|].
        rewrite <- (firstn_skipn k mid) in F. apply Forall_app in F. apply F.
Qed.
Lemma stalled_app l l' : stalled c l -> stalled c (l ++ l').
Proof.
  intros (TO & a & mid & b & E & H). split; [exact TO|]. exists a, mid, (b ++ filter running_cycle l').
  rewrite filter_app, E, <- !app_assoc. auto.
Qed.
Lemma stalled_nil : ~ stalled c [].
Proof. intros (TO & a & mid & b & E & L & _). symmetry in E. apply app_eq_nil in E as [_ E]. apply app_eq_nil in E as [-> _]. cbn [length] in L. lia. Qed.

(** a whole stream without anything wrong in it: all is reported, up to the first stall *)
Lemma run_stream l :
  (0 <= c_timeout c)%Z -> wide_words c l ->
  Forall (fun s => in_reset_cycle s = true \/ running_cycle s = true) l ->
  (forall a w b, seen c l = a ++ w :: b -> ~ misplaced a w /\ readable c w /\ ~ bad_channel c a w) ->
  (~ stalled c l /\ exists m, pm_run c pm_init l = (map (reported c) (completed (seen c l)), Ok m))
  \/ (exists a s b, l = a ++ s :: b /\ ~ stalled c a /\ stalled c (a ++ [s])
       /\ pm_run c pm_init l = (map (reported c) (completed (seen c a)), Err EAvalonProtocol)).
Proof.
  intro TO. induction l as [|s l IH] using rev_ind; intros W Rs G.
  - left. split; [exact stalled_nil|]. exists pm_init. reflexivity.
  - apply Forall_app in Rs as [Rs R]. inversion R as [|? ? R1 _]; subst.
    apply wide_words_snoc in W as [W1 W2].
    destruct IH as [[NS [m Hm]]|(a & x & b & E & NS & St & Hm)]; [exact W1|exact Rs| | |].
    { intros a w b E. apply (G a w (b ++ seen1 s)). rewrite seen_snoc, E, <- app_assoc. reflexivity. }
    2:{ right. exists a, x, (b ++ [s]). split; [rewrite E, <- app_assoc; reflexivity|]. split; [exact NS|]. split; [exact St|].
        apply run_app_err. exact Hm. }
    destruct (run_ok l _ _ W1 Hm) as [I _].
    rewrite (run_snoc _ _ _ _ s Hm).
    assert (St : (~ stalled c (l ++ [s]) /\ exists r m', pm_step c m s = Ok (r, m')) \/ (stalled c (l ++ [s]) /\ pm_step c m s = Err EAvalonProtocol)).
    { rewrite stalled_snoc. destruct R1 as [R1|R1].
      - left. split.
        + intros [H|(H & _)]; [exact (NS H)|]. pose proof (reset_true s R1) as X. pose proof (reset_false s H) as Y. congruence.
        + exists None, m. unfold pm_step. rewrite reset_true by exact R1. reflexivity.
      - destruct (transfer c s) eqn:T.
        + left. split; [intros [H|(_ & H & _)]; [exact (NS H)|discriminate]|].
          destruct (G (seen c l) (s_bus s) []) as (G1 & G2 & G3).
          { rewrite seen_snoc. unfold seen1. rewrite R1, T. reflexivity. }
          destruct (step_good l m s I R1 T G1 G2 G3) as [m' E]. eauto.
        + rewrite (step_idle l m s I R1 T). destruct (current (seen c l)) as [|w0 ws0].
          * left. split; [intros [H|(_ & _ & H & _)]; [exact (NS H)|exact (H eq_refl)]|]. eauto.
          * destruct (Z.eqb_spec (c_timeout c) 0) as [Z0|Z0]; cbn [negb andb].
            -- left. split; [|eauto]. intros [H|(_ & _ & _ & H & _)]; [exact (NS H)|lia].
            -- destruct (Z.leb_spec (c_timeout c) (Z.of_nat (S (idle_run c l)))) as [L|L].
               ++ right. split; [right; repeat split; [exact R1|discriminate|lia|exact L]|reflexivity].
               ++ left. split; [|eauto]. intros [H|(_ & _ & _ & _ & H)]; [exact (NS H)|lia]. }
    destruct St as [[NS' (r & m' & St)]|[S' St]]; rewrite St.
    + left. split; [exact NS'|]. exists m'.
      destruct (inv_step l m s r m' I W2 St) as [_ E]. rewrite <- E. reflexivity.
    + right. exists l, s, []. repeat split; try assumption; apply S'.
Qed.
Lemma run_good l :
  (0 <= c_timeout c)%Z -> wide_words c l ->
  Forall (fun s => in_reset_cycle s = true \/ running_cycle s = true) l ->
  (forall a w b, seen c l = a ++ w :: b -> ~ misplaced a w /\ readable c w /\ ~ bad_channel c a w) ->
  (~ stalled c l -> exists m, pm_run c pm_init l = (map (reported c) (completed (seen c l)), Ok m))
  /\ (stalled c l -> exists a s b, l = a ++ s :: b /\ ~ stalled c a /\ stalled c (a ++ [s])
       /\ pm_run c pm_init l = (map (reported c) (completed (seen c a)), Err EAvalonProtocol)).
Proof.
  intros TO W Rs G. destruct (run_stream l TO W Rs G) as [[NS H]|(a & s & b & -> & NS & St & H)].
  - split; [intros _; exact H|]. intro X. destruct (NS X).
  - split; [|intros _; exists a, s, b; auto]. intro X. destruct X.
    change (s :: b) with ([s] ++ b). rewrite app_assoc. apply stalled_app, St.
Qed.
Lemma ok_not_stalled l : forall reps m, (0 <= c_timeout c)%Z -> wide_words c l -> pm_run c pm_init l = (reps, Ok m) -> ~ stalled c l.
Proof.
  induction l as [|s l IH] using rev_ind; intros reps m TO W H; [exact stalled_nil|].
  apply wide_words_snoc in W as [W1 _]. destruct (pm_run c pm_init l) as [reps1 f] eqn:E.
  destruct f as [m1|e]; [|rewrite (run_app_err _ _ _ _ _ E) in H; discriminate].
  rewrite stalled_snoc. intros [X|(R & T & Cu & X & Y)]; [exact (IH _ _ TO W1 eq_refl X)|].
  pose proof (run_idle l reps1 m1 s W1 E R T TO) as N. cbn zeta in N. destruct (current (seen c l)); [contradiction|].
  rewrite (proj2 (Z.leb_le _ _) Y), (proj2 (Z.eqb_neq _ _)) in N by lia. cbn [negb andb] in N. congruence.
Qed.
Lemma run_idle_stalled l reps m s : (0 <= c_timeout c)%Z -> wide_words c l -> pm_run c pm_init l = (reps, Ok m) ->
  running_cycle s = true -> transfer c s = false ->
  let next := pm_run c pm_init (l ++ [s]) in
  (stalled c (l ++ [s]) -> next = (reps, Err EAvalonProtocol))
  /\ (~ stalled c (l ++ [s]) -> exists m', next = (reps, Ok m')).
Proof.
  intros TO W H R T next. pose proof (run_idle l reps m s W H R T TO) as N. cbn zeta in N. fold next in N.
  pose proof (ok_not_stalled l reps m TO W H) as NS. rewrite stalled_snoc.
  destruct (negb (c_timeout c =? 0)%Z) eqn:Z0; cbn [andb] in N.
  2:{ apply negb_false_iff, Z.eqb_eq in Z0. split; [|auto]. intros [X|(_ & _ & _ & X & _)]; [destruct (NS X)|lia]. }
  apply negb_true_iff, Z.eqb_neq in Z0. destruct (current (seen c l)) as [|w0 ws0]; cbn [andb] in N.
  - split; [|auto]. intros [X|(_ & _ & X & _)]; [destruct (NS X)|destruct (X eq_refl)].
  - destruct (Z.leb_spec (c_timeout c) (Z.of_nat (S (idle_run c l)))) as [L|L].
    + split; [auto|]. intro X. destruct X. right. repeat split; try assumption; [discriminate|lia].
    + split; [|auto]. intros [X|(_ & _ & _ & _ & X)]; [destruct (NS X)|lia].
Qed.
End Mon.

(** ** The driver's packets seen by the monitor *)
Definition good1 (c : pcfg) (ws : list pk_out) (w : pk_out) : Prop :=
  ~ misplaced ws w /\ readable c w /\ ~ bad_channel c ws w.
Fixpoint goodf (c : pcfg) (ws rest : list pk_out) : Prop :=
  match rest with
  | [] => True
  | w :: r => good1 c ws w /\ goodf c (ws ++ [w]) r
  end.
Lemma goodf_all c rest : forall ws, goodf c ws rest -> forall a w b, rest = a ++ w :: b -> good1 c (ws ++ a) w.
Proof.
  induction rest as [|x rest IH]; intros ws H a w b E; [destruct a; discriminate|].
  cbn in H. destruct H as [H1 H2]. destruct a as [|y a]; cbn in E; injection E as -> E.
  - rewrite app_nil_r. exact H1.
  - specialize (IH _ H2 a w b E). rewrite <- app_assoc in IH. exact IH.
Qed.
Lemma goodf_app c a : forall ws b, goodf c ws a -> goodf c (ws ++ a) b -> goodf c ws (a ++ b).
Proof.
  induction a as [|x a IH]; intros ws b H1 H2; [rewrite app_nil_r in H2; exact H2|].
  cbn in *. destruct H1 as [H0 H1]. split; [exact H0|]. apply IH; [exact H1|]. rewrite <- app_assoc. exact H2.
Qed.

Section EndToEnd.
Context (c : pcfg) (k : nat) (base : pk_out) (ch : option Z).
Hypothesis BB : word_bus c k.
Hypothesis W8 : c_width c = 8 * k.
Hypothesis CH : channel_ok c ch.
Notation wd := (wd c k base ch).
Notation pw := (pwords c k base ch).

Definition chan_val : Z := match ch with Some z => z | None => 0%Z end.
Lemma chan_value n : c_cw c = Some n ->
  (0 <= chan_val <= max_channel c)%Z /\ bval (chan_bits c base ch) = Some chan_val.
Proof.
  intro Hn. unfold chan_val, chan_bits. pose proof CH as H. unfold channel_ok in H. rewrite Hn in H |- *.
  pose proof (wb_check _ _ BB) as Ck. unfold pk_check in Ck.
  destruct (use_empty c && _); [discriminate|]. rewrite Hn in Ck. destruct (128 <? n); [discriminate|].
  destruct (Z.ltb_spec (2 ^ Z.of_nat n - 1) (max_channel c)); [discriminate|].
  revert H. case ch.
  - intros z H. rewrite bval_zbits, Z.mod_small by lia. split; [lia|reflexivity].
  - intros H. rewrite bval_zeros. split; [lia|reflexivity].
Qed.

Lemma wd_eop first str : is_eop (wd first str) = (length str <=? k).
Proof. unfold is_eop, PktProof.wd. cbn [k_eop]. destruct (length str <=? k); reflexivity. Qed.
Lemma wd_sop first str : is_sop (wd first str) = first.
Proof. unfold is_sop, PktProof.wd. cbn [k_sop]. destruct first; reflexivity. Qed.

Lemma wd_empty first (str : bytes) : str <> [] -> length str <= k -> use_empty c = true ->
  bval (k_empty (wd first str)) = Some (Z.of_nat k - Z.of_nat (length str))%Z.
Proof.
  intros N L U. assert (0 < length str) by (destruct str; [contradiction|cbn; lia]).
  unfold PktProof.wd. rewrite U, (proj2 (Nat.leb_le _ _) L). cbn [k_empty].
  destruct (wb_empty _ _ BB U) as [n [En Hn]].
  unfold ew. rewrite En. rewrite bval_zbits, Z.mod_small by lia. reflexivity.
Qed.

Lemma data_eq first str : k_data (wd first str) = word_bits (c_high c) (firstn k str ++ repeat 0%Z (k - length str)).
Proof.
  unfold PktProof.wd. cbn [k_data]. unfold padded, pad. rewrite W8, Nat.sub_diag. cbn [repeat].
  destruct (c_high c); [apply app_nil_r|reflexivity].
Qed.
Lemma fills_skip str : k < length str -> fills c k str -> fills c k (skipn k str).
Proof.
  pose proof (wb_pos _ _ BB) as K. intros L [H|H]; [left; exact H|right]. rewrite skipn_length.
  replace (length str) with (length str - k + 1 * k) in H by lia. rewrite Nat.mod_add in H by lia. exact H.
Qed.
Lemma fills_full str : str <> [] -> length str <= k -> fills c k str -> c_dbs c = 8 \/ length str = k.
Proof.
  intros N L [H|H]; [left; exact H|right]. destruct (Nat.eq_dec (length str) k) as [E|E]; [exact E|].
  rewrite Nat.mod_small in H by lia. destruct str; [contradiction|discriminate].
Qed.

Lemma wd_used first (str : bytes) : str <> [] -> fills c k str -> used c (wd first str) = word_bits (c_high c) (firstn k str).
Proof.
  intros N F. assert (L1' : 0 < length str) by (destruct str; [contradiction|cbn; lia]).
  unfold used. rewrite wd_eop, data_eq. destruct (Nat.leb_spec (length str) k) as [L|L].
  - cbn [andb]. destruct (fills_full str N L F) as [D|D].
    + destruct (use_empty c) eqn:U.
      * rewrite wd_empty by assumption. rewrite D.
        replace (Z.to_nat _) with (8 * (k - length str)) by lia.
        unfold word_bits. destruct (c_high c).
        -- fold (bytes_bits (firstn k str ++ repeat 0%Z (k - length str))). fold (bytes_bits (firstn k str)).
           rewrite bytes_bits_app, firstn_app, app_length, !bytes_bits_length, repeat_length.
           rewrite firstn_all2 by (rewrite bytes_bits_length; lia).
           replace (_ - _ - _) with 0 by lia. cbn [firstn]. apply app_nil_r.
        -- fold (bytes_bits (rev (firstn k str ++ repeat 0%Z (k - length str)))). fold (bytes_bits (rev (firstn k str))).
           rewrite rev_app_distr, bytes_bits_app, skipn_app, rev_repeat, bytes_bits_length, repeat_length.
           rewrite skipn_all2 by (rewrite bytes_bits_length, repeat_length; lia).
           rewrite Nat.sub_diag. reflexivity.
      * unfold use_empty in U. rewrite W8, D in U. apply Nat.ltb_ge in U.
        replace (k - length str) with 0 by lia. cbn [repeat]. rewrite app_nil_r. reflexivity.
    + replace (k - length str) with 0 by lia. cbn [repeat]. rewrite app_nil_r.
      destruct (use_empty c) eqn:U; [|reflexivity]. rewrite wd_empty by assumption.
      rewrite D, Z.sub_diag. cbn [Z.mul Z.to_nat skipn]. rewrite Nat.sub_0_r, firstn_all. destruct (c_high c); reflexivity.
  - cbn [andb]. replace (k - length str) with 0 by lia.
    cbn [repeat]. rewrite app_nil_r. reflexivity.
Qed.

Lemma word_bits_convert high b : all_bytes b ->
  convert_binary_to_bytes (word_bits high b) high = Ok b /\ length (word_bits high b) = 8 * length b.
Proof.
  intro H. unfold word_bits. destruct high.
  - split; [apply convert_bytes_bits_big, H|apply bytes_bits_length].
  - split; [apply convert_bytes_bits_little, H|]. fold (bytes_bits (rev b)). rewrite bytes_bits_length, rev_length. reflexivity.
Qed.

Lemma firstn_bytes n (b : bytes) : all_bytes b -> all_bytes (firstn n b).
Proof. intro H. rewrite <- (firstn_skipn n b) in H. apply Forall_app in H. apply H. Qed.
Lemma skipn_bytes n (b : bytes) : all_bytes b -> all_bytes (skipn n b).
Proof. intro H. rewrite <- (firstn_skipn n b) in H. apply Forall_app in H. apply H. Qed.

Lemma wd_bytes first (str : bytes) : str <> [] -> all_bytes str -> fills c k str -> word_bytes c (wd first str) = firstn k str.
Proof.
  intros N A F. unfold word_bytes. rewrite wd_used by assumption.
  destruct (word_bits_convert (c_high c) (firstn k str) (firstn_bytes k str A)) as [-> _]. reflexivity.
Qed.

Lemma wd_readable first (str : bytes) : str <> [] -> all_bytes str -> fills c k str -> readable c (wd first str).
Proof.
  intros N A F. destruct (word_bits_convert (c_high c) (firstn k str) (firstn_bytes k str A)) as [C L].
  unfold readable. rewrite wd_used by assumption. split; [eapply convert_ok_res; exact C|]. split.
  - intros E. rewrite wd_eop in E. apply Nat.leb_le in E. split; [rewrite L; lia|].
    intro U. eexists. apply wd_empty; assumption.
  - intro Cw. destruct (c_cw c) as [n|] eqn:En; [|congruence]. destruct (chan_value n En) as [_ V]. eauto.
Qed.

Lemma wd_length first (str : bytes) : length (k_data (wd first str)) = 8 * k.
Proof.
  rewrite data_eq. unfold word_bits.
  assert (E : length (firstn k str ++ repeat 0%Z (k - length str)) = k).
  { rewrite app_length, firstn_length, repeat_length. lia. }
  destruct (c_high c).
  - fold (bytes_bits (firstn k str ++ repeat 0%Z (k - length str))). rewrite bytes_bits_length, E. reflexivity.
  - fold (bytes_bits (rev (firstn k str ++ repeat 0%Z (k - length str)))). rewrite bytes_bits_length, rev_length, E. reflexivity.
Qed.

Lemma pw_good f : forall (first : bool) (str : bytes) ws, length str <= f -> str <> [] -> all_bytes str -> fills c k str ->
  (if first then current ws = [] else exists g r, current ws = g :: r /\ k_channel g = chan_bits c base ch) ->
  goodf c ws (pw first str)
  /\ current (ws ++ pw first str) = []
  /\ completed (ws ++ pw first str) = completed ws ++ [current ws ++ pw first str]
  /\ flat_map (word_bytes c) (pw first str) = str
  /\ Forall (fun w => 0 < length (k_data w)) (pw first str).
Proof.
  pose proof (wb_pos _ _ BB) as K.
  induction f as [|f IH]; intros first str ws Hf N A F Hc; [destruct str; [contradiction|cbn in Hf; lia]|].
  assert (L0' : 0 < length str) by (destruct str; [contradiction|cbn; lia]).
  rewrite (pwords_step _ _ _ _ BB) by exact N.
  assert (G : good1 c ws (wd first str)).
  { split; [|split].
    - intros [[H1 H2]|[H1 H2]]; rewrite wd_sop in H2; subst first.
      + destruct Hc as (g & r & E & _). congruence.
      + congruence.
    - apply wd_readable; assumption.
    - intros [Cw B]. destruct (c_cw c) as [n|] eqn:En; [|congruence]. destruct (chan_value n En) as [V1 V2].
      destruct first.
      + rewrite Hc in B. destruct B as (v & B1 & B2). cbn [PktProof.wd k_channel] in B1.
        rewrite V2 in B1. injection B1 as <-. lia.
      + destruct Hc as (g & r & E & Eg). rewrite E in B. apply B. rewrite Eg. reflexivity. }
  destruct (Nat.leb_spec (length str) k) as [L|L].
  - rewrite skipn_all2 by exact L. rewrite pwords_nil. cbn [goodf flat_map].
    rewrite current_snoc, completed_snoc, wd_eop, (proj2 (Nat.leb_le _ _) L).
    split; [split; [exact G|exact Logic.I]|]. split; [reflexivity|]. split; [reflexivity|].
    split; [rewrite app_nil_r, wd_bytes by assumption; apply firstn_all2; exact L|].
    constructor; [|constructor]. rewrite wd_length. lia.
  - assert (Ls : length (skipn k str) = length str - k) by apply skipn_length.
    assert (Ns : skipn k str <> []) by (intro Z; rewrite Z in Ls; cbn in Ls; lia).
    assert (Cur : current (ws ++ [wd first str]) = current ws ++ [wd first str]).
    { rewrite current_snoc, wd_eop, (proj2 (Nat.leb_gt _ _) L). reflexivity. }
    assert (Com : completed (ws ++ [wd first str]) = completed ws).
    { rewrite completed_snoc, wd_eop, (proj2 (Nat.leb_gt _ _) L). reflexivity. }
    destruct (IH false (skipn k str) (ws ++ [wd first str]) ltac:(lia) Ns (skipn_bytes k str A) (fills_skip str L F)) as (A1 & A2 & A3 & A4 & A5).
    { rewrite Cur. destruct first.
      - rewrite Hc. exists (wd true str), []. split; reflexivity.
      - destruct Hc as (g & r & E & Eg). rewrite E. exists g, (r ++ [wd false str]). split; [reflexivity|exact Eg]. }
    rewrite <- app_assoc in A2, A3. cbn [app] in A2, A3. rewrite Cur, <- app_assoc in A3. cbn [app] in A3. rewrite Com in A3.
    cbn [goodf flat_map]. split; [split; assumption|]. split; [exact A2|]. split; [exact A3|].
    split; [rewrite A4, wd_bytes by assumption; apply firstn_skipn|].
    constructor; [rewrite wd_length; lia|exact A5].
Qed.

Lemma pw_reported (pkt : bytes) : pkt <> [] -> all_bytes pkt -> fills c k pkt ->
  reported c (pw true pkt) = as_reported (c_report c) (match c_cw c with Some _ => true | None => false end) pkt ch.
Proof.
  intros N A F. destruct (pw_good (length pkt) true pkt [] (le_n _) N A F eq_refl) as (_ & _ & _ & E & _).
  unfold reported, as_reported. rewrite E. destruct (c_report c); [|reflexivity]. f_equal.
  unfold first_channel. rewrite (pwords_step _ _ _ _ BB) by exact N.
  destruct (c_cw c) as [n|] eqn:En; [|reflexivity]. apply (chan_value n En).
Qed.
End EndToEnd.

Lemma all_good c k base ps : word_bus c k -> c_width c = 8 * k ->
  Forall (fun p => p_data p <> [] /\ all_bytes (p_data p) /\ channel_ok c (p_channel p) /\ fills c k (p_data p)) ps ->
  forall ws, current ws = [] ->
  goodf c ws (all_words c k base ps)
  /\ current (ws ++ all_words c k base ps) = []
  /\ completed (ws ++ all_words c k base ps) = completed ws ++ map (fun p => pwords c k base (p_channel p) true (p_data p)) ps
  /\ Forall (fun w => 0 < length (k_data w)) (all_words c k base ps).
Proof.
  intros BB W8 H. induction H as [|p ps (H1 & H2 & H3 & H4) H IH]; intros ws Hc.
  - cbn. rewrite !app_nil_r. repeat split; [exact Hc|constructor].
  - unfold all_words. cbn [flat_map]. fold (all_words c k base ps).
    destruct (pw_good c k base (p_channel p) BB W8 H3 (length (p_data p)) true (p_data p) ws (le_n _) H1 H2 H4 Hc)
      as (A1 & A2 & A3 & A4 & A5).
    destruct (IH (ws ++ pwords c k base (p_channel p) true (p_data p)) A2) as (B1 & B0 & B2 & B3).
    split; [apply goodf_app; assumption|]. split; [rewrite app_assoc; exact B0|]. split.
    + rewrite app_assoc, B2, A3, Hc, <- app_assoc. reflexivity.
    + apply Forall_app. split; assumption.
Qed.

Lemma seen_sampled c tr : seen c (sampled tr) = transfers k_offered (k_accepts (c_ready c)) tr.
Proof.
  unfold seen, sampled, transfers. induction tr as [|[i o] tr IH]; [reflexivity|].
  cbn [map filter]. unfold transferred at 1, transfer at 1. cbn [running_cycle s_rstn s_rst s_bus s_ready andb fst snd].
  destruct (k_offered o && k_accepts (c_ready c) i); cbn [map]; [f_equal|]; exact IH.
Qed.

Lemma parse_app_completed ws : forall a, exists d, completed (a ++ ws) = completed a ++ d.
Proof.
  induction ws as [|w ws IH] using rev_ind; intro a.
  - exists []. rewrite !app_nil_r. reflexivity.
  - destruct (IH a) as [d E]. rewrite app_assoc, completed_snoc, E. destruct (is_eop w).
    + exists (d ++ [current (a ++ ws) ++ [w]]). rewrite app_assoc. reflexivity.
    + exists d. reflexivity.
Qed.

Lemma monitor_prefix c tr ws post : (0 <= c_timeout c)%Z -> goodf c [] ws -> Forall (fun w => 0 < length (k_data w)) ws ->
  ws = transfers k_offered (k_accepts (c_ready c)) tr ++ post ->
  exists (n : nat) (f : res pmstate),
    pm_run c pm_init (sampled tr) = (firstn n (map (reported c) (completed ws)), f)
    /\ (~ stalled c (sampled tr) -> (exists m, f = Ok m) /\ (post = [] -> n = length (completed ws)))
    /\ (stalled c (sampled tr) -> f = Err EAvalonProtocol).
Proof.
  intros TO G1 G3 Pre.
  assert (Cut : forall l' r', sampled tr = l' ++ r' ->
            map (reported c) (completed (seen c l')) = firstn (length (completed (seen c l'))) (map (reported c) (completed ws))).
  { intros l' r' E. destruct (parse_app_completed (seen c r' ++ post) (seen c l')) as [d Ed].
    rewrite Pre, <- seen_sampled, E, seen_app, <- app_assoc, Ed, map_app, firstn_app, map_length, Nat.sub_diag.
    cbn [firstn]. rewrite app_nil_r. rewrite firstn_all2 by (rewrite map_length; lia). reflexivity. }
  destruct (run_stream c (sampled tr) TO) as [[NS [m H]]|(a & s & b & E & NS & St & H)].
  - unfold wide_words. rewrite seen_sampled. rewrite Pre in G3. apply Forall_app in G3. apply G3.
  - unfold sampled. apply Forall_map, Forall_forall. intros [i o'] _. right. reflexivity.
  - intros a x b E. rewrite seen_sampled in E. apply (goodf_all c _ [] G1 a x (b ++ post)).
    rewrite Pre, E, <- app_assoc. reflexivity.
  - rewrite (Cut (sampled tr) []) in H by (rewrite app_nil_r; reflexivity).
    eexists _, _. split; [exact H|]. split; [|intro X; destruct (NS X)]. intros _. split; [eauto|].
    intros ->. rewrite Pre, app_nil_r, seen_sampled. reflexivity.
  - rewrite (Cut a (s :: b) E) in H. eexists _, _. split; [exact H|]. split; [|reflexivity].
    intro X. destruct X. rewrite E. change (s :: b) with ([s] ++ b). rewrite app_assoc. apply stalled_app, St.
Qed.

Lemma pk_end_to_end_any c k ps s p o fuel l :
  word_bus c k -> c_width c = 8 * k -> (0 <= c_timeout c)%Z ->
  Forall (fun p => p_data p <> [] /\ all_bytes (p_data p) /\ channel_ok c (p_channel p) /\ fills c k (p_data p)) ps ->
  Forall (fun p => length l + length (p_data p) < fuel) ps -> p <> PReadOnly ->
  let want := map (fun p => as_reported (c_report c) (match c_cw c with Some _ => true | None => false end) (p_data p) (p_channel p)) ps in
  let '(r, w) := pk_send_all c fuel ps (World s p o [] l) in
  exists (n : nat) (f : res pmstate), pm_run c pm_init (sampled (trace w)) = (firstn n want, f)
    /\ match r with
       | Done _ => ps <> [] -> k_valid (out w) = L0
       | Susp => ins w = []
       | _ => False
       end
    /\ (~ stalled c (sampled (trace w)) -> (exists m, f = Ok m) /\ (r = Done tt -> n = length ps))
    /\ (stalled c (sampled (trace w)) -> f = Err EAvalonProtocol).
Proof.
  intros BB W8 TO Hps Hf Hp want.
  assert (T := tx_send_all c k o fuel BB ps s p o [] l).
  assert (Hch : Forall (fun p => channel_ok c (p_channel p)) ps).
  { eapply Forall_impl; [|exact Hps]. cbn. intros a Ha. apply Ha. }
  assert (Hb : inv_base c o o) by (repeat split; reflexivity).
  specialize (T Hch Hf Hp (free_nil _ _) Hb).
  apply tx_result in T; [|intros a w Hw; apply Hw].
  destruct (pk_send_all c fuel ps (World s p o [] l)) as [r w].
  destruct (all_good c k o ps BB W8 Hps [] eq_refl) as (G1 & G0 & G2 & G3).
  cbn [app] in G0, G2. change (completed []) with (@nil (list pk_out)) in G2. cbn [app] in G2.
  assert (Wants : map (reported c) (map (fun p => pwords c k o (p_channel p) true (p_data p)) ps) = want).
  { unfold want. rewrite map_map. apply map_ext_in. intros q Hq. rewrite Forall_forall in Hps.
    destruct (Hps q Hq) as (H1 & H2 & H3 & H4). apply pw_reported; assumption. }
  destruct T as (_ & _ & T).
  assert (Pre : exists post, all_words c k o ps = transfers k_offered (k_accepts (c_ready c)) (trace w) ++ post
                  /\ (r = Done tt -> post = [])).
  { destruct r; try contradiction.
    - destruct T as [T _]. rewrite T. exists []. rewrite app_nil_r. split; reflexivity.
    - destruct T as (_ & _ & j & T). rewrite T. exists (skipn j (all_words c k o ps)). rewrite firstn_skipn. split; [reflexivity|discriminate]. }
  destruct Pre as (post & Pre & PD).
  destruct (monitor_prefix c (trace w) _ post TO G1 G3 Pre) as (n & f & H1 & H2 & H3).
  rewrite G2, Wants in H1. exists n, f. split; [exact H1|]. split; [|split; [|exact H3]].
  - destruct r; try contradiction; [|apply T]. destruct T as [_ (_ & T' & _)]. exact T'.
  - intro NS. destruct (H2 NS) as [H4 H5]. split; [exact H4|]. intro D. rewrite (H5 (PD D)), G2. apply map_length.
Qed.

(** ** Rejected channels *)
Lemma reject_no_channel c fuel str sync z s p o l : c_cw c = None -> p <> PReadOnly ->
  exists o', k_valid o' = L0 /\ pk_send c fuel str sync (Some z) (World s p o [] l) = (Exn EAssertion, World s p o' [] l).
Proof.
  intros Hc Hp.
  set (o1 := k_set_valid L0 (k_set_eop L0 (k_set_sop L0 (if use_empty c then k_set_empty (zeros (ew c)) o else o)))).
  set (o2 := if c_error c then k_set_error L0 o1 else o1).
  exists o2. split; [unfold o2, o1; destruct (c_error c); reflexivity|].
  unfold pk_send. apply bind_exn.
  unfold pk_defaults, when.
  assert (W : forall (b : bool) f (m : M valid logic pk_out unit) x,
    bind (if b then drive f else ret tt) (fun _ => m) (World s p x [] l)
    = m (World s p (if b then f x else x) [] l)).
  { intros [] f m x; [rewrite (bind_done _ _ _ _ _ (drive_ok _ _ _ _ _ _ Hp))|]; reflexivity. }
  rewrite W. rewrite !(bind_done _ _ _ _ _ (drive_ok _ _ _ _ _ _ Hp)). rewrite W. fold o1 o2. rewrite Hc. reflexivity.
Qed.

Lemma reject_range c n fuel (str : bytes) (sync : bool) z s p o l : c_cw c = Some n -> (z < 0 \/ max_channel c < z)%Z ->
  str <> [] -> 0 < fuel -> p <> PReadOnly -> (if sync then 1 else 0) + fst (throttle s) <= length l ->
  exists w, pk_send c fuel str sync (Some z) (World s p o [] l) = (Exn EAssertion, w)
    /\ k_valid (out w) = L1 /\ ins w = skipn ((if sync then 1 else 0) + fst (throttle s)) l.
Proof.
  intros Hc Hz N Hf Hp Hl.
  set (o1 := k_set_valid L0 (k_set_eop L0 (k_set_sop L0 (if use_empty c then k_set_empty (zeros (ew c)) o else o)))).
  set (o2 := if c_error c then k_set_error L0 o1 else o1).
  set (o3 := k_set_channel (zeros n) o2).
  assert (E : pk_defaults c (Some z) (World s p o [] l) = (Done tt, World s p o3 [] l)).
  { unfold pk_defaults, when.
    assert (W : forall (b : bool) f (m : M valid logic pk_out unit) x,
      bind (if b then drive f else ret tt) (fun _ => m) (World s p x [] l)
      = m (World s p (if b then f x else x) [] l)).
    { intros [] f m x; [rewrite (bind_done _ _ _ _ _ (drive_ok _ _ _ _ _ _ Hp))|]; reflexivity. }
    rewrite W. rewrite !(bind_done _ _ _ _ _ (drive_ok _ _ _ _ _ _ Hp)). rewrite W. fold o1 o2. rewrite Hc.
    apply drive_ok, Hp. }
  assert (V : k_set_valid L0 o3 = o3) by (unfold o3, o2, o1; destruct (c_error c), (use_empty c); reflexivity).
  destruct fuel as [|f]; [lia|]. unfold pk_send. rewrite (bind_done _ _ _ _ _ E).
  destruct (AvalonSTProof.lead_spec (k_set_valid L0) sync s p o3 [] l Hp V) as (p' & Hp' & G).
  unfold AvalonSTProof.lead in G. rewrite (proj2 (Nat.leb_le _ _) Hl) in G.
  set (w1 := World (snd (throttle s)) _ _ _ _) in G.
  exists (World (st w1) p' (k_set_valid L1 o3) (trace w1) (ins w1)).
  split; [|split; [reflexivity|reflexivity]].
  apply bind_exn, loop_exn. destruct str as [|b str]; [contradiction|]. cbn [pk_body negb orb]. unfold pk_word.
  assert (X : forall (kk : unit -> M valid logic pk_out bytes) (kk2 : bytes -> M valid logic pk_out (bytes * bool + unit)),
    bind (if sync then edge else ret tt) (fun _ => bind (bind (gap_code (k_set_valid L0)) kk) kk2) (World s p o3 [] l)
    = bind (kk tt) kk2 w1).
  { intros kk kk2. revert G. unfold bind. destruct ((if sync then edge else ret tt) (World s p o3 [] l)) as [[[]|e| |] w2]; try discriminate.
    intros ->. reflexivity. }
  rewrite X. unfold w1. apply bind_exn. rewrite (bind_done _ _ _ _ _ (drive_ok _ _ _ _ _ _ Hp')).
  apply bind_exn. unfold pk_channel. rewrite Hc.
  replace _ with true by lia. reflexivity.
Qed.

(** ** Iterables *)
Lemma iterable_keeps c fuel ws sync s p o l :
  Forall (fun x => exists v, snd x = k_set_valid v o)
    (trace (snd (pk_send_iterable c fuel ws sync (World s p o [] l)))).
Proof.
  set (P := fun o' => exists v, o' = k_set_valid v o).
  assert (D : forall v x, P x -> P (k_set_valid v x)) by (intros v x [u ->]; exists v; reflexivity).
  assert (K : keeps P (pk_send_iterable c fuel ws sync)).
  { assert (W : forall f, keeps P (@wait_ready valid pk_out f)).
    { intro f. unfold wait_ready. apply keeps_bind; [apply keeps_readonly|]. intro. apply keeps_loop. intro.
      unfold wait_body. apply keeps_bind; [apply keeps_input|]. intro i. destruct (is1 i); auto 10 with keeps. }
    assert (G : keeps P (gap_code (k_set_valid L0))).
    { unfold gap_code. apply keeps_bind; [apply keeps_get|]. intro v.
      apply keeps_bind; [destruct (truthy (v_on v)); auto with keeps|]. auto with keeps. }
    unfold pk_send_iterable. apply keeps_bind; [|auto with keeps]. apply keeps_loop. intros [ws' first].
    unfold pk_iter_body. destruct ws' as [|x r]; [apply keeps_ret|].
    apply keeps_bind; [destruct (negb first || sync); auto with keeps|]. intro.
    apply keeps_bind; [exact G|]. intro.
    apply keeps_bind; [destruct x; auto with keeps|]. intro.
    apply keeps_bind; [|auto with keeps]. unfold pk_wait.
    destruct x as [[]|]; try destruct (c_ready c); auto with keeps. }
  destruct (K (World s p o [] l)) as [_ H]; [|exact H].
  split; [exists (k_valid o); destruct o; reflexivity|constructor].
Qed.

(** ** Constructor checks *)
Lemma check_narrow c : (forall n, c_cw c = Some n -> n <= 128) ->
  pk_check c = if (c_dbs c <? c_width c) && (match c_ew c with None => true | _ => false end) then Err EAttribute
               else match c_cw c, c_maxch c with
                    | Some n, Some m => if (2 ^ Z.of_nat n <=? m)%Z then Err EAttribute else Ok tt
                    | _, _ => Ok tt
                    end.
Proof.
  intro H. unfold pk_check, use_empty. destruct (_ && _); [reflexivity|].
  destruct (c_cw c) as [n|] eqn:En; [|reflexivity].
  rewrite (proj2 (Nat.ltb_ge _ _) (H n eq_refl)). unfold max_channel. rewrite En.
  destruct (c_maxch c) as [m|].
  - destruct (Z.ltb_spec (2 ^ Z.of_nat n - 1) m), (Z.leb_spec (2 ^ Z.of_nat n) m); try lia; reflexivity.
  - rewrite Z.ltb_irrefl. reflexivity.
Qed.
Lemma check_wide c n : c_cw c = Some n -> 128 < n -> (c_dbs c < c_width c -> c_ew c <> None) -> pk_check c = Err EType.
Proof.
  intros En Hn He. unfold pk_check, use_empty. rewrite En.
  destruct (Nat.ltb_spec (c_dbs c) (c_width c)) as [L|L].
  - specialize (He L). destruct (c_ew c); [|contradiction]. cbn [andb]. rewrite (proj2 (Nat.ltb_lt _ _) Hn). reflexivity.
  - cbn [andb]. rewrite (proj2 (Nat.ltb_lt _ _) Hn). reflexivity.
Qed.

Lemma pk_end_to_end c k ps s p o fuel l :
  byte_bus c k -> (0 <= c_timeout c)%Z ->
  Forall (fun p => p_data p <> [] /\ all_bytes (p_data p) /\ channel_ok c (p_channel p)) ps ->
  Forall (fun p => length l + length (p_data p) < fuel) ps -> p <> PReadOnly ->
  let want := map (fun p => as_reported (c_report c) (match c_cw c with Some _ => true | None => false end) (p_data p) (p_channel p)) ps in
  let '(r, w) := pk_send_all c fuel ps (World s p o [] l) in
  exists (n : nat) (f : res pmstate), pm_run c pm_init (sampled (trace w)) = (firstn n want, f)
    /\ match r with
       | Done _ => ps <> [] -> k_valid (out w) = L0
       | Susp => ins w = []
       | _ => False
       end
    /\ (~ stalled c (sampled (trace w)) -> (exists m, f = Ok m) /\ (r = Done tt -> n = length ps))
    /\ (stalled c (sampled (trace w)) -> f = Err EAvalonProtocol).
Proof.
  intros BB TO Hps. apply pk_end_to_end_any with (k := k); [apply byte_word, BB|apply (bb_width _ _ BB)|exact TO|].
  eapply Forall_impl; [|exact Hps]. cbn. intros a (H1 & H2 & H3). repeat split; try assumption. left. apply (bb_symbol _ _ BB).
Qed.
