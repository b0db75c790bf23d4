(** AxLatProof.v *)
From Verif Require Import Base Async BitsLemmas CompatModel PktModel HandshakeSpec Handshake AxiModel AxiSpec AxiDataProof AxiReadProof AxiChanProof AxLatSpec.
Local Open Scope list_scope.

Lemma Forall_fs {A} (P : A -> Prop) n (l : list A) : Forall P l -> Forall P (firstn n l) /\ Forall P (skipn n l).
Proof. intro H. rewrite <- (firstn_skipn n l) in H. apply Forall_app in H. exact H. Qed.
Lemma filter_le {A} (f : A -> bool) l : length (filter f l) <= length l.
Proof. induction l as [|x l IH]; [reflexivity|]. cbn [filter length]. destruct (f x); cbn [length]; lia. Qed.
Lemma and3 (A B C : Prop) : (A /\ B) -> C -> A /\ B /\ C.
Proof. tauto. Qed.
Section Taken.
Context {TI TO : Type} (acc : TI -> bool).
Notation taken := (@taken TI TO acc).
Lemma after_span l : after_accept acc l = match snd (span acc l) with [] => None | _ :: r => Some r end.
Proof.
  induction l as [|i l IH]; [reflexivity|]. cbn [after_accept span]. destruct (acc i); [reflexivity|]. rewrite IH. destruct (span acc l); reflexivity.
Qed.
Lemma ready_all l : Forall (fun i => acc i = true) l -> ready_cycles acc l = length l.
Proof. unfold ready_cycles. induction 1 as [|i l H _ IH]; [reflexivity|]. cbn [filter]. rewrite H. cbn [length]. rewrite IH. reflexivity. Qed.
Lemma taken_ready d words : forall l, Forall (fun i => acc i = true) l -> length words * S d <= length l -> taken d words l = all_but_last (S d) words.
Proof.
  induction words as [|w ws IH]; intros l Hl Hn; [reflexivity|]. cbn [AxLatSpec.taken]. destruct l as [|i l]; [cbn [length Nat.mul] in Hn; lia|].
  inversion Hl as [|? ? Hi Hl']; subst. cbn [after_accept]. rewrite Hi. cbn [length Nat.mul] in Hn. destruct ws as [|w2 ws]; [reflexivity|].
  change (all_but_last (S d) (w :: w2 :: ws)) with (w :: repeat w d ++ all_but_last (S d) (w2 :: ws)). f_equal. f_equal.
  - f_equal. rewrite ready_all, firstn_length; [cbn [length Nat.mul] in Hn; lia|]. apply Forall_fs; exact Hl'.
  - apply IH; [apply Forall_fs; exact Hl'|]. rewrite skipn_length. cbn [length Nat.mul] in *. lia.
Qed.
(** all words are taken *)
Fixpoint finished (d n : nat) (l : list TI) : bool :=
  match n with
  | O => true
  | S n' => match after_accept acc l with None => false | Some r => match n' with O => true | _ => finished d n' (skipn d r) end end
  end.
Lemma finished_counts d words : forall l, words <> [] -> finished d (length words) l = true ->
  exists ks, length ks = length words /\ Forall (fun k => 1 <= k <= S d) ks /\ last ks 1 = 1 /\ taken d words l = flat_map (fun x => repeat (fst x) (snd x)) (combine words ks).
Proof.
  induction words as [|w ws IH]; intros l Hne; [contradiction|]. cbn [length finished AxLatSpec.taken]. destruct (after_accept acc l) as [r|]; [|discriminate]. destruct ws as [|w2 ws].
  - intros _. exists [1]. split; [reflexivity|]. split; [constructor; [lia|constructor]|]. split; reflexivity.
  - cbn [length]. intro H. destruct (IH (skipn d r) ltac:(discriminate) H) as (ks & L & F & La & E). exists (S (ready_cycles acc (firstn d r)) :: ks).
    split; [cbn [length]; rewrite L; reflexivity|]. split.
    { constructor; [|exact F]. split; [lia|]. unfold ready_cycles. pose proof (filter_le acc (firstn d r)). pose proof (firstn_le_length d r). lia. }
    split; [destruct ks; [discriminate|exact La]|]. cbn [combine flat_map fst snd repeat app]. rewrite E. reflexivity.
Qed.
Lemma counts_one (words : list TO) : forall ks k, length ks = length words -> Forall (fun k => 1 <= k) ks -> flat_map (fun x => repeat (fst x) (snd x)) (combine words ks) = firstn k words ->
  flat_map (fun x => repeat (fst x) (snd x)) (combine words ks) = words.
Proof.
  intros ks k L F E. assert (LE : length words <= length (flat_map (fun x => repeat (fst x) (snd x)) (combine words ks))).
  { clear E. revert ks L F. induction words as [|w ws IH]; intros [|n ks] L F; try discriminate; [cbn; lia|]. inversion F; subst. cbn [combine flat_map fst snd length]. rewrite app_length, repeat_length.
    specialize (IH ks ltac:(cbn in L; lia) H2). lia. }
  rewrite E in *. rewrite firstn_length in LE. apply firstn_all2. lia.
Qed.
Lemma pauses_tail d i l : pauses acc d (i :: l) -> pauses acc d l.
Proof. intros H pre j mid post -> A L. apply (H (i :: pre) j mid post eq_refl A L). Qed.
Lemma pauses_skip d n : forall l, pauses acc d l -> pauses acc d (skipn n l).
Proof. induction n as [|n IH]; intros [|i l] H; [exact H|exact H|exact H|]. cbn [skipn]. apply IH, (pauses_tail d i), H. Qed.
Lemma pauses_after d : forall l r, pauses acc d l -> after_accept acc l = Some r -> pauses acc d r /\ ready_cycles acc (firstn d r) = 0.
Proof.
  induction l as [|i l IH]; intros r H; [discriminate|]. cbn [after_accept]. destruct (acc i) eqn:A.
  - intro E. injection E as <-. split; [apply (pauses_tail _ _ _ H)|].
    assert (F : Forall (fun j => acc j = false) (firstn d l)). { apply (H [] i (firstn d l) (skipn d l)); [cbn [app]; rewrite firstn_skipn; reflexivity|exact A|apply firstn_le_length]. }
    unfold ready_cycles. induction F as [|x t Hx _ IHF]; [reflexivity|]. cbn [filter]. rewrite Hx. exact IHF.
  - apply IH, (pauses_tail _ _ _ H).
Qed.
Lemma taken_pauses d words : forall l, pauses acc d l -> exists k, taken d words l = firstn k words.
Proof.
  induction words as [|w ws IH]; intros l H; [exists 0; reflexivity|]. cbn [AxLatSpec.taken]. destruct (after_accept acc l) as [r|] eqn:E; [|exists 0; reflexivity].
  destruct (pauses_after d l r H E) as [Hr E0]. destruct ws as [|w2 ws]; [exists 1; reflexivity|]. rewrite E0. cbn [repeat app].
  destruct (IH (skipn d r) (pauses_skip d d r Hr)) as [k Ek]. exists (S k). rewrite Ek. reflexivity.
Qed.
End Taken.

Section Chan.
Context (c : axi_cfg).
Notation W := (World (TS := unit) (TI := axi_in)).
Notation tk := (taken w_accepts).

Lemma transfers_held o l : w_offered o = true -> transfers w_offered w_accepts (held o l) = repeat o (ready_cycles w_accepts l).
Proof.
  intro H. unfold transfers, ready_cycles, held. induction l as [|i l IH]; [reflexivity|]. cbn [map filter]. unfold transferred at 1. cbn [fst snd]. rewrite H. cbn [andb].
  destruct (w_accepts i); [cbn [map snd length repeat]; rewrite IH; reflexivity|exact IH].
Qed.
Lemma transfers_wait o nr : Forall (fun i => w_accepts i = false) nr -> transfers w_offered w_accepts (held o nr) = [].
Proof.
  intro H. unfold transfers, held. induction H as [|i l Hi _ IH]; [reflexivity|]. cbn [map filter]. unfold transferred at 1. cbn [fst snd]. rewrite Hi, andb_false_r. exact IH.
Qed.
(** what the rest of a channel does *)
Definition ran (r : outcome unit) (w : world unit axi_in w_out) (tr : list (axi_in * w_out)) (l : list axi_in) (ds : list w_out) (fin : bool) : Prop :=
  (r = Done tt -> fin = true) /\
  (r = Done tt /\ w_offered (out w) = false \/ r = Susp /\ ins w = []) /\
  exists t, trace w = tr ++ t /\ map fst t ++ ins w = l /\ transfers w_offered w_accepts t = ds.

Lemma beats_taken fuel d beats : Forall (beat_fits c) beats -> beats <> [] -> forall s p o tr l, p <> PReadOnly -> length l < fuel ->
  let '(r, w) := send_beats c fuel d beats (W s p o tr l) in
  ran r w tr l ((if w_offered o then repeat o (ready_cycles w_accepts (firstn d l)) else []) ++ tk d (w_words c o beats) (skipn d l)) (finished w_accepts d (length beats) (skipn d l)).
Proof.
  induction 1 as [|[word strobe] r [Hw Hs] _ IH]; intros Hne s p o tr l Hp Hl; [contradiction|]. clear Hne. cbn [send_beats fst snd] in *.
  assert (T0 : forall x, transfers w_offered w_accepts (held o x) = if w_offered o then repeat o (ready_cycles w_accepts x) else []).
  { intro x. destruct (w_offered o) eqn:E; [apply transfers_held, E|apply transfers_idle, E]. }
  unfold bind at 1. rewrite edges_spec. cbn [ins st ph out trace]. destruct (Nat.leb_spec d (length l)) as [Hd|Hd].
  2: { split; [discriminate|]. split; [right; split; reflexivity|]. cbn [trace ins]. exists (held o l). split; [reflexivity|]. rewrite held_fst, app_nil_r. split; [reflexivity|]. rewrite T0, firstn_all2 by lia.
       rewrite (skipn_all2 l) by lia. cbn [w_words AxLatSpec.taken after_accept]. rewrite app_nil_r. reflexivity. }
  set (p1 := match d with 0 => p | _ => PActive end). assert (Hp1 : p1 <> PReadOnly) by (unfold p1; destruct d; [exact Hp|discriminate]). clearbody p1.
  set (tr1 := tr ++ held o (firstn d l)). set (l1 := skipn d l). assert (Hl1 : length l1 < fuel) by (unfold l1; rewrite skipn_length; lia).
  set (o' := WOut L1 (zbits (x_width c) word) (zbits (Z.to_nat (x_bytes c)) strobe) (if x_wlast c then (match r with [] => L1 | _ => L0 end) else x_last o)).
  rewrite (bind_done _ _ _ _ _ (drive_ok _ _ _ _ _ _ Hp1)).
  assert (AS : forall n z set oo, fits_bits n z -> assign (TO := w_out) n z set (W s p1 oo tr1 l1) = (Done tt, W s p1 (set (zbits n z) oo) tr1 l1)).
  { intros n z set oo Hz. unfold assign. rewrite (assign_fits_ok n z Hz). cbn [of_res]. rewrite (bind_done _ _ _ (zbits n z) (W s p1 oo tr1 l1)) by reflexivity. apply drive_ok, Hp1. }
  rewrite (bind_done _ _ _ _ _ (AS _ _ _ _ Hw)). rewrite (bind_done _ _ _ _ _ (AS _ _ _ _ Hs)).
  match goal with |- context [bind (x_when (x_wlast c) ?f) ?k ?w] => rewrite (bind_done (x_when (x_wlast c) f) k w tt (W s p1 o' tr1 l1)) end.
  2: { unfold x_when, o'. destruct (x_wlast c); [rewrite drive_ok by exact Hp1|]; reflexivity. }
  destruct (sample_loop l1 fuel s p1 o' tr1 Hl1) as [p2 EL]. unfold bind at 1. rewrite EL. clear EL.
  pose proof (span_app w_accepts l1) as Sa. pose proof (span_fst w_accepts l1) as Sf. pose proof (after_span w_accepts l1) as Sx.
  cbn [w_words]. fold o'. change (WOut L1 _ _ _) with o'.
  destruct (span w_accepts l1) as [nr [|i l2]] eqn:ES; cbn [fst snd] in *.
  - rewrite app_nil_r in Sa. subst nr. split; [discriminate|]. split; [right; split; reflexivity|]. cbn [trace ins]. exists (held o (firstn d l) ++ held o' l1). split; [unfold tr1; rewrite app_assoc; reflexivity|].
    rewrite map_app, !held_fst, app_nil_r. split; [unfold l1; apply firstn_skipn|]. rewrite transfers_app, T0, (transfers_wait o' l1 Sf). cbn [AxLatSpec.taken]. rewrite Sx. reflexivity.
  - assert (Ai : w_accepts i = true) by (apply (span_snd w_accepts l1 i l2); rewrite ES; reflexivity).
    assert (TO1 : transfers w_offered w_accepts (held o' (nr ++ [i])) = [o']).
    { unfold held. rewrite map_app, transfers_app. fold (held o' nr). rewrite (transfers_wait o' nr Sf). unfold transfers. cbn [map filter]. unfold transferred. cbn [fst snd]. rewrite Ai. reflexivity. }
    cbn [AxLatSpec.taken]. rewrite Sx. destruct r as [|b r].
    + cbn [x_when]. unfold bind at 1. rewrite drive_ok by discriminate. cbn [send_beats ret].
      split; [intros _; cbn [length finished]; fold l1; rewrite Sx; reflexivity|]. split; [left; split; reflexivity|]. cbn [trace ins w_words]. exists (held o (firstn d l) ++ held o' (nr ++ [i])). split; [unfold tr1; rewrite app_assoc; reflexivity|].
      rewrite map_app, !held_fst. split; [rewrite <- !app_assoc; cbn [app]; rewrite Sa; unfold l1; apply firstn_skipn|]. rewrite transfers_app, T0, TO1. reflexivity.
    + cbn [x_when]. rewrite (bind_done (ret tt) _ _ tt _ eq_refl).
      specialize (IH ltac:(discriminate) s PActive o' (tr1 ++ held o' (nr ++ [i])) l2 ltac:(discriminate)). assert (L2 : length l2 < fuel) by (rewrite <- Sa, app_length in Hl1; cbn [length] in Hl1; lia).
      specialize (IH L2). destruct (send_beats c fuel d (b :: r) (W s PActive o' (tr1 ++ held o' (nr ++ [i])) l2)) as [q w]. destruct IH as [Fi [R (t & E1 & E2 & E3)]]. split; [intro D; specialize (Fi D); cbn [length finished] in *; fold l1; rewrite Sx; exact Fi|]. split; [exact R|].
      exists (held o (firstn d l) ++ held o' (nr ++ [i]) ++ t). split; [rewrite E1; unfold tr1; rewrite <- !app_assoc; reflexivity|].
      split. { rewrite !map_app, !held_fst, <- !app_assoc, E2. cbn [app]. rewrite Sa. unfold l1. apply firstn_skipn. }
      rewrite !transfers_app, T0, TO1, E3. change (w_offered o') with true. cbn [app]. f_equal. f_equal.
      rewrite (w_words_ext c o o') by (intro E; unfold o'; rewrite E; reflexivity). reflexivity.
Qed.
Lemma data_taken fuel address data b size d be sync beats p o l :
  write_beats (x_bytes c) address b size data be = Ok beats -> Forall (beat_fits c) beats -> beats <> [] -> may_start sync p -> w_offered o = false -> length l < fuel ->
  let '(r, w) := send_write_data c fuel address data b size d be sync (W tt p o [] l) in
  ran r w [] l (tk d (w_words c o beats) (skipn ((if sync then 1 else 0) + d) l)) (finished w_accepts d (length beats) (skipn ((if sync then 1 else 0) + d) l)).
Proof.
  intros Eb Fb Nb Hp Ho Hl. unfold send_write_data. rewrite Eb. cbn [of_res]. rewrite (bind_done _ _ _ beats (W tt p o [] l)) by reflexivity.
  destruct sync; cbn [x_when].
  - unfold bind at 1. destruct l as [|i l]; cbn [edge ins st out trace].
    + split; [discriminate|]. split; [right; split; reflexivity|]. exists []. split; [reflexivity|]. split; [reflexivity|]. rewrite skipn_nil. destruct (w_words c o beats); reflexivity.
    + cbn [length] in Hl. pose proof (beats_taken fuel d beats Fb Nb tt PActive o ([] ++ [(i, o)]) l ltac:(discriminate) ltac:(lia)) as H. rewrite Ho in H.
      destruct (send_beats c fuel d beats (W tt PActive o ([] ++ [(i, o)]) l)) as [r w]. destruct H as [Fi [R (t & E1 & E2 & E3)]]. split; [exact Fi|]. split; [exact R|].
      exists ((i, o) :: t). split; [exact E1|]. split; [cbn [map fst app]; rewrite E2; reflexivity|].
      change ((i, o) :: t) with (held o [i] ++ t). rewrite transfers_app, (transfers_idle _ _ o _ Ho). exact E3.
  - rewrite (bind_done (ret tt) _ _ tt _ eq_refl). pose proof (beats_taken fuel d beats Fb Nb tt p o [] l (Hp eq_refl) Hl) as H. rewrite Ho in H. exact H.
Qed.

Lemma write_taken fuel a p oa ow l :
  axi_bus c -> legal_access (x_bytes c) (wa_address a) (Z.of_nat (length (wa_value a))) (wa_size a) (wa_burst a) ->
  fits_bits (x_awidth c) (wa_address a) -> wa_be a <> [] -> may_start (wa_sync a) p ->
  aw_offered oa = false -> w_offered ow = false -> length l < fuel ->
  exists beats, write_beats (x_bytes c) (wa_address a) (wa_burst a) (size_or (x_bytes c) (wa_size a)) (wa_value a) (wa_be a) = Ok beats /\
  length beats = length (wa_value a) /\
  let r := axi_write c fuel a p oa ow l in
  map fst (wr_w r) ++ wr_rest r = l /\
  transfers w_offered w_accepts (wr_w r) = tk (wa_dlat a) (w_words c ow beats) (skipn ((if wa_sync a then 1 else 0) + wa_dlat a) l) /\
  (wr_result r <> Susp -> finished w_accepts (wa_dlat a) (length beats) (skipn ((if wa_sync a then 1 else 0) + wa_dlat a) l) = true).
Proof.
  intros Hb Hl Ha Nb Hp Hoa How Hf. destruct (legal_facts c _ _ _ _ Hb Hl) as (Ec & Ps & Ls & Hn & _).
  destruct (beats_exist c _ _ _ _ (wa_value a) (wa_be a) Hb Hl eq_refl Nb) as (beats & Eb & Lb & Fb).
  exists beats. split; [exact Eb|]. split; [exact Lb|].
  assert (Bn : beats <> []) by (destruct beats; [cbn [length] in Lb; lia|discriminate]).
  pose proof (tx_result _ _ _ _ _ _ _ _ _ _
    (aw_tx c fuel (wa_address a) (Z.of_nat (length (wa_value a))) (wa_burst a) (size_or (x_bytes c) (wa_size a)) (wa_alat a) (wa_sync a) tt p oa [] l
       Ha Hn Ps Ls Hp Hoa (free_nil _ _) Hf) ltac:(intros ? ? [_ H]; exact (handshake_free _ _ _ H))) as TA.
  pose proof (data_taken fuel (wa_address a) (wa_value a) (wa_burst a) (size_or (x_bytes c) (wa_size a)) (wa_dlat a) (wa_be a) (wa_sync a) beats p ow l Eb Fb Bn Hp How Hf) as TW.
  unfold axi_write. rewrite Ec.
  destruct (send_write_address c fuel (wa_address a) (Z.of_nat (length (wa_value a))) (wa_burst a) (size_or (x_bytes c) (wa_size a)) (wa_alat a) (wa_sync a) (World tt p oa [] l)) as [ra va].
  destruct (send_write_data c fuel (wa_address a) (wa_value a) (wa_burst a) (size_or (x_bytes c) (wa_size a)) (wa_dlat a) (wa_be a) (wa_sync a) (World tt p ow [] l)) as [rw vw].
  destruct TA as (IA & SA & TA). destruct TW as [Fi [RW (t & E1 & IW & TW)]]. cbn [app] in E1. subst t.
  assert (LA : length (trace va) + length (ins va) = length l) by (rewrite <- IA, app_length, map_length; reflexivity).
  assert (LW : length (trace vw) + length (ins vw) = length l) by (rewrite <- IW, app_length, map_length; reflexivity).
  assert (G : w_offered (out vw) = false -> forall n rest, length (trace vw) <= n -> rest = skipn n l ->
     let tw := trace vw ++ held (out vw) (firstn (n - length (trace vw)) (ins vw)) in
     map fst tw ++ rest = l /\ transfers w_offered w_accepts tw = transfers w_offered w_accepts (trace vw)).
  { intros Ho n rest Hn' -> tw. split.
    - unfold tw. rewrite map_app, held_fst, <- app_assoc. rewrite <- IW at 2. f_equal. rewrite <- IW. rewrite skipn_app, (skipn_all2 (map fst (trace vw))) by (rewrite map_length; lia).
      rewrite map_length. apply firstn_skipn.
    - unfold tw. rewrite transfers_app, (transfers_idle _ _ _ _ Ho), app_nil_r. reflexivity. }
  destruct ra as [[]|e| |]; try contradiction; destruct RW as [[-> Ho]|[-> Hi]].
  - set (rest := if length (ins va) <=? length (ins vw) then ins va else ins vw). set (skip := length l - length rest).
    assert (Er : rest = skipn skip l /\ length (trace vw) <= skip).
    { unfold skip, rest. destruct (Nat.leb_spec (length (ins va)) (length (ins vw))).
      - split; [|lia]. rewrite <- IA at 2. rewrite skipn_app, map_length. rewrite skipn_all2 by (rewrite map_length; lia).
        replace (length l - length (ins va) - length (trace va)) with 0 by lia. reflexivity.
      - split; [|lia]. rewrite <- IW at 2. rewrite skipn_app, map_length. rewrite skipn_all2 by (rewrite map_length; lia).
        replace (length l - length (ins vw) - length (trace vw)) with 0 by lia. reflexivity. }
    destruct Er as (Er & Sw). assert (Lr : skip + length rest = length l) by (unfold skip, rest; destruct (_ <=? _); lia). clearbody rest.
    destruct (response_spec fuel rest tt PActive tt [] ltac:(discriminate) ltac:(lia)) as [p' EB]. rewrite EB. clear EB.
    pose proof (span_app b_valid rest) as Sp. 
    assert (K : forall used left, rest = used ++ left -> left = skipn (skip + length used) l).
    { intros used left E. rewrite <- skipn_skipn, <- Er, E, skipn_app, skipn_all, Nat.sub_diag. reflexivity. }
    destruct (span b_valid rest) as [nr [|i r']] eqn:Es; cbn [fst snd] in *; [|destruct (bval (g_bresp i)) as [v|] eqn:V]; cbn [trace ins app wr_result wr_w wr_rest].
    + rewrite (held_length tt). rewrite <- TW. apply and3; [|intros _; exact (Fi eq_refl)]. apply G; [exact Ho|lia|]. apply K. rewrite app_nil_r. reflexivity.
    + rewrite (held_length tt). rewrite <- TW. apply and3; [|intros _; exact (Fi eq_refl)]. apply G; [exact Ho|lia|]. apply K. rewrite <- app_assoc. symmetry. exact Sp.
    + rewrite (held_length tt). rewrite <- TW. apply and3; [|intros _; exact (Fi eq_refl)]. apply G; [exact Ho|lia|]. apply K. symmetry. exact Sp.
  - cbn [wr_w wr_rest wr_result]. rewrite Hi. cbn [held map]. rewrite !app_nil_r. split; [rewrite <- IW, Hi, app_nil_r; reflexivity|]. split; [exact TW|intro N; contradiction (N eq_refl)].
  - cbn [wr_w wr_rest wr_result]. rewrite <- TW. apply and3; [|intro N; contradiction (N eq_refl)]. replace (ins vw) with (firstn (length l - length (trace vw)) (ins vw)) by (apply firstn_all2; lia). apply G; [exact Ho|lia|]. rewrite skipn_all. reflexivity.
  - cbn [wr_w wr_rest wr_result]. rewrite Hi. cbn [held map]. rewrite !app_nil_r. split; [rewrite <- IW, Hi, app_nil_r; reflexivity|]. split; [exact TW|intro N; contradiction (N eq_refl)].
Qed.
End Chan.
