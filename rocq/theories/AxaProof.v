(** AxaProof.v -- one access alone: the models with and without concurrent accesses agree. *)
From Verif Require Import Base Async BitsLemmas CompatModel PktModel HandshakeSpec Handshake AxiModel AxiSpec AxiDataProof AxiReadProof AxiChanProof AxiRunProof AxiTopProof AxcModel AxcSpec AxcProof AxcTopProof AxcWriteProof AxcReadProof.
Local Open Scope list_scope.

(** ** cycles pass, none is lost *)
Section Flow.
Context {TO : Type}.
Notation M := (M unit axi_in TO).
Notation world := (world unit axi_in TO).
Definition cycles (w : world) : list axi_in := map fst (trace w) ++ ins w.
Definition flow {A} (m : M A) : Prop := forall w, cycles (snd (m w)) = cycles w /\ length (trace w) <= length (trace (snd (m w))).
(** ... and at least one if it returns *)
Definition moves {A} (m : M A) : Prop := forall w a w', m w = (Done a, w') -> length (trace w) < length (trace w').

Lemma flow_ret {A} (a : A) : flow (ret a). Proof. intro w. cbn. auto. Qed.
Lemma flow_raise {A} e : flow (@raise _ _ _ A e). Proof. intro w. cbn. auto. Qed.
Lemma flow_of_res {A} (r : res A) : flow (of_res r). Proof. destruct r; intro w; cbn; auto. Qed.
Lemma flow_drive f : flow (drive f). Proof. intro w. unfold drive. destruct (ph w); cbn; auto. Qed.
Lemma flow_readonly : flow readonly. Proof. intro w. unfold readonly. destruct (ph w), (ins w) eqn:E; cbn; unfold cycles; cbn; rewrite ?E; auto. Qed.
Lemma flow_input : flow input. Proof. intro w. unfold input. destruct (ins w); cbn; auto. Qed.
Lemma flow_edge : flow edge.
Proof.
  intro w. unfold edge. destruct (ins w) as [|i r] eqn:E; cbn [snd]; [auto|]. unfold cycles. cbn [trace ins]. rewrite map_app, <- app_assoc, E, app_length. cbn. split; [reflexivity|lia].
Qed.
Lemma flow_sample : flow edge_sample.
Proof.
  intro w. unfold edge_sample. destruct (ins w) as [|i r] eqn:E; cbn [snd]; [auto|]. unfold cycles. cbn [trace ins]. rewrite map_app, <- app_assoc, E, app_length. cbn. split; [reflexivity|lia].
Qed.
Lemma flow_bind {A B} (m : M A) (f : A -> M B) : flow m -> (forall a, flow (f a)) -> flow (bind m f).
Proof.
  intros H G w. unfold bind. specialize (H w). destruct (m w) as [[a|e| |] w']; cbn [snd] in *; try exact H.
  destruct (G a w') as [C L]. destruct H as [C' L']. split; [congruence|lia].
Qed.
Lemma flow_loop {L A} fuel (body : L -> M (L + A)) : (forall l, flow (body l)) -> forall l, flow (loop fuel body l).
Proof.
  intro H. induction fuel as [|f IH]; intro l; [intro w; cbn; auto|]. cbn [loop]. apply flow_bind; [apply H|].
  intros [l'|a]; [apply IH|apply flow_ret].
Qed.
Lemma flow_edges n : flow (edges n).
Proof. induction n; cbn [edges]; [apply flow_ret|]. apply flow_bind; [apply flow_edge|auto]. Qed.
Lemma flow_when b (m : M unit) : flow m -> flow (x_when b m).
Proof. destruct b; [auto|intro; apply flow_ret]. Qed.
Lemma flow_assign n z s : flow (assign n z s).
Proof. apply flow_bind; [apply flow_of_res|intro; apply flow_drive]. Qed.
Lemma flow_until key fuel : flow (until1 key fuel).
Proof.
  apply flow_loop. intros _. apply flow_bind; [apply flow_readonly|]. intros _. apply flow_bind; [apply flow_input|]. intro i.
  destruct (is1 (key i)); [apply flow_ret|]. apply flow_bind; [apply flow_edge|intro; apply flow_ret].
Qed.
Lemma moves_edge : moves edge.
Proof. intros w a w'. unfold edge. destruct (ins w); [discriminate|]. intro E. injection E as _ <-. cbn [trace]. rewrite app_length. cbn. lia. Qed.
Lemma moves_r {A B} (m : M A) (f : A -> M B) : flow m -> (forall a, moves (f a)) -> moves (bind m f).
Proof.
  intros H G w b w'. unfold bind. destruct (H w) as [_ L]. destruct (m w) as [[a|e| |] w1]; try discriminate. intro E.
  apply G in E. cbn [snd] in L. lia.
Qed.
Lemma moves_l {A B} (m : M A) (f : A -> M B) : moves m -> (forall a, flow (f a)) -> moves (bind m f).
Proof.
  intros H G w b w'. unfold bind. destruct (m w) as [[a|e| |] w1] eqn:E1; try discriminate. intro E. apply H in E1.
  destruct (G a w1) as [_ L]. rewrite E in L. cbn [snd] in L. lia.
Qed.
End Flow.

Lemma flow_address c fuel address n b size delay sync : flow (send_write_address c fuel address n b size delay sync).
Proof.
  unfold send_write_address.
  repeat (apply flow_bind; [auto using flow_when, flow_edge, flow_edges, flow_assign, flow_drive, flow_until|intros _]). apply flow_drive.
Qed.
Lemma moves_address c fuel address n b size delay sync : moves (send_write_address c fuel address n b size delay sync).
Proof.
  unfold send_write_address.
  do 8 (apply moves_r; [solve [auto using flow_when, flow_edge, flow_edges, flow_assign, flow_drive, flow_until]|intros _]).
  apply moves_l; [apply moves_edge|intro; apply flow_drive].
Qed.
Lemma flow_beats c fuel delay beats : flow (send_beats c fuel delay beats).
Proof.
  induction beats as [|[word strobe] r IH]; [apply flow_ret|]. cbn [send_beats].
  repeat (apply flow_bind; [solve [auto using flow_when, flow_edge, flow_edges, flow_assign, flow_drive]|intros _]).
  apply flow_bind.
  - apply flow_loop. intros _. apply flow_bind; [apply flow_sample|]. intro i. destruct (is1 (g_wready i)); apply flow_ret.
  - intros _. apply flow_bind; [apply flow_when, flow_drive|intros _; exact IH].
Qed.
Lemma flow_data c fuel address data b size delay be sync : flow (send_write_data c fuel address data b size delay be sync).
Proof.
  apply flow_bind; [apply flow_of_res|]. intro beats. apply flow_bind; [apply flow_when, flow_edge|intros _; apply flow_beats].
Qed.

(** ** the response *)
Lemma response_at fuel l t p : length l < fuel -> 0 < t <= length l ->
  fst ((edges t ;; write_response (TO := unit) fuel) (World tt p tt [] l)) =
  fst (write_response (TO := unit) fuel (World tt PActive tt [] (skipn t l))).
Proof.
  intros Hl Ht. unfold bind. rewrite edges_spec. cbn [ins trace out st ph app].
  destruct (Nat.leb_spec t (length l)) as [_|H]; [|lia]. destruct t as [|t]; [lia|].
  assert (Hs : length (skipn (S t) l) < fuel) by (rewrite skipn_length; lia).
  destruct (response_spec fuel (skipn (S t) l) tt PActive tt (held tt (firstn (S t) l)) ltac:(discriminate) Hs) as [p1 ->].
  destruct (response_spec fuel (skipn (S t) l) tt PActive tt [] ltac:(discriminate) Hs) as [p2 ->].
  destruct (span b_valid (skipn (S t) l)) as [nr [|i r]]; [reflexivity|]. destruct (bval (g_bresp i)); [destruct (_ =? _)%Z|]; reflexivity.
Qed.
Lemma response_not_fuel fuel l p : p <> PReadOnly -> length l < fuel -> fst (write_response (TO := unit) fuel (World tt p tt [] l)) <> Fuel.
Proof.
  intros Hp Hl. destruct (response_spec fuel l tt p tt [] Hp Hl) as [p1 ->].
  destruct (span b_valid l) as [nr [|i r]]; [discriminate|]. destruct (bval (g_bresp i)); [destruct (_ =? _)%Z|]; discriminate.
Qed.
Lemma flow_response fuel : flow (write_response (TO := unit) fuel).
Proof.
  unfold write_response. apply flow_bind.
  - apply flow_loop. intros _. apply flow_bind; [apply flow_readonly|]. intros _. apply flow_bind; [apply flow_input|]. intro i.
    destruct (is1 (g_bvalid i)); [destruct (bval (g_bresp i)); [apply flow_ret|apply flow_raise]|].
    apply flow_bind; [apply flow_edge|intro; apply flow_ret].
  - intro r. apply flow_bind; [apply flow_edge|]. intros _. destruct (r =? 0)%Z; [apply flow_ret|apply flow_raise].
Qed.

(** ** one write *)
Lemma cycles_skip {TO} (v : world unit axi_in TO) l : cycles v = l -> ins v = skipn (length (trace v)) l.
Proof.
  intros <-. unfold cycles. rewrite skipn_app, map_length, Nat.sub_diag.
  rewrite skipn_all2 by (rewrite map_length; lia). reflexivity.
Qed.
Lemma serve_one {TO A R} (body : A -> M unit axi_in TO R) a (w : world unit axi_in TO) : trace w = [] ->
  serve body [(0, a)] w = match body a w with (Susp, w') => ([], w') | (x, w') => ([(a, length (trace w'), x)], w') end.
Proof. intro E. cbn [serve]. rewrite E. cbn [length Nat.sub edges]. unfold bind, ret. destruct (body a w) as [[] w']; reflexivity. Qed.
Lemma write_alone c fuel a p oa ow l : length l < fuel ->
  let one := axi_write c fuel a p oa ow l in
  let all := concurrent_writes c fuel [(0, a)] p oa ow l in
  ws_results all = match write_check c a with
                   | Err _ => []
                   | Ok _ => match wr_result one with Susp | Fuel => [] | x => [(0, x)] end
                   end /\
  (exists later, ws_aw all = wr_aw one ++ held (wr_aw_out one) later) /\
  (exists later, ws_w all = wr_w one ++ held (wr_w_out one) later).
Proof.
  intro Hf. cbn zeta. unfold axi_write, concurrent_writes, admitted. cbn [flat_map fst snd]. fold (write_check c a).
  destruct (write_check c a) as [size|e]; cbn [app].
  2: { cbn [serve joined by_time fold_left raised length seq flat_map map app ws_results ws_aw ws_w wr_aw wr_aw_out wr_w wr_w_out trace out ins Nat.max].
       split; [reflexivity|]. split; exists l; reflexivity. }
  rewrite !serve_one by reflexivity. cbn [aw_job w_job].
  destruct (flow_address c fuel (wa_address a) (Z.of_nat (length (wa_value a))) (wa_burst a) size (wa_alat a) (wa_sync a) (World tt p oa [] l)) as [Ca La].
  pose proof (moves_address c fuel (wa_address a) (Z.of_nat (length (wa_value a))) (wa_burst a) size (wa_alat a) (wa_sync a) (World tt p oa [] l)) as Ma.
  destruct (send_write_address c fuel _ _ _ _ _ _ _) as [ra va].
  destruct (flow_data c fuel (wa_address a) (wa_value a) (wa_burst a) size (wa_dlat a) (wa_be a) (wa_sync a) (World tt p ow [] l)) as [Cw Lw].
  destruct (send_write_data c fuel _ _ _ _ _ _ _ _) as [rw vw]. cbn [snd] in *. change (cycles (World tt p oa [] l)) with l in Ca. change (cycles (World tt p ow [] l)) with l in Cw.
  pose proof (cycles_skip _ _ Ca) as Ia. pose proof (cycles_skip _ _ Cw) as Iw.
  assert (Xa : exists later, trace va ++ held (out va) (ins va) = trace va ++ held (out va) later) by (eexists; reflexivity).
  assert (Xw : exists later, trace vw ++ held (out vw) (ins vw) = trace vw ++ held (out vw) later) by (eexists; reflexivity).
  assert (Ya : exists later, trace va ++ held (out va) (ins va) = (trace va ++ held (out va) (ins va)) ++ held (out va) later) by (exists []; cbn [held map]; rewrite app_nil_r; reflexivity).
  assert (Yw : exists later, trace vw ++ held (out vw) (ins vw) = (trace vw ++ held (out vw) (ins vw)) ++ held (out vw) later) by (exists []; cbn [held map]; rewrite app_nil_r; reflexivity).
  destruct ra as [[]|ea| |], rw as [[]|ew| |];
    try (cbn; split; [reflexivity|split; assumption]).
  specialize (Ma tt va eq_refl). cbn [trace length] in Ma.
  cbn [joined by_time fold_left insert_time raised flat_map seq nth_error length Nat.max app serve trace].
  set (t := Nat.max (length (trace va)) (length (trace vw))). rewrite Nat.sub_0_r.
  assert (Ll : length (trace va) <= length l /\ length (trace vw) <= length l).
  { rewrite <- Ca at 1. rewrite <- Cw. unfold cycles. rewrite !app_length, !map_length. lia. }
  assert (Er : (if length (ins va) <=? length (ins vw) then ins va else ins vw) = skipn t l).
  { rewrite Ia, Iw, !skipn_length. subst t. destruct (Nat.leb_spec (length l - length (trace va)) (length l - length (trace vw))); f_equal; lia. }
  rewrite Er.
  pose proof (response_at fuel l t p Hf ltac:(subst t; lia)) as R.
  assert (Nf : fst (write_response (TO := unit) fuel (World tt PActive tt [] (skipn t l))) <> Fuel)
    by (apply response_not_fuel; [discriminate|rewrite skipn_length; lia]).
  destruct ((edges t ;; write_response fuel) (World tt p tt [] l)) as [rb vb].
  destruct (write_response fuel (World tt PActive tt [] (skipn t l))) as [rb' vb']. cbn [fst] in R, Nf. subst rb'.
  assert (Z1 : forall n, exists later, trace va ++ held (out va) (ins va) = (trace va ++ held (out va) (firstn n (ins va))) ++ held (out va) later).
  { intro n. exists (skipn n (ins va)). rewrite <- app_assoc. unfold held. rewrite <- map_app, firstn_skipn. reflexivity. }
  assert (Z2 : forall n, exists later, trace vw ++ held (out vw) (ins vw) = (trace vw ++ held (out vw) (firstn n (ins vw))) ++ held (out vw) later).
  { intro n. exists (skipn n (ins vw)). rewrite <- app_assoc. unfold held. rewrite <- map_app, firstn_skipn. reflexivity. }
  destruct rb as [[]|eb| |]; [| | |contradiction];
    cbn [ws_results ws_aw ws_w wr_aw wr_aw_out wr_w wr_w_out wr_result map fst snd app]; (split; [reflexivity|split; auto]).
Qed.

(** ** reads: what is read does not depend on the driven signals, which are not changed *)
Definition alike {TO} (w w' : world unit axi_in TO) : Prop := ph w = ph w' /\ ins w = ins w'.
Definition waveform {TO} (w : world unit axi_in TO) : list (axi_in * TO) := trace w ++ held (out w) (ins w).
Definition reads_only {TO A} (m : M unit axi_in TO A) : Prop := forall w w', alike w w' ->
  fst (m w) = fst (m w') /\ alike (snd (m w)) (snd (m w')) /\ waveform (snd (m w)) = waveform w.
Section Reads.
Context {TO : Type}.
Notation M := (M unit axi_in TO).
Lemma ro_ret {A} (a : A) : reads_only (TO := TO) (ret a). Proof. intros w w' H. cbn. auto. Qed.
Lemma ro_raise {A} e : reads_only (@raise unit axi_in TO A e). Proof. intros w w' H. cbn. auto. Qed.
Lemma ro_of_res {A} (r : res A) : reads_only (TO := TO) (of_res r). Proof. destruct r; intros w w' H; cbn; auto. Qed.
Lemma ro_readonly : reads_only (@readonly unit axi_in TO).
Proof.
  intros w w' H. pose proof H as [P I]. unfold readonly. rewrite <- P, <- I. destruct (ph w); [destruct (ins w) eqn:E| |destruct (ins w) eqn:E]; cbn [fst snd]; auto;
    (split; [reflexivity|]; split; [split; cbn [ph ins]; congruence|unfold waveform; cbn [trace out ins]; congruence]).
Qed.
Lemma ro_input : reads_only (@input unit axi_in TO).
Proof. intros w w' H. pose proof H as [P I]. unfold input. rewrite <- I. destruct (ins w); cbn [fst snd]; auto. Qed.
Lemma ro_edge : reads_only (@edge unit axi_in TO).
Proof.
  intros w w' H. pose proof H as [P I]. unfold edge. rewrite <- I. destruct (ins w) eqn:E; cbn [fst snd]; [auto|].
  split; [reflexivity|]. split; [split; reflexivity|]. unfold waveform. cbn [trace out ins]. rewrite E, <- app_assoc. reflexivity.
Qed.
Lemma ro_bind {A B} (m : M A) (f : A -> M B) : reads_only m -> (forall a, reads_only (f a)) -> reads_only (bind m f).
Proof.
  intros H G w w' E. unfold bind. destruct (H w w' E) as (E1 & E2 & E3). destruct (m w) as [r v], (m w') as [r' v']. cbn [fst snd] in *. subst r'.
  destruct r; [|cbn [fst snd]; auto..]. destruct (G a v v' E2) as (F1 & F2 & F3). split; [exact F1|]. split; [exact F2|congruence].
Qed.
Lemma ro_loop {L A} fuel (body : L -> M (L + A)) : (forall l, reads_only (body l)) -> forall l, reads_only (loop fuel body l).
Proof.
  intro H. induction fuel as [|f IH]; intro l; [intros w w' E; cbn; auto|]. cbn [loop]. apply ro_bind; [apply H|].
  intros [l'|a]; [apply IH|apply ro_ret].
Qed.
End Reads.
Lemma ro_r_job c fuel x : reads_only (r_job c fuel x).
Proof.
  destruct x as [a size]. cbn [r_job]. apply ro_bind.
  - unfold read_beats. apply ro_loop. intros [[d rr] off]. apply ro_bind.
    + unfold read_beat. apply ro_loop. intro. apply ro_bind; [apply ro_readonly|]. intro. apply ro_bind; [apply ro_input|]. intro i.
      destruct (is1 (g_rvalid i)); [|apply ro_bind; [apply ro_edge|intro; apply ro_ret]].
      apply ro_bind; [apply ro_of_res|]. intro. destruct (bval (g_rresp i)); [apply ro_ret|apply ro_raise].
    + intros [[w r] rl]. destruct (negb _ || _); auto using ro_ret. apply ro_bind; [apply ro_edge|intro; apply ro_ret].
  - intros [d rr]. apply ro_bind; [apply ro_edge|]. intros _.
    apply ro_bind; [destruct (_ =? _)%Z; [apply ro_ret|apply ro_raise]|]. intros _. apply ro_bind; [apply ro_of_res|intro; apply ro_ret].
Qed.
Lemma flow_ar c fuel x : flow (ar_job c fuel x).
Proof.
  destruct x as [a size]. cbn [ar_job].
  repeat (apply flow_bind; [auto using flow_when, flow_edge, flow_edges, flow_assign, flow_drive, flow_until|intros _]). apply flow_drive.
Qed.
Lemma moves_ar c fuel x : moves (ar_job c fuel x).
Proof.
  destruct x as [a size]. cbn [ar_job].
  do 7 (apply moves_r; [solve [auto using flow_when, flow_edge, flow_edges, flow_assign, flow_drive, flow_until]|intros _]).
  apply moves_l; [apply moves_edge|intro; apply flow_drive].
Qed.
(** a read that returns from its address part does so after an edge *)
Lemma ar_active c fuel x w r w' : ar_job c fuel x w = (Done r, w') -> ph w' = PActive.
Proof.
  destruct x as [a size]. cbn [ar_job].
  do 7 (unfold bind at 1; match goal with |- (let (_, _) := ?m in _) = _ -> _ => destruct m as [[?|?| |] ?]; try discriminate | _ => idtac end).
  unfold bind, edge, drive. destruct (ins _); [discriminate|]. cbn [ph]. intro E. injection E as _ <-. reflexivity.
Qed.

Lemma read_alone c fuel a p o l : reads_ok c fuel [(0, a)] p o l ->
  let '(x, w) := axi_read_raw c fuel a (World tt p o [] l) in
  let all := concurrent_reads c fuel [(0, a)] p o l in
  rs_results all = match x with Susp => [] | _ => [(a, x)] end /\
  rs_ar all = trace w ++ held (out w) (ins w).
Proof.
  intro Hok. pose proof (ar_channel c fuel [(0, a)] p o l Hok) as C. pose proof (radmitted_all c fuel [(0, a)] p o l Hok) as Ad.
  rewrite read_parts. destruct Hok as (Hb & F & _). inversion F as [|? ? (Hl & _) _]; subst. cbn [snd] in Hl.
  destruct (legal_facts c _ _ _ _ Hb Hl) as (Ek & _). unfold read_check. rewrite Ek.
  unfold concurrent_reads. rewrite Ad. cbn [map] in C |- *. unfold rsized in C |- *. cbn [fst snd] in C |- *.
  rewrite serve_one in C by reflexivity. rewrite serve_one by reflexivity.
  set (x := (a, size_or (x_bytes c) (ra_size a))) in *. unfold bind.
  destruct (flow_ar c fuel x (World tt p o [] l)) as [Ca _]. pose proof (moves_ar c fuel x (World tt p o [] l)) as Ma.
  pose proof (ar_active c fuel x (World tt p o [] l)) as Pa.
  destruct (ar_job c fuel x (World tt p o [] l)) as [[[]|e| |] v]; cbn [snd] in *.
  - specialize (Ma tt v eq_refl). specialize (Pa tt v eq_refl). cbn [trace length] in Ma.
    cbn [addressed flat_map app serve trace length]. rewrite Nat.sub_0_r. unfold bind.
    change (cycles (World tt p o [] l)) with l in Ca. pose proof (cycles_skip _ _ Ca) as Ia.
    assert (Ll : length (trace v) <= length l) by (rewrite <- Ca; unfold cycles; rewrite app_length, map_length; lia).
    rewrite edges_spec. cbn [ins trace out st ph app]. destruct (Nat.leb_spec (length (trace v)) (length l)) as [_|H]; [|lia].
    set (w1 := World _ _ _ _ _). assert (Al : alike v w1).
    { split; cbn [w1 ph ins]; [|exact Ia]. rewrite Pa. destruct (length (trace v)); [lia|reflexivity]. }
    destruct (ro_r_job c fuel x v w1 Al) as (R1 & _ & R3).
    destruct (r_job c fuel x v) as [rr vr], (r_job c fuel x w1) as [rr' vr']. cbn [fst snd] in *. subst rr'.
    destruct rr; cbn [rs_results rs_ar map fst snd]; (split; [reflexivity|]); unfold waveform in R3; congruence.
  - destruct C as (_ & _ & _ & D & _). inversion D; subst. discriminate.
  - cbn [addressed flat_map serve map rs_results rs_ar]. auto.
  - destruct C as (_ & _ & _ & D & _). inversion D; subst. discriminate.
Qed.
