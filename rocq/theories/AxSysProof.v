(** AxSysProof.v -- proofs for C111. *)
From Verif Require Import Base Async CompatModel HandshakeSpec Handshake AxiModel AxiSpec AxiTopProof AxsModel AxsProof AvSysSpec AxSysSpec.
From Verif Require Import AxiChanProof AxiProp AxLatProp.
Local Open Scope list_scope.

(** what the slave drives is constant *)
Lemma drives_const big width before fuel memory p y lm : length lm < fuel -> p <> PReadOnly ->
  Forall (fun x => s_awready (fst x) = L1 /\ s_wready (fst x) = L0 /\
                   s_arready (snd x) = L1 /\ s_rvalid (snd x) = L0)
    (slave_drives big width before fuel memory p y lm) /\
  slave_memory big width before fuel memory p y lm = (memory, memory).
Proof.
  intros Hf Hp. set (o1 := s_set_awready L1 (s_set_rlast L0 (s_set_rvalid L0 (s_set_arready L1 y)))).
  assert (E : axs_init (World memory p y [] lm) = (Done tt, World memory p o1 [] lm)).
  { unfold axs_init. rewrite (bind_done _ _ _ _ _ (drive_ok _ _ _ _ _ _ Hp)), (bind_done _ _ _ _ _ (drive_ok _ _ _ _ _ _ Hp)), (bind_done _ _ _ _ _ (drive_ok _ _ _ _ _ _ Hp)).
    apply drive_ok, Hp. }
  unfold slave_drives, slave_memory. rewrite E. cbn [snd].
  assert (HW : Forall (fun o => s_awready o = L1 /\ s_wready o = L0)
     (map snd (history (snd (write_data big before fuel (World memory p o1 [] lm)))))).
  { destruct (first_split (fun i => is_one (s_awvalid i)) lm) as [(w & i & r & Es & F & A)|F].
    - subst lm. apply is_one_true in A. rewrite (write_dies big before fuel memory p o1 [] w i r Hf Hp (forall_aw _ F) A).
      unfold history. cbn [snd trace out ins app]. unfold held. rewrite map_app, !map_map. cbn [snd].
      apply Forall_app. split; apply Forall_forall; intros x Hx; apply in_map_iff in Hx; destruct Hx as (j & <- & _); split; reflexivity.
    - destruct (write_waits big before fuel memory p o1 [] lm Hf Hp (forall_aw _ F)) as [p' E']. rewrite E'.
      unfold history. cbn [snd trace out ins app]. unfold held. rewrite map_app, !map_map. cbn [snd].
      apply Forall_app. split; apply Forall_forall; intros x Hx; apply in_map_iff in Hx; destruct Hx as (j & <- & _); split; reflexivity. }
  destruct (read_never big width fuel memory p o1 lm Hf Hp) as (RM & RT & RO).
  destruct (write_never big before fuel memory p o1 lm Hf Hp) as (WM & _).
  assert (HR : Forall (fun o => s_arready o = L1 /\ s_rvalid o = L0)
     (map snd (history (snd (read_data big width fuel (World memory p o1 [] lm)))))).
  { unfold history. rewrite map_app. apply Forall_app. split.
    - apply Forall_map. eapply Forall_impl; [|exact RT]. intros x ->. split; reflexivity.
    - rewrite RO. unfold held. rewrite map_map. cbn [snd]. apply Forall_forall. intros x Hx. apply in_map_iff in Hx.
      destruct Hx as (j & <- & _). split; reflexivity. }
  split; [|now rewrite WM, RM].
  apply Forall_forall. intros [a b] Hin. pose proof (in_combine_l _ _ _ _ Hin) as Ha. pose proof (in_combine_r _ _ _ _ Hin) as Hb.
  rewrite Forall_forall in HW, HR. destruct (HW _ Ha), (HR _ Hb). cbn [fst snd]. repeat split; assumption.
Qed.

Lemma master_sees big width before fuel memory p y lm l : length lm < fuel -> p <> PReadOnly ->
  Forall2 from_slave l (slave_drives big width before fuel memory p y lm) ->
  Forall (fun i => g_awready i = L1 /\ g_wready i = L0 /\ g_arready i = L1 /\ g_rvalid i = L0) l.
Proof.
  intros Hf Hp H. destruct (drives_const big width before fuel memory p y lm Hf Hp) as [D _].
  induction H as [|i x l xs Hx _ IH]; constructor.
  - inversion D as [|? ? (D1 & D2 & D3 & D4) _]; subst. destruct Hx as [A B C E _ _]. rewrite A, B, C, E. auto.
  - apply IH. now inversion D.
Qed.

Lemma no_transfers {TI TO} (off : TO -> bool) (acc : TI -> bool) (tr : list (TI * TO)) :
  Forall (fun x => acc x = false) (map fst tr) -> HandshakeSpec.transfers off acc tr = [].
Proof.
  induction tr as [|[i o] tr IH]; intros H; [reflexivity|]. inversion H as [|? ? Ha Hr]; subst. cbn [fst] in Ha.
  unfold HandshakeSpec.transfers, HandshakeSpec.transferred. cbn [filter fst snd]. rewrite Ha, Bool.andb_false_r. exact (IH Hr).
Qed.

Section Write.
Context (c : axi_cfg) (fuel : nat) (a : waccess) (p : phase) (oa : ax_out) (ow : w_out) (l : list axi_in).
Hypothesis OK : write_any c fuel a p oa ow l.
Hypothesis Never : Forall (fun i => g_awready i = L1 /\ g_wready i = L0) l.

Lemma never_w : Forall (fun i => w_accepts i = false) l.
Proof. eapply Forall_impl; [|exact Never]. intros i (_ & H). unfold w_accepts. now rewrite H. Qed.

Lemma write_stuck : wr_result (axi_write c fuel a p oa ow l) = Susp /\
  HandshakeSpec.transfers w_offered w_accepts (wr_w (axi_write c fuel a p oa ow l)) = [].
Proof.
  destruct (C56_data_partial c fuel a p oa ow l OK) as (ws & _ & E & _).
  assert (T : HandshakeSpec.transfers w_offered w_accepts (wr_w (axi_write c fuel a p oa ow l)) = []).
  { apply no_transfers. pose proof never_w as N. rewrite <- E in N. apply Forall_app in N. apply N. }
  split; [|exact T].
  assert (D : wr_result (axi_write c fuel a p oa ow l) = Susp \/ wr_result (axi_write c fuel a p oa ow l) <> Susp).
  { destruct (wr_result _); auto; right; discriminate. }
  destruct D as [D|D]; [exact D|exfalso].
  destruct (C56_counts_partial c fuel a p oa ow l OK D) as (ws' & ks & W & L & K & _ & F).
  rewrite T in F. destruct W as (beats & _ & Lb & ->).
  assert (N : length (wa_value a) <> 0).
  { destruct OK as [_ [_ [H _]] _ _ _ _ _ _]. destruct (wa_burst a); cbn in H; lia. }
  rewrite <- Lb in N. destruct beats as [|b beats]; [contradiction|]. cbn [w_words] in *.
  destruct ks as [|k ks]; [discriminate|]. inversion K; subst. destruct k as [|k]; [lia|]. discriminate.
Qed.

Lemma write_address_taken : 2 + wa_alat a <= length l ->
  HandshakeSpec.transfers aw_offered aw_accepts (wr_aw (axi_write c fuel a p oa ow l))
  = [ax_request c oa (wa_address a) (Z.of_nat (length (wa_value a))) (wa_burst a) (size_or (x_bytes c) (wa_size a))].
Proof.
  intros Hl. destruct OK as [Bus Legal Addr Be Start Aw Wv Fu].
  destruct (legal_facts c _ _ _ _ Bus Legal) as (Ec & Ps & Ls & Hn & _).
  pose proof (address_thm c fuel (wa_address a) (Z.of_nat (length (wa_value a))) (wa_burst a) (size_or (x_bytes c) (wa_size a))
    (wa_alat a) (wa_sync a) p oa l Addr Hn Ps Ls Start Aw Fu) as A.
  unfold axi_write. rewrite Ec.
  destruct (send_write_address c fuel (wa_address a) _ (wa_burst a) _ (wa_alat a) (wa_sync a) (World tt p oa [] l)) as [ra va].
  destruct (send_write_data c fuel (wa_address a) (wa_value a) (wa_burst a) _ (wa_dlat a) (wa_be a) (wa_sync a) (World tt p ow [] l)) as [rw vw].
  destruct A as (_ & _ & A).
  assert (R : ready_cycles aw_accepts l = length l).
  { clear - Never. unfold ready_cycles. pose proof Never as N. clear Never. induction N as [|i r H _ IH]; [reflexivity|].
    cbn [filter]. destruct H as (H & _). replace (aw_accepts i) with true by (unfold aw_accepts; now rewrite H).
    exact (f_equal S IH). }
  destruct ra as [u|e| |]; [|contradiction|destruct A as (_ & C & _); lia|contradiction].
  destruct A as (A & O).
  assert (H : forall x, HandshakeSpec.transfers aw_offered aw_accepts (trace va ++ held (out va) x)
     = [ax_request c oa (wa_address a) (Z.of_nat (length (wa_value a))) (wa_burst a) (size_or (x_bytes c) (wa_size a))]).
  { intro x. rewrite transfers_app, A, (transfers_idle _ _ _ _ O). reflexivity. }
  destruct rw as [u'|e| |]; cbn [wr_aw]; try exact A; try apply H.
  destruct (write_response fuel _) as [rb vb]. cbn [wr_aw]. apply H.
Qed.
End Write.

Lemma read_stuck c fuel a s p o tr l : read_ok c fuel a p l ->
  Forall (fun i => g_arready i = L1 /\ g_rvalid i = L0) l ->
  fst (axi_read c fuel a (World s p o tr l)) = Susp /\ fst (axi_read_rresp c fuel a (World s p o tr l)) = Susp.
Proof.
  intros OK Never.
  apply (AxiTopProof.read_waits c fuel a s p o tr l (firstn (if ra_sync a then 1 else 0) l) OK); [rewrite firstn_length; lia|].
  destruct (skipn (if ra_sync a then 1 else 0) l) as [|h seg] eqn:E.
  - left. exists []. split; [|constructor]. rewrite <- (firstn_skipn (if ra_sync a then 1 else 0) l) at 1. now rewrite E.
  - right. exists [], h, seg.
    assert (F : Forall (fun i => g_arready i = L1 /\ g_rvalid i = L0) (h :: seg)).
    { rewrite <- E. rewrite <- (firstn_skipn (if ra_sync a then 1 else 0) l) in Never. apply Forall_app in Never. apply Never. }
    inversion F as [|? ? (F1 & F2) Fs]; subst. split; [|split; [constructor|split]].
    + rewrite <- (firstn_skipn (if ra_sync a then 1 else 0) l) at 1. now rewrite E.
    + unfold ar_accepts. now rewrite F1.
    + split; (eapply Forall_impl; [|exact Fs]); intros i (_ & H).
      * unfold r_final, r_beat. now rewrite H.
      * unfold r_beat. rewrite H. discriminate.
Qed.
