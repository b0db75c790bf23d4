(** AxRdProp.v -- C143: AXI4 reads from a slave that answers within D cycles. *)
From Verif Require Import Base Async BitsLemmas CompatModel PktModel HandshakeSpec AxiModel AxiSpec AxiTopProof TmSpec AxTmProof AxiProp AxTmProp AxRdSpec AxRdProof.
Local Open Scope list_scope.

(** C143.  A read of [n] beats ends within D cycles for the address and D for each beat (and one
    for sync), whatever else the slave does; "ends": it returns or raises (which of the two is
    C57, C58). *)
Theorem C143_bounded : forall c fuel a s p o l D,
  read_ok c fuel a p l -> aw_offered o = false -> Forall (fun i => r_beat i = true -> r_beat_ok c i) l ->
  let n := Z.to_nat (ra_length a) in
  let '(r, w) := axi_read c fuel a (World s p o [] l) in
  reads_within D (trace w) -> ends_burst c n (trace w) ->
  let bound := (if ra_sync a then 1 else 0) + D + n * D in
  length (trace w) <= bound /\ (bound < length l -> r <> Susp).
Proof. intros c fuel a s p o l D H1 H2 H3. exact (read_live c D (Z.to_nat (ra_length a)) fuel a s p o l H1 H2 H3 eq_refl). Qed.
Print Assumptions C143_bounded.

(** the cycles are those that the slave gave *)
Theorem C143_cycles : forall c fuel a s p o l,
  let '(r, w) := axi_read c fuel a (World s p o [] l) in
  map fst (trace w) ++ ins w = l /\ (r = Susp -> ins w = []).
Proof.
  intros c fuel a s p o l. pose proof (read_eats c fuel a (World s p o [] l)) as H. destruct (axi_read c fuel a (World s p o [] l)) as [r w]. exact H.
Qed.
Print Assumptions C143_cycles.

(** ** cases *)
Definition exq_i (ar rv rl : logic) : axi_in := AxiIn L0 L0 L0 (zbits 2 0) ar rv (zbits 2 0) (zbits 64 9) rl.
Definition exq_a : raccess := RAccess 4096 3 (Some 4%Z) INCR true.
Definition exq_check (c : axi_cfg) (D n : nat) (tr : list (axi_in * ax_out)) : bool :=
  forallb (fun k => let b := firstn k tr in let r := skipn k tr in let w := firstn D r in
     (negb (length w =? D) || ((negb (forallb arvalid w) || existsb ar_taken w) &&
        (negb (existsb arvalid b) || existsb arvalid w || existsb r_given w))) &&
     forallb (fun j => let x := firstn j r in negb (existsb arvalid b) || existsb arvalid x || negb (n <=? length (filter r_given x)) || existsb (fun y => r_final c (fst y)) x)
             (seq 0 (S (length r)))) (seq 0 (S (length tr))).
Lemma exq_ok c D n tr : exq_check c D n tr = true -> reads_within D tr /\ ends_burst c n tr.
Proof.
  intro H. unfold exq_check in H. rewrite forallb_forall in H.
  assert (Cut : forall b r, tr = b ++ r -> firstn (length b) tr = b /\ skipn (length b) tr = r /\ In (length b) (seq 0 (S (length tr)))).
  { intros b r ->. rewrite firstn_app, skipn_app, firstn_all, skipn_all, Nat.sub_diag. cbn [firstn skipn app]. rewrite app_nil_r. repeat split. apply in_seq. rewrite app_length. lia. }
  split.
  - intros b w f E L. destruct (Cut b (w ++ f) E) as (C1 & C2 & C3). specialize (H _ C3). cbn zeta in H. rewrite C1, C2 in H.
    apply andb_true_iff in H. destruct H as [H _]. rewrite <- L, firstn_app, firstn_all, Nat.sub_diag, firstn_O, app_nil_r, Nat.eqb_refl in H. cbn [negb orb] in H.
    apply andb_true_iff in H. destruct H as [H1 H2]. split; [intro X; rewrite X in H1; exact H1|intros X Y; rewrite X, Y in H2; exact H2].
  - intros b x f E Hb Hx Hn. destruct (Cut b (x ++ f) E) as (C1 & C2 & C3). specialize (H _ C3). cbn zeta in H. rewrite C1, C2 in H.
    apply andb_true_iff in H. destruct H as [_ H]. rewrite forallb_forall in H. specialize (H (length x)).
    rewrite firstn_app, firstn_all, Nat.sub_diag, firstn_O, app_nil_r, Hb, Hx in H. cbn [negb orb] in H.
    apply Nat.leb_le in Hn. rewrite Hn in H. cbn [negb orb] in H. apply H. apply in_seq. rewrite app_length. lia.
Qed.
(** three beats; the address and each beat wait one cycle *)
Definition exq_l : list axi_in :=
  [exq_i L0 L0 L0; exq_i L0 L0 L0; exq_i L1 L0 L0; exq_i L0 L1 L0; exq_i L0 L0 L0; exq_i L0 L1 L0; exq_i L0 L0 L0; exq_i L0 L1 L1] ++ repeat (exq_i L0 L0 L0) 8.
Example exq_run :
  read_ok ex_c 40 exq_a PActive exq_l /\ Forall (fun i => r_beat i = true -> r_beat_ok ex_c i) exq_l /\
  let '(r, w) := axi_read ex_c 40 exq_a (World tt PActive ex_oa [] exq_l) in
  reads_within 2 (trace w) /\ ends_burst ex_c 3 (trace w) /\ (exists d, r = Done d) /\ length (trace w) = 8 /\ 1 + 2 + 3 * 2 < length exq_l.
Proof.
  split; [constructor; [exact ex_axi_bus|exact ext_legal|split; vm_compute; congruence|discriminate|cbn; lia]|].
  split; [unfold exq_l; cbn [app repeat]; repeat (apply Forall_cons; [intros _; split; [reflexivity|discriminate]|]); apply Forall_nil|].
  destruct (axi_read ex_c 40 exq_a (World tt PActive ex_oa [] exq_l)) as [r w] eqn:E.
  assert (X : exq_check ex_c 2 3 (trace w) = true /\ (exists d, r = Done d) /\ length (trace w) = 8).
  { vm_compute in E. injection E as <- <-. vm_compute. eauto. }
  destruct X as (X & Y & Z0). apply exq_ok in X. destruct X as [X1 X2].
  split; [exact X1|]. split; [exact X2|]. split; [exact Y|]. split; [exact Z0|]. cbn. lia.
Qed.
(** a slave that never gives RLAST: the read does not end *)
Example exq_stuck : let l := repeat (exq_i L1 L1 L0) 30 in
  let '(r, w) := axi_read ex_c 40 exq_a (World tt PActive ex_oa [] l) in r = Susp /\ exq_check ex_c 2 3 (trace w) = false.
Proof. vm_compute. split; reflexivity. Qed.
