(** GuProp.v -- C135: calls that are given up by their caller. *)
From Verif Require Import Base Async CompatModel PktModel MMModel MMSpec MMProof OpbModel OpbTopProof HandshakeSpec AxiModel AxiSpec AxiChanProof AxiReadProof AxiRunProof AxiTopProof GuModel GuProof OpbProp MMProp AxiProp.
Local Open Scope list_scope.

(** C135, what holds: an Avalon-MM or OPB access given up while it waits for the lock leaves
    nothing behind. *)
Theorem C135_waiting_partial :
  (forall c fuel a v sync w w', st w = true ->
     given_up (mm_read c fuel a sync) w w' \/ given_up (mm_write c fuel a v) w w' -> w' = w) /\
  (forall c before fuel a v sync w w', st w = true ->
     given_up (opb_read c before fuel a sync) w w' \/ given_up (opb_write c before fuel a v sync) w w' -> w' = w).
Proof.
  split.
  - intros c fuel a v sync [s p o tr l] w' S [H|H]; cbn [st] in S; subst s; unfold given_up in H; [unfold mm_read in H|unfold mm_write in H].
    + destruct (a_read c); [|discriminate]. cbn in H. injection H as <-. reflexivity.
    + destruct (a_write c); [|discriminate]. cbn in H. injection H as <-. reflexivity.
  - intros c before fuel a v sync [s p o tr l] w' S [H|H]; cbn [st] in S; subst s; unfold given_up in H; cbn in H; injection H as <-; reflexivity.
Qed.
Print Assumptions C135_waiting_partial.

(** C135 is false of AvalonMaster: whenever an access is given up, no later access starts,
    whatever the slave does. *)
Theorem C135_avalon_refuted : forall c fuel sync x w w',
  op_fits c x ->
  given_up (match x with MMRead a => bind (mm_read c fuel a sync) (fun _ => ret tt) | MMWrite a v => mm_write c fuel a v end) w w' ->
  forall l fuel' ops, ops <> [] -> Forall (op_fits c) ops ->
    mm_all c fuel' ops (afterwards w' l) = (Susp, afterwards w' l).
Proof.
  intros c fuel sync x w w' F G l fuel' ops N Fo.
  assert (S : st w' = true).
  { unfold given_up in G. destruct x as [a|a v]; destruct F as [F _].
    - unfold bind in G. destruct (mm_read c fuel a sync w) as [[d|e| |] w1] eqn:E; try discriminate. injection G as <-.
      exact (mm_read_given_up c fuel a sync w w1 F E).
    - exact (mm_write_given_up c fuel a v w w' F G). }
  unfold afterwards. rewrite S. apply locked; assumption.
Qed.
Print Assumptions C135_avalon_refuted.

(** the number of cycles in which the slave does not make the master wait *)
Definition not_stalled (c : mm_cfg) (l : list mm_in) : nat :=
  length (filter (fun i => if a_wait c then match i_wait i with L0 => true | _ => false end else true) l).

(** ... and a write given up while the slave stalls stays on the bus: the slave has not accepted
    it when the caller gives up, and accepts it afterwards, again in every cycle in which it
    does not stall. *)
Theorem C135_avalon_write_refuted : forall c fuel address value o p i0 waits,
  2 <= fuel -> a_write c = true -> a_wait c = true -> fits (a_width c) address -> fits (d_width c) value -> quiet c o ->
  i_wait i0 = L0 \/ i_wait i0 = L1 -> Forall (stalls c) waits ->
  exists w', given_up (mm_write c fuel address value) (World false p o [] (i0 :: waits)) w'
    /\ accepted_in c (trace w') = []
    /\ forall l, accepted_in c (held (out w') l) = repeat (AcWrite (Some address) (Some value)) (not_stalled c l).
Proof.
  intros c fuel address value o p i0 waits Hf Hw Wt Ha Hv Q I0 Fw.
  destruct (C41_write c fuel address value o p [] (i0 :: waits) Hf Hw Ha Hv Q) as [H|[H|[H _]]]; [| | |discriminate].
  - intros i [<-|I] _; [exact I0|]. right. rewrite Forall_forall in Fw. exact (proj2 (Fw i I)).
  - exfalso. destruct H as (j & w2 & ia & r & o' & E & _ & Gr & _). injection E as <- E. rewrite E in Fw.
    apply Forall_app in Fw. destruct Fw as [_ Fw]. pose proof (proj2 (Forall_inv Fw)) as X. rewrite (Gr Wt) in X. discriminate.
  - destruct H as (j & w2 & p' & E & F2 & R). injection E as <- <-. eexists. split; [exact R|]. cbn [trace out app]. split.
    + change ((i0, o) :: held (write_request c o address value) waits) with (held o [i0] ++ held (write_request c o address value) waits).
      rewrite accepted_app, (accepted_none c o [i0]), accepted_stalls; [reflexivity|exact Fw|rewrite (qt_read c o Q); discriminate|rewrite (qt_write c o Q); discriminate].
    + intro l. induction l as [|i l IH]; [reflexivity|]. change (held (write_request c o address value) (i :: l)) with (held (write_request c o address value) [i] ++ held (write_request c o address value) l).
      rewrite accepted_app, IH. unfold not_stalled. cbn [filter]. rewrite Wt. cbn [held map accepted_in flat_map accepts_now]. rewrite Wt, app_nil_r.
      cbn [write_request q_read q_write q_addr q_wdata]. rewrite (qt_read c o Q), !bval_fits by assumption.
      destruct (i_wait i); reflexivity.
Qed.
Print Assumptions C135_avalon_write_refuted.

(** C135 is false of OPBMaster in the same way. *)
Theorem C135_opb_refuted : forall c before fuel a v sync w w',
  given_up (opb_read c before fuel a sync) w w' \/ given_up (opb_write c before fuel a v sync) w w' ->
  forall l fuel' a' v' sync',
    opb_read c before fuel' a' sync' (afterwards w' l) = (Susp, afterwards w' l) /\
    opb_write c before fuel' a' v' sync' (afterwards w' l) = (Susp, afterwards w' l).
Proof.
  intros c before fuel a v sync w w' G l fuel' a' v' sync'.
  assert (S : st (afterwards w' l) = true).
  { destruct G as [G|G]; [exact (opb_read_given_up c before fuel a sync w w' G)|exact (opb_write_given_up c before fuel a v sync w w' G)]. }
  destruct (locked_stuck c before _ S) as [A B]. split; [apply A|apply B].
Qed.
Print Assumptions C135_opb_refuted.

(** ** AXI4 *)
Local Open Scope Z_scope.

(** C135 is false of AXI4Master.read: a read of [n] beats from [a1] is given up after its address
    has been accepted and before the first beat.  The next read asks for as many beats of the
    same size from another address (any address with the same byte lanes).  A slave that then
    sends the beats of the first request, with OKAY, makes the second read return the words
    stored at [a1]. *)
Theorem C135_axi_read_refuted : forall c fuel fuel2 size n a1 a2 k sync1 sync2 s p o tr l1 pre w h seg l2 pre2 w2 h2 seg2 f2 tl2 mem,
  let x1 := RAccess a1 n size INCR sync1 in
  let x2 := RAccess a2 n size INCR sync2 in
  let req1 := ax_request c o a1 n INCR (size_or (x_bytes c) size) in
  x_full c = true -> a2 = a1 + k * x_bytes c ->
  read_ok c fuel x1 p l1 -> l1 = pre ++ w ++ h :: seg -> length pre = (if sync1 then 1 else 0)%nat ->
  Forall (fun i => ar_accepts i = false) w -> ar_accepts h = true -> Forall (fun i => r_beat i = false) (pre ++ w ++ h :: seg) ->
  read_ok c fuel2 x2 PActive l2 -> read_cycles c sync2 l2 pre2 w2 h2 seg2 f2 tl2 ->
  Forall (fun i => r_beat i = false) (pre2 ++ w2 ++ [h2]) ->
  let bs := filter r_beat (seg2 ++ [f2]) in
  slave_reads c req1 (fun _ => mem) bs -> Forall (fun i => rresp_of i = 0) bs ->
  exists w', given_up (axi_read c fuel x1) (World s p o tr l1) w'
    /\ fst (axi_read c fuel2 x2 (afterwards w' l2)) = Done (read_words INCR (fun _ => mem) a1 (size_or (x_bytes c) size) (Z.to_nat n)).
Proof.
  intros c fuel fuel2 size n a1 a2 k sync1 sync2 s p o tr l1 pre w h seg l2 pre2 w2 h2 seg2 f2 tl2 mem x1 x2 req1 Full Ea Ok1 El Lp F1 F2 F3 Ok2 Cy _ bs Sl Re.
  assert (F4 : Forall (fun i => r_beat i = false) seg).
  { do 2 apply Forall_app, proj2 in F3. exact (Forall_inv_tail F3). }
  destruct (axi_read_waiting c fuel x1 s p o tr l1 pre w h seg Ok1 El Lp F1 F2 F4) as [p' R].
  eexists. split; [exact R|]. unfold afterwards. cbn [st out trace].
  set (o' := ax_set_valid L0 _). set (tr' := tr ++ _).
  unfold x1, x2, req1 in *. clear x1 x2 req1.
  destruct Ok1 as [Hb Hl1 Ha1 _ _]. pose proof Ok2 as [_ Hl2 Ha2 _ _]. cbn [ra_address ra_length ra_size ra_burst] in *.
  destruct (legal_facts c _ _ _ _ Hb Hl1) as (_ & Ps & Ls & Hn & q & Hq & Eq).
  set (sz := size_or (x_bytes c) size) in *. assert (Hs : 0 < sz) by (apply AxiDataProof.pow2_pos'; exact Ps).
  set (d := k * (q * sz)). assert (Ed : a2 = a1 + d) by (unfold d; rewrite <- Eq; exact Ea).
  destruct (C53_read c fuel2 (RAccess a2 n size INCR sync2) s PActive o' tr' l2 pre2 w2 h2 seg2 f2 tl2 (fun _ => shifted d mem) Ok2 Cy Full) as [_ T].
  - discriminate.
  - reflexivity.
  - unfold slave_reads in *. cbn [ra_address ra_length ra_size ra_burst]. fold sz. fold bs.
    rewrite decode_request in * by (try assumption; left; exact Full). cbn [q_address q_beats q_size q_burst] in *.
    destruct Sl as (S1 & S2 & S3). split; [exact S1|]. split.
    + intros j x. unfold shifted. apply (S2 0%nat).
    + intros i b B. rewrite Ed, Eq. unfold d. apply read_beat_shift; [exact Hs|exact Hq|]. rewrite <- Eq. exact (S3 i b B).
  - fold bs in T. etransitivity; [apply T|].
    + unfold first_bad. clearbody bs. clear - Re. induction Re as [|i r E _ IH]; [reflexivity|]. cbn [map find]. rewrite E. exact IH.
    + f_equal. cbn [ra_address ra_length ra_size ra_burst read_words]. fold sz. rewrite Ed. apply incr_words_shift; [exact Hs|].
      unfold d. rewrite Z.mul_assoc. apply Z.mod_mul. lia.
Qed.
Print Assumptions C135_axi_read_refuted.

(** C135 is false of AXI4Master.write: a write whose address and data have been accepted is given
    up before its response; the next write is accepted as well.  The first response that the slave
    gives, the one to the first write, is taken for the response to the second. *)
Theorem C135_axi_write_refuted : forall c fuel1 fuel2 a1 a2 p oa ow l1 l2 q i rest,
  write_ok c fuel1 a1 p oa ow l1 ->
  let r1 := axi_write c fuel1 a1 p oa ow l1 in
  wr_result r1 = Susp ->
  length (transfers aw_offered aw_accepts (wr_aw r1)) = 1%nat ->
  length (transfers w_offered w_accepts (wr_w r1)) = length (wa_value a1) ->
  write_ok c fuel2 a2 PActive (wr_aw_out r1) (wr_w_out r1) l2 ->
  let r2 := axi_write c fuel2 a2 PActive (wr_aw_out r1) (wr_w_out r1) l2 in
  wr_result r2 <> Susp ->
  l2 = q ++ i :: rest -> Forall (fun i => b_valid i = false) (l1 ++ q) -> b_valid i = true ->
  transfers aw_offered aw_accepts (firstn (length q) (wr_aw r2)) = transfers aw_offered aw_accepts (wr_aw r2) ->
  transfers w_offered w_accepts (firstn (length q) (wr_w r2)) = transfers w_offered w_accepts (wr_w r2) ->
  wr_result r2 = response_outcome (g_bresp i).
Proof.
  intros c fuel1 fuel2 a1 a2 p oa ow l1 l2 q i rest _ r1 _ _ _ Ok2 r2 NS El Fb Bi Ca Cw.
  destruct (C57_write_response c fuel2 a2 PActive (wr_aw_out r1) (wr_w_out r1) l2 Ok2 NS) as (dn & nr & j & rs & E & [_ Mn] & Fn & Bj & R & _).
  fold r2 in R, Mn. rewrite R. apply Forall_app in Fb. destruct Fb as [_ Fb].
  assert (L : (length dn <= length q)%nat).
  { destruct (Nat.le_gt_cases (length dn) (length q)) as [L|L]; [exact L|]. exfalso. exact (Mn _ L (conj Ca Cw)). }
  rewrite El in E. clear - L E Fb Bi Fn Bj. revert q L E Fb. induction dn as [|x dn IH]; intros q L E Fb.
  - cbn [app] in E. clear L. revert q E Fb. induction Fn as [|y nr Y _ IH]; intros [|z q] E Fb; cbn [app] in E; injection E as -> E.
    + reflexivity.
    + pose proof (Forall_inv Fb) as X. cbv beta in X. congruence.
    + congruence.
    + exact (IH q E (Forall_inv_tail Fb)).
  - destruct q as [|z q]; cbn [length] in L; [lia|]. cbn [app] in E. injection E as _ E. apply (IH q); [lia|exact E|exact (Forall_inv_tail Fb)].
Qed.
Print Assumptions C135_axi_write_refuted.

(** ** Non-vacuity *)
(** a stalled write of 500 to 3 is given up; two later cycles without a stall accept it twice, and a
    read never starts *)
Example exg_write : exists w',
  given_up (mm_write MMProp.ex_cfg 30 3 500) (World false PMid ex_o [] [ig; iw; iw]) w'
  /\ accepted_in MMProp.ex_cfg (trace w') = []
  /\ accepted_in MMProp.ex_cfg (held (out w') [iw; ig; ig]) = [AcWrite (Some 3) (Some 500); AcWrite (Some 3) (Some 500)]
  /\ fst (mm_all MMProp.ex_cfg 30 [MMRead 3] (afterwards w' [ig; ig; idt; idt])) = Susp.
Proof. eexists. split; [vm_compute; reflexivity|]. repeat split. Qed.
(** a read that waits for its turn *)
Example exg_waiting : forall l, given_up (mm_read MMProp.ex_cfg 30 3 true) (World true PMid ex_o [] l) (World true PMid ex_o [] l).
Proof. reflexivity. Qed.
Example exg_opb : exists w',
  given_up (opb_read OpbProp.ex_cfg OpbProp.idle_in 50 200 true) (World false PActive OpbProp.ex_out [] (repeat OpbProp.idle_in 4)) w'
  /\ fst (opb_read OpbProp.ex_cfg OpbProp.idle_in 50 200 true (afterwards w' [OpbProp.ex_in L1 L0 99; OpbProp.idle_in])) = Susp.
Proof. eexists. split; [vm_compute; reflexivity|]. vm_compute. reflexivity. Qed.
(** a read of two words at 4096 is given up; the next read, at 8192, returns the words at 4096 *)
Definition exg_mem (x : Z) : bits := zbits 8 (x / 4096 * 16 + x mod 16).
Definition exg_l1 := [ex_r L0 L0 0 L0; ex_r L1 L0 0 L0; ex_r L0 L0 0 L0].
Definition exg_b1 := ex_r L0 L1 0x13121110 L0.
Definition exg_b2 := ex_r L0 L1 0x1716151400000000 L1.
Definition exg_l2 := [ex_r L0 L0 0 L0; ex_r L1 L0 0 L0; exg_b1; exg_b2].
Example exg_slave : slave_reads ex_c (ax_request ex_c ex_oa 4096 2 INCR 4) (fun _ => exg_mem) [exg_b1; exg_b2].
Proof.
  split; [reflexivity|]. split; [intros; reflexivity|].
  intros [|[|[|]]] b Hb; try discriminate; injection Hb as <-; (split; [reflexivity|]); intros x [X1 X2].
  - change (0 <= x) in X1. change (x < 4) in X2.
    assert (x = 0 \/ x = 1 \/ x = 2 \/ x = 3) as [-> | [-> | [-> | ->]]] by lia; vm_compute; reflexivity.
  - change (4 <= x) in X1. change (x < 8) in X2.
    assert (x = 4 \/ x = 5 \/ x = 6 \/ x = 7) as [-> | [-> | [-> | ->]]] by lia; vm_compute; reflexivity.
Qed.
Example exg_read :
  read_ok ex_c 20 (RAccess 4096 2 (Some 4) INCR true) PActive exg_l1 /\
  read_ok ex_c 20 (RAccess 8192 2 (Some 4) INCR true) PActive exg_l2 /\
  read_cycles ex_c true exg_l2 (firstn 1 exg_l2) [] (ex_r L1 L0 0 L0) [exg_b1] exg_b2 [] /\
  (exists w', given_up (axi_read ex_c 20 (RAccess 4096 2 (Some 4) INCR true)) (World tt PActive ex_oa [] exg_l1) w' /\
    fst (axi_read ex_c 20 (RAccess 8192 2 (Some 4) INCR true) (afterwards w' exg_l2)) = Done [zbits 32 0x13121110; zbits 32 0x17161514]) /\
  read_words INCR (fun _ => exg_mem) 4096 4 2 = [zbits 32 0x13121110; zbits 32 0x17161514] /\
  read_words INCR (fun _ => exg_mem) 8192 4 2 = [zbits 32 0x23222120; zbits 32 0x27262524].
Proof.
  assert (L : forall k, (k = 1 \/ k = 2) -> legal_access (x_bytes ex_c) (k * 4096) 2 (Some 4) INCR).
  { intros k K. split; [intros s [= <-]; split; [exists 2; split; [lia|reflexivity]|vm_compute; discriminate]|]. split; [cbn; lia|]. intros _ x [H1 H2]. unfold same_page.
    cbn [size_or] in *. destruct K as [-> | ->].
    - change (1 * 4096) with 4096 in *. change (aligned 4096 4 + 2 * 4) with 4104 in H2. change (4096 / 4096) with 1. apply (Z.div_unique_pos _ _ _ (x - 4096)); lia.
    - change (2 * 4096) with 8192 in *. change (aligned 8192 4 + 2 * 4) with 8200 in H2. change (8192 / 4096) with 2. apply (Z.div_unique_pos _ _ _ (x - 8192)); lia. }
  split; [|split; [|split; [|split; [|split; vm_compute; reflexivity]]]].
  - constructor; [exact ex_axi_bus|exact (L 1 (or_introl eq_refl))|split; vm_compute; congruence|discriminate|cbn; lia].
  - constructor; [exact ex_axi_bus|exact (L 2 (or_intror eq_refl))|split; vm_compute; congruence|discriminate|cbn; lia].
  - constructor; try reflexivity; repeat constructor; try discriminate.
  - eexists. split; [vm_compute; reflexivity|]. vm_compute. reflexivity.
Qed.
(** a write is given up after its transfers; the SLVERR meant for it is raised by the next write *)
Definition exg_w (bv : logic) (r : Z) : axi_in := AxiIn L1 L1 bv (zbits 2 r) L0 L0 (zbits 2 0) (zbits 64 0) L0.
Definition exg_a (a : Z) : waccess := WAccess a [7] (Some 4) INCR [None] 0 0 true.
Example exg_awrite :
  let l1 := repeat (exg_w L0 0) 4 in
  let r1 := axi_write ex_c 20 (exg_a 4096) PActive ex_oa ex_ow l1 in
  let l2 := repeat (exg_w L0 0) 3 ++ [exg_w L1 2; exg_w L0 0; exg_w L1 0] in
  let r2 := axi_write ex_c 20 (exg_a 8192) PActive (wr_aw_out r1) (wr_w_out r1) l2 in
  write_ok ex_c 20 (exg_a 4096) PActive ex_oa ex_ow l1 /\ write_ok ex_c 20 (exg_a 8192) PActive (wr_aw_out r1) (wr_w_out r1) l2 /\
  wr_result r1 = Susp /\ length (transfers aw_offered aw_accepts (wr_aw r1)) = 1%nat /\
  length (transfers w_offered w_accepts (wr_w r1)) = 1%nat /\
  aw_offered (wr_aw_out r1) = false /\ w_offered (wr_w_out r1) = false /\
  transfers aw_offered aw_accepts (firstn 3 (wr_aw r2)) = transfers aw_offered aw_accepts (wr_aw r2) /\
  transfers w_offered w_accepts (firstn 3 (wr_w r2)) = transfers w_offered w_accepts (wr_w r2) /\
  wr_result r2 = Exn (EAXIProtocol 2).
Proof.
  assert (L : forall k, (k = 1 \/ k = 2) -> legal_access (x_bytes ex_c) (k * 4096) 1 (Some 4) INCR).
  { intros k K. split; [intros s [= <-]; split; [exists 2; split; [lia|reflexivity]|vm_compute; discriminate]|]. split; [cbn; lia|]. intros _ x [H1 H2]. unfold same_page.
    cbn [size_or] in *. destruct K as [-> | ->].
    - change (1 * 4096) with 4096 in *. change (aligned 4096 4 + 1 * 4) with 4100 in H2. change (4096 / 4096) with 1. apply (Z.div_unique_pos _ _ _ (x - 4096)); lia.
    - change (2 * 4096) with 8192 in *. change (aligned 8192 4 + 1 * 4) with 8196 in H2. change (8192 / 4096) with 2. apply (Z.div_unique_pos _ _ _ (x - 8192)); lia. }
  cbv zeta. split; [|split; [|vm_compute; repeat split]].
  - constructor; [exact ex_axi_bus|exact (L 1 (or_introl eq_refl))|split; vm_compute; congruence|discriminate|discriminate|reflexivity|reflexivity|cbn; lia|left; reflexivity].
  - constructor; [exact ex_axi_bus|exact (L 2 (or_intror eq_refl))|split; vm_compute; congruence|discriminate|discriminate|vm_compute; reflexivity|vm_compute; reflexivity|cbn; lia|left; reflexivity].
Qed.
