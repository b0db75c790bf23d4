(** AxmProp.v -- C146: accesses made by several tasks end. *)
From Verif Require Import Base Async BitsLemmas HandshakeSpec AxiModel AxiSpec AxiProp AxcModel AxcSpec AxcProp AxmSpec AxmProof.
Local Open Scope list_scope.

(** Reads: a slave that accepts within [D] cycles and, while it owes data, completes a burst
    within [E] cycles.  All calls have returned or raised when this many cycles have passed,
    however many tasks share the master and whenever they call. *)
Theorem C146_reads : forall c fuel calls p o l D E, reads_ok c fuel calls p o l ->
  let r := concurrent_reads c fuel calls p o l in
  answers_reads c r l -> Forall (fun i => r_beat i = true -> r_beat_ok c i) l ->
  accepts_within aw_offered ar_accepts D (rs_ar r) -> completes_within c E (rs_ar r) l ->
  list_max (map fst calls) + length calls * (1 + D + E) <= length l ->
  map fst (rs_results r) = map snd calls /\ Forall (fun x => ended (snd x)) (rs_results r).
Proof. exact reads_end. Qed.
Print Assumptions C146_reads.

(** Writes: a slave that accepts addresses and beats within [D] cycles and, while it owes a
    response, gives one within [E] cycles. *)
Theorem C146_writes : forall c fuel calls p oa ow l D E, writes_ok c fuel calls p oa ow l ->
  let accesses := map snd calls in
  let r := concurrent_writes c fuel calls p oa ow l in
  answers_writes accesses r l -> Forall (fun i => b_valid i = true -> bval (g_bresp i) <> None) l ->
  accepts_within aw_offered aw_accepts D (ws_aw r) -> accepts_within w_offered w_accepts D (ws_w r) ->
  responds_within accesses E r l ->
  list_max (map fst calls) + list_sum (map (fun a => 1 + Nat.max (wa_alat a + D) (length (wa_value a) * (wa_dlat a + D))) accesses)
    + length calls * E <= length l ->
  map fst (ws_results r) = seq 0 (length calls) /\ Forall (fun x => ended (snd x)) (ws_results r).
Proof. exact writes_end. Qed.
Print Assumptions C146_writes.

(** ** cases *)
Definition exz_accepts {TI TO} (off : TO -> bool) (acc : TI -> bool) (D : nat) (tr : list (TI * TO)) : bool :=
  forallb (fun k => let w := firstn D (skipn k tr) in negb (forallb (fun y => off (snd y)) w) || existsb (fun y => acc (fst y)) w)
          (seq 0 (S (length tr - D))).
Lemma exz_accepts_ok {TI TO} (off : TO -> bool) (acc : TI -> bool) D tr : exz_accepts off acc D tr = true -> accepts_within off acc D tr.
Proof.
  intros H b w f -> L Hw. unfold exz_accepts in H. rewrite forallb_forall in H. specialize (H (length b)). cbn zeta in H.
  rewrite skipn_app, skipn_all, Nat.sub_diag in H. cbn [skipn app] in H. rewrite firstn_app, <- L, firstn_all, Nat.sub_diag, firstn_O, app_nil_r in H.
  rewrite Hw in H. cbn [negb orb] in H. apply H. apply in_seq. rewrite !app_length. lia.
Qed.
(** the three writes of C86, in 26 cycles; the slave is ready in every second cycle and
    answers the writes in the cycles 5, 8 (SLVERR) and 12 *)
Definition exz_w : list axi_in := map (fun k =>
  let rdy := if Nat.odd k then L1 else L0 in
  exc_in rdy rdy (if (k =? 5) || (k =? 8) || (k =? 12) then L1 else L0) (if k =? 8 then 2 else 0)) (seq 0 26).
Example exz_writes : let r := concurrent_writes ex_c 40 exc_calls PActive ex_oa ex_ow exz_w in
  writes_ok ex_c 40 exc_calls PActive ex_oa ex_ow exz_w /\ answers_writes (map snd exc_calls) r exz_w /\
  Forall (fun i => b_valid i = true -> bval (g_bresp i) <> None) exz_w /\
  accepts_within aw_offered aw_accepts 2 (ws_aw r) /\ accepts_within w_offered w_accepts 2 (ws_w r) /\
  responds_within (map snd exc_calls) 3 r exz_w /\
  list_max (map fst exc_calls) + list_sum (map (fun a => 1 + Nat.max (wa_alat a + 2) (length (wa_value a) * (wa_dlat a + 2))) (map snd exc_calls))
    + length exc_calls * 3 <= length exz_w /\
  ws_results r = [(0, Done tt); (1, Exn (EAXIProtocol 2)); (2, Done tt)].
Proof.
  cbv zeta. split.
  { destruct exc_ok as (H1 & H2 & H3 & H4 & H5 & _). repeat (split; [assumption|]). vm_compute. lia. }
  split.
  { intros m i H B. do 26 (destruct m as [|m]; [cbn in H; inversion H; subst; try discriminate; vm_compute; lia|]).
    cbn in H. destruct m; discriminate. }
  split; [repeat (constructor; [vm_compute; congruence|]); constructor|].
  split; [apply exz_accepts_ok; vm_compute; reflexivity|]. split; [apply exz_accepts_ok; vm_compute; reflexivity|].
  split; [|split; vm_compute; [lia|reflexivity]].
  intros m Hm. change (length exz_w) with 26 in Hm.
  do 24 (destruct m as [|m]; [vm_compute; lia|]). lia.
Qed.
(** the two reads of C87, in 16 cycles *)
Definition exz_r : list axi_in := map (fun k =>
  ex_r (if Nat.odd k then L1 else L0) (if (k =? 3) || (k =? 5) || (k =? 8) then L1 else L0) (Z.of_nat k) (if (k =? 5) || (k =? 8) then L1 else L0)) (seq 0 16).
Lemma exz_legal a : a = RAccess 4096 2 (Some 4%Z) INCR true \/ a = RAccess 4104 1 None FIXED true -> read_call_ok ex_c a.
Proof.
  intros [-> | ->]; (split; [|split; [unfold fits_bits; cbn; lia|left; reflexivity]]); cbn [ra_address ra_length ra_size ra_burst].
  - split; [intros s [= <-]; split; [exists 2%Z; split; [lia|reflexivity]|vm_compute; discriminate]|]. split; [cbn; lia|].
    intros _ x [H3 H4]. unfold same_page. cbn [size_or] in *. unfold aligned in *. change (4096 / 4 * 4)%Z with 4096%Z in *.
    change (4096 / 4096)%Z with 1%Z. pose proof (Z.div_unique_pos x 4096 1 (x - 4096)); lia.
  - split; [discriminate|]. split; [cbn; lia|]. discriminate.
Qed.
Example exz_reads : let r := concurrent_reads ex_c 40 exr_calls PActive ex_oa exz_r in
  reads_ok ex_c 40 exr_calls PActive ex_oa exz_r /\ answers_reads ex_c r exz_r /\
  Forall (fun i => r_beat i = true -> r_beat_ok ex_c i) exz_r /\
  accepts_within aw_offered ar_accepts 2 (rs_ar r) /\ completes_within ex_c 4 (rs_ar r) exz_r /\
  list_max (map fst exr_calls) + length exr_calls * (1 + 2 + 4) <= length exz_r /\
  map snd (rs_results r) = [Done ([zbits 32 3; zbits 32 0], [0; 0]%Z); Done ([zbits 64 8], [0]%Z)].
Proof.
  cbv zeta. split.
  { split; [exact ex_axi_bus|]. split; [|split; [discriminate|split; [reflexivity|vm_compute; lia]]].
    repeat (apply Forall_cons; [cbn [snd]; apply exz_legal; auto|]). constructor. }
  split.
  { intros m i H B. do 16 (destruct m as [|m]; [cbn in H; inversion H; subst; try discriminate; vm_compute; lia|]).
    cbn in H. destruct m; discriminate. }
  split; [repeat (constructor; [vm_compute; try discriminate; intros _; repeat split; congruence|]); constructor|].
  split; [apply exz_accepts_ok; vm_compute; reflexivity|].
  split; [|split; vm_compute; [lia|reflexivity]].
  intros m Hm. change (length exz_r) with 16 in Hm. do 13 (destruct m as [|m]; [vm_compute; lia|]). lia.
Qed.
(** a slave that never accepts: the calls wait, and it is not a slave of the theorem *)
Example exz_stuck : let r := concurrent_reads ex_c 40 exr_calls PActive ex_oa (repeat (ex_r L0 L0 0 L0) 30) in
  rs_results r = [] /\ exz_accepts aw_offered ar_accepts 2 (rs_ar r) = false.
Proof. vm_compute. split; reflexivity. Qed.
