(** AxTmProp.v -- C137: in which cycles the AXI4 master has an address or data on offer. *)
From Verif Require Import Base Async BitsLemmas CompatModel PktModel HandshakeSpec AxiModel AxiSpec AxiTopProof TmSpec TmProof AxTmProof AxiProp.
Local Open Scope list_scope.

(** C137, writes, for every latency and every slave.  [x] is the cycle of sync.  The address is
    offered after [x] and address_latency cycles.  The data are taken as if each beat were offered
    data_latency cycles after the one before it was taken (WVALID is not taken back in these
    cycles, see C56: it is high from the first offer to the last acceptance).  The two channels do
    not wait for each other; the response is awaited from the cycle in which both are done, and the
    write returns after the cycle of the response. *)
Theorem C137_write : forall c fuel a p oa ow l, write_any c fuel a p oa ow l ->
  let r := axi_write c fuel a p oa ow l in
  let x := if wa_sync a then 1 else 0 in
  let first := x + wa_dlat a in
  exists va ra vw rw,
    on_time aw_accepts [x + wa_alat a] l va ra /\
    on_time w_accepts (first :: repeat (wa_dlat a) (length (wa_value a) - 1)) l vw rw /\
    map (fun y => is1 (x_valid (snd y))) (wr_aw r) = va ++ repeat false (length (wr_aw r) - length va) /\
    map (fun y => is1 (x_wvalid (snd y))) (wr_w r) =
      repeat false (Nat.min first (length vw)) ++ repeat true (length vw - first) ++ repeat false (length (wr_w r) - length vw) /\
    match ra, rw with
    | Some la, Some lw =>
        let rest := if length la <=? length lw then la else lw in
        (Forall (fun i => b_valid i = false) rest /\ wr_result r = Susp) \/
        (exists nr i r', rest = nr ++ i :: r' /\ Forall (fun i => b_valid i = false) nr /\ b_valid i = true /\
           wr_result r = response_outcome (g_bresp i) /\
           wr_rest r = match bval (g_bresp i) with Some _ => r' | None => i :: r' end)
    | _, _ => wr_result r = Susp
    end.
Proof. exact write_time. Qed.
Print Assumptions C137_write.

(** C137, a slave that is always ready: the address is taken in its first cycle, and [n] values
    without data_latency take [n] cycles. *)
Theorem C137_full_speed : forall c fuel a p oa ow l, write_any c fuel a p oa ow l ->
  Forall (fun i => aw_accepts i = true /\ w_accepts i = true) l ->
  let r := axi_write c fuel a p oa ow l in
  let x := if wa_sync a then 1 else 0 in
  let n := length (wa_value a) in
  x + wa_alat a + 1 <= length l -> x + n <= length l -> wa_dlat a = 0 ->
  map (fun y => is1 (x_valid (snd y))) (wr_aw r) =
    repeat false (x + wa_alat a) ++ [true] ++ repeat false (length (wr_aw r) - (x + wa_alat a + 1)) /\
  map (fun y => is1 (x_wvalid (snd y))) (wr_w r) = repeat false x ++ repeat true n ++ repeat false (length (wr_w r) - (x + n)) /\
  let rest := skipn (Nat.max (x + wa_alat a + 1) (x + n)) l in
  ((Forall (fun i => b_valid i = false) rest /\ wr_result r = Susp) \/
   exists nr i r', rest = nr ++ i :: r' /\ Forall (fun i => b_valid i = false) nr /\ b_valid i = true /\
      wr_result r = response_outcome (g_bresp i)).
Proof.
  intros c fuel a p oa ow l H R r x n La Lw D.
  destruct (C137_write c fuel a p oa ow l H) as (va & ra & vw & rw & Oa & Ow & Ma & Mw & C). fold r x in Ma, Mw, C, Oa, Ow. fold n in Ow.
  assert (N : 0 < n). { destruct H as [Hb Hl _ _ _ _ _ _]. destruct (AxiChanProof.legal_facts c _ _ _ _ Hb Hl) as (_ & _ & _ & Hn & _). unfold n. lia. }
  rewrite D, Nat.add_0_r in *.
  assert (Ra : Forall (fun i => aw_accepts i = true) l) by (eapply Forall_impl; [|exact R]; cbv beta; intuition).
  assert (Rw : Forall (fun i => w_accepts i = true) l) by (eapply Forall_impl; [|exact R]; cbv beta; intuition).
  destruct (time_ready _ _ _ _ _ Oa Ra ltac:(cbn; lia)) as [Ea Va].
  assert (S : list_sum (x :: repeat 0 (n - 1)) + length (x :: repeat 0 (n - 1)) = x + n).
  { change (list_sum (x :: repeat 0 (n - 1))) with (x + list_sum (repeat 0 (n - 1))). cbn [length]. rewrite sum_repeat, repeat_length. lia. }
  destruct (time_ready _ _ _ _ _ Ow Rw ltac:(lia)) as [Ew Vw]. rewrite S in Ew, Vw.
  replace (list_sum [x + wa_alat a] + length [x + wa_alat a]) with (x + wa_alat a + 1) in Ea, Va by (cbn; lia).
  pose proof (time_first aw_accepts (x + wa_alat a) 0 l va ra Oa) as Fa. rewrite Ea in Fa. destruct Fa as (m & Fa & _ & _).
  assert (m = 1). { rewrite Fa, app_length, !repeat_length in Va. lia. } subst m.
  split; [rewrite Ma, Va, Fa, <- app_assoc; reflexivity|].
  split; [rewrite Mw, Vw, Nat.min_l by lia; replace (x + n - x) with n by lia; reflexivity|].
  rewrite Ea, Ew in C. rewrite !skipn_length in C. cbv zeta in C |- *.
  replace (if length l - (x + wa_alat a + 1) <=? length l - (x + n) then skipn (x + wa_alat a + 1) l else skipn (x + n) l)
    with (skipn (Nat.max (x + wa_alat a + 1) (x + n)) l) in C.
  - destruct C as [C|(nr & i & r' & C1 & C2 & C3 & C4 & _)]; [left; exact C|right; exists nr, i, r'; auto].
  - destruct (Nat.leb_spec (length l - (x + wa_alat a + 1)) (length l - (x + n))); f_equal; lia.
Qed.
Print Assumptions C137_full_speed.

(** C137, reads: the address is offered at once (after the cycle of sync) until it is taken, and
    never again.  When the read returns is C58. *)
Theorem C137_read : forall c fuel a s p o l, read_ok c fuel a p l -> aw_offered o = false ->
  let '(r, w) := axi_read c fuel a (World s p o [] l) in
  exists va rest, on_time ar_accepts [if ra_sync a then 1 else 0] l va rest /\
    map (fun y => is1 (x_valid (snd y))) (trace w) = va ++ repeat false (length (trace w) - length va) /\
    (rest = None -> r = Susp).
Proof. exact read_time. Qed.
Print Assumptions C137_read.

(** ** cases *)
Definition ext_i (aw w b : logic) : axi_in := AxiIn aw w b (zbits 2 0) L0 L0 (zbits 2 0) (zbits 64 0) L0.
Definition ext_a (d : nat) : waccess := WAccess 4096 [7; 8; 9]%Z (Some 4%Z) INCR [None] 2 d true.
Lemma ext_legal : legal_access (x_bytes ex_c) 4096 3 (Some 4%Z) INCR.
Proof.
  split; [intros s [= <-]; split; [exists 2%Z; split; [lia|reflexivity]|vm_compute; discriminate]|]. split; [cbn; lia|]. intros _ x [H1 H2]. unfold same_page.
  cbn [size_or] in *. change (aligned 4096 4 + 3 * 4)%Z with 4108%Z in H2. change (4096 / 4096)%Z with 1%Z. apply (Z.div_unique_pos _ _ _ (x - 4096)); lia.
Qed.
(** address_latency 2, three values, the slave refuses the second value once; then with data_latency 1 *)
Definition ext_l : list axi_in :=
  [ext_i L1 L1 L0; ext_i L1 L1 L0; ext_i L1 L0 L0; ext_i L1 L1 L0; ext_i L1 L1 L0; ext_i L1 L1 L1; ext_i L1 L1 L1; ext_i L1 L1 L1; ext_i L1 L1 L1].
Example ext_write :
  write_any ex_c 20 (ext_a 0) PActive ex_oa ex_ow ext_l /\ let r := axi_write ex_c 20 (ext_a 0) PActive ex_oa ex_ow ext_l in
  map (fun y => is1 (x_valid (snd y))) (wr_aw r) = [false; false; false; true; false; false] /\ map (fun y => is1 (x_wvalid (snd y))) (wr_w r) = [false; true; true; true; true; false] /\ wr_result r = Done tt /\ let r1 := axi_write ex_c 20 (ext_a 1) PActive ex_oa ex_ow ext_l in
  map (fun y => is1 (x_wvalid (snd y))) (wr_w r1) = [false; false; true; true; true; true; true; true; false] /\ wr_result r1 = Done tt.
Proof.
  split; [|vm_compute; repeat split].
  constructor; [exact ex_axi_bus|exact ext_legal|split; vm_compute; congruence|discriminate|discriminate|reflexivity|reflexivity|cbn; lia].
Qed.
Definition ext_r : list axi_in := repeat (ext_i L1 L1 L0) 5 ++ [ext_i L1 L1 L1].
Example ext_full :
  write_any ex_c 20 (ext_a 0) PActive ex_oa ex_ow ext_r /\ Forall (fun i => aw_accepts i = true /\ w_accepts i = true) ext_r /\ let r := axi_write ex_c 20 (ext_a 0) PActive ex_oa ex_ow ext_r in
  map (fun y => is1 (x_valid (snd y))) (wr_aw r) = [false; false; false; true; false; false] /\ map (fun y => is1 (x_wvalid (snd y))) (wr_w r) = [false; true; true; true; false; false] /\ wr_result r = Done tt.
Proof.
  split; [|split; [repeat constructor|vm_compute; repeat split]].
  constructor; [exact ex_axi_bus|exact ext_legal|split; vm_compute; congruence|discriminate|discriminate|reflexivity|reflexivity|cbn; lia].
Qed.
Definition ext_j (ar rv : logic) : axi_in := AxiIn L0 L0 L0 (zbits 2 0) ar rv (zbits 2 0) (zbits 64 0) L1.
Definition ext_ra : raccess := RAccess 4096 1 (Some 4%Z) INCR true.
Example ext_read :
  let l := [ext_j L1 L0; ext_j L0 L0; ext_j L1 L0; ext_j L1 L0; ext_j L1 L1] in
  read_ok ex_c 20 ext_ra PActive l /\ let '(r, w) := axi_read ex_c 20 ext_ra (World tt PActive ex_oa [] l) in
  map (fun y => is1 (x_valid (snd y))) (trace w) = [false; true; true; false; false] /\ r = Done [zbits 32 0].
Proof.
  cbv zeta. split; [|vm_compute; repeat split].
  constructor; [exact ex_axi_bus| |split; vm_compute; congruence|discriminate|cbn; lia].
  split; [intros s [= <-]; split; [exists 2%Z; split; [lia|reflexivity]|vm_compute; discriminate]|]. split; [cbn; lia|]. intros _ x [H1 H2]. unfold same_page.
  cbn [ext_ra ra_address ra_length ra_size size_or] in *. change (aligned 4096 4 + 1 * 4)%Z with 4100%Z in H2. change (4096 / 4096)%Z with 1%Z. apply (Z.div_unique_pos _ _ _ (x - 4096)); lia.
Qed.
