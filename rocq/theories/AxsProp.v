(** AxsProp.v -- the AXI4 slave (C60). *)
From Verif Require Import Base Async CompatModel AxsModel AxsSpec AxsProof.
Local Open Scope list_scope.

(** C60 fails: no write is ever served.  In every run WREADY is 0 in every cycle and the
    memory never changes; the first cycle with AWVALID ends the process with a
    RuntimeError (WREADY is written in the ReadOnly phase). *)
Theorem C60_write_refuted big before fuel memory p o l :
  length l < fuel -> p <> PReadOnly ->
  let run := write_data big before fuel (World memory p o [] l) in
  st (snd run) = memory /\ Forall (fun x => s_wready (snd x) = L0) (trace (snd run)) /\
  (forall w i r, l = w ++ i :: r -> Forall (fun j => s_awvalid j <> L1) w -> s_awvalid i = L1 ->
     fst run = Exn ERuntime /\ ins (snd run) = i :: r).
Proof.
  intros Hf Hp run. destruct (write_never big before fuel memory p o l Hf Hp) as [A B]. split; [exact A|]. split; [exact B|].
  intros w i r E F V. unfold run. subst l. rewrite (write_dies big before fuel memory p o [] w i r Hf Hp F V). split; reflexivity.
Qed.
Print Assumptions C60_write_refuted.

(** C60 fails: no read is ever served.  In every run nothing is driven (RVALID stays what
    the constructor made it) and the first cycle with ARVALID ends the process with a
    RuntimeError (ReadOnly awaited in the ReadOnly phase). *)
Theorem C60_read_refuted big width fuel memory p o l :
  length l < fuel -> p <> PReadOnly ->
  let run := read_data big width fuel (World memory p o [] l) in
  st (snd run) = memory /\ Forall (fun x => snd x = o) (trace (snd run)) /\ out (snd run) = o /\
  (forall w i r, l = w ++ i :: r -> Forall (fun j => s_arvalid j <> L1) w -> s_arvalid i = L1 ->
     fst run = Exn ERuntime /\ ins (snd run) = i :: r).
Proof.
  intros Hf Hp run. destruct (read_never big width fuel memory p o l Hf Hp) as (A & B & C). split; [exact A|]. split; [exact B|].
  split; [exact C|].
  intros w i r E F V. unfold run. subst l. rewrite (read_dies big width fuel memory p o [] w i r Hf Hp F V). split; reflexivity.
Qed.
Print Assumptions C60_read_refuted.

(** C60, what holds of the data path: a burst of beats as wide as the bus, inside the
    memory, updates exactly the addressed bytes ... *)
Theorem C60_partial big memory addr nb words data :
  Forall2 (encodes big) words data -> Forall (fun d => length d = nb) data ->
  addr + length words * nb <= length memory ->
  exists memory', store_burst big memory addr nb 0 words = Ok memory' /\ updated memory memory' addr (concat data).
Proof.
  intros F L H. destruct (store_burst_ok big addr nb words data 0 memory F L H) as (m' & E & U).
  exists m'. split; [exact E|]. rewrite Nat.add_0_r in U. exact U.
Qed.
Print Assumptions C60_partial.

(** ... a beat of a read is the addressed bytes ... *)
Theorem C60_load_partial big memory addr nb k :
  all_bytes memory -> addr + (k + 1) * nb <= length memory ->
  exists w, load_beat big memory addr nb k = Ok w /\
    encodes big w (slice memory (addr + k * nb) (addr + (k + 1) * nb)).
Proof. exact (load_beat_ok big memory addr nb k). Qed.
Print Assumptions C60_load_partial.

(** ... and the data loop of a write, if it were reached, stores the words of the cycles
    with WVALID, starting with the cycle [i0] of the address, and stops after the last. *)
Theorem C60_beats_partial big before addr nb fuel memory o tr x i0 l pre i post data :
  i0 :: l = pre ++ i :: post -> length pre < fuel -> s_wvalid i = L1 ->
  let len := length (transferred (pre ++ [i])) in
  Forall2 (encodes big) (transferred (pre ++ [i])) data -> Forall (fun d => length d = nb) data ->
  addr + len * nb <= length memory ->
  exists memory', updated memory memory' addr (concat data) /\
    loop fuel (w_body big before addr len nb) len (World memory PActive o (tr ++ [(i0, x)]) l)
    = (Done tt, World memory' PActive o (tr ++ [(i0, x)] ++ held o (firstn (length pre) l)) post).
Proof.
  intros E Hf V len F L H. destruct (C60_partial big memory addr nb (transferred (pre ++ [i])) data F L H) as (m' & S & U).
  exists m'. split; [exact U|]. apply (w_loop big before addr nb len pre i post fuel memory o tr x i0 l len m' E Hf V).
  - unfold len. rewrite transferred_app, transferred_cons, V, app_length. reflexivity.
  - lia.
  - rewrite Nat.sub_diag. exact S.
Qed.
Print Assumptions C60_beats_partial.

(** ... also from the address on: the burst at AWADDR with AWLEN + 1 beats of 2^AWSIZE
    bytes (below 128) *)
Theorem C60_burst_partial big before fuel memory o tr i0 l pre i post data addr len size :
  bval (s_awaddr i0) = Some (Z.of_nat addr) -> bval (s_awlen i0) = Some (Z.of_nat len) ->
  bval (s_awsize i0) = Some (Z.of_nat size) -> size < 7 ->
  resolvable (s_awburst i0) = true -> resolvable (s_awprot i0) = true ->
  i0 :: l = pre ++ i :: post -> length pre < fuel -> s_wvalid i = L1 ->
  length (transferred (pre ++ [i])) = len + 1 ->
  Forall2 (encodes big) (transferred (pre ++ [i])) data -> Forall (fun d => length d = 2 ^ size) data ->
  addr + (len + 1) * 2 ^ size <= length memory ->
  exists memory', updated memory memory' addr (concat data) /\
    write_burst big before fuel (World memory PReadOnly o tr (i0 :: l))
    = (Done tt, World memory' PActive o (tr ++ held o (i0 :: firstn (length pre) l)) post).
Proof.
  intros Ha Hl Hs Hs7 Hb Hp E Hf V N F L H. rewrite <- N in H.
  destruct (C60_beats_partial big before addr (2 ^ size) fuel memory o tr o i0 l pre i post data E Hf V F L H) as (m' & U & R).
  exists m'. split; [exact U|]. etransitivity; [exact (write_burst_start big before fuel memory o tr i0 l addr len size Ha Hl Hs Hs7 Hb Hp)|].
  cbn zeta in R. rewrite N in R. exact R.
Qed.
Print Assumptions C60_burst_partial.

(** C60 fails for the largest size, 128 bytes (AxSIZE = 7), in both directions, even if the
    burst were reached: TypeError *)
Theorem C60_size_refuted big before width fuel memory o tr i l :
  (bval (s_awaddr i) <> None -> bval (s_awlen i) <> None -> bval (s_awburst i) <> None -> bval (s_awprot i) <> None ->
   bval (s_awsize i) = Some 7%Z ->
   fst (write_burst big before fuel (World memory PReadOnly o tr (i :: l))) = Exn EType) /\
  (bval (s_araddr i) <> None -> bval (s_arlen i) <> None -> bval (s_arburst i) <> None -> bval (s_arprot i) <> None ->
   bval (s_arsize i) = Some 7%Z ->
   fst (read_burst big width fuel (World memory PReadOnly o tr (i :: l))) = Exn EType).
Proof. exact (size7 big width before fuel memory o tr i l). Qed.
Print Assumptions C60_size_refuted.

(** C60 fails from the constructor on: as long as the simulation lasts, the address channels
    are ready (so that a master takes its address as accepted) and no beat is answered:
    RVALID stays 0 *)
Theorem C60_accepted_unanswered_refuted big width before fuel memory p o l : length l < fuel -> p <> PReadOnly ->
  let '(r, w0) := axs_init (World memory p o [] l) in
  r = Done tt /\ ins w0 = l /\
  Forall (fun x => s_arready (snd x) = L1 /\ s_rvalid (snd x) = L0 /\ s_rlast (snd x) = L0)
    (trace (snd (read_data big width fuel w0))) /\
  Forall (fun x => s_awready (snd x) = L1 /\ s_wready (snd x) = L0)
    (trace (snd (write_data big before fuel w0))).
Proof. exact (constructed big width before fuel memory p o l). Qed.
Print Assumptions C60_accepted_unanswered_refuted.

(** C60 fails in the data path: a beat narrower than the bus makes the memory longer (and
    moves everything behind it) *)
Theorem C60_narrow_refuted big memory addr nb k w d :
  encodes big w d -> nb < length d -> addr + (k + 1) * nb <= length memory ->
  exists memory', store_beat big memory addr nb k w = Ok memory' /\
    length memory' = length memory + (length d - nb).
Proof. exact (narrow big memory addr nb k w d). Qed.
Print Assumptions C60_narrow_refuted.

(** C60 fails in the data loop of a read, if it were reached: it raises in the first cycle
    with RREADY, and without RREADY it counts the beats as done *)
Theorem C60_beats_refuted big width addr len nb :
  (forall fuel memory p o tr i r count, 0 < fuel -> p <> PReadOnly -> s_rready i = L1 ->
     exists e w', loop fuel (r_body big width addr len nb) count (World memory p o tr (i :: r)) = (Exn e, w') /\
       s_rdata (out w') = s_rdata o) /\
  (forall l fuel memory p o tr r, length l <= fuel -> p <> PReadOnly -> l <> [] ->
     Forall (fun i => s_rready i <> L1) l -> s_rlast o = L0 ->
     exists w', loop fuel (r_body big width addr len nb) (length l) (World memory p o tr (l ++ r)) = (Done tt, w') /\
       s_rdata (out w') = s_rdata o /\ ins w' = r).
Proof.
  split.
  - intros fuel m p o tr i r count Hf Hp R. destruct (r_loop_ready big width addr len nb fuel m p o tr i r count Hf Hp R) as [e E].
    exists e. eexists. split; [exact E|reflexivity].
  - intros l fuel m p o tr r Hf Hp N F RL.
    destruct (r_loop_skip big width addr len nb l fuel m p o tr r Hf Hp N F RL) as (o' & E & ->).
    eexists. split; [exact E|]. split; reflexivity.
Qed.
Print Assumptions C60_beats_refuted.

(** ... so a read burst of ARLEN + 1 beats, if it were reached, is over after ARLEN + 1
    cycles without RREADY: no data was driven *)
Theorem C60_read_burst_refuted big width fuel memory o tr i0 l r addr len size :
  bval (s_araddr i0) = Some (Z.of_nat addr) -> bval (s_arlen i0) = Some (Z.of_nat len) ->
  bval (s_arsize i0) = Some (Z.of_nat size) -> size < 7 ->
  resolvable (s_arburst i0) = true -> resolvable (s_arprot i0) = true ->
  length l = len + 1 -> length l <= fuel -> Forall (fun i => s_rready i <> L1) l -> s_rlast o = L0 ->
  exists w', read_burst big width fuel (World memory PReadOnly o tr (i0 :: l ++ r)) = (Done tt, w') /\
    s_rdata (out w') = s_rdata o /\ ins w' = r.
Proof.
  intros Ha Hl Hs Hs7 Hb Hp N Hf F RL.
  assert (Hn : l <> []) by (intros ->; cbn in N; lia).
  destruct (proj2 (C60_beats_refuted big width addr (length l) (2 ^ size)) l fuel memory PActive o (tr ++ [(i0, o)]) r Hf ltac:(discriminate) Hn F RL) as (w' & E & H).
  exists w'. split; [|exact H]. etransitivity; [exact (read_burst_start big width fuel memory o tr i0 (l ++ r) addr len size Ha Hl Hs Hs7 Hb Hp)|].
  rewrite <- N. exact E.
Qed.
Print Assumptions C60_read_burst_refuted.

(** ** Non-vacuity *)
Definition exs_word (b : bytes) : bits := bytes_bits (rev b).
Example exs_encodes : encodes false (exs_word [1; 2; 3; 4]%Z) [1; 2; 3; 4]%Z.
Proof. repeat split; try reflexivity. repeat constructor; unfold is_byte; lia. Qed.
Example exs_store : store_burst false (repeat 0%Z 12) 4 4 0 [exs_word [1; 2; 3; 4]%Z; exs_word [5; 6; 7; 8]%Z]
  = Ok ([0; 0; 0; 0; 1; 2; 3; 4; 5; 6; 7; 8]%Z).
Proof. reflexivity. Qed.
Example exs_narrow : store_beat false (repeat 0%Z 6) 1 2 0 (exs_word [1; 2; 3; 4]%Z) = Ok ([0; 1; 2; 3; 4; 0; 0; 0]%Z).
Proof. reflexivity. Qed.
Definition exs_in (aw w ar r : logic) : axs_in :=
  AxsIn aw (zbits 8 4) (zbits 8 0) (zbits 3 2) (zbits 2 1) (zbits 3 0) w (exs_word [1; 2; 3; 4]%Z)
        ar (zbits 8 4) (zbits 8 0) (zbits 3 2) (zbits 2 1) (zbits 3 0) r.
Definition exs_out := AxsOut L1 L0 L0 (xs 32) L1 LX.
Example exs_write : fst (write_data false (exs_in L0 L0 L0 L0) 20
   (World (repeat 0%Z 12) PActive exs_out [] [exs_in L0 L0 L0 L0; exs_in L1 L1 L0 L0; exs_in L1 L1 L0 L0])) = Exn ERuntime.
Proof. vm_compute. reflexivity. Qed.
Example exs_read : fst (read_data false 32 20
   (World (repeat 0%Z 12) PActive exs_out [] [exs_in L0 L0 L0 L0; exs_in L0 L0 L1 L1; exs_in L1 L1 L0 L1])) = Exn ERuntime.
Proof. vm_compute. reflexivity. Qed.
Example exs_beats : transferred [exs_in L1 L0 L0 L0; exs_in L0 L1 L0 L0] = [exs_word [1; 2; 3; 4]%Z].
Proof. reflexivity. Qed.
Example exs_burst : fst (write_burst false (exs_in L0 L0 L0 L0) 20
   (World (repeat 0%Z 12) PReadOnly exs_out [] [exs_in L1 L0 L0 L0; exs_in L0 L0 L0 L0; exs_in L0 L1 L0 L0; exs_in L1 L1 L0 L0])) = Done tt
  /\ st (snd (write_burst false (exs_in L0 L0 L0 L0) 20
   (World (repeat 0%Z 12) PReadOnly exs_out [] [exs_in L1 L0 L0 L0; exs_in L0 L0 L0 L0; exs_in L0 L1 L0 L0; exs_in L1 L1 L0 L0]))) = [0; 0; 0; 0; 1; 2; 3; 4; 0; 0; 0; 0]%Z.
Proof. vm_compute. split; reflexivity. Qed.
