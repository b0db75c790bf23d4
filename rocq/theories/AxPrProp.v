(** AxPrProp.v -- C138: an AXI4 master on a memory is a byte array. *)
From Verif Require Import Base Async BitsLemmas CompatModel PktModel HandshakeSpec AxiModel AxiSpec AxcSpec AxiTopProof AxPrSpec AxPrProof AxiProp.
Local Open Scope list_scope.

(** C138.  A test makes any number of writes and reads one after the other: INCR and FIXED bursts
    of any size and alignment, WRAP bursts as in C52, with any byte enables and latencies (as in
    C56), and also illegal ones.  The slave answers OKAY, stores the bursts it is sent and answers
    reads from what it has stored, at any speed.  Then all accesses that return have the results
    of a byte array, the slave's memory is the array, and if every access is answered the test
    gets to its end. *)
Theorem C138_array : forall c fuel prog p oa ow o l m, axi_bus c -> Forall (access_ok c) prog -> p <> PReadOnly ->
  aw_offered oa = false -> w_offered ow = false -> aw_offered o = false -> length l < fuel -> Forall (okay_in c) l ->
  let '(ss, e) := axi_program c fuel prog p oa ow o l in
  memory_slave c m ss ->
  exists m', array c m (firstn (length ss) prog) (map st_result ss) m' /\ (forall x, fold_left (slave_step c) ss m x = m' x) /\
    match e with Done _ => length ss = length prog | Susp => True | _ => False end.
Proof. intros. exact (program_array c fuel prog p oa ow o l m m H H0 H1 H2 H3 H4 H5 H6 (fun _ => eq_refl)). Qed.
Print Assumptions C138_array.

(** The array leaves no freedom: one list of results, one memory. *)
Theorem C138_determined : forall c m prog rs m' rs2 m2, array c m prog rs m' -> array c m prog rs2 m2 -> rs = rs2 /\ m' = m2.
Proof.
  intros c m prog rs m' rs2 m2 H. revert rs2 m2.
  induction H; intros rs2 m2 K; inversion K; subst; try contradiction; try (split; reflexivity);
    match goal with A : array _ _ prog _ m2 |- _ => destruct (IHarray _ _ A) as [-> ->] end; split; reflexivity.
Qed.
Print Assumptions C138_determined.

(** ** A case: an unaligned write whose second value is enabled in one byte only, a read of length
    0, which is illegal, and a read of what was written *)
Definition exp_prog : list access :=
  [AWrite (WAccess 4098 [287454020; 1432778632]%Z (Some 4%Z) INCR [None; Some 1%Z] 0 0 true);
   ARead (RAccess 4096 0 None INCR true);
   ARead (RAccess 4098 2 (Some 4%Z) INCR true)].
Definition exp_i (aw w b ar r last : logic) : axi_in :=
  AxiIn aw w b (zbits 2 0) ar r (zbits 2 0) (zbits 64 (256 + 65536 * 287454020 + 281474976710656 * (136 + 256 * 7))) last.
Definition exp_l : list axi_in :=
  [exp_i L0 L0 L0 L0 L0 L0; exp_i L1 L0 L0 L0 L0 L0; exp_i L0 L1 L0 L0 L0 L0; exp_i L0 L1 L0 L0 L0 L0; exp_i L0 L0 L0 L0 L0 L0; exp_i L0 L0 L1 L0 L0 L0;
   exp_i L0 L0 L0 L0 L0 L0; exp_i L0 L0 L0 L0 L0 L0; exp_i L0 L0 L0 L1 L0 L0; exp_i L0 L0 L0 L0 L1 L0; exp_i L0 L0 L0 L0 L0 L0; exp_i L0 L0 L0 L0 L1 L1;
   exp_i L0 L0 L0 L0 L0 L0].
Definition exp_m : Z -> Z := fun x => (x mod 256)%Z.
Example exp_access : Forall (access_ok ex_c) exp_prog.
Proof.
  assert (Lg : legal_access (x_bytes ex_c) 4098 2 (Some 4%Z) INCR).
  { split; [intros s [= <-]; split; [exists 2%Z; split; [lia|reflexivity]|vm_compute; discriminate]|]. split; [cbn; lia|]. intros _ x [H1 H2]. unfold same_page.
    cbn [size_or] in *. change (aligned 4098 4 + 2 * 4)%Z with 4104%Z in H2. change (4098 / 4096)%Z with 1%Z. apply (Z.div_unique_pos _ _ _ (x - 4096)); lia. }
  constructor; [|constructor; [|constructor; [|constructor]]].
  - right. split; [|discriminate]. split; [exact Lg|]. split; [split; vm_compute; congruence|]. split; [discriminate|]. split; left; reflexivity.
  - left. intros [_ [H _]]. cbn in H. lia.
  - right. split; [|discriminate]. split; [exact Lg|]. split; [split; vm_compute; congruence|left; reflexivity].
Qed.
Example exp_okay : Forall (okay_in ex_c) exp_l.
Proof. repeat constructor; discriminate || reflexivity. Qed.
Example exp_slave : memory_slave ex_c exp_m (fst (axi_program ex_c 20 exp_prog PActive ex_oa ex_ow ex_oa exp_l)).
Proof.
  match goal with |- memory_slave _ _ ?t => let u := eval vm_compute in t in change t with u end.
  split; [discriminate|]. split; [discriminate|]. split; [|exact I].
  intros req H. vm_compute in H. injection H as <-.
  split; [vm_compute; reflexivity|]. split; [intros; apply zbits_length|].
  intros i b H. vm_compute in H. destruct i as [|[|i]]; [| |destruct i; discriminate]; injection H as <-;
    (split; [vm_compute; reflexivity|]); intros k Hk.
  - change (2 <= k < 4)%Z in Hk. assert (D : (k = 2 \/ k = 3)%Z) by lia. destruct D as [-> | ->]; vm_compute; reflexivity.
  - change (4 <= k < 8)%Z in Hk. assert (D : (k = 4 \/ k = 5 \/ k = 6 \/ k = 7)%Z) by lia.
    destruct D as [-> | [-> | [-> | ->]]]; vm_compute; reflexivity.
Qed.
Example exp_run :
  let '(ss, e) := axi_program ex_c 20 exp_prog PActive ex_oa ex_ow ex_oa exp_l in
  map st_result ss = [RWrite (Done tt); RRead (Exn EValue); RRead (Done [zbits 32 287454020; zbits 16 (136 + 256 * 7)])] /\
  match e with Done r => length r = 1 | _ => False end.
Proof. vm_compute. split; reflexivity. Qed.
