(** PktRefProp.v -- C73: for which buses and packets it fails. *)
From Verif Require Import Base Async CompatModel HandshakeSpec PktModel PktSpec PktProof PktMonProof PktRefProof.
Local Open Scope list_scope.

(** what a monitor of the same configuration reports of a send is never the packet *)
Definition never_reported (c : pcfg) (pkt : bytes) (tr : list (logic * pk_out)) : Prop :=
  let reports := fst (pm_run c pm_init (sampled tr)) in
  ~ In (RData pkt) reports /\ forall ch, ~ In (RChan pkt ch) reports.

Lemma never_of c pkt tr : Forall (fun r => report_bytes r <> pkt) (fst (pm_run c pm_init (sampled tr))) -> never_reported c pkt tr.
Proof.
  intro H. rewrite Forall_forall in H. split; [intro X; exact (H _ X eq_refl)|intros ch X; exact (H _ X eq_refl)].
Qed.

(** C73, false for every bus of [k] whole bytes with symbols of less than eight or at least sixteen
    bits: no packet that leaves bytes of its last word unused is ever reported as it was sent,
    whatever the receiver, the valid generator and the time of the call. *)
Theorem C73_every_symbol_size_refuted : forall c k pkt sync ch s p o fuel l,
  word_bus c k -> c_width c = 8 * k -> c_dbs c < 8 \/ 16 <= c_dbs c ->
  channel_ok c ch -> Nat.modulo (length pkt) k <> 0 -> length l + length pkt < fuel -> p <> PReadOnly ->
  let '(_, w) := pk_send c fuel pkt sync ch (World s p o [] l) in never_reported c pkt (trace w).
Proof.
  intros c k pkt sync ch s p o fuel l BB W D CH Hm Hf Hp.
  assert (N : pkt <> []) by (intros ->; apply Hm; apply Nat.mod_0_l; pose proof (wb_pos _ _ BB); lia).
  pose proof (never_as_sent c k pkt sync ch s p o fuel l BB CH N Hf Hp (or_introl (conj W (conj Hm D)))) as H.
  destruct (pk_send c fuel pkt sync ch (World s p o [] l)) as [r w]. apply never_of, H.
Qed.
Print Assumptions C73_every_symbol_size_refuted.

(** C73, false for every bus whose width is not a number of whole bytes (symbols of at most eight
    bits): no packet at all is ever reported as it was sent. *)
Theorem C73_every_broken_byte_refuted : forall c k pkt sync ch s p o fuel l,
  word_bus c k -> c_width c <> 8 * k -> c_dbs c <= 8 ->
  channel_ok c ch -> pkt <> [] -> length l + length pkt < fuel -> p <> PReadOnly ->
  let '(_, w) := pk_send c fuel pkt sync ch (World s p o [] l) in never_reported c pkt (trace w).
Proof.
  intros c k pkt sync ch s p o fuel l BB W D CH N Hf Hp.
  pose proof (never_as_sent c k pkt sync ch s p o fuel l BB CH N Hf Hp (or_intror (conj W D))) as H.
  destruct (pk_send c fuel pkt sync ch (World s p o [] l)) as [r w]. apply never_of, H.
Qed.
Print Assumptions C73_every_broken_byte_refuted.

(** ** cases: three bytes on a bus of two, symbols of 4 and of 16 bits; one byte on twelve lines *)
Definition exk_cfg (w d : nat) := PCfg w d true None true (Some 2) None false 0 false.
Definition exk_run (w d : nat) (pkt : bytes) :=
  let '(r, x) := pk_send (exk_cfg w d) 40 pkt true None (World (set_valid_generator None) PActive (pk_init_out (exk_cfg w d)) [] (repeat L1 8)) in
  (r, fst (pm_run (exk_cfg w d) pm_init (sampled (trace x)))).
Example exk_buses : word_bus (exk_cfg 16 4) 2 /\ word_bus (exk_cfg 16 16) 2 /\ word_bus (exk_cfg 12 8) 1 /\ channel_ok (exk_cfg 16 4) None.
Proof.
  split; [|split; [|split; [|exact Logic.I]]]; (constructor; [cbn; lia|lia| |reflexivity]); intros U; try discriminate U; exists 2; split; cbn; try reflexivity; lia.
Qed.
Example exk_4 : exk_run 16 4 [1; 2; 3]%Z = (Done tt, [RData [1; 2; 0; 48]%Z]).
Proof. vm_compute. reflexivity. Qed.
Example exk_16 : exk_run 16 16 [1; 2; 3]%Z = (Done tt, [RData [1; 2; 3; 0]%Z]).
Proof. vm_compute. reflexivity. Qed.
Example exk_12 : exk_run 12 8 [18]%Z = (Done tt, [RData [1; 32]%Z]).
Proof. vm_compute. reflexivity. Qed.
