(** AvSysProp.v -- AvalonMaster and AvalonMemory on the same bus. *)
From Verif Require Import Base Async CompatModel MMModel MMSpec AvMemModel AvMemSpec AvMemProof AvSysSpec AvSysProof AvSysTopProof.
Local Open Scope list_scope.

(** C88: on a bus where the master can tell when the data is there (readdatavalid, or no
    latency at all), any sequence of reads and writes through the master behaves like the
    same reads and writes on an array: each read gives the word last written (the initial
    content, or X, if none was), nothing is ever raised, the sequence ends within
    [cycles_needed] cycles, and the memory then has the contents it should have. *)
Theorem C88_master_on_memory c mc fuel ops s y0 l r m' : same_bus c mc -> m_latmin mc <= m_latmax mc ->
  (a_rdv c = false -> m_latmax mc = 0) -> Forall (op_fits c) ops -> 2 <= fuel -> length l < fuel ->
  a_resp s = [] -> fitting mc (a_mem s) -> connected c mc fuel ops s y0 l r m' ->
  (r = Susp \/ r = Done (values_read mc (a_mem s) ops)) /\
  (cycles_needed mc ops <= length l -> r = Done (values_read mc (a_mem s) ops)) /\
  (forall v, r = Done v -> m' = memory_after (a_mem s) ops).
Proof. exact (fun Hb H1 H2 => system_thm c mc Hb H1 H2 fuel ops s y0 l r m'). Qed.
Print Assumptions C88_master_on_memory.

(** C89, refuted: without readdatavalid and with a read latency of one or more (one is the
    default), a read of any address returns what was on the data lines before, whatever
    the memory holds *)
Theorem C89_fixed_latency_refuted c mc fuel a s y0 l r m' : same_bus c mc -> 1 <= m_latmin mc <= m_latmax mc ->
  a_rdv c = false -> fits (a_width c) a -> 2 <= fuel -> length l < fuel -> a_resp s = [] -> fitting mc (a_mem s) ->
  connected c mc fuel [MMRead a] s y0 l r m' -> 3 <= length l -> r = Done [w_data y0].
Proof. exact (early_thm c mc fuel a s y0 l r m'). Qed.
Print Assumptions C89_fixed_latency_refuted.

(** the part of C89 that holds: with latency 0 the data is there *)
Theorem C89_zero_latency_partial c mc fuel a s y0 l r m' : same_bus c mc -> m_latmin mc = 0 -> m_latmax mc = 0 ->
  fits (a_width c) a -> 2 <= fuel -> length l < fuel -> a_resp s = [] -> fitting mc (a_mem s) ->
  connected c mc fuel [MMRead a] s y0 l r m' -> 3 <= length l -> r = Done [word mc (a_mem s) a].
Proof.
  intros Hb H1 H2 Ha Hf Hl Hq Hfit H Hn.
  destruct (system_thm c mc Hb ltac:(lia) (fun _ => H2) fuel [MMRead a] s y0 l r m'
              (Forall_cons (MMRead a) (conj (proj1 (sb_read _ _ Hb)) Ha) (Forall_nil _)) Hf Hl Hq Hfit H) as (_ & K & _).
  apply K. cbn [cycles_needed]. lia.
Qed.
Print Assumptions C89_zero_latency_partial.

(** Connected runs, found by letting the two sides see each other again and again. *)
Definition ex_mm (v : bool) := MMCfg 8 16 (Some 2) true true v true true.
Definition ex_am (v : bool) (lo hi : nat) := AmCfg 16 true true v true false true lo hi (AProps false 1 1).
Definition ex_y := AmOut LX (zbits 16 77) LX.
Definition ex_s (m : memory) := AmState m [] (fun n => n) 0.
Definition ex_o := MMOut [] LX LX [] [] LX.
Definition to_memory (o : mm_out) := AmIn (q_read o) (q_write o) (q_addr o) (q_wdata o) [] (q_be o).
Definition to_master (y : am_out) := MMIn (w_wait y) (w_valid y) (w_data y).
Definition ex_master c ops l := mm_all c 40 ops (World false PMid (mm_init c ex_o) [] l).
Definition ex_memory mc m lm := respond mc 40 (World (ex_s m) PMid (am_init mc ex_y) [] lm).
Definition ex_turn c mc m ops l :=
  map to_master (map snd (history (snd (ex_memory mc m (map to_memory (map snd (history (snd (ex_master c ops l))))))))).
Definition ex_wires c mc m ops n := Nat.iter n (ex_turn c mc m ops) (repeat (MMIn LX LX []) n).
Lemma ex_connected c mc m ops l : ex_turn c mc m ops l = l ->
  connected c mc 40 ops (ex_s m) ex_y l (fst (ex_master c ops l))
    (a_mem (st (snd (ex_memory mc m (map to_memory (map snd (history (snd (ex_master c ops l))))))))).
Proof.
  intro E. constructor. unfold ex_turn in E.
  exists PMid, PMid, ex_o, (map to_memory (map snd (history (snd (ex_master c ops l))))), (snd (ex_master c ops l)).
  eexists. eexists. split; [apply surjective_pairing|]. split; [apply surjective_pairing|].
  split; [generalize (map snd (history (snd (ex_master c ops l)))); clear; intro xs; induction xs; constructor; [constructor; reflexivity|assumption]|].
  split; [|reflexivity].
  rewrite <- E at 1. fold (ex_memory mc m (map to_memory (map snd (history (snd (ex_master c ops l)))))).
  generalize (map snd (history (snd (ex_memory mc m (map to_memory (map snd (history (snd (ex_master c ops l))))))))).
  clear. intro ys. induction ys; constructor; [constructor; reflexivity|assumption].
Qed.
Definition ex_m : memory := fun a => if (a =? 9)%Z then Some 1234%Z else None.
Definition ex_ops := [MMWrite 3 500; MMRead 3; MMRead 4; MMWrite 9 7; MMRead 9].

(** readdatavalid, latencies from 1 to 2: the hypotheses hold and the run ends *)
Example ex_bus : same_bus (ex_mm true) (ex_am true 1 2) /\ Forall (op_fits (ex_mm true)) ex_ops /\ fitting (ex_am true 1 2) ex_m.
Proof.
  split; [constructor; cbn; repeat split|]. split; [repeat constructor; cbn; lia|].
  intros a v. unfold ex_m. destruct (a =? 9)%Z; intros [= <-]. cbn. lia.
Qed.
Example ex_run : let l := ex_wires (ex_mm true) (ex_am true 1 2) ex_m ex_ops 25 in
  connected (ex_mm true) (ex_am true 1 2) 40 ex_ops (ex_s ex_m) ex_y l
    (Done [zbits 16 500; xs 16; zbits 16 7]) 
    (a_mem (st (snd (ex_memory (ex_am true 1 2) ex_m (map to_memory (map snd (history (snd (ex_master (ex_mm true) ex_ops l)))))))))
  /\ cycles_needed (ex_am true 1 2) ex_ops <= length l.
Proof.
  cbv zeta. set (l := ex_wires _ _ _ _ _).
  assert (E : fst (ex_master (ex_mm true) ex_ops l) = Done [zbits 16 500; xs 16; zbits 16 7]) by (vm_compute; reflexivity).
  split; [rewrite <- E; apply ex_connected; vm_compute; reflexivity|vm_compute; lia].
Qed.
(** no readdatavalid, the default latency 1: the memory holds 1234, the master reads 77 *)
Example ex_early : let l := ex_wires (ex_mm false) (ex_am false 1 1) ex_m [MMRead 9] 6 in
  connected (ex_mm false) (ex_am false 1 1) 40 [MMRead 9] (ex_s ex_m) ex_y l (Done [zbits 16 77])
    (a_mem (st (snd (ex_memory (ex_am false 1 1) ex_m (map to_memory (map snd (history (snd (ex_master (ex_mm false) [MMRead 9] l)))))))))
  /\ same_bus (ex_mm false) (ex_am false 1 1) /\ word (ex_am false 1 1) ex_m 9 = zbits 16 1234 /\ 3 <= length l.
Proof.
  cbv zeta. set (l := ex_wires _ _ _ _ _).
  assert (E : fst (ex_master (ex_mm false) [MMRead 9] l) = Done [zbits 16 77]) by (vm_compute; reflexivity).
  split; [rewrite <- E; apply ex_connected; vm_compute; reflexivity|]. split; [constructor; cbn; repeat split|]. split; [reflexivity|vm_compute; lia].
Qed.
(** no readdatavalid, latency 0 *)
Example ex_zero : let l := ex_wires (ex_mm false) (ex_am false 0 0) ex_m [MMRead 9] 6 in
  connected (ex_mm false) (ex_am false 0 0) 40 [MMRead 9] (ex_s ex_m) ex_y l (Done [zbits 16 1234])
    (a_mem (st (snd (ex_memory (ex_am false 0 0) ex_m (map to_memory (map snd (history (snd (ex_master (ex_mm false) [MMRead 9] l)))))))))
  /\ same_bus (ex_mm false) (ex_am false 0 0).
Proof.
  cbv zeta. set (l := ex_wires _ _ _ _ _).
  assert (E : fst (ex_master (ex_mm false) [MMRead 9] l) = Done [zbits 16 1234]) by (vm_compute; reflexivity).
  split; [rewrite <- E; apply ex_connected; vm_compute; reflexivity|]. constructor; cbn; repeat split.
Qed.
