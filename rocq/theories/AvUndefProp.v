(** AvUndefProp.v -- C94: the Avalon memory and requests with undefined operands. *)
From Verif Require Import Base Async CompatSpec AvMemModel AvMemSpec AvMemThm AvMemProp AvUndefSpec AvUndefProof AvSurvProof.
Local Open Scope list_scope.

(** C94, false: the first request with an undefined operand ends the memory with
    ValueError, in that cycle: all requests before are served (C43, C44), the request itself
    changes nothing, and no later request is ever served. *)
Theorem C94_refuted : forall c fuel s p o i0 pre i post, m_bc c = false -> m_latmin c <= m_latmax c ->
  Forall (well_formed c) pre -> undefined_operand c i -> length pre < fuel -> a_resp s = [] -> fitting c (a_mem s) ->
  exists w, respond c fuel (World s p o [] (i0 :: pre ++ i :: post)) = (Exn EValue, w) /\
    map fst (trace w) = i0 :: pre /\ a_mem (st w) = fold_left (mem_after c) pre (a_mem s).
Proof. exact undefined_word_thm. Qed.
Print Assumptions C94_refuted.

(** The same for a burst read from an idle memory with undefined address or burstcount. *)
Theorem C94_burst_refuted : forall c fuel s p o tr cur q l, burst_bus c -> a_resp s = [] -> v_read q = L1 ->
  (resolvable (v_addr q) = false \/ resolvable (v_bcount q) = false) ->
  exists w, respond c (S fuel) (World s p o tr (cur :: q :: l)) = (Exn EValue, w) /\
    trace w = tr ++ [(cur, o)] /\ a_mem (st w) = a_mem s.
Proof. exact undefined_burst_read_thm. Qed.
Print Assumptions C94_burst_refuted.

(** C94, what holds: undefined values are harmless while nothing is requested, and those of
    operands a request does not need are harmless too. *)
Theorem C94_partial : forall c fuel s p o i0 l, m_bc c = false -> m_latmin c <= m_latmax c ->
  Forall (fun i => ~ undefined_operand c i /\ (writes c i = true -> length (v_wdata i) = m_width c)) l ->
  length l < fuel -> a_resp s = [] -> fitting c (a_mem s) ->
  exists w, respond c fuel (World s p o [] (i0 :: l)) = (Susp, w) /\ map fst (trace w) = i0 :: l /\
    a_mem (st w) = fold_left (mem_after c) l (a_mem s).
Proof.
  intros c fuel s p o i0 l Hb Hl F Hf Hr Fm. apply (survives_thm c fuel s p o i0 l Hb Hl); try assumption.
  eapply Forall_impl; [|exact F]. intros i [U L]. split.
  - intro H. destruct (resolvable (v_addr i)) eqn:E; [reflexivity|]. contradiction U. left. split; [exact H|exact E].
  - intro H. split; [|split; [exact (L H)|]].
    + destruct (resolvable (v_wdata i)) eqn:E; [reflexivity|]. contradiction U. right. split; [exact H|left; exact E].
    + intro B. destruct (resolvable (v_be i)) eqn:E; [reflexivity|]. contradiction U. right. split; [exact H|right; split; [exact B|exact E]].
Qed.
Print Assumptions C94_partial.

(** Examples: write 4660 to 3, read it back with latency 1; in the cycle of the answer a read
    with one undefined address bit: the memory ends, readdatavalid is never taken back, and the
    master sees the old answer in all cycles that follow *)
Definition exu_bad := AmIn L1 L0 [L0; LX; L1] (xs 16) [] (xs 2).
Definition exu_cfg := AmCfg 16 true true true true false true 1 1 default_props.
Example exu_hypotheses : Forall (well_formed exu_cfg) [wr 3 4660 3; rdw 3; AmIn L0 LX (xs 8) (xs 16) [] (xs 2)] /\ undefined_operand exu_cfg exu_bad.
Proof.
  split; [|left; split; [left|]; reflexivity].
  apply Forall_cons; [split; intros; vm_compute; repeat split|]. apply Forall_cons; [split; intros; vm_compute; repeat split|].
  apply Forall_cons; [|apply Forall_nil]. split; [intros [H|H]; discriminate H|intro H; discriminate H].
Qed.
Example exu_run :
  let '(r, w) := respond exu_cfg 100 (World (ex_st 5) PMid (am_init exu_cfg (AmOut LX (xs 16) LX)) []
                   ([idle; wr 3 4660 3; rdw 3; AmIn L0 LX (xs 8) (xs 16) [] (xs 2); exu_bad; wr 3 9 3; rdw 3; idle; idle; idle])) in
  r = Exn EValue /\ w_data (out w) = zbits 16 4660 /\ w_valid (out w) = L1 /\ a_mem (st w) 3%Z = Some 4660%Z.
Proof. vm_compute. repeat split. Qed.

(** C77, what holds: a burst memory of whole words, from any state of its wires and any
    sequence of cycles with defined, word aligned operands -- reads, writes, both at once,
    bursts that break off, new requests in the middle of a burst -- never ends, except by the
    RuntimeError of C47; without wait states it never ends at all. *)
Theorem C77_survives_partial : forall c fuel s p o l, burst_bus c -> Forall (defined_aligned c) l ->
  whole_words c (a_mem s) -> a_resp s = [] -> length l < fuel ->
  exists w, respond c fuel (World s p o [] l) = (Susp, w) \/
    (p_wait (m_props c) = true /\ respond c fuel (World s p o [] l) = (Exn ERuntime, w)).
Proof. exact survives_burst. Qed.
Print Assumptions C77_survives_partial.
(** a 16-bit memory without wait states; 2 words written at 4, 3 read from 4 with a second
    read request in the middle of the answer *)
Definition exs_cfg := AmCfg 16 true true true true true true 1 3 (AProps false 4 1).
Definition exs_in (r w : logic) (a n d : Z) := AmIn r w (zbits 8 a) (zbits 16 d) (zbits 4 n) (zbits 2 3).
Definition exs_cycles := let i := exs_in L0 L0 0 0 0 in
  [i; exs_in L0 L1 4 2 4660; exs_in L0 L1 4 2 22136; i; exs_in L1 L0 4 3 0; i; i; i; exs_in L1 L1 4 1 0; i; i; i; i].
Example exs_hypotheses : burst_bus exs_cfg /\ Forall (defined_aligned exs_cfg) exs_cycles /\ whole_words exs_cfg (fun _ => None).
Proof.
  split; [repeat split; cbn; lia|]. split; [|split; [discriminate|reflexivity]].
  unfold exs_cycles. repeat (apply Forall_cons; [vm_compute; repeat split|]). apply Forall_nil.
Qed.
Example exs_run : let '(r, w) := respond exs_cfg 100 (World (ex_st 5) PMid (am_init exs_cfg (AmOut LX (xs 16) LX)) [] exs_cycles) in
  r = Susp /\ delivered (trace w) = [zbits 16 4660; zbits 16 22136; xs 16] /\ map (a_mem (st w)) [4; 5; 6; 7; 8]%Z = [Some 52; Some 18; Some 120; Some 86; None]%Z.
Proof. vm_compute. repeat split. Qed.
