(** AvInitProp.v -- C127: an Avalon memory constructed with any dictionary and any latencies. *)
From Verif Require Import Base Async CompatSpec AvMemModel AvMemSpec AvMemProp AvInitSpec AvInitProof.
Local Open Scope list_scope.

(** C127, false: the constructor accepts a dictionary with an integer that does not fit the
    data bus (negative, or too large).  Reading it ends the memory with ValueError in the
    cycle [t] in which the answer is due; everything before is served, nothing after. *)
Theorem C127_contents_refuted : forall c fuel s p o i0 l t v, m_bc c = false -> m_latmin c <= m_latmax c ->
  Forall (well_formed c) l -> length l < fuel -> a_resp s = [] ->
  In (t, v) (due_values c 1 1 (a_mem s) (latency c s) l) -> t <= S (length l) -> ~ fits c v ->
  (forall t' v', In (t', v') (due_values c 1 1 (a_mem s) (latency c s) l) -> t' < t -> fits c v') ->
  exists w, respond c fuel (World s p o [] (i0 :: l)) = (Exn EValue, w) /\
    map fst (trace w) = firstn t (i0 :: l) /\ a_mem (st w) = fold_left (mem_after c) (firstn (t - 1) l) (a_mem s).
Proof. exact contents_thm. Qed.
Print Assumptions C127_contents_refuted.

(** C127, false: it accepts readlatency_min > readlatency_max.  The first read, in the cycle
    after [pre], ends the memory with ValueError. *)
Theorem C127_latency_refuted : forall c fuel s p o i0 pre i post, m_bc c = false -> m_latmax c < m_latmin c ->
  Forall (fun x => well_formed c x /\ reads c x = false) pre -> reads c i = true -> length pre < fuel -> a_resp s = [] ->
  exists w, respond c fuel (World s p o [] (i0 :: pre ++ i :: post)) = (Exn EValue, w) /\
    map fst (trace w) = i0 :: pre /\ a_mem (st w) = fold_left (mem_after c) pre (a_mem s).
Proof. intros. now apply latency_thm. Qed.
Print Assumptions C127_latency_refuted.

(** C127, what holds: whatever the dictionary holds elsewhere, as long as the values that are
    read fit (at the time they are read: they may have been overwritten before, whole or in
    part), every read is answered as in C44 and every write done as in C43. *)
Theorem C127_partial : forall c fuel s p o i0 l, m_bc c = false -> m_latmin c <= m_latmax c ->
  Forall (well_formed c) l -> length l < fuel -> a_resp s = [] ->
  (forall t v, In (t, v) (due_values c 1 1 (a_mem s) (latency c s) l) -> t <= S (length l) -> fits c v) ->
  exists w, respond c fuel (World s p o [] (i0 :: l)) = (Susp, w) /\
    map fst (trace w) = i0 :: l /\ a_mem (st w) = fold_left (mem_after c) l (a_mem s) /\
    forall t i i' prev cur, nth_error (trace w) t = Some (i, prev) -> nth_error (trace w) (S t) = Some (i', cur) ->
      due c (answers c 1 1 (a_mem s) (latency c s) l) (S t) prev cur.
Proof. exact init_thm. Qed.
Print Assumptions C127_partial.

(** Example: address 3 holds 300 on an 8-bit bus, address 4 holds -1.  Reading 5 is answered;
    3 is written before it is read; reading 4 ends the memory two cycles later, and the write
    to 5 after that is lost. *)
Definition exi_cfg := AmCfg 8 true true true true false false 1 1 default_props.
Definition exi_st := AmState (fun a => if (a =? 3)%Z then Some 300%Z else if (a =? 4)%Z then Some (-1)%Z else if (a =? 5)%Z then Some 55%Z else None) [] (fun _ => 0) 0.
Definition exi_rd a := AmIn L1 L0 (zbits 8 a) (zbits 8 0) [] [].
Definition exi_wr a d := AmIn L0 L1 (zbits 8 a) (zbits 8 d) [] [].
Definition exi_nop := AmIn L0 L0 (zbits 8 0) (zbits 8 0) [] [].
Definition exi_l := [exi_rd 5; exi_wr 3 7; exi_rd 3; exi_rd 4; exi_wr 6 1; exi_wr 5 2; exi_wr 5 3].
Example exi_hypotheses :
  Forall (well_formed exi_cfg) exi_l
  /\ due_values exi_cfg 1 1 (a_mem exi_st) (latency exi_cfg exi_st) exi_l = [(3, Some 55%Z); (5, Some 7%Z); (6, Some (-1)%Z)]
  /\ ~ fits exi_cfg (Some (-1)%Z) /\ fits exi_cfg (Some 55%Z).
Proof.
  split; [repeat (apply Forall_cons; [split; intros; vm_compute; repeat split; discriminate|]); apply Forall_nil|].
  split; [vm_compute; reflexivity|]. split.
  - intro F. specialize (F _ eq_refl). lia.
  - intros z E. inversion E; subst. split; [lia|]. apply Z.ltb_lt. reflexivity.
Qed.
Example exi_run :
  let '(r, w) := respond exi_cfg 100 (World exi_st PMid (am_init exi_cfg (AmOut LX (xs 8) LX)) [] (exi_nop :: exi_l)) in
  r = Exn EValue /\ map fst (trace w) = exi_nop :: firstn 5 exi_l /\ delivered (trace w) = [zbits 8 55; zbits 8 7]
  /\ a_mem (st w) 6%Z = Some 1%Z /\ a_mem (st w) 5%Z = Some 55%Z.
Proof. vm_compute. repeat split. Qed.
Example exi_latency :
  let c := AmCfg 8 true true true true false false 2 1 default_props in
  fst (respond c 100 (World exi_st PMid (am_init c (AmOut LX (xs 8) LX)) [] [exi_nop; exi_wr 1 1; exi_rd 5; exi_nop])) = Exn EValue.
Proof. vm_compute. reflexivity. Qed.
