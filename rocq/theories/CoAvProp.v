(** CoAvProp.v -- C113: several tasks call read and write of one AvalonMaster. *)
From Verif Require Import Base Async CompatModel MMModel MMSpec MMProof CoModel CoAvModel AvSysSpec CoAvSpec CoProof CoAvProof MMProp.
Local Open Scope list_scope.

Lemma more c tr o l : quiet c o -> accepted_in c (tr ++ held o l) = accepted_in c tr.
Proof. intro Q. now rewrite accepted_app, (quiet_none c _ _ Q), app_nil_r. Qed.

Definition released (c : mm_cfg) (o : mm_out) : mm_out :=
  MMOut (xs (a_width c)) (q_read o) L0 (xs (d_width c)) (match a_be c with Some n => zeros n | None => q_be o end)
        (if a_cs c then L0 else q_cs o).
Lemma released_quiet c o : quiet c o -> quiet c (released c o).
Proof.
  intros [R W B C]. constructor; cbn; auto.
  - intros n E. now rewrite E.
  - intro E. now rewrite E.
Qed.
Lemma one_write c o a v i : a_wait c = false -> quiet c o -> fits (a_width c) a -> fits (d_width c) v ->
  accepted_in c [(i, write_request c o a v)] = [AcWrite (Some a) (Some v)].
Proof.
  intros W [Q _ _ _] A V. apply (accepted_write c o a v [] i A V); [congruence|constructor|intro X; congruence].
Qed.

(** Three tasks write; the second and the third call while the first write is in progress.
    All three writes return, and the slave never sees the second. *)
Theorem C113_three_refuted c fuel a1 v1 a2 v2 a3 v3 p o i0 i1 i2 i3 i4 l :
  a_write c = true -> a_wait c = false ->
  fits (a_width c) a1 -> fits (a_width c) a2 -> fits (a_width c) a3 ->
  fits (d_width c) v1 -> fits (d_width c) v2 -> fits (d_width c) v3 -> quiet c o ->
  exists m', ends (test_start c fuel [(0, [MMWrite a1 v1]); (1, [MMWrite a2 v2]); (1, [MMWrite a3 v3])] p o
                     (i0 :: i1 :: i2 :: i3 :: i4 :: l)) m'
    /\ map ended (m_tasks m') = [Done [None]; Done [None]; Done [None]]
    /\ accepted_in c (m_trace m') = [AcWrite (Some a1) (Some v1); AcWrite (Some a3) (Some v3)].
Proof.
  intros Wr Wa A1 A2 A3 V1 V2 V3 Q.
  assert (E : exists o', quiet c o' /\ leads (test_start c fuel [(0, [MMWrite a1 v1]); (1, [MMWrite a2 v2]); (1, [MMWrite a3 v3])] p o
                     (i0 :: i1 :: i2 :: i3 :: i4 :: l))
    (mk (World (false, true) PActive o' (held o [i0] ++ [(i1, write_request c o a1 v1)] ++ held o' [i2] ++ [(i3, write_request c o' a3 v3)]) (i4 :: l))
        [TEnd (Done [None]); TEnd (Done [None]); TEnd (Done [None])])).
  { exists (released c o). split; [now apply released_quiet|].
    unfold test_start, ccalls, ccall, cwrite, cwrite_body. cbn [map fst snd]. rewrite Wr, Wa.
    rewrite (assign_fits _ _ A1), (assign_fits _ _ A2), (assign_fits _ _ A3), (assign_fits _ _ V1), (assign_fits _ _ V2), (assign_fits _ _ V3).
    destruct c as [aw dw be cs wa rv rd wr]. cbn in *. subst.
    unfold released, write_request; cbn [a_be a_cs a_width d_width].
    destruct be, cs, p; cbn; do 17 (eapply leads_trans; [apply leads_step; cbn; reflexivity|]); apply leads_refl. }
  destruct E as (o' & Q' & L).
  destruct (idle (A := list (option bits)) (i4 :: l)
    (World (false, true) PActive o' (held o [i0] ++ [(i1, write_request c o a1 v1)] ++ held o' [i2] ++ [(i3, write_request c o' a3 v3)]) (i4 :: l))
    [DEnd (Done [None]); DEnd (Done [None]); DEnd (Done [None])]
    [TEnd (Done [None]); TEnd (Done [None]); TEnd (Done [None])] eq_refl) as (m' & M1 & M2 & M3).
  { right. repeat constructor. }
  { repeat constructor. }
  exists m'. split; [exact (L _ M1)|]. split; [exact M3|]. rewrite M2. cbn [trace out ins].
  rewrite more by exact Q'. rewrite !accepted_app, !quiet_none by assumption. cbn [app].
  rewrite (one_write c o a1 v1 i1), (one_write c o' a3 v3 i3) by assumption. reflexivity.
Qed.
Print Assumptions C113_three_refuted.

(** Two tasks; the first makes two writes, the second calls during the first of them: the
    second write of the first task returns, and the slave never sees it. *)
Theorem C113_two_tasks_refuted c fuel a1 v1 a2 v2 a3 v3 p o i0 i1 i2 i3 i4 l :
  a_write c = true -> a_wait c = false ->
  fits (a_width c) a1 -> fits (a_width c) a2 -> fits (a_width c) a3 ->
  fits (d_width c) v1 -> fits (d_width c) v2 -> fits (d_width c) v3 -> quiet c o ->
  exists m', ends (test_start c fuel [(0, [MMWrite a1 v1; MMWrite a2 v2]); (1, [MMWrite a3 v3])] p o
                     (i0 :: i1 :: i2 :: i3 :: i4 :: l)) m'
    /\ map ended (m_tasks m') = [Done [None; None]; Done [None]]
    /\ accepted_in c (m_trace m') = [AcWrite (Some a1) (Some v1); AcWrite (Some a3) (Some v3)].
Proof.
  intros Wr Wa A1 A2 A3 V1 V2 V3 Q.
  assert (E : exists o', quiet c o' /\ leads (test_start c fuel [(0, [MMWrite a1 v1; MMWrite a2 v2]); (1, [MMWrite a3 v3])] p o
                     (i0 :: i1 :: i2 :: i3 :: i4 :: l))
    (mk (World (false, true) PActive o' (held o [i0] ++ [(i1, write_request c o a1 v1)] ++ held o' [i2] ++ [(i3, write_request c o' a3 v3)]) (i4 :: l))
        [TEnd (Done [None; None]); TEnd (Done [None])])).
  { exists (released c o). split; [now apply released_quiet|].
    unfold test_start, ccalls, ccall, cwrite, cwrite_body. cbn [map fst snd]. rewrite Wr, Wa.
    rewrite (assign_fits _ _ A1), (assign_fits _ _ A2), (assign_fits _ _ A3), (assign_fits _ _ V1), (assign_fits _ _ V2), (assign_fits _ _ V3).
    destruct c as [aw dw be cs wa rv rd wr]. cbn in *. subst.
    unfold released, write_request; cbn [a_be a_cs a_width d_width].
    destruct be, cs, p; cbn; do 14 (eapply leads_trans; [apply leads_step; cbn; reflexivity|]); apply leads_refl. }
  destruct E as (o' & Q' & L).
  destruct (idle (A := list (option bits)) (i4 :: l)
    (World (false, true) PActive o' (held o [i0] ++ [(i1, write_request c o a1 v1)] ++ held o' [i2] ++ [(i3, write_request c o' a3 v3)]) (i4 :: l))
    [DEnd (Done [None; None]); DEnd (Done [None])]
    [TEnd (Done [None; None]); TEnd (Done [None])] eq_refl) as (m' & M1 & M2 & M3).
  { right. repeat constructor. }
  { repeat constructor. }
  exists m'. split; [exact (L _ M1)|]. split; [exact M3|]. rewrite M2. cbn [trace out ins].
  rewrite more by exact Q'. rewrite !accepted_app, !quiet_none by assumption. cbn [app].
  rewrite (one_write c o a1 v1 i1), (one_write c o' a3 v3 i3) by assumption. reflexivity.
Qed.
Print Assumptions C113_two_tasks_refuted.

(** What holds: tasks that make one call each, when at most one call waits for another.  The
    calls are made in the order in which they come, each when the one before is over, and
    return what they would return one after the other. *)
Theorem C113_order_partial c fuel calls p o l :
  Forall (fun x => supported c (snd x)) calls -> by_arrival calls -> one_waiting c fuel calls (World false p o [] l) ->
  let '(rs, w) := in_turn c fuel calls (World false p o [] l) in
  exists m', ends (test_start c fuel (single calls) p o l) m' /\ m_trace m' = history w /\
    map ended (m_tasks m') = map (omap (fun d => [d])) rs.
Proof. exact (calls_in_turn c fuel calls p o l). Qed.
Print Assumptions C113_order_partial.

(** ... if all of them return, the slave has accepted each of them exactly once. *)
Theorem C113_accepted_partial c fuel calls p o l :
  2 <= fuel -> length l < fuel -> Forall (fun x => op_fits c (snd x)) calls -> quiet c o -> wait_defined c l -> rdv_defined c l ->
  by_arrival calls -> one_waiting c fuel calls (World false p o [] l) ->
  exists m', ends (test_start c fuel (single calls) p o l) m' /\
    (Forall returned (map ended (m_tasks m')) -> accepted_in c (m_trace m') = map (fun x => op_accepted (snd x)) calls).
Proof. intros F1 F2 Ft Q W R. exact (calls_accepted c fuel calls p o l F1 F2 Ft Q (conj W R)). Qed.
Print Assumptions C113_accepted_partial.

(** ... so with two tasks that make one call each nothing is lost, whenever they call. *)
Theorem C113_two_partial c fuel n1 x1 n2 x2 p o l :
  2 <= fuel -> length l < fuel -> op_fits c x1 -> op_fits c x2 -> quiet c o -> wait_defined c l -> rdv_defined c l -> n1 <= n2 ->
  exists m', ends (test_start c fuel [(n1, [x1]); (n2, [x2])] p o l) m' /\
    (Forall returned (map ended (m_tasks m')) -> accepted_in c (m_trace m') = [op_accepted x1; op_accepted x2]).
Proof.
  intros F1 F2 T1 T2 Q W R N. apply (C113_accepted_partial c fuel [(n1, x1); (n2, x2)] p o l); auto.
  - cbn. repeat constructor. exact N.
  - cbn. destruct (call_at c fuel n1 x1 _) as [[d|e| |] w]; auto. split; [exact I|]. destruct (call_at c fuel n2 x2 w) as [[d'|e| |] w']; auto.
Qed.
Print Assumptions C113_two_partial.

(** ... and one task that makes any calls, after any number of cycles, does what MMModel.v says. *)
Theorem C113_one_task_partial c fuel n ops p o l :
  let '(r, w) := (edges n ;; mm_all c fuel ops) (World false p o [] l) in
  exists m', ends (test_start c fuel [(n, ops)] p o l) m' /\ m_trace m' = history w /\
    map ended (m_tasks m') = [omap (replies ops) r].
Proof. exact (one_task c fuel n ops p o l). Qed.
Print Assumptions C113_one_task_partial.

(** A simulation has one end. *)
Theorem C113_deterministic c fuel tasks p o l m1 m2 :
  ends (test_start c fuel tasks p o l) m1 -> ends (test_start c fuel tasks p o l) m2 -> m1 = m2.
Proof. exact (ends_fun _ m1 m2). Qed.
Print Assumptions C113_deterministic.

(** Examples: a write, a read called during the write, and another write that comes when the
    first is over and the read is in progress. *)
Definition co_cfg := MMCfg 4 4 None false false false true true.
Definition co_o := mm_init co_cfg (MMOut [] LX LX [] [] LX).
Definition co_in (n : nat) := MMIn L0 L1 (zeros n).
Definition co_calls := [(0, MMWrite 1 2); (1, MMRead 3); (3, MMWrite 4 5)].
Example C113_nonvacuous :
  Forall (fun x => op_fits co_cfg (snd x)) co_calls /\ quiet co_cfg co_o /\ by_arrival co_calls /\
  one_waiting co_cfg 20 co_calls (World false PActive co_o [] (map co_in (seq 0 9))) /\
  fst (in_turn co_cfg 20 co_calls (World false PActive co_o [] (map co_in (seq 0 9)))) = [Done None; Done (Some (zeros 4)); Done None].
Proof.
  split; [repeat constructor; cbn; unfold fits; cbn; lia|]. split; [constructor; cbn; congruence|].
  split; [cbn; repeat constructor; cbn; lia|]. split; [vm_compute; repeat split; auto|vm_compute; reflexivity].
Qed.
