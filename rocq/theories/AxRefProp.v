(** AxRefProp.v -- C56: how many beats a slave sees that is always ready. *)
From Verif Require Import Base Async BitsLemmas CompatModel PktModel HandshakeSpec AxiModel AxiSpec AxiTopProof TmSpec AxTmProof AxiProp AxTmProp AxLvSpec AxLvProof.
Local Open Scope list_scope.

Lemma transfers_count {TI TO} (off : TO -> bool) (acc : TI -> bool) tr : Forall (fun i => acc i = true) (map fst tr) ->
  length (transfers off acc tr) = length (filter (fun b : bool => b) (map (fun y => off (snd y)) tr)).
Proof.
  unfold transfers. rewrite map_length. induction tr as [|[i o] tr IH]; intro F; [reflexivity|]. inversion F; subst. cbn [map fst snd filter] in *.
  unfold transferred at 1. cbn [fst snd]. rewrite H1, andb_true_r. destruct (off o); cbn [length]; rewrite IH by assumption; reflexivity.
Qed.
Lemma ones_repeat (b : bool) n : length (filter (fun b : bool => b) (repeat b n)) = if b then n else 0.
Proof. induction n as [|n IH]; [destruct b; reflexivity|]. cbn [repeat filter]. destruct b; cbn [length]; rewrite IH; reflexivity. Qed.

(** C56, refuted for every write of several values with a data_latency: a slave that is always
    ready for data takes every value but the last 1 + data_latency times.  So it takes each
    value once exactly if data_latency is 0 or there is one value. *)
Theorem C56_every_refuted : forall c fuel a p oa ow l, write_any c fuel a p oa ow l ->
  Forall (fun i => w_accepts i = true) l ->
  let n := length (wa_value a) in
  (if wa_sync a then 1 else 0) + n * (1 + wa_dlat a) <= length l ->
  let seen := length (transfers w_offered w_accepts (wr_w (axi_write c fuel a p oa ow l))) in
  seen = (n - 1) * (1 + wa_dlat a) + 1 /\ (seen = n <-> wa_dlat a = 0 \/ n = 1).
Proof.
  intros c fuel a p oa ow l H R n L seen.
  assert (N : 0 < n). { destruct H as [Hb Hl _ _ _ _ _ _]. destruct (AxiChanProof.legal_facts c _ _ _ _ Hb Hl) as (_ & _ & _ & Hn & _). unfold n. lia. }
  assert (Sn : seen = (n - 1) * (1 + wa_dlat a) + 1).
  { destruct (C137_write c fuel a p oa ow l H) as (va & ra & vw & rw & _ & Ow & _ & Mw & _). fold n in Ow.
    destruct (write_cycles c fuel a p oa ow l H) as (Ec & _ & _).
    destruct (same_cycles c fuel a p oa ow l H) as [Ef _].
    assert (Er : exists rest, map fst (wr_w (axi_write c fuel a p oa ow l)) ++ rest = l).
    { eexists. rewrite <- Ef. destruct (bus_maps _ _ Ef) as (B1 & _). rewrite <- B1. exact Ec. }
    destruct Er as [rest Er]. unfold seen. rewrite transfers_count; [|rewrite <- Er, Forall_app in R; apply R].
    change (fun y : axi_in * w_out => w_offered (snd y)) with (fun y : axi_in * w_out => is1 (x_wvalid (snd y))).
    rewrite Mw, !filter_app, !app_length, !ones_repeat.
    set (x := if wa_sync a then 1 else 0) in *.
    assert (Q : list_sum (x + wa_dlat a :: repeat (wa_dlat a) (n - 1)) + length (x + wa_dlat a :: repeat (wa_dlat a) (n - 1)) = x + n * (1 + wa_dlat a)).
    { change (list_sum (x + wa_dlat a :: repeat (wa_dlat a) (n - 1))) with (x + wa_dlat a + list_sum (repeat (wa_dlat a) (n - 1))). cbn [length].
      rewrite sum_repeat, repeat_length. destruct n as [|k]; [lia|]. replace (S k - 1) with k by lia. lia. }
    destruct (time_ready _ _ _ _ _ Ow R ltac:(lia)) as [_ V]. rewrite Q in V. rewrite V.
    destruct n as [|k]; [lia|]. replace (S k - 1) with k by lia. lia. }
  split; [exact Sn|]. rewrite Sn. clear Sn. destruct n as [|[|k]]; [lia|split; [auto|intros _; cbn; lia]|].
  replace (S (S k) - 1) with (S k) by lia. split; [|intros [->|E]; lia]. destruct (wa_dlat a) as [|d]; [auto|lia].
Qed.
Print Assumptions C56_every_refuted.

(** three values with data_latency 1: five beats *)
Example exref_run : let l := repeat (ext_i L1 L1 L1) 30 in
  write_any ex_c 40 (ext_a 1) PActive ex_oa ex_ow l /\ Forall (fun i => w_accepts i = true) l /\ 1 + 3 * 2 <= length l /\
  map beat_of (transfers w_offered w_accepts (wr_w (axi_write ex_c 40 (ext_a 1) PActive ex_oa ex_ow l))) =
    [(7, 15); (7, 15); (2 ^ 32 * 8, 240); (2 ^ 32 * 8, 240); (9, 15)]%Z.
Proof.
  cbv zeta. split; [constructor; [exact ex_axi_bus|exact ext_legal|split; vm_compute; congruence|discriminate|discriminate|reflexivity|reflexivity|cbn; lia]|].
  split; [repeat constructor|]. split; [cbn; lia|]. vm_compute. reflexivity.
Qed.
