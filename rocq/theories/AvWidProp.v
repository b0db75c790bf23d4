(** AvWidProp.v -- C120: AvalonMemory with readdata and writedata of different widths. *)
From Verif Require Import Base Async CompatModel AvWidModel AvWidSpec AvWidProof.
Local Open Scope list_scope.

(** C120.  False: such a memory is constructed, and in no execution, whatever is in the
    memory, on the bus and in the random numbers, is a single read answered. *)
Theorem C120_refuted c rw : 2 <= m_width c -> rw <> m_width c ->
  m_readable c = true -> m_writeable c = true -> (m_bc c = true -> m_wait c = true) ->
  wid_construct c = (Ok tt, true)
  /\ forall fuel d w, unanswered d w -> unanswered d (snd (wid_respond c rw fuel w)).
Proof.
  intros W2 Ne R W B. split.
  - unfold wid_construct, mem_construct. cbn [b_cfg]. rewrite R, W. cbn. destruct (m_bc c); [rewrite (B eq_refl)|]; reflexivity.
  - intros fuel d w H. now apply silent.
Qed.
Print Assumptions C120_refuted.

(** ... the first read ends its process, with ValueError, two cycles later: writes are not
    served any more either. *)
Theorem C120_ends_refuted c rw fuel s p o i0 i1 i2 i3 l a :
  2 <= m_width c -> rw <> m_width c -> m_readable c = true -> m_bc c = false -> m_latmin c = 1 -> m_latmax c = 1 ->
  a_resp s = [] -> v_read i1 = L1 -> bval (v_addr i1) = Some a -> v_write i1 <> L1 -> v_read i2 <> L1 -> v_write i2 <> L1 ->
  exists w, wid_respond c rw (4 + fuel) (World s p o [] (i0 :: i1 :: i2 :: i3 :: l)) = (Exn EValue, w)
    /\ ins w = i3 :: l /\ a_mem (st w) = a_mem s.
Proof. intros. now apply ends with (a := a). Qed.
Print Assumptions C120_ends_refuted.

(** What holds: with equal widths it is the memory of C43-C48; *)
Theorem C120_equal_partial c fuel w : 2 <= m_width c -> wid_respond c (m_width c) fuel w = respond c fuel w.
Proof. apply respond_same. Qed.
Print Assumptions C120_equal_partial.
(** ... with any widths, as long as nobody reads, it is one with the width of writedata. *)
Theorem C120_writes_partial c rw fuel w : a_resp (st w) = [] -> no_reads w ->
  wid_respond c rw fuel w = respond c fuel w.
Proof. intros E N. apply idle_respond. split; [rewrite E; constructor|exact N]. Qed.
Print Assumptions C120_writes_partial.

Definition wid_cfg := AmCfg 8 true true true true false false 1 1 default_props.
Definition wid_state := AmState (fun a => if (a =? 3)%Z then Some 77%Z else None) [] (fun _ => 5) 0.
Definition wid_in (rd wr : logic) := AmIn rd wr (zbits 4 3) (zbits 8 9) [] [].
Example C120_nonvacuous :
  let w l := World wid_state PActive (AmOut L0 (xs 16) L0) [] l in
  unanswered (xs 16) (w []) /\ no_reads (w [wid_in L0 L0; wid_in L0 L1; wid_in L0 L0])
  /\ a_mem (st (snd (wid_respond wid_cfg 16 9 (w [wid_in L0 L0; wid_in L0 L1; wid_in L0 L0])))) 3%Z = Some 9%Z
  /\ fst (wid_respond wid_cfg 16 9 (w [wid_in L0 L0; wid_in L1 L0; wid_in L0 L0; wid_in L0 L1])) = Exn EValue
  /\ w_data (out (snd (wid_respond wid_cfg 8 9 (w [wid_in L0 L0; wid_in L1 L0; wid_in L0 L0; wid_in L0 L1])))) = zbits 8 77.
Proof.
  cbn zeta. split; [|split; [|split; [|split]; vm_compute; reflexivity]].
  - intros o0 [<-|[]]. cbn. split; [reflexivity|discriminate].
  - intros i Hi. cbn in Hi. destruct Hi as [<-|[<-|[<-|[]]]]; discriminate.
Qed.
