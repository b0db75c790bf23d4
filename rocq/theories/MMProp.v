(** MMProp.v -- the Avalon-MM master. *)
From Verif Require Import Base Async CompatModel MMModel MMSpec MMProof.
Local Open Scope list_scope.

(** waitrequest / readdatavalid are 0 or 1 *)
Definition wait_defined (c : mm_cfg) (l : list mm_in) : Prop :=
  forall i, In i l -> a_wait c = true -> i_wait i = L0 \/ i_wait i = L1.
Definition rdv_defined (c : mm_cfg) (l : list mm_in) : Prop :=
  forall i, In i l -> a_rdv c = true -> i_rdv i = L0 \/ i_rdv i = L1.

(** C41: after one synchronising cycle the request is on the bus in every cycle up
    to and including the first in which the slave does not stall, and the bus is
    quiet afterwards; while the slave stalls the request stays. The slave accepts
    exactly this write. *)
Theorem C41_write c fuel address value o p tr l :
  2 <= fuel -> a_write c = true -> fits (a_width c) address -> fits (d_width c) value ->
  quiet c o -> wait_defined c l ->
  let run := mm_write c fuel address value (World false p o tr l) in
  (exists i0 waits ia r o', l = i0 :: waits ++ ia :: r /\ Forall (stalls c) waits /\ grants c ia /\
     run = (Done tt, World false PActive o'
              (tr ++ held o [i0] ++ held (write_request c o address value) (waits ++ [ia])) r)
     /\ quiet c o' /\
     accepted_in c (held o [i0] ++ held (write_request c o address value) (waits ++ [ia]))
       = [AcWrite (Some address) (Some value)])
  \/ (exists i0 waits p', l = i0 :: waits /\ Forall (stalls c) waits /\
        run = (Susp, World true p' (write_request c o address value)
                 (tr ++ held o [i0] ++ held (write_request c o address value) waits) []))
  \/ l = [] /\ run = (Susp, World true p o tr []).
Proof. exact (mm_write_thm c fuel address value o p tr l). Qed.
Print Assumptions C41_write.

(** C42: the same for a read; then the data is that of the first cycle with
    readdatavalid, or of the cycle after acceptance if there is no readdatavalid.
    Without [sync] the request is put on the bus at once. *)
Theorem C42_read c fuel address (sync : bool) o p tr l :
  2 <= fuel -> length l < fuel -> a_read c = true -> fits (a_width c) address -> quiet c o ->
  wait_defined c l -> rdv_defined c l -> (sync = false -> p <> PReadOnly) ->
  let run := mm_read c fuel address sync (World false p o tr l) in
  let req := read_request c o address in
  (exists pre waits ia lat iv r o',
     l = pre ++ waits ++ ia :: lat ++ iv :: r
     /\ length pre = (if sync then 1 else 0) /\ Forall (stalls c) waits /\ grants c ia
     /\ (a_rdv c = true -> Forall (fun i => i_rdv i = L0) lat /\ i_rdv iv = L1)
     /\ (a_rdv c = false -> lat = [])
     /\ run = (Done (i_rdata iv), World false PReadOnly o'
                 (tr ++ held o pre ++ held req (waits ++ [ia]) ++ held o' lat) (iv :: r))
     /\ quiet c o'
     /\ accepted_in c (held o pre ++ held req (waits ++ [ia]) ++ held o' lat) = [AcRead (Some address)])
  \/ (exists pre waits p',
        l = pre ++ waits /\ length pre = (if sync then 1 else 0) /\ Forall (stalls c) waits
        /\ run = (Susp, World true p' req (tr ++ held o pre ++ held req waits) []))
  \/ (exists pre waits ia lat o',
        l = pre ++ waits ++ ia :: lat /\ length pre = (if sync then 1 else 0)
        /\ Forall (stalls c) waits /\ grants c ia
        /\ (a_rdv c = true -> Forall (fun i => i_rdv i = L0) lat) /\ (a_rdv c = false -> lat = [])
        /\ quiet c o'
        /\ run = (Susp, World true PActive o' (tr ++ held o pre ++ held req (waits ++ [ia]) ++ held o' lat) []))
  \/ l = [] /\ sync = true /\ run = (Susp, World true p o tr []).
Proof. exact (mm_read_thm c fuel address sync o p tr l). Qed.
Print Assumptions C42_read.

(** C75: accesses made one after the other (with the default sync) are accepted by
    the slave once each, in order, and every read returns its own data. *)
Theorem C75_sequence c fuel ops l ds l' o p :
  timing c ops l ds l' -> 2 <= fuel -> length l < fuel -> Forall (op_fits c) ops -> quiet c o ->
  exists p' o' tr, mm_all c fuel ops (World false p o [] l) = (Done ds, World false p' o' tr l')
    /\ accepted_in c tr = map op_accepted ops /\ l = map fst tr ++ l' /\ quiet c o'.
Proof. exact (mm_all_thm c fuel ops l ds l' o p). Qed.
Print Assumptions C75_sequence.

(** C76, false: an access that raises leaves the master locked, so that the next
    access never starts, whatever the slave does.  Three ways to raise: *)
(** an address that does not fit *)
Theorem C76_address_refuted c fuel address value o p tr i0 l :
  a_write c = true -> (2 ^ Z.of_nat (a_width c) <= address)%Z ->
  exists w, mm_write c fuel address value (World false p o tr (i0 :: l)) = (Exn EValue, w)
    /\ out w = o /\ forall fuel' ops, ops <> [] -> Forall (op_fits c) ops ->
       mm_all c fuel' ops w = (Susp, w).
Proof. exact (mm_bad_address c fuel address value o p tr i0 l). Qed.
Print Assumptions C76_address_refuted.

(** a waitrequest that is not 0/1: the request stays on the bus as well *)
Theorem C76_unresolved_refuted c fuel address value o p tr i0 ia l :
  2 <= fuel -> a_write c = true -> fits (a_width c) address -> fits (d_width c) value ->
  a_wait c = true -> i_wait ia = LX ->
  exists w, mm_write c fuel address value (World false p o tr (i0 :: ia :: l)) = (Exn EValue, w)
    /\ out w = write_request c o address value /\ forall fuel' ops, ops <> [] -> Forall (op_fits c) ops ->
       mm_all c fuel' ops w = (Susp, w).
Proof. exact (mm_bad_wait c fuel address value o p tr i0 ia l). Qed.
Print Assumptions C76_unresolved_refuted.

(** a read without sync directly after a read *)
Theorem C76_back_to_back_refuted c fuel address o tr l :
  a_read c = true -> fits (a_width c) address ->
  exists w, mm_read c fuel address false (World false PReadOnly o tr l) = (Exn ERuntime, w)
    /\ out w = o /\ forall fuel' ops, ops <> [] -> Forall (op_fits c) ops ->
       mm_all c fuel' ops w = (Susp, w).
Proof. exact (mm_back_to_back c fuel address o tr l). Qed.
Print Assumptions C76_back_to_back_refuted.

(** C76, what holds: refusing a read on a write-only bus (or the converse) changes nothing *)
Theorem C76_refused_partial c fuel address value sync w :
  (a_write c = false -> mm_write c fuel address value w = (Exn EAssertion, w)) /\
  (a_read c = false -> mm_read c fuel address sync w = (Exn EAssertion, w)).
Proof. exact (mm_refused c fuel address value sync w). Qed.
Print Assumptions C76_refused_partial.

(** Examples: a bus with everything; a write stalled twice, then a read with latency. *)
Definition ex_cfg := MMCfg 8 16 (Some 2) true true true true true.
Definition ex_o := mm_init ex_cfg (MMOut [] LX LX [] [] LX).
Definition iw := MMIn L1 L0 []. Definition ig := MMIn L0 L0 []. Definition idt := MMIn L0 L1 (zbits 16 77).
Definition ex_in := [ig] ++ [iw; iw] ++ ig :: [ig] ++ [iw] ++ ig :: [ig; ig] ++ idt :: [ig].
Example quiet_init : quiet ex_cfg ex_o.
Proof. repeat split. intros n E. inversion E. reflexivity. Qed.
Example ex_timing : timing ex_cfg [MMWrite 3 500; MMRead 3] ex_in [zbits 16 77] [idt; ig].
Proof.
  unfold ex_in. cbn [app]. apply (tm_write ex_cfg 3 500 [MMRead 3] ig [iw; iw] ig).
  - repeat constructor.
  - intros _. reflexivity.
  - apply (tm_read ex_cfg 3 [] ig [iw] ig [ig; ig] idt [ig]); try (repeat constructor); try discriminate.
Qed.
Example ex_fits : Forall (op_fits ex_cfg) [MMWrite 3 500; MMRead 3].
Proof. repeat constructor; unfold fits; cbn; lia. Qed.
Example ex_defined : wait_defined ex_cfg ex_in /\ rdv_defined ex_cfg ex_in.
Proof. split; intros i H; cbn in H; repeat destruct H as [<-|H]; auto; contradiction. Qed.
Example ex_run : fst (mm_all ex_cfg 30 [MMWrite 3 500; MMRead 3] (World false PMid ex_o [] ex_in)) = Done [zbits 16 77].
Proof. reflexivity. Qed.
