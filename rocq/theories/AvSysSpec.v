(** AvSysSpec.v -- an AvalonMaster and an AvalonMemory (without burstcount) on the same bus:
    the two coroutines of MMModel and AvMemModel, connected by wires. *)
From Verif Require Import Base Async CompatModel MMModel MMSpec AvMemModel AvMemSpec.
Local Open Scope list_scope.

(** the two objects are on the same bus: the same signals exist, with the same widths
    (drivers/avalon.py:32-42, 204-213); there is no burstcount *)
Record same_bus (c : mm_cfg) (mc : am_cfg) : Prop := SameBus {
  sb_read : a_read c = true /\ m_readable mc = true;
  sb_write : a_write c = true /\ m_writeable mc = true;
  sb_width : d_width c = m_width mc;
  sb_wait : m_wait mc = a_wait c;
  sb_rdv : m_rdv mc = a_rdv c;
  sb_bc : m_bc mc = false;
  sb_be : match a_be c with
          | Some n => m_be mc = true /\ m_width mc = (8 * n)%nat
          | None => m_be mc = false
          end }.

(** the wires, in one clock cycle: what the memory sees is what the master drives ... *)
Record sees_master (c : mm_cfg) (o : mm_out) (b : am_in) : Prop := SeesMaster {
  wd_read : v_read b = q_read o;
  wd_write : v_write b = q_write o;
  wd_addr : v_addr b = q_addr o;
  wd_wdata : v_wdata b = q_wdata o;
  wd_be : a_be c <> None -> v_be b = q_be o }.
(** ... and what the master sees is what the memory drives *)
Record sees_memory (c : mm_cfg) (i : mm_in) (y : am_out) : Prop := SeesMemory {
  wd_wait : a_wait c = true -> i_wait i = w_wait y;
  wd_rdv : a_rdv c = true -> i_rdv i = w_valid y;
  wd_rdata : i_rdata i = w_data y }.

(** the complete history of a coroutine: once it has ended (or raised) its outputs stay *)
Definition history {TS TI TO} (w : world TS TI TO) : list (TI * TO) := trace w ++ held (out w) (ins w).

(** what the accesses should do: the words read and the memory afterwards *)
Fixpoint values_read (mc : am_cfg) (m : memory) (ops : list mm_op) : list bits :=
  match ops with
  | [] => []
  | MMRead a :: r => word mc m a :: values_read mc m r
  | MMWrite a v :: r => values_read mc (mupd m a v) r
  end.
Fixpoint memory_after (m : memory) (ops : list mm_op) : memory :=
  match ops with
  | [] => m
  | MMRead _ :: r => memory_after m r
  | MMWrite a v :: r => memory_after (mupd m a v) r
  end.
(** clock cycles that are enough *)
Fixpoint cycles_needed (mc : am_cfg) (ops : list mm_op) : nat :=
  match ops with
  | [] => 0
  | MMRead _ :: r => m_latmax mc + 3 + cycles_needed mc r
  | MMWrite _ _ :: r => 2 + cycles_needed mc r
  end.

(** the master's accesses [ops] and the memory, both from their constructors, connected for
    all the cycles of the run; [l] and [lm] are what they see.  In the end the accesses have
    returned [r] and the memory has the contents [m']. *)
Record connected (c : mm_cfg) (mc : am_cfg) (fuel : nat) (ops : list mm_op) (s : am_state)
    (y0 : am_out) (l : list mm_in) (r : outcome (list bits)) (m' : memory) : Prop := Connected {
  cn_run : exists p p' o lm wM rm wm,
    mm_all c fuel ops (World false p (mm_init c o) [] l) = (r, wM) /\
    respond mc fuel (World s p' (am_init mc y0) [] lm) = (rm, wm) /\
    Forall2 (sees_master c) (map snd (history wM)) lm /\
    Forall2 (sees_memory c) l (map snd (history wm)) /\
    m' = a_mem (st wm) }.
