(** AvPortModel.v -- several AvalonMemory objects constructed with the same dictionary
    (drivers/avalon.py:270-274, "allow dual port RAMs by referencing the same dictionary"),
    each on its own bus of the same clock, without burstcount. *)
From Verif Require Export Base Async AvMemModel.
Local Open Scope list_scope.

(** one of the objects: its bus, whether its _respond coroutine (371) goes on, and that
    coroutine's world; the memory in the world's state is used only during its turn *)
Record port := Port { p_cfg : am_cfg; p_alive : bool; p_world : world am_state am_in am_out }.

(** One iteration of the coroutine (374-509) with the shared dictionary [m].  Without
    burstcount the dictionary is used only in the ReadOnly phase (378-395, 457-486), without
    any await in between, so that the turns of a cycle are not interleaved. *)
Definition turn (m : memory) (p : port) : memory * port :=
  if p_alive p
  then let w := p_world p in
       match respond_body (p_cfg p) (World (set_mem m (st w)) (ph w) (out w) (trace w) (ins w)) with
       | (Done _, w') => (a_mem (st w'), Port (p_cfg p) true w')
       | (_, w') => (a_mem (st w'), Port (p_cfg p) false w')
       end
  else (m, p).

(** One cycle: the coroutines in the order [order] (cocotb resumes tasks that wait for the same
    trigger in the order in which they began to wait; the theorems are for any order, which may
    change from cycle to cycle). *)
(* drivers/avalon.py:267-271: one of the memories that share the dictionary changes *)
Fixpoint set_port (j : nat) (p : port) (ports : list port) : list port :=
  match ports, j with
  | [], _ => []
  | _ :: r, O => p :: r
  | q :: r, S j => q :: set_port j p r
  end.
(* drivers/avalon.py:374-509 for each memory in turn, in one clock cycle *)
Fixpoint cycle_all (order : list nat) (m : memory) (ports : list port) : memory * list port :=
  match order with
  | [] => (m, ports)
  | j :: r => match nth_error ports j with
              | Some p => let '(m, p) := turn m p in cycle_all r m (set_port j p ports)
              | None => cycle_all r m ports
              end
  end.
(* drivers/avalon.py:374-509: any number of cycles *)
Fixpoint run_ports (orders : list (list nat)) (m : memory) (ports : list port) : memory * list port :=
  match orders with
  | [] => (m, ports)
  | order :: r => let '(m, ports) := cycle_all order m ports in run_ports r m ports
  end.
