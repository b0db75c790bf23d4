(** AvPortSpec.v -- several ports of one memory. *)
From Verif Require Import Base Async AvMemModel AvMemSpec AvUndefSpec AvPortModel.
Local Open Scope list_scope.

(** a port as the masters see it: its bus, and what is on that bus in cycles 1, 2, ... (up to
    the first request with an undefined operand, if there is one) *)
Definition column : Type := am_cfg * list am_in.
(** the access of port [j] in cycle 1 + t *)
Definition access (cols : list column) (t j : nat) : list (am_cfg * am_in) :=
  match nth_error cols j with
  | Some (c, l) => match nth_error l t with Some i => [(c, i)] | None => [] end
  | None => []
  end.
(** the accesses of cycle 1 + t, in the order in which the ports have their turns *)
Definition row (cols : list column) (t : nat) (order : list nat) : list (am_cfg * am_in) :=
  flat_map (access cols t) order.
(** the ports with turns before that of port [j] *)
Fixpoint before (j : nat) (order : list nat) : list nat :=
  match order with
  | [] => []
  | x :: r => if x =? j then [] else x :: before j r
  end.
(** the accesses of the first [t] cycles *)
Definition accesses (cols : list column) (orders : list (list nat)) (t : nat) : list (am_cfg * am_in) :=
  flat_map (fun x => row cols (fst x) (snd x)) (combine (seq 0 t) orders).
(** the accesses made before port [j] has its turn in cycle 1 + t: those of the cycles
    before, and those of the ports before it in the same cycle *)
Definition earlier (cols : list column) (orders : list (list nat)) (j t : nat) : list (am_cfg * am_in) :=
  accesses cols orders t ++ row cols t (before j (nth t orders [])).
(** the memory after accesses *)
Definition after (m : memory) (accs : list (am_cfg * am_in)) : memory :=
  fold_left (fun m a => mem_after (fst a) m (snd a)) accs m.

(** [answers] of AvMemSpec.v for a memory that others write too: [view t] is the memory in
    the t-th of the cycles *)
Fixpoint answers_seen (c : am_cfg) (k free : nat) (view : nat -> memory) (d : nat -> nat) (l : list am_in) : list (nat * bits) :=
  match l with
  | [] => []
  | i :: r =>
      if reads c i
      then let t := Nat.max (k + 1 + d 0) free in
           (t, word c (view 0) (num (v_addr i))) :: answers_seen c (S k) (S t) (fun n => view (S n)) (fun j => d (S j)) r
      else answers_seen c (S k) free (fun n => view (S n)) d r
  end.

(** a port that has just been constructed; [n] cycles follow the current one *)
Record fresh (width n : nat) (p : port) (col : column) : Prop := Fresh {
  fr_cfg : fst col = p_cfg p;
  fr_words : m_bc (p_cfg p) = false;
  fr_latency : m_latmin (p_cfg p) <= m_latmax (p_cfg p);
  fr_width : m_width (p_cfg p) = width;
  fr_alive : p_alive p = true;
  fr_idle : a_resp (st (p_world p)) = [];
  fr_trace : trace (p_world p) = [];
  fr_cycles : length (ins (p_world p)) = S n;
  fr_requests : Forall (well_formed (p_cfg p)) (snd col);
  fr_ins : exists i0 rest, ins (p_world p) = i0 :: snd col ++ rest /\
           (rest = [] \/ exists bad post, rest = bad :: post /\ undefined_operand (p_cfg p) bad) }.
(** everything on a port's bus so far, the current cycle included *)
Definition on_bus (p : port) : list (am_in * am_out) := trace (p_world p) ++ held (out (p_world p)) (ins (p_world p)).
