(** AvMemSpec.v -- what an Avalon memory should do, in terms of its bus signals. *)
From Verif Require Import Base Async CompatSpec AvMemModel.
Local Open Scope list_scope.

(** byte lane k of a word *)
Definition lane (k : nat) (z : Z) : Z := ((z / 2 ^ (8 * Z.of_nat k)) mod 256)%Z.

Section Spec.
Context (c : am_cfg).

(** ** word accesses (no burstcount signal) *)
(** the word after a write of [data] with byte enables [be] over [old] *)
Definition merged (be data old : Z) : Z :=
  from_le (map (fun k => lane k (if Z.testbit be (Z.of_nat k) then data else old)) (seq 0 (m_width c / 8))).

(** a cycle requests a read / a write *)
Definition reads (i : am_in) : bool := m_readable c && logic_eqb (v_read i) L1.
Definition writes (i : am_in) : bool := m_writeable c && logic_eqb (v_write i) L1.
Definition num (b : bits) : Z := opt (bval b) 0%Z.

(** the memory after a cycle *)
Definition mem_after (m : memory) (i : am_in) : memory :=
  if writes i
  then mupd m (num (v_addr i))
            (if m_be c then merged (num (v_be i)) (num (v_wdata i)) (opt (m (num (v_addr i))) 0%Z)
             else num (v_wdata i))
  else m.
(** what a read of [a] delivers *)
Definition word (m : memory) (a : Z) : bits :=
  match m a with None => xs (m_width c) | Some v => zbits (m_width c) v end.

(** The answers to the read requests of the cycles [l], numbered from [k]: a request
    in cycle k with latency choice d is answered in cycle k + 1 + d, or, if that is
    not later than the previous answer, in the cycle after that one ([free]).
    [d j] is the latency chosen for the j-th request. *)
Fixpoint answers (k free : nat) (m : memory) (d : nat -> nat) (l : list am_in) : list (nat * bits) :=
  match l with
  | [] => []
  | i :: r =>
      if reads i
      then let t := Nat.max (k + 1 + d 0) free in
           (t, word m (num (v_addr i))) :: answers (S k) (S t) (mem_after m i) (fun j => d (S j)) r
      else answers (S k) free (mem_after m i) d r
  end.

(** what is on the bus in cycle [t] (after [prev] in the cycle before): the answer
    due in that cycle, or nothing new *)
Definition due (ans : list (nat * bits)) (t : nat) (prev cur : am_out) : Prop :=
  (forall v, In (t, v) ans -> w_data cur = v /\ (m_rdv c = true -> w_valid cur = L1)) /\
  ((forall v, ~ In (t, v) ans) -> w_data cur = w_data prev /\ (m_rdv c = true -> w_valid cur = L0)).
(** requests have known operands *)
Definition well_formed (i : am_in) : Prop :=
  (reads i = true \/ writes i = true -> resolvable (v_addr i) = true) /\
  (writes i = true -> resolvable (v_wdata i) = true /\ length (v_wdata i) = m_width c
                      /\ (m_be c = true -> resolvable (v_be i) = true)).
(** every stored word fits the bus *)
Definition fitting (m : memory) : Prop :=
  forall a v, m a = Some v -> (0 <= v < 2 ^ Z.of_nat (m_width c))%Z.
(** the latency drawn by the random generator *)
Definition latency (s : am_state) (j : nat) : nat :=
  m_latmin c + a_rnd s (a_pos s + j) mod S (m_latmax c - m_latmin c).

(** ** bursts *)
(** words stored little endian from address [a] *)
Definition stored (m : memory) (a : Z) (ds : list Z) : memory := fun x =>
  let k := Z.to_nat (x - a) in
  if ((a <=? x) && (x <? a + Z.of_nat (length ds * dsize c)))%Z
  then Some (lane (k mod dsize c) (nth (k / dsize c) ds 0%Z)) else m x.
(** words [j] = 0 .. n-1 of the range starting at [a] all present *)
Definition range_words (m : memory) (a : Z) (n : nat) : list Z :=
  map (fun j => from_le (map (fun k => opt (m (a + Z.of_nat (j * dsize c + k))%Z) 0%Z) (seq 0 (dsize c))))
      (seq 0 n).
Definition initialised (m : memory) (a : Z) (n : nat) : Prop :=
  forall x, (a <= x < a + Z.of_nat (n * dsize c))%Z -> exists v, m x = Some v /\ is_byte v.

(** data delivered in a trace, and write beats accepted in it *)
Definition delivered (tr : list (am_in * am_out)) : list bits :=
  flat_map (fun x => if logic_eqb (w_valid (snd x)) L1 then [w_data (snd x)] else []) tr.
Definition beats_accepted (tr : list (am_in * am_out)) : list bits :=
  flat_map (fun x => if logic_eqb (v_write (fst x)) L1 && logic_eqb (w_wait (snd x)) L0
                     then [v_wdata (fst x)] else []) tr.

(** ** sessions of a burst memory
    [wait_len rnd pos] is the number of wait cycles the random generator asks for
    when consulted at position [pos], and the position after that. *)
Definition wait_len (rnd : nat -> nat) (pos : nat) : nat * nat :=
  if p_wait (m_props c)
  then if rnd pos mod 4 =? 0 then (rnd (S pos) mod S (p_maxwait (m_props c)), S (S pos)) else (0, S pos)
  else (0, pos).

(** the cycles after a beat: wait cycles (anything), then the next beat; after the
    last beat wait cycles and one more cycle *)
Inductive beats (rnd : nat -> nat) : nat -> list Z -> list am_in -> nat -> list am_in -> Prop :=
| bt_end pos ws e l :
    length ws = fst (wait_len rnd pos) -> beats rnd pos [] (ws ++ e :: l) (snd (wait_len rnd pos)) (e :: l)
| bt_more pos ws b d ds l pos' l' :
    length ws = fst (wait_len rnd pos) -> v_write b = L1 -> bval (v_wdata b) = Some d ->
    beats rnd (snd (wait_len rnd pos)) ds l pos' l' ->
    beats rnd pos (d :: ds) (ws ++ b :: l) pos' l'.

(** [session rnd pos m (cur :: l) data acc m']: in the cycles [l] masters read and
    write in bursts, one after the other: the memory goes from [m] to [m'], the
    words [data] are due and the beats [acc] are to be accepted.
    A write burst starts with its first beat in a cycle where the random
    generator's draw is "no wait" (see C47 for the other draws) and has no gaps.
    A read request is answered [p_latency] + 3 cycles later; no write is requested
    during a read. After a write burst on a memory that never waits there is a
    cycle without request (see C45_back_to_back_refuted). *)
Inductive session (rnd : nat -> nat) : nat -> memory -> list am_in -> list Z -> list Z -> memory -> Prop :=
| ss_end pos m cur : session rnd pos m [cur] [] [] m
| ss_idle pos m cur i l ds acc m' :
    v_read i <> L1 -> v_write i <> L1 ->
    session rnd pos m (i :: l) ds acc m' -> session rnd pos m (cur :: i :: l) ds acc m'
| ss_write pos m cur a d ds b l pos' e l' rs acc m' :
    v_read b <> L1 -> v_write b = L1 ->
    bval (v_addr b) = Some a -> bval (v_bcount b) = Some (Z.of_nat (S (length ds))) ->
    bval (v_wdata b) = Some d ->
    (p_wait (m_props c) = true -> rnd pos mod 4 <> 0) ->
    beats rnd (if p_wait (m_props c) then S pos else pos) ds l pos' (e :: l') ->
    (p_wait (m_props c) = false -> v_write e <> L1) ->
    session rnd pos' (stored m a (d :: ds)) (e :: l') rs acc m' ->
    session rnd pos m (cur :: b :: l) rs (d :: ds ++ acc) m'
| ss_read pos m cur a n q q1 q2 lat bs x l rs acc m' :
    v_read q = L1 -> Forall (fun i => v_write i <> L1) (q :: q1 :: q2 :: lat ++ bs ++ [x]) ->
    bval (v_addr q) = Some a -> (a mod Z.of_nat (dsize c) = 0)%Z -> (a / Z.of_nat (dsize c) < 2 ^ 53)%Z ->
    bval (v_bcount q) = Some (Z.of_nat (S n)) -> initialised m a (S n) ->
    length lat = p_latency (m_props c) -> length bs = n ->
    session rnd pos m (x :: l) rs acc m' ->
    session rnd pos m (cur :: q :: q1 :: q2 :: lat ++ bs ++ x :: l) (range_words m a (S n) ++ rs) acc m'.
(** a bus with everything bursts need *)
Definition burst_bus : Prop :=
  m_readable c = true /\ m_writeable c = true /\ m_rdv c = true /\ m_wait c = true /\ m_bc c = true
  /\ m_be c = true /\ 8 <= m_width c.
End Spec.
