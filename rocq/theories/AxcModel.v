(** AxcModel.v -- AXI4Master used by several tasks at the same time
    (src/cocotb_bus/drivers/amba.py:143-147, 205, 285, 316-406, 408-583).

    Each channel is protected by a lock (143-147), and "async with" the lock is around
    the whole use of the channel (205, 285, 381, 487, 512).  cocotb's Lock serves waiting
    tasks in the order of their requests, and the next task continues in the time step in
    which the lock is released; this is assumed of cocotb.  Each channel thus executes the
    bodies one after the other; while no task wants it, it rests.

    The times of the calls and the cycles on the bus are arbitrary. *)
From Verif Require Export Base Async AxiModel.
Local Open Scope list_scope.

(** The tasks that use one channel, in the order in which they request its lock: the cycle
    of the request and the job.  Executes the jobs until the cycles end; for every job that
    has ended: the job, the cycle in which it ended, and how it ended.  A job that raised
    has released the lock (async with). *)
(* drivers/amba.py:205, 285, 381, 487, 512: async with a lock, first come first served *)
Fixpoint serve {TO A R : Type} (body : A -> M unit axi_in TO R) (jobs : list (nat * A))
         (w : world unit axi_in TO) : list (A * nat * outcome R) * world unit axi_in TO :=
  match jobs with
  | [] => ([], w)
  | (t, a) :: r =>
      match (edges (t - length (trace w)) ;; body a) w with
      | (Susp, w') => ([], w')
      | (x, w') => let '(rs, v) := serve body r w' in ((a, length (trace w'), x) :: rs, v)
      end
  end.

(** the calls that pass the checks of the parameters, with the size of their beats
    (364-370, 477-483); the others raise ValueError and do nothing *)
Definition admitted {A} (check : A -> res Z) (calls : list (nat * A)) : list (nat * (A * Z)) :=
  flat_map (fun x => match check (snd x) with Ok size => [(fst x, (snd x, size))] | Err _ => [] end) calls.

(** ** write (316-406) *)
Definition write_check (c : axi_cfg) (a : waccess) : res Z :=
  check_params (x_bytes c) (wa_address a) (Z.of_nat (length (wa_value a))) (wa_size a) (wa_burst a).
(** the two tasks of a write (371-379) *)
Definition aw_job (c : axi_cfg) (fuel : nat) (x : waccess * Z) : M unit axi_in ax_out unit :=
  let '(a, size) := x in
  send_write_address c fuel (wa_address a) (Z.of_nat (length (wa_value a))) (wa_burst a) size (wa_alat a) (wa_sync a).
(* drivers/amba.py:285-314: the write data of one call, under the lock *)
Definition w_job (c : axi_cfg) (fuel : nat) (x : waccess * Z) : M unit axi_in w_out unit :=
  let '(a, size) := x in
  send_write_data c fuel (wa_address a) (wa_value a) (wa_burst a) size (wa_dlat a) (wa_be a) (wa_sync a).

(** await Combine(...) (379): the writes whose two tasks have returned, with the cycle in
    which the later one did *)
Fixpoint joined {A} (i : nat) (ra rw : list (A * nat * outcome unit)) : list (nat * nat) :=
  match ra, rw with
  | (_, na, Done _) :: ra, (_, nw, Done _) :: rw => (Nat.max na nw, i) :: joined (S i) ra rw
  | _ :: ra, _ :: rw => joined (S i) ra rw
  | _, _ => []
  end.
(** ... and those it raises for: with the exception of the task that raised first (the
    address task if both did in the same cycle, as it was started first) *)
(* drivers/amba.py:379: an exception of either task ends the call *)
Definition raised {A} (ra rw : list (A * nat * outcome unit)) : list (nat * outcome unit) :=
  flat_map (fun i =>
      match nth_error ra i, nth_error rw i with
      | Some (_, na, Exn e), Some (_, nw, Exn f) => [(i, Exn (if nw <? na then f else e))]
      | Some (_, _, Exn e), _ | _, Some (_, _, Exn e) => [(i, Exn e)]
      | _, _ => []
      end) (seq 0 (Nat.max (length ra) (length rw))).
(** the requests for the response lock, by time (those of the same cycle in the order of
    the calls) *)
(* drivers/amba.py:381: the order in which the calls reach the lock *)
Fixpoint insert_time (x : nat * nat) (l : list (nat * nat)) : list (nat * nat) :=
  match l with
  | [] => [x]
  | y :: r => if fst x <? fst y then x :: l else y :: insert_time x r
  end.
(* drivers/amba.py:381: the order in which the calls reach the lock *)
Definition by_time (l : list (nat * nat)) : list (nat * nat) := fold_left (fun acc x => insert_time x acc) l [].

(** The cycles of the address and data channels, and the results of the writes that have
    returned or raised: the number of the call (among those admitted) and the outcome. *)
(* drivers/amba.py:316-406: what becomes of several writes *)
Record writes_run := WritesRun {
  ws_aw : list (axi_in * ax_out); ws_w : list (axi_in * w_out); ws_results : list (nat * outcome unit) }.
Definition concurrent_writes (c : axi_cfg) (fuel : nat) (calls : list (nat * waccess)) (p : phase)
           (oa : ax_out) (ow : w_out) (l : list axi_in) : writes_run :=
  let jobs := admitted (write_check c) calls in
  let '(ra, va) := serve (aw_job c fuel) jobs (World tt p oa [] l) in
  let '(rw, vw) := serve (w_job c fuel) jobs (World tt p ow [] l) in
  let '(rb, _) := serve (fun _ : nat => write_response (TO := unit) fuel) (by_time (joined 0 ra rw))
                        (World tt p tt [] l) in                           (* 381-406 *)
  WritesRun (trace va ++ held (out va) (ins va)) (trace vw ++ held (out vw) (ins vw))
    (raised ra rw ++ map (fun x => (fst (fst x), snd x)) rb).

(** ** read (408-583) *)
Definition read_check (c : axi_cfg) (a : raccess) : res Z :=
  check_params (x_bytes c) (ra_address a) (ra_length a) (ra_size a) (ra_burst a).
(** the address part (487-510) and the data part (512-560) *)
Definition ar_job (c : axi_cfg) (fuel : nat) (x : raccess * Z) : M unit axi_in ax_out unit :=
  let '(a, size) := x in
  x_when (ra_sync a) edge ;;
  assign (x_awidth c) (ra_address a) ax_set_addr ;;
  drive (ax_set_valid L1) ;;
  x_when (x_full c) (assign 8 (ra_length a - 1) ax_set_len) ;;
  x_when (x_full c) (assign 3 (bit_length size - 1) ax_set_size) ;;
  x_when (x_full c) (assign 2 (burst_value (ra_burst a)) ax_set_burst) ;;
  until1 g_arready fuel ;;
  edge ;;
  drive (ax_set_valid L0).
(* drivers/amba.py:512-583: the read data of one call, under the lock *)
Definition r_job (c : axi_cfg) (fuel : nat) (x : raccess * Z) : M unit axi_in ax_out (list bits * list Z) :=
  let '(a, size) := x in
  dr <- read_beats c fuel (ra_burst a) size (ra_address a mod x_bytes c / size * size)%Z ;;
  edge ;;
  let '(data, rresp) := dr in
  (if (Z.of_nat (length data) =? ra_length a)%Z then ret tt else raise EAXILength) ;;
  words <- of_res (realigned (ra_address a) (ra_burst a) size data) ;;
  ret (words, rresp).

(** the reads whose address part has returned request the data lock at once, in that order *)
(* drivers/amba.py:408-583: the calls whose address was accepted *)
Definition addressed {A} (ra : list (A * nat * outcome unit)) : list (nat * A) :=
  flat_map (fun x => match x with (a, n, Done _) => [(n, a)] | _ => [] end) ra.
(* drivers/amba.py:408-583: what becomes of several reads *)
Record reads_run := ReadsRun {
  rs_ar : list (axi_in * ax_out); rs_results : list (raccess * outcome (list bits * list Z)) }.
(* drivers/amba.py:408-583: several reads, started at any times *)
Definition concurrent_reads (c : axi_cfg) (fuel : nat) (calls : list (nat * raccess)) (p : phase)
           (o : ax_out) (l : list axi_in) : reads_run :=
  let jobs := admitted (read_check c) calls in
  let '(ra, va) := serve (ar_job c fuel) jobs (World tt p o [] l) in
  let '(rr, _) := serve (r_job c fuel) (addressed ra) (World tt p o [] l) in
  ReadsRun (trace va ++ held (out va) (ins va)) (map (fun x => (fst (fst (fst x)), snd x)) rr).
