(** AvalonSTModel.v -- the Avalon-ST driver (drivers/avalon.py:512-597, not
    packetized) and monitor (monitors/avalon.py:28-72). *)
From Verif Require Export Async CompatModel DrvUtilModel.
Local Open Scope list_scope.

(** what the driver drives *)
(* drivers/avalon.py:515: the signals driven *)
Record st_out := StOut { o_valid : logic; o_data : bits }.
(* drivers/avalon.py:529, 560, 567, 578, 587: self.bus.valid.value = v *)
Definition set_valid (v : logic) (o : st_out) : st_out := StOut v (o_data o).
(* drivers/avalon.py:530, 579, 588: self.bus.data.value = d *)
Definition set_data (d : bits) (o : st_out) : st_out := StOut (o_valid o) d.

Section Driver.
Context (width : nat).        (* len(self.bus.data) *)
Context (has_ready : bool).   (* hasattr(self.bus, "ready") *)

(** The only input signal is ready; the object state is the valid-generator
    state (self.on, self.off, self.valid_generator). *)
Notation M := (M valid logic st_out).

(** one iteration of the loop in _wait_ready (544-546) *)
Definition wait_body {S O} (_ : unit) : Async.M S logic O (unit + unit) :=
  r <- input ;;
  if is1 r then ret (inr tt)
  else edge ;; readonly ;; ret (inl tt).

(** _wait_ready (536-546) *)
Definition wait_ready {S O} (fuel : nat) : Async.M S logic O unit :=
  readonly ;; loop fuel wait_body tt.

(** The gap code (565-576).  [throttle] is defined from the same lines. *)
Definition gap_code {O} (set0 : O -> O) : Async.M valid logic O unit :=
  v <- get ;;
  (if truthy (v_on v) then ret tt else drive set0) ;;
  edges (fst (throttle v)) ;;
  put (snd (throttle v)).

(** _driver_send (548-597) *)
Definition st_send (fuel : nat) (value : binsrc) (sync : bool) : M unit :=
  drive (set_valid L0) ;;                                              (* 560 *)
  (if sync then edge else ret tt) ;;                                   (* 562-563 *)
  gap_code (set_valid L0) ;;                                           (* 565-576 *)
  drive (set_valid L1) ;;                                              (* 578 *)
  d <- of_res (create_binary value width false) ;;                     (* 579 *)
  drive (set_data d) ;;
  (if has_ready then wait_ready fuel else ret tt) ;;                   (* 583-584 *)
  edge ;;                                                              (* 586 *)
  drive (set_valid L0) ;;                                              (* 587 *)
  drive (set_data (xs width)).                                         (* 588-592 *)

(** __init__ (520-534): valid 0, data x *)
Definition st_init_out : st_out := StOut L0 (xs width).

(** A batch as the send thread produces it: one send after the other, each with
    its own sync flag. *)
(* drivers/avalon.py:548-594 once per word *)
Definition st_send_all (fuel : nat) (ws : list (binsrc * bool)) : M unit :=
  for_each (fun p => st_send fuel (fst p) (snd p)) ws.

(** ** Monitor (monitors/avalon.py:47-72) *)

(** the nested function valid() *)
(* monitors/avalon.py:54-60: valid() on a bus with ready *)
Definition st_transfer (c : logic * st_out) : bool :=
  if has_ready then is1 (o_valid (snd c)) && is1 (fst c) else is1 (o_valid (snd c)).

(** _monitor_recv over the sampled cycles: transactions passed to _recv, and the
    exception that ended the coroutine, if any. *)
(* monitors/avalon.py:63-71: the loop, over the values at the edges *)
Fixpoint st_monitor (big_endian : bool) (tr : list (logic * st_out)) : list bytes * option exn :=
  match tr with
  | [] => ([], None)
  | c :: r =>
      if st_transfer c then
        match convert_binary_to_bytes (o_data (snd c)) big_endian with
        | Err e => ([], Some e)
        | Ok b => let '(l, e) := st_monitor big_endian r in (b :: l, e)
        end
      else st_monitor big_endian r
  end.
End Driver.
