(** AxsModel.v -- AXI4Slave (drivers/amba.py:687-880).

    The two coroutines _write_data and _read_data are modelled each in its own world:
    they share the memory and the inputs, and drive different signals.  Not modelled:
    the three Lock objects (created, never used), callback/event (ignored), log output
    (but the "%d" % None of the debug message is: it is built unless Python runs
    with -O). *)
From Verif Require Export Async CompatModel.
From Verif Require Import OpbModel.
Local Open Scope list_scope.

(* drivers/amba.py:694-716: the signals the slave reads *)
Record axs_in := AxsIn {
  s_awvalid : logic; s_awaddr : bits; s_awlen : bits; s_awsize : bits; s_awburst : bits; s_awprot : bits;
  s_wvalid : logic; s_wdata : bits;
  s_arvalid : logic; s_araddr : bits; s_arlen : bits; s_arsize : bits; s_arburst : bits; s_arprot : bits;
  s_rready : logic }.
(* drivers/amba.py:694-716: the signals the slave drives *)
Record axs_out := AxsOut {
  s_arready : logic; s_rvalid : logic; s_rlast : logic; s_rdata : bits; s_awready : logic; s_wready : logic }.
(* drivers/amba.py:758 *)
Definition s_set_arready v o := AxsOut v (s_rvalid o) (s_rlast o) (s_rdata o) (s_awready o) (s_wready o).
(* drivers/amba.py:759, 863 *)
Definition s_set_rvalid v o := AxsOut (s_arready o) v (s_rlast o) (s_rdata o) (s_awready o) (s_wready o).
(* drivers/amba.py:760, 875, 878 *)
Definition s_set_rlast v o := AxsOut (s_arready o) (s_rvalid o) v (s_rdata o) (s_awready o) (s_wready o).
(* drivers/amba.py:869 *)
Definition s_set_rdata v o := AxsOut (s_arready o) (s_rvalid o) (s_rlast o) v (s_awready o) (s_wready o).
(* drivers/amba.py:761 *)
Definition s_set_awready v o := AxsOut (s_arready o) (s_rvalid o) (s_rlast o) (s_rdata o) v (s_wready o).
(* drivers/amba.py:781, 784 *)
Definition s_set_wready v o := AxsOut (s_arready o) (s_rvalid o) (s_rlast o) (s_rdata o) (s_awready o) v.

(** _size_to_bytes_in_beat (771-774) *)
Definition size_to_bytes_in_beat (axsize : nat) : option nat :=
  if axsize <? 7 then Some (2 ^ axsize) else None.

(** array.array slices with 0 <= i <= j: a[i:j] and a[i:j] = b (clamped at the end) *)
Definition get_slice (a : bytes) (i j : nat) : bytes := slice a i j.
(* drivers/amba.py:818: self._memory[_st:_end] = ... *)
Definition set_slice (a : bytes) (i j : nat) (b : bytes) : bytes := firstn i a ++ b ++ skipn j a.

(** one beat of a write (815-821): [k] is _burst_diff *)
Definition store_beat (big_endian : bool) (memory : bytes) (addr nb k : nat) (wdata : bits) : res bytes :=
  rbind (convert_binary_to_bytes wdata big_endian) (fun b =>
  Ok (set_slice memory (addr + k * nb) (addr + (k + 1) * nb) b)).
(** one beat of a read (866-873) *)
Definition load_beat (big_endian : bool) (memory : bytes) (addr nb k : nat) : res bits :=
  create_binary (BBytes (get_slice memory (addr + k * nb) (addr + (k + 1) * nb))) (nb * 8) big_endian.

Section Slave.
(** [width]: bits of RDATA; [before]: the inputs before the first clock edge *)
Variables (big_endian : bool) (width : nat) (before : axs_in).
Notation M := (M bytes axs_in axs_out).

(** __init__ (758-761) *)
Definition axs_init : M unit :=
  drive (s_set_arready L1) ;; drive (s_set_rvalid L0) ;; drive (s_set_rlast L0) ;; drive (s_set_awready L1).

(** reading a signal right after a clock edge or later in the cycle (as OpbModel.sample) *)
(* drivers/amba.py:783, 814, 833, 865: the values read *)
Definition s_sample : M axs_in := fun w =>
  match ph w with
  | PActive => (Done (last (map fst (trace w)) before), w)
  | _ => input w
  end.
(** str(value) == "1" *)
Definition is_one (b : logic) : bool := match b with L1 => true | _ => false end.
(** int(signal) *)
(* drivers/amba.py:789-793, 838-842: int(signal) *)
Definition int_of (b : bits) : M nat :=
  of_res (match bval b with Some v => Ok (Z.to_nat v) | None => Err EValue end).
(** the debug message formats bytes_in_beat with %d (806, 855): TypeError for None *)
Definition beat_bytes (axsize : nat) : M nat :=
  of_res (match size_to_bytes_in_beat axsize with Some n => Ok n | None => Err EType end).

(** the address loop of _write_data (780-786) *)
Definition aw_body (_ : unit) : M (unit + unit) :=
  drive (s_set_wready L0) ;;
  readonly ;;
  i <- input ;;
  if is_one (s_awvalid i) then drive (s_set_wready L1) ;; ret (inr tt)
  else edge ;; ret (inl tt).
(** the beats (813-825); the state is burst_count, and _burst_diff is
    burst_length - burst_count *)
Definition w_body (addr len nb : nat) (count : nat) : M (nat + unit) :=
  i <- s_sample ;;
  if is_one (s_wvalid i) then
    memory <- get ;;
    memory' <- of_res (store_beat big_endian memory addr nb (len - count) (s_wdata i)) ;;
    put memory' ;;
    if Nat.eqb (count - 1) 0 then ret (inr tt) else edge ;; ret (inl (count - 1))
  else edge ;; ret (inl count).
(** _write_data after the address loop (789-825) *)
Definition write_burst (fuel : nat) : M unit :=
  i <- input ;;
  addr <- int_of (s_awaddr i) ;; len <- int_of (s_awlen i) ;;
  size <- int_of (s_awsize i) ;; _b <- int_of (s_awburst i) ;; _p <- int_of (s_awprot i) ;;
  nb <- beat_bytes size ;;
  edge ;;                                                               (* 811 *)
  loop fuel (w_body addr (len + 1) nb) (len + 1).
(** one turn of _write_data (776-825) *)
Definition write_turn (fuel : nat) (_ : unit) : M (unit + unit) :=
  loop fuel aw_body tt ;;                                               (* 780-786 *)
  readonly ;;                                                           (* 788 *)
  write_burst fuel ;;
  ret (inl tt).
Definition write_data (fuel : nat) : M unit := loop fuel (write_turn fuel) tt.

(** the address loop of _read_data (831-835) *)
Definition ar_body (_ : unit) : M (unit + unit) :=
  readonly ;;
  i <- input ;;
  if is_one (s_arvalid i) then ret (inr tt) else edge ;; ret (inl tt).
(** the beats (862-880) *)
Definition r_body (addr len nb : nat) (count : nat) : M (nat + unit) :=
  drive (s_set_rvalid L1) ;;
  readonly ;;
  i <- input ;;
  (if is_one (s_rready i) then
     memory <- get ;;
     v <- of_res (load_beat big_endian memory addr nb (len - count)) ;;
     v <- of_res (if Nat.eqb (length v) width then Ok v else Err EValue) ;;
     drive (s_set_rdata v) ;;
     if Nat.eqb count 1 then drive (s_set_rlast L1) else ret tt
   else ret tt) ;;
  edge ;;
  drive (s_set_rlast L0) ;;
  if Nat.eqb (count - 1) 0 then ret (inr tt) else ret (inl (count - 1)).
(** _read_data after the address loop (838-880) *)
Definition read_burst (fuel : nat) : M unit :=
  i <- input ;;
  addr <- int_of (s_araddr i) ;; len <- int_of (s_arlen i) ;;
  size <- int_of (s_arsize i) ;; _b <- int_of (s_arburst i) ;; _p <- int_of (s_arprot i) ;;
  nb <- beat_bytes size ;;
  edge ;;                                                               (* 860 *)
  loop fuel (r_body addr (len + 1) nb) (len + 1).
(** one turn of _read_data (827-880) *)
Definition read_turn (fuel : nat) (_ : unit) : M (unit + unit) :=
  loop fuel ar_body tt ;;                                               (* 831-835 *)
  readonly ;;                                                           (* 837 *)
  read_burst fuel ;;
  ret (inl tt).
Definition read_data (fuel : nat) : M unit := loop fuel (read_turn fuel) tt.
End Slave.

(** the beats of a burst as data, without the bus protocol: what the loops of
    _write_data and _read_data do with the words transferred *)
(* drivers/amba.py:813-825: the stores of a burst, one per accepted word *)
Fixpoint store_burst (big_endian : bool) (memory : bytes) (addr nb k : nat) (words : list bits) : res bytes :=
  match words with
  | [] => Ok memory
  | w :: r => rbind (store_beat big_endian memory addr nb k w) (fun m => store_burst big_endian m addr nb (k + 1) r)
  end.
