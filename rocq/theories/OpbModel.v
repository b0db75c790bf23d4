(** OpbModel.v -- the On-chip Peripheral Bus master (drivers/opb.py). *)
From Verif Require Export Async CompatModel.
From Verif Require Import PktModel MMModel.
Local Open Scope list_scope.

(** the widths of ABus, BE and the data buses.  Not modelled: log messages;
    errAck, retry, seqAddr (never used by the code). *)
(* drivers/opb.py:25-36: widths of the signals *)
Record opb_cfg := OpbCfg { p_aw : nat; p_bew : nat; p_dw : nat }.

(** what the slave drives: xferAck, toutSup, DBus_out.  The settled value of DBus_out
    is arbitrary in every cycle, also when the master writes to that signal. *)
(* drivers/opb.py:25-36: the signals the master reads *)
Record opb_in := OpbIn { p_ack : logic; p_sup : logic; p_dout : bits }.
(** what the master assigns: ABus, select, RNW, BE, DBus_out, DBus_in *)
(* drivers/opb.py:25-36: the signals the master drives *)
Record opb_out := OpbOut {
  p_abus : bits; p_select : logic; p_rnw : logic; p_be : bits; p_dout_w : bits; p_din : bits }.
(* drivers/opb.py:66, 105 *)
Definition p_set_abus v o := OpbOut v (p_select o) (p_rnw o) (p_be o) (p_dout_w o) (p_din o).
(* drivers/opb.py:42, 67, 84, 106, 122 *)
Definition p_set_select v o := OpbOut (p_abus o) v (p_rnw o) (p_be o) (p_dout_w o) (p_din o).
(* drivers/opb.py:68, 107 *)
Definition p_set_rnw v o := OpbOut (p_abus o) (p_select o) v (p_be o) (p_dout_w o) (p_din o).
(* drivers/opb.py:69, 108 *)
Definition p_set_be v o := OpbOut (p_abus o) (p_select o) (p_rnw o) v (p_dout_w o) (p_din o).
(* drivers/opb.py:109 *)
Definition p_set_dout v o := OpbOut (p_abus o) (p_select o) (p_rnw o) (p_be o) v (p_din o).

(** _max_cycles (38) *)
Definition max_cycles : nat := 16.

Section Master.
(** [before]: the values of the inputs before the first clock edge *)
Variables (c : opb_cfg) (before : opb_in).
Notation M := (M bool opb_in opb_out).

(** reading a signal: right after a clock edge the values are those of the cycle
    that just ended, later in the cycle those of the cycle *)
(* drivers/opb.py:72, 75, 81: the values read *)
Definition sample : M opb_in := fun w =>
  match ph w with
  | PActive => (Done (last (map fst (trace w)) before), w)
  | _ => input w
  end.

(** int(signal.value) of a single bit *)
(* drivers/opb.py:72, 75: int(value) of one bit, an exception if X or Z *)
Definition int_bit (b : logic) : M bool :=
  match b with L1 => ret true | L0 => ret false | _ => raise EValue end.

(** __init__ (40-43) *)
Definition opb_init : M unit := drive (p_set_select L0).

(** the while loop (71-80 and 111-120); its state is count *)
Definition ack_body (count : nat) : M (nat + unit) :=
  i <- sample ;;
  ack <- int_bit (p_ack i) ;;
  if (ack : bool) then ret (inr tt)
  else
    edge ;;
    readonly ;;
    j <- sample ;;
    sup <- int_bit (p_sup j) ;;
    let count := if (sup : bool) then 0 else count + 1 in
    if max_cycles <=? count then raise EOPB
    else ret (inl count).
(* drivers/opb.py:71-80, 111-120 *)
Definition wait_ack (fuel : nat) : M unit := loop fuel ack_body 0.

(** OPBMaster.read (45-87) *)
Definition opb_read (fuel : nat) (address : Z) (sync : bool) : M Z :=
  acquire_lock ;;                                                       (* 61 *)
  (if sync then edge else ret tt) ;;                                    (* 64-65 *)
  a <- of_res (assign_int (p_aw c) address) ;;
  drive (p_set_abus a) ;;                                               (* 66 *)
  drive (p_set_select L1) ;;                                            (* 67 *)
  drive (p_set_rnw L1) ;;                                               (* 68 *)
  be <- of_res (assign_int (p_bew c) 15) ;;
  drive (p_set_be be) ;;                                                (* 69 *)
  wait_ack fuel ;;                                                      (* 71-80 *)
  i <- sample ;;
  data <- of_res (match bval (p_dout i) with Some v => Ok v | None => Err EValue end) ;; (* 81 *)
  drive (p_set_select L0) ;;                                            (* 84 *)
  release_lock ;;                                                       (* 85 *)
  ret data.

(** OPBMaster.write (89-123) *)
Definition opb_write (fuel : nat) (address value : Z) (sync : bool) : M unit :=
  acquire_lock ;;                                                       (* 101 *)
  (if sync then edge else ret tt) ;;                                    (* 103-104 *)
  a <- of_res (assign_int (p_aw c) address) ;;
  drive (p_set_abus a) ;;                                               (* 105 *)
  drive (p_set_select L1) ;;                                            (* 106 *)
  drive (p_set_rnw L0) ;;                                               (* 107 *)
  be <- of_res (assign_int (p_bew c) 15) ;;
  drive (p_set_be be) ;;                                                (* 108 *)
  v <- of_res (assign_int (p_dw c) value) ;;
  drive (p_set_dout v) ;;                                               (* 109 *)
  wait_ack fuel ;;                                                      (* 111-120 *)
  drive (p_set_select L0) ;;                                            (* 122 *)
  release_lock.                                                         (* 123 *)
End Master.
