(** MMModel.v -- the Avalon-MM master (drivers/avalon.py:29-197) and
    BusDriver._wait_for_nsignal (drivers/__init__.py:283-294). *)
From Verif Require Export Async CompatModel.
From Verif Require Import DrvUtilModel PktModel.
Local Open Scope list_scope.

(** The bus: widths of address and writedata, optional byteenable (width) and cs,
    and which of waitrequest, readdatavalid, read, write exist.  readdata exists
    (AvSigModel.v has a read without it). *)
(* drivers/avalon.py:40-50: which signals the bus has *)
Record mm_cfg := MMCfg {
  a_width : nat; d_width : nat; a_be : option nat; a_cs : bool;
  a_wait : bool; a_rdv : bool; a_read : bool; a_write : bool }.

(** what the slave drives, and what the master drives *)
(* drivers/avalon.py:40-50: the signals the master reads *)
Record mm_in := MMIn { i_wait : logic; i_rdv : logic; i_rdata : bits }.
(* drivers/avalon.py:40-50: the signals the master drives *)
Record mm_out := MMOut {
  q_addr : bits; q_read : logic; q_write : logic; q_wdata : bits; q_be : bits; q_cs : logic }.
(* drivers/avalon.py:74, 119, 137, 176, 195: address *)
Definition q_set_addr v o := MMOut v (q_read o) (q_write o) (q_wdata o) (q_be o) (q_cs o).
(* drivers/avalon.py:60, 120, 132: read *)
Definition q_set_read v o := MMOut (q_addr o) v (q_write o) (q_wdata o) (q_be o) (q_cs o).
(* drivers/avalon.py:64, 178, 190: write *)
Definition q_set_write v o := MMOut (q_addr o) (q_read o) v (q_wdata o) (q_be o) (q_cs o).
(* drivers/avalon.py:65, 177, 196: writedata *)
Definition q_set_wdata v o := MMOut (q_addr o) (q_read o) (q_write o) v (q_be o) (q_cs o).
(* drivers/avalon.py:69, 122, 134, 180, 192: byteenable *)
Definition q_set_be v o := MMOut (q_addr o) (q_read o) (q_write o) (q_wdata o) v (q_cs o).
(* drivers/avalon.py:72, 124, 136, 182, 194: cs *)
Definition q_set_cs v o := MMOut (q_addr o) (q_read o) (q_write o) (q_wdata o) (q_be o) v.

(** _wait_for_nsignal (drivers/__init__.py:283-294) for the signal read by [key].
    int() of an X or Z raises ValueError. *)
Definition nsignal_body {S I O} (key : I -> logic) (_ : unit) : M S I O (unit + unit) :=
  i <- input ;;
  match key i with
  | L0 => ret (inr tt)                                                  (* 291 *)
  | L1 => edge_of logic_eqb key ;; readonly ;; ret (inl tt)             (* 292-293 *)
  | _ => raise EValue
  end.
Definition wait_for_nsignal {S I O} (key : I -> logic) (fuel : nat) : M S I O unit :=
  readonly ;; loop fuel (nsignal_body key) tt ;; midstep.

(** _acquire_lock / _release_lock (drivers/__init__.py:92-100) as a single task
    sees them: the state of the object is the busy flag.  Waiting for another
    task is LockModel's subject; here it is a wait that does not end. *)
Definition acquire_lock {I O} : M bool I O unit :=
  b <- get ;; if (b : bool) then (fun w => (Susp, w)) else put true.
(* drivers/__init__.py:98-100 *)
Definition release_lock {I O} : M bool I O unit := put false.

Section Master.
Context (c : mm_cfg).
Notation M := (M bool mm_in mm_out).

(** __init__ (52-74): the values driven on signals of the bus; [o] is what was
    there before (signals the bus does not have keep it) *)
Definition mm_init (o : mm_out) : mm_out :=
  MMOut (xs (a_width c)) (if a_read c then L0 else q_read o)
        (if a_write c then L0 else q_write o)
        (if a_write c then xs (d_width c) else q_wdata o)
        (match a_be c with Some n => zeros n | None => q_be o end)
        (if a_cs c then L0 else q_cs o).

(* drivers/avalon.py:117-128: if, without else *)
Definition mm_when (b : bool) (m : M unit) : M unit := if b then m else ret tt.
(* drivers/avalon.py:121-122, 179-180 *)
Definition set_be_all : M unit :=
  match a_be c with Some n => drive (q_set_be (repeat L1 n)) | None => ret tt end.
(* drivers/avalon.py:133-134, 191-192 *)
Definition set_be_none : M unit :=
  match a_be c with Some n => drive (q_set_be (zeros n)) | None => ret tt end.

(** one iteration of the readdatavalid loop (140-144) *)
Definition rdv_body (_ : unit) : M (unit + unit) :=
  readonly ;;
  i <- input ;;
  match i_rdv i with
  | L1 => ret (inr tt)
  | L0 => edge ;; ret (inl tt)
  | _ => raise EValue
  end.

(** AvalonMaster.read (93-155) *)
Definition mm_read (fuel : nat) (address : Z) (sync : bool) : M bits :=
  (if a_read c then ret tt else raise EAssertion) ;;                    (* 110-112 *)
  acquire_lock ;;                                                       (* 114 *)
  mm_when sync edge ;;                                                     (* 117-118 *)
  a <- of_res (assign_int (a_width c) address) ;;
  drive (q_set_addr a) ;;                                               (* 119 *)
  drive (q_set_read L1) ;;                                              (* 120 *)
  set_be_all ;;                                                         (* 121-122 *)
  mm_when (a_cs c) (drive (q_set_cs L1)) ;;                                (* 123-124 *)
  mm_when (a_wait c) (wait_for_nsignal i_wait fuel) ;;                     (* 127-128 *)
  edge ;;                                                               (* 129 *)
  drive (q_set_read L0) ;;                                              (* 132 *)
  set_be_none ;;                                                        (* 133-134 *)
  mm_when (a_cs c) (drive (q_set_cs L0)) ;;                                (* 135-136 *)
  drive (q_set_addr (xs (a_width c))) ;;                                (* 137 *)
  (if a_rdv c then loop fuel rdv_body tt else readonly) ;;              (* 139-149 *)
  i <- input ;;                                                         (* 152 *)
  release_lock ;;                                                       (* 154 *)
  ret (i_rdata i).

(** AvalonMaster.write (157-197) *)
Definition mm_write (fuel : nat) (address value : Z) : M unit :=
  (if a_write c then ret tt else raise EAssertion) ;;                   (* 168-170 *)
  acquire_lock ;;                                                       (* 172 *)
  edge ;;                                                               (* 175 *)
  a <- of_res (assign_int (a_width c) address) ;;
  drive (q_set_addr a) ;;                                               (* 176 *)
  v <- of_res (assign_int (d_width c) value) ;;
  drive (q_set_wdata v) ;;                                              (* 177 *)
  drive (q_set_write L1) ;;                                             (* 178 *)
  set_be_all ;;                                                         (* 179-180 *)
  mm_when (a_cs c) (drive (q_set_cs L1)) ;;                                (* 181-182 *)
  mm_when (a_wait c) (wait_for_nsignal i_wait fuel) ;;                     (* 185-186 *)
  edge ;;                                                               (* 189 *)
  drive (q_set_write L0) ;;                                             (* 190 *)
  set_be_none ;;                                                        (* 191-192 *)
  mm_when (a_cs c) (drive (q_set_cs L0)) ;;                                (* 193-194 *)
  drive (q_set_addr (xs (a_width c))) ;;                                (* 195 *)
  drive (q_set_wdata (xs (d_width c))) ;;                               (* 196 *)
  release_lock.                                                         (* 197 *)

(** a sequence of accesses by one task: the values read *)
(* drivers/avalon.py:93, 157: a call of read or write *)
Inductive mm_op := MMRead (address : Z) | MMWrite (address value : Z).
(* drivers/avalon.py:93-197: calls one after the other *)
Fixpoint mm_all (fuel : nat) (ops : list mm_op) : M (list bits) :=
  match ops with
  | [] => ret []
  | MMRead a :: r => d <- mm_read fuel a true ;; ds <- mm_all fuel r ;; ret (d :: ds)
  | MMWrite a v :: r => mm_write fuel a v ;; mm_all fuel r
  end.
End Master.
