(** CoAvModel.v -- AvalonMaster (drivers/avalon.py:83-197) used by several tasks: the same
    code as in MMModel.v as a tree of actions, with _acquire_lock and _release_lock
    (drivers/__init__.py:92-100) as they are. *)
From Verif Require Export Base Async CompatModel DrvUtilModel PktModel MMModel CoModel.
Local Open Scope list_scope.

Declare Scope co_scope.
Notation "x <-- m ;;; k" := (cbind m (fun x => k))
  (at level 61, m at next level, right associativity) : co_scope.
Notation "m ;;; k" := (cbind m (fun _ => k)) (at level 61, right associativity) : co_scope.
Open Scope co_scope.

Section Ops.
Context {TS TI TO : Type}.
(* drivers/avalon.py:119-124: an assignment to a signal *)
Definition cdrive (f : TO -> TO) : co TS TI TO unit := CDrive f (CRet tt).
(* drivers/avalon.py:142, 152: reading a signal *)
Definition cinput : co TS TI TO TI := CInput (fun i => CRet i).
(* drivers/avalon.py:118, 129: await RisingEdge(self.clock) *)
Definition cedge : co TS TI TO unit := CEdge (CRet tt).
(* drivers/__init__.py:290, 293: await ReadOnly() *)
Definition creadonly : co TS TI TO unit := CReadOnly (CRet tt).
(* drivers/__init__.py:294: await NextTimeStep() *)
Definition cmid : co TS TI TO unit := CMid (CRet tt).
(* drivers/avalon.py:119, 176-177: an assignment that may raise *)
Definition cof_res {A} (r : res A) : co TS TI TO A := match r with Ok a => CRet a | Err e => CExn e end.
(** a call n clock edges later *)
(* drivers/avalon.py:93-197: a task that begins after n edges *)
Fixpoint after {A} (n : nat) (t : co TS TI TO A) : co TS TI TO A :=
  match n with O => t | S n' => CEdge (after n' t) end.
(** _wait_for_nsignal (drivers/__init__.py:283-294) *)
Definition cnsignal_body (key : TI -> logic) (_ : unit) : co TS TI TO (unit + unit) :=
  i <-- cinput ;;;
  match key i with
  | L0 => CRet (inr tt)
  | L1 => CEdgeOf key (creadonly ;;; CRet (inl tt))
  | _ => CExn EValue
  end.
(* drivers/__init__.py:283-294 *)
Definition cwait_for_nsignal (key : TI -> logic) (fuel : nat) : co TS TI TO unit :=
  creadonly ;;; cloop fuel (cnsignal_body key) tt ;;; cmid.
End Ops.

(** _acquire_lock (92-96): the object is the attribute busy *)
Definition cacquire {TI TO} : co bool TI TO unit :=
  CGet (fun busy : bool => if busy then CWait (CClear (CPut true (CRet tt))) else CClear (CPut true (CRet tt))).
(** _release_lock (98-100) *)
Definition crelease {TI TO} : co bool TI TO unit := CPut false (CSet (CRet tt)).

Section Master.
Context (c : mm_cfg).
Notation co := (co bool mm_in mm_out).
(* drivers/avalon.py:117-128: if, without else *)
Definition cwhen (b : bool) (m : co unit) : co unit := if b then m else CRet tt.
(* drivers/avalon.py:121-122, 179-180 *)
Definition cset_be_all : co unit := match a_be c with Some n => cdrive (q_set_be (repeat L1 n)) | None => CRet tt end.
(* drivers/avalon.py:133-134, 191-192 *)
Definition cset_be_none : co unit := match a_be c with Some n => cdrive (q_set_be (zeros n)) | None => CRet tt end.
(* drivers/avalon.py:139-144: the loop waiting for readdatavalid *)
Definition crdv_body (_ : unit) : co (unit + unit) :=
  creadonly ;;;
  i <-- cinput ;;;
  match i_rdv i with
  | L1 => CRet (inr tt)
  | L0 => cedge ;;; CRet (inl tt)
  | _ => CExn EValue
  end.

(** AvalonMaster.read (93-155), between _acquire_lock and _release_lock *)
Definition cread_body (fuel : nat) (address : Z) (sync : bool) : co bits :=
  cwhen sync cedge ;;;                                                     (* 117-118 *)
  a <-- cof_res (assign_int (a_width c) address) ;;;
  cdrive (q_set_addr a) ;;;                                                (* 119 *)
  cdrive (q_set_read L1) ;;;                                               (* 120 *)
  cset_be_all ;;;                                                          (* 121-122 *)
  cwhen (a_cs c) (cdrive (q_set_cs L1)) ;;;                                (* 123-124 *)
  cwhen (a_wait c) (cwait_for_nsignal i_wait fuel) ;;;                     (* 127-128 *)
  cedge ;;;                                                                (* 129 *)
  cdrive (q_set_read L0) ;;;                                               (* 132 *)
  cset_be_none ;;;                                                         (* 133-134 *)
  cwhen (a_cs c) (cdrive (q_set_cs L0)) ;;;                                (* 135-136 *)
  cdrive (q_set_addr (xs (a_width c))) ;;;                                 (* 137 *)
  (if a_rdv c then cloop fuel crdv_body tt else creadonly) ;;;             (* 139-149 *)
  i <-- cinput ;;;                                                         (* 152 *)
  CRet (i_rdata i).
Definition cread (fuel : nat) (address : Z) (sync : bool) : co bits :=
  if a_read c then                                                         (* 110-112 *)
    cacquire ;;;                                                           (* 114 *)
    d <-- cread_body fuel address sync ;;;
    crelease ;;;                                                           (* 154 *)
    CRet d
  else CExn EAssertion.

(** AvalonMaster.write (157-197) *)
Definition cwrite_body (fuel : nat) (address value : Z) : co unit :=
  cedge ;;;                                                                (* 175 *)
  a <-- cof_res (assign_int (a_width c) address) ;;;
  cdrive (q_set_addr a) ;;;                                                (* 176 *)
  v <-- cof_res (assign_int (d_width c) value) ;;;
  cdrive (q_set_wdata v) ;;;                                               (* 177 *)
  cdrive (q_set_write L1) ;;;                                              (* 178 *)
  cset_be_all ;;;                                                          (* 179-180 *)
  cwhen (a_cs c) (cdrive (q_set_cs L1)) ;;;                                (* 181-182 *)
  cwhen (a_wait c) (cwait_for_nsignal i_wait fuel) ;;;                     (* 185-186 *)
  cedge ;;;                                                                (* 189 *)
  cdrive (q_set_write L0) ;;;                                              (* 190 *)
  cset_be_none ;;;                                                         (* 191-192 *)
  cwhen (a_cs c) (cdrive (q_set_cs L0)) ;;;                                (* 193-194 *)
  cdrive (q_set_addr (xs (a_width c))) ;;;                                 (* 195 *)
  cdrive (q_set_wdata (xs (d_width c))).                                   (* 196 *)
Definition cwrite (fuel : nat) (address value : Z) : co unit :=
  if a_write c then                                                        (* 168-170 *)
    cacquire ;;;                                                           (* 172 *)
    cwrite_body fuel address value ;;;
    crelease                                                               (* 197 *)
  else CExn EAssertion.

(** a call: what a read returns, None for a write *)
(* drivers/avalon.py:93-197: one call of read or write *)
Definition ccall (fuel : nat) (x : mm_op) : co (option bits) :=
  match x with
  | MMRead a => d <-- cread fuel a true ;;; CRet (Some d)
  | MMWrite a v => cwrite fuel a v ;;; CRet None
  end.

(** a task that makes one call after the other: the results *)
(* drivers/avalon.py:93-197: calls one after the other *)
Fixpoint ccalls (fuel : nat) (l : list mm_op) : co (list (option bits)) :=
  match l with
  | [] => CRet []
  | x :: r => d <-- ccall fuel x ;;; ds <-- ccalls fuel r ;;; CRet (d :: ds)
  end.

(** the tasks of a test: each waits some cycles and makes its calls.  [p], [o]: the phase and
    the outputs at the start *)
(* drivers/avalon.py:93-197: a test with several tasks on one master *)
Definition test_start (fuel : nat) (tasks : list (nat * list mm_op)) (p : phase) (o : mm_out) (l : list mm_in)
  : mach bool mm_in mm_out (list (option bits)) :=
  Mach false false p o [] l (map (fun x => TReady (after (fst x) (ccalls fuel (snd x)))) tasks).
End Master.
