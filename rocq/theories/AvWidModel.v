(** AvWidModel.v -- an AvalonMemory whose readdata and writedata have different widths
    (drivers/avalon.py:251-262): the constructor logs an error and goes on with the width of
    writedata.  AvMemModel.v has the code; here [rw] is the width of readdata.
    Simplified: both have at least 2 bits. *)
From Verif Require Export AvSigModel.
Local Open Scope list_scope.

Section Wid.
Context (c : am_cfg) (rw : nat).
Notation M := (M am_state am_in am_out).

(** __init__ (222-294): the widths decide nothing (251-262) *)
Definition wid_construct : res unit * bool := mem_construct (MemBus c true true).

(** self.bus.readdata.value = val (314), where val has the width of writedata: cocotb raises
    ValueError for a value of another length *)
Definition put_data (b : bits) : M unit :=
  if Nat.eqb (length b) rw then drive (w_set_data b) else raise EValue.

(** _do_response (302-318) *)
Definition wid_response : M unit :=
  s <- get ;;
  match a_resp s with
  | [] | RNone :: _ =>
      modify (set_resp (tl (a_resp s))) ;;
      (if m_rdv c then drive (w_set_valid L0) else ret tt)                (* 317-318 *)
  | RX :: r =>
      modify (set_resp r) ;; put_data (xs (m_width c)) ;;                 (* 309-310, 314 *)
      (if m_rdv c then drive (w_set_valid L1) else ret tt)                (* 315-316 *)
  | RVal v :: r =>
      modify (set_resp r) ;;
      b <- of_res (create_binary (BInt v) (m_width c) false) ;;           (* 312-314 *)
      put_data b ;;
      (if m_rdv c then drive (w_set_valid L1) else ret tt)
  end.

(** reading a word of a burst (432-455) *)
Definition wid_burst_beat (addr : Z) (count : nat) : M unit :=
  s <- get ;;
  let a := ((addr + Z.of_nat count) * Z.of_nat (dsize c))%Z in
  (match a_mem s a with
   | None => modify (fun s => set_resp (a_resp s ++ [RX]) s)
   | Some _ => v <- of_res (word_at (a_mem s) a (dsize c)) ;;
               modify (fun s => set_resp (a_resp s ++ [RVal v]) s)
   end) ;;
  edge ;; wid_response.                                                    (* 454-455 *)
(** a burst read (397-455) *)
Definition wid_burst_read : M unit :=
  i <- sample ;;
  a <- toint (v_addr i) ;;                                                (* 397 *)
  (if dsize c =? 0 then raise EValue else ret tt) ;;   (* ZeroDivisionError (398) *)
  let addr := float_div a (Z.of_nat (dsize c)) in                         (* 406 *)
  n <- toint (v_bcount i) ;;                                              (* 407 *)
  need (m_be c)                                                           (* 408 *)
  (need (m_wait c)
  (midstep ;; drive (w_set_wait L1) ;; edge ;; edge ;; drive (w_set_wait L0) ;;  (* 422-426 *)
   edges (p_latency (m_props c)) ;;                                       (* 429-430 *)
   for_each (wid_burst_beat addr) (seq 0 (Z.to_nat n)))).                 (* 431-455 *)

(** _respond (371-509) *)
Definition wid_respond_body : M unit :=
  edge ;;                                                                 (* 375 *)
  wid_response ;;                                                         (* 376 *)
  readonly ;;                                                             (* 378 *)
  i <- sample ;;
  (if m_readable c && is_one (v_read i)
   then (if burstread c then wid_burst_read else simple_read c) else ret tt) ;;    (* 380-455 *)
  i <- sample ;;
  (if m_writeable c && is_one (v_write i)
   then (if burstwrite c then burst_write c else simple_write c) else ret tt).     (* 457-509 *)
Definition wid_respond (fuel : nat) : M unit :=
  loop fuel (fun _ => wid_respond_body ;; ret (inl tt)) tt.
End Wid.
