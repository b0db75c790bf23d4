(** AvMemModel.v -- AvalonMemory (drivers/avalon.py:200-509). *)
From Verif Require Export Async CompatModel.
Local Open Scope list_scope.

(** ** The configuration dictionary (214-220, 235-237).
    [_avalon_properties] is a class attribute: one dictionary shared by all
    instances.  Values are booleans or numbers; only the keys the memory uses. *)
Record aprops := AProps { p_wait : bool; p_maxwait : nat; p_latency : nat }.
Record uprops := UProps { u_wait : option bool; u_maxwait : option nat; u_latency : option nat }.
Definition default_props := AProps true 4 1.                           (* 214-220 *)
(* drivers/avalon.py:230: avl_properties={} *)
Definition no_props := UProps None None None.
(* drivers/avalon.py:237: avl_properties.get(key, value) *)
Definition opt {A} (o : option A) (d : A) : A := match o with Some a => a | None => d end.
(** what constructing an instance with avl_properties=[u] does to the class
    dictionary (235-237) (for u = {} nothing: same result) *)
Definition construct (shared : aprops) (u : uprops) : aprops :=
  AProps (opt (u_wait u) (p_wait shared)) (opt (u_maxwait u) (p_maxwait shared))
         (opt (u_latency u) (p_latency shared)).

(** ** The bus *)
(* drivers/avalon.py:222-294: what the constructor finds and is given *)
Record am_cfg := AmCfg {
  m_width : nat;              (* of readdata and writedata *)
  m_readable : bool;          (* readdata present *)
  m_writeable : bool;         (* writedata present *)
  m_rdv : bool;               (* readdatavalid present *)
  m_wait : bool;              (* waitrequest present *)
  m_bc : bool;                (* burstcount present *)
  m_be : bool;                (* byteenable present *)
  m_latmin : nat; m_latmax : nat;   (* readlatency_min, readlatency_max *)
  m_props : aprops
}.
(** what the masters drive (signals the bus lacks have arbitrary values), and
    what the memory drives *)
(* drivers/avalon.py:203-213: the signals the memory reads *)
Record am_in := AmIn { v_read : logic; v_write : logic; v_addr : bits; v_wdata : bits;
                       v_bcount : bits; v_be : bits }.
(* drivers/avalon.py:203-213: the signals the memory drives *)
Record am_out := AmOut { w_wait : logic; w_data : bits; w_valid : logic }.
(* drivers/avalon.py:282-291, 364-369, 423-426, 509: self.bus.waitrequest.value = v *)
Definition w_set_wait v o := AmOut v (w_data o) (w_valid o).
(* drivers/avalon.py:314: self.bus.readdata.value = v *)
Definition w_set_data v o := AmOut (w_wait o) v (w_valid o).
(* drivers/avalon.py:279, 294, 316, 318: self.bus.readdatavalid.value = v *)
Definition w_set_valid v o := AmOut (w_wait o) (w_data o) v.

(** the memory dictionary *)
(* drivers/avalon.py:267-271: self._mem, a dictionary *)
Definition memory := Z -> option Z.
(* drivers/avalon.py:355, 486: self._mem[a] = v *)
Definition mupd (m : memory) (a v : Z) : memory := fun x => if (x =? a)%Z then Some v else m x.

(** queued responses: None, True (uninitialised), a value *)
(* drivers/avalon.py:300, 388, 395, 440, 453: an entry of self._responses (None, True, a number) *)
Inductive resp := RNone | RX | RVal (v : Z).

(** The state of the object; [a_rnd], [a_pos] stand for the random module: the
    k-th random draw is [a_rnd k].  Every stream of outcomes is some [a_rnd]. *)
(* drivers/avalon.py:268-275: the attributes of the object that change; random numbers as a stream *)
Record am_state := AmState {
  a_mem : memory; a_resp : list resp; a_rnd : nat -> nat; a_pos : nat }.
(* drivers/avalon.py:355, 486: assignment to self._mem *)
Definition set_mem m s := AmState m (a_resp s) (a_rnd s) (a_pos s).
(* drivers/avalon.py:300-304, 388-395, 440-453: update of self._responses *)
Definition set_resp r s := AmState (a_mem s) r (a_rnd s) (a_pos s).

Section Mem.
Context (c : am_cfg).
Notation M := (M am_state am_in am_out).
(* drivers/avalon.py:296-509: any update of the object's attributes *)
Definition modify (f : am_state -> am_state) : M unit := s <- get ;; put (f s).

(** one draw *)
(* drivers/avalon.py:298, 360, 362: one number from the random module *)
Definition draw : M nat :=
  s <- get ;;
  put (AmState (a_mem s) (a_resp s) (a_rnd s) (S (a_pos s))) ;; ret (a_rnd s (a_pos s)).
(** random.randint(lo, hi): ValueError for an empty range *)
(* drivers/avalon.py:298, 362: random.randint(lo, hi) *)
Definition randint (lo hi : nat) : M nat :=
  if lo <=? hi then r <- draw ;; ret (lo + r mod (S (hi - lo))) else raise EValue.
(** random.choice([True, False, False, False]) *)
(* drivers/avalon.py:360: random.choice([True, False, False, False]) *)
Definition coin : M bool := r <- draw ;; ret (r mod 4 =? 0).

(** dataByteSize (253, 261) *)
Definition dsize : nat := m_width c / 8.
Definition burstread : bool := m_readable c && m_bc c && m_rdv c.   (* 285-286; only used if _readable *)
Definition burstwrite : bool := m_bc c.                            (* 287 *)

(** __init__ (278-294): what is driven; [o] is there before *)
Definition am_init (o : am_out) : am_out :=
  AmOut (if m_bc c then (if p_wait (m_props c) then L1 else L0)
         else if m_wait c then L0 else w_wait o)
        (w_data o) (if m_rdv c then L0 else w_valid o).

(** _pad (296-300) *)
Definition pad (r : list resp) (l : nat) : list resp := r ++ repeat RNone (l - length r).

(** reading signals: right after an edge the values of the previous cycle, else
    the settled values of this one (before the first edge nothing is known; the
    coroutine never reads there) *)
(* drivers/avalon.py:378-383, 457-462: the values read in the read-only phase *)
Definition sample : M am_in := fun w =>
  match ph w, rev (trace w) with
  | PActive, (i, _) :: _ => (Done i, w)
  | PActive, [] => (Susp, w)
  | _, _ => input w
  end.
(** int(sig.value) *)
(* drivers/avalon.py:383, 407, 459-462: int(value), an exception if X or Z *)
Definition toint (b : bits) : M Z := match bval b with Some z => ret z | None => raise EValue end.

(** _do_response (302-318) *)
Definition do_response : M unit :=
  s <- get ;;
  match a_resp s with
  | [] | RNone :: _ =>
      modify (set_resp (tl (a_resp s))) ;;
      (if m_rdv c then drive (w_set_valid L0) else ret tt)                (* 317-318 *)
  | RX :: r =>
      modify (set_resp r) ;; drive (w_set_data (xs (m_width c))) ;;       (* 309-310, 314 *)
      (if m_rdv c then drive (w_set_valid L1) else ret tt)                (* 315-316 *)
  | RVal v :: r =>
      modify (set_resp r) ;;
      b <- of_res (create_binary (BInt v) (m_width c) false) ;;           (* 312-314 *)
      drive (w_set_data b) ;;
      (if m_rdv c then drive (w_set_valid L1) else ret tt)
  end.

(** a non-burst read request (382-395) *)
Definition mem_resp (m : memory) (a : Z) : resp :=
  match m a with None => RX | Some v => RVal v end.
Definition simple_read : M unit :=
  l <- randint (m_latmin c) (m_latmax c) ;;                               (* 298 *)
  modify (fun s => set_resp (pad (a_resp s) l) s) ;;                      (* 299-300 *)
  i <- sample ;; a <- toint (v_addr i) ;;                                 (* 383 *)
  modify (fun s => set_resp (a_resp s ++ [mem_resp (a_mem s) a]) s).      (* 384-395 *)

(** a non-burst write (459-486): the masks (463-476) *)
Definition be_mask (be : Z) : Z :=
  fold_left (fun m i => if Z.testbit be (Z.of_nat i) then Z.lor m (Z.shiftl 255 (8 * Z.of_nat i)) else m)
            (seq 0 (m_width c / 8)) 0%Z.
(* drivers/avalon.py:464, 472-476: oldmask *)
Definition be_oldmask (be : Z) : Z :=
  fold_left (fun m i => if Z.testbit be (Z.of_nat i) then m else Z.lor m (Z.shiftl 255 (8 * Z.of_nat i)))
            (seq 0 (m_width c / 8)) 0%Z.
Definition store_word (m : memory) (a data : Z) (be : option Z) : memory :=
  match be with
  | None => mupd m a data
  | Some be =>
      let old := opt (m a) 0%Z in
      mupd m a (Z.lor (Z.land data (be_mask be)) (Z.land old (be_oldmask be)))  (* 465-467, 481 *)
  end.
Definition simple_write : M unit :=
  i <- sample ;;
  a <- toint (v_addr i) ;; d <- toint (v_wdata i) ;;                      (* 459-460 *)
  (if m_be c
   then be <- toint (v_be i) ;; modify (fun s => set_mem (store_word (a_mem s) a d (Some be)) s)
   else modify (fun s => set_mem (store_word (a_mem s) a d None) s)).     (* 461-486 *)

(** int(addr / dataByteSize) (406): Python's true division is the exact quotient
    rounded to a 53-bit significand (half to even), then truncated.  Here for
    a >= 0, b > 0 and quotients below 2^1024 (OverflowError beyond, not modelled). *)
Definition half_even (n d : Z) : Z :=
  let q := (n / d)%Z in let r := (n mod d)%Z in
  if (2 * r <? d)%Z then q else if (d <? 2 * r)%Z then (q + 1)%Z
  else if Z.even q then q else (q + 1)%Z.
Definition float_div (a b : Z) : Z :=
  let q := (a / b)%Z in
  let s := (if q =? 0 then 53 else 52 - Z.log2 q)%Z in     (* a/b * 2^s has 53 bits *)
  if (0 <=? s)%Z then (half_even (a * 2 ^ s) b / 2 ^ s)%Z
  else (half_even a (b * 2 ^ (- s)) * 2 ^ (- s))%Z.

(** reading a word of a burst (432-453): KeyError if it is partly uninitialised *)
Fixpoint word_at (m : memory) (a : Z) (n : nat) : res Z :=
  match n with
  | O => Ok 0%Z
  | S n' =>
      match m a with
      | None => Err EKey
      | Some v => rbind (word_at m (a + 1) n') (fun r => Ok (v + Z.shiftl r 8)%Z)
      end
  end.
Definition burst_beat (addr : Z) (count : nat) : M unit :=
  s <- get ;;
  let a := ((addr + Z.of_nat count) * Z.of_nat dsize)%Z in
  (match a_mem s a with
   | None => modify (fun s => set_resp (a_resp s ++ [RX]) s)
   | Some _ => v <- of_res (word_at (a_mem s) a dsize) ;;
               modify (fun s => set_resp (a_resp s ++ [RVal v]) s)
   end) ;;
  edge ;; do_response.                                                     (* 454-455 *)
(** a burst read (397-455); the alignment, byteenable and count-0 complaints are
    log messages only.  byteenable must exist (408) *)
Definition need {A} (b : bool) (m : M A) : M A := if b then m else raise EAttribute.
Definition burst_read : M unit :=
  i <- sample ;;
  a <- toint (v_addr i) ;;                                                (* 397 *)
  (if dsize =? 0 then raise EValue else ret tt) ;;   (* ZeroDivisionError (398) *)
  let addr := float_div a (Z.of_nat dsize) in                             (* 406 *)
  n <- toint (v_bcount i) ;;                                              (* 407 *)
  need (m_be c)                                                           (* 408 *)
  (need (m_wait c)
  (midstep ;; drive (w_set_wait L1) ;; edge ;; edge ;; drive (w_set_wait L0) ;;  (* 422-426 *)
   edges (p_latency (m_props c)) ;;                                       (* 429-430 *)
   for_each (burst_beat addr) (seq 0 (Z.to_nat n)))).                     (* 431-455 *)

(** _waitrequest (357-369) *)
Definition waitrequest : M unit :=
  if p_wait (m_props c) then
    h <- coin ;;
    (if h : bool
     then n <- randint 0 (p_maxwait (m_props c)) ;;
          for_each (fun _ => drive (w_set_wait L1) ;; edge) (seq 0 n)
     else midstep) ;;
    need (m_wait c) (drive (w_set_wait L0))
  else ret tt.

(** waiting for write (495-496).  The values seen are those of [sample]; after
    NextTimeStep the signals of the cycle are settled, and if write is still 0
    further time steps pass until a cycle with another value. *)
Definition nzero (i : am_in) : bool := negb (logic_eqb (v_write i) L0).
(* drivers/avalon.py:495-496: while self.bus.write.value == 0 *)
Definition wait_write : M unit :=
  i <- sample ;;
  if nzero i then ret tt
  else midstep ;;
       (fun w =>
          let '(a, b) := span nzero (ins w) in
          match a, b with
          | _, [] => (Susp, World (st w) PActive (out w) (trace w ++ held (out w) a) [])
          | _, _ => (Done tt, World (st w) PMid (out w) (trace w ++ held (out w) a) b)
          end).

(** _writing_byte_value (348-355): the bytes, little endian *)
Fixpoint store_bytes (m : memory) (a : Z) (data : Z) (n : nat) : memory :=
  match n with
  | O => m
  | S n' => store_bytes (mupd m a (Z.land data 255)) (a + 1) (Z.shiftr data 8) n'
  end.
Definition write_beat (addr : Z) (count : nat) : M unit :=
  wait_write ;;                                                           (* 495-496 *)
  midstep ;;                                                              (* 350, FallingEdge *)
  i <- sample ;;
  (if dsize =? 0 then ret tt
   else d <- toint (v_wdata i) ;;                                         (* 351-355 *)
        modify (fun s => set_mem (store_bytes (a_mem s) (addr + Z.of_nat (count * dsize)) d dsize) s)) ;;
  toint (v_wdata i) ;;                                                    (* 501, the log message *)
  edge ;;                                                                 (* 504 *)
  waitrequest.                                                            (* 506 *)
Definition burst_write : M unit :=
  waitrequest ;;                                                          (* 490 *)
  i <- sample ;;
  a <- toint (v_addr i) ;;                                                (* 322 *)
  (if dsize =? 0 then raise EValue else ret tt) ;;   (* ZeroDivisionError (323) *)
  need (m_be c)                                                           (* 332 *)
  (n <- toint (v_bcount i) ;;                                             (* 342 *)
   for_each (write_beat a) (seq 0 (Z.to_nat n)) ;;
   (if p_wait (m_props c) then drive (w_set_wait L1) else ret tt)).       (* 508-509 *)

(** _respond (371-509): one iteration, and the endless loop *)
Definition is_one (l : logic) : bool := logic_eqb l L1.
Definition respond_body : M unit :=
  edge ;;                                                                 (* 375 *)
  do_response ;;                                                          (* 376 *)
  readonly ;;                                                             (* 378 *)
  i <- sample ;;
  (if m_readable c && is_one (v_read i)
   then (if burstread then burst_read else simple_read) else ret tt) ;;   (* 380-455 *)
  i <- sample ;;
  (if m_writeable c && is_one (v_write i)
   then (if burstwrite then burst_write else simple_write) else ret tt).  (* 457-509 *)
Definition respond (fuel : nat) : M unit :=
  loop fuel (fun _ => respond_body ;; ret (inl tt)) tt.
End Mem.
