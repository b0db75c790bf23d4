(** AxiModel.v -- AXI4Master and AXI4LiteMaster (drivers/amba.py:28-37, 51-675). *)
From Verif Require Export Async CompatModel PktModel.
Local Open Scope list_scope.

(** AXIBurst (28-31) *)
Inductive burst := FIXED | INCR | WRAP.
Definition burst_value (b : burst) : Z := match b with FIXED => 0 | INCR => 1 | WRAP => 2 end.

(** ** Parameter checks: Python ints are [Z] *)
(** _check_length (149-165) *)
Definition check_length (length : Z) (b : burst) : res unit :=
  if (length <=? 0)%Z then Err EValue
  else match b with
       | INCR => if (256 <? length)%Z then Err EValue else Ok tt
       | WRAP => if existsb (Z.eqb length) [1; 2; 4; 8; 16]%Z then Ok tt else Err EValue
       | FIXED => if (16 <? length)%Z then Err EValue else Ok tt
       end.
(** _check_size (167-177) *)
Definition check_size (size data_bus_width : Z) : res unit :=
  if (data_bus_width <? size)%Z then Err EValue
  else if (size <=? 0)%Z || negb (Z.land size (size - 1) =? 0)%Z then Err EValue
  else Ok tt.
(** _check_4kB_boundary_crossing (179-193) *)
Definition check_4kB (address : Z) (b : burst) (size length : Z) : res unit :=
  match b with
  | INCR =>
      let last_address := (address + size * (length - 1))%Z in
      if (Z.land address (Z.lnot 4095) =? Z.land last_address (Z.lnot 4095))%Z then Ok tt else Err EValue
  | _ => Ok tt
  end.
(** the checks at the beginning of write (363-369) and read (476-482): the beat
    size to use; [None] is the full bus width, which is not checked *)
Definition check_params (bus_bytes address length : Z) (size : option Z) (b : burst) : res Z :=
  rbind (match size with
         | None => Ok bus_bytes
         | Some s => rbind (check_size s bus_bytes) (fun _ => Ok s)
         end) (fun s =>
  rbind (check_length length b) (fun _ =>
  rbind (check_4kB address b s length) (fun _ => Ok s))).

(** ** Write data (_send_write_data, 234-300) *)
(** mask_and_shift (246-248) *)
Definition mask_and_shift (value block_size block_num : Z) : Z :=
  Z.shiftl (Z.land value (2 ^ block_size - 1)) (block_num * block_size).
(** unalign_data (250-260) *)
Definition unalign_word (size_bits shift prev cur : Z) : Z :=
  let low_mask := (2 ^ (size_bits - shift) - 1)%Z in
  let high_mask := Z.shiftl (2 ^ shift - 1) (size_bits - shift) in
  Z.lor (Z.shiftr (Z.land prev high_mask) (size_bits - shift))
        (Z.shiftl (Z.land cur low_mask) shift).
(* drivers/amba.py:251-260 *)
Definition unalign_data (data : list Z) (size_bits shift : Z) : list Z :=
  map (fun x => unalign_word size_bits shift (fst x) (snd x)) (combine (0%Z :: data) data).
(** the strobes (262-273): at least one byte enable is consumed per value as long
    as there are any; then the last one is repeated.  IndexError on an empty list. *)
Definition strobe_of (size : Z) (be : option Z) : Z :=
  match be with None => (2 ^ size - 1)%Z | Some v => v end.
(* drivers/amba.py:262-273 *)
Definition strobes (n : nat) (size : Z) (byte_enable : list (option Z)) : res (list Z) :=
  let taken := map (strobe_of size) (firstn n byte_enable) in
  if n <=? length byte_enable then Ok taken
  else match rev taken with
       | [] => Err EIndex
       | s :: _ => Ok (taken ++ repeat s (n - length taken))
       end.
(** unaligned words and strobes (275-283) *)
Definition unaligned (address : Z) (b : burst) (size : Z) (data strbs : list Z) : list Z * list Z :=
  if (address mod size =? 0)%Z then (data, strbs)
  else
    let shift := (address mod size * 8)%Z in
    match b with
    | FIXED => (map (fun w => Z.land (Z.shiftl w shift) (2 ^ (size * 8) - 1)) data,
                map (fun s => Z.land (Z.shiftl s (shift / 8)) (2 ^ size - 1)) strbs)
    | _ => (unalign_data data (size * 8) shift, unalign_data strbs size (address mod size))
    end.
(** the values driven for each beat (289-300) *)
Fixpoint beats_from (bus_bytes : Z) (b : burst) (size block : Z) (l : list (Z * Z)) : list (Z * Z) :=
  match l with
  | [] => []
  | (word, strobe) :: r =>
      (mask_and_shift word (size * 8) block, mask_and_shift strobe size block)
      :: beats_from bus_bytes b size
           (match b with FIXED => block | _ => ((block + 1) mod (bus_bytes / size))%Z end) r
  end.
(* drivers/amba.py:262-300: WDATA and WSTRB of each beat *)
Definition write_beats (bus_bytes address : Z) (b : burst) (size : Z) (data : list Z)
           (byte_enable : list (option Z)) : res (list (Z * Z)) :=
  rbind (strobes (length data) size byte_enable) (fun strbs =>
  let '(data, strbs) := unaligned address b size data strbs in
  Ok (beats_from bus_bytes b size (address mod bus_bytes / size)%Z (combine data strbs))).

(** ** Read data (450-474, 552-560) *)
(** shift_and_mask (450-459) *)
Definition shift_and_mask (binvalue : bits) (bytes_num byte_shift : Z) : res bits :=
  let start := (byte_shift * 8)%Z in
  let stop := ((bytes_num + byte_shift) * 8)%Z in
  let n := Z.of_nat (length binvalue) in
  binary_slice binvalue (n - stop) (n - start - 1).
(** realign_data (461-474); the words consist of whole bytes, so that create_binary
    keeps them as they are (never one bit) *)
Definition realign_data (data : list bits) (size_bits shift : nat) : res (list bits) :=
  let join := skipn shift (concat (map (@rev logic) data)) in
  fold_right (fun i acc =>
                let s := rev (slice join (i * size_bits) ((i + 1) * size_bits)) in
                rbind (create_binary (BStr s) (length s) true) (fun w => rbind acc (fun r => Ok (w :: r))))
             (Ok []) (seq 0 (length data)).
(* drivers/amba.py:471-474: a list comprehension whose elements may raise *)
Definition sequence {A} (l : list (res A)) : res (list A) :=
  fold_right (fun x acc => rbind x (fun a => rbind acc (fun r => Ok (a :: r)))) (Ok []) l.
(** the returned words (552-560) *)
Definition realigned (address : Z) (b : burst) (size : Z) (data : list bits) : res (list bits) :=
  if (address mod size =? 0)%Z then Ok data
  else
    let shift := (address mod size * 8)%Z in
    match b with
    | FIXED => sequence (map (fun w => binary_slice w 0 (size * 8 - shift - 1)) data)
    | _ => realign_data data (Z.to_nat (size * 8)) (Z.to_nat shift)
    end.

(** ** The bus *)
Record axi_cfg := AxiCfg {
  x_width : nat;      (* of WDATA and RDATA *)
  x_awidth : nat;     (* of AWADDR and ARADDR *)
  x_full : bool;      (* AxBURST (2 bits), AxLEN (8), AxSIZE (3), RLAST present: AXI4, not AXI4-Lite *)
  x_wlast : bool      (* WLAST present *)
}.
Definition x_bytes (c : axi_cfg) : Z := (Z.of_nat (x_width c) / 8)%Z.       (* len(self.bus.WDATA) // 8 *)
(** what the slave drives *)
(* drivers/amba.py:57-86: the signals the master reads *)
Record axi_in := AxiIn {
  g_awready : logic; g_wready : logic; g_bvalid : logic; g_bresp : bits;
  g_arready : logic; g_rvalid : logic; g_rresp : bits; g_rdata : bits; g_rlast : logic }.
(** what the master drives on each channel.  The two tasks of a write drive
    different signals, so that each is modelled on its own. *)
(* drivers/amba.py:57-86: the signals of an address channel *)
Record ax_out := AxOut { x_valid : logic; x_addr : bits; x_burst : bits; x_len : bits; x_size : bits }.
(* drivers/amba.py:57-100: the signals of the write data channel *)
Record w_out := WOut { x_wvalid : logic; x_wdata : bits; x_wstrb : bits; x_last : logic }.

(* drivers/amba.py:214, 232, 492, 510: AWVALID, ARVALID *)
Definition ax_set_valid v o := AxOut v (x_addr o) (x_burst o) (x_len o) (x_size o).
(* drivers/amba.py:213, 491: AWADDR, ARADDR *)
Definition ax_set_addr v o := AxOut (x_valid o) v (x_burst o) (x_len o) (x_size o).
(* drivers/amba.py:217, 501: AWBURST, ARBURST *)
Definition ax_set_burst v o := AxOut (x_valid o) (x_addr o) v (x_len o) (x_size o).
(* drivers/amba.py:220, 495: AWLEN, ARLEN *)
Definition ax_set_len v o := AxOut (x_valid o) (x_addr o) (x_burst o) v (x_size o).
(* drivers/amba.py:223, 498: AWSIZE, ARSIZE *)
Definition ax_set_size v o := AxOut (x_valid o) (x_addr o) (x_burst o) (x_len o) v.
(* drivers/amba.py:295, 314: WVALID *)
Definition w_set_valid v o := WOut v (x_wdata o) (x_wstrb o) (x_last o).
(* drivers/amba.py:296: WDATA *)
Definition w_set_data v o := WOut (x_wvalid o) v (x_wstrb o) (x_last o).
(* drivers/amba.py:297: WSTRB *)
Definition w_set_strb v o := WOut (x_wvalid o) (x_wdata o) v (x_last o).
(* drivers/amba.py:304-306: WLAST *)
Definition w_set_last v o := WOut (x_wvalid o) (x_wdata o) (x_wstrb o) v.

(** int.bit_length() *)
(* drivers/amba.py:223: int.bit_length *)
Definition bit_length (z : Z) : Z := (if z =? 0 then 0 else Z.log2 (Z.abs z) + 1)%Z.

Section Channels.
Context (c : axi_cfg) {TO : Type}.
Notation MA := (M unit axi_in ax_out).
Notation MW := (M unit axi_in w_out).

(* drivers/amba.py:206, 216-222, 302: if, without else *)
Definition x_when {TO} (b : bool) (m : M unit axi_in TO unit) : M unit axi_in TO unit :=
  if b then m else ret tt.
(* drivers/amba.py:213-223, 296-297: assignment of an int to a signal of n bits *)
Definition assign {TO} (n : nat) (z : Z) (set : bits -> TO -> TO) : M unit axi_in TO unit :=
  v <- of_res (assign_int n z) ;; drive (set v).
(** RisingEdge, then reading signals: the values of the cycle that ends with the edge *)
(* drivers/amba.py:309-310: await RisingEdge, then the values read *)
Definition edge_sample {TO} : M unit axi_in TO axi_in := fun w =>
  match ins w with
  | [] => (Susp, w)
  | i :: r => (Done i, World (st w) PActive (out w) (trace w ++ [(i, out w)]) r)
  end.
(** while True: ReadOnly; if the signal is "1": break; RisingEdge (226-230, 503-507) *)
Definition until1 {TO} (key : axi_in -> logic) (fuel : nat) : M unit axi_in TO unit :=
  loop fuel (fun _ : unit =>
    readonly ;; i <- input ;;
    if is1 (key i) then ret (inr tt) else edge ;; ret (inl tt)) tt.

(** Here accesses are made one after the other, so that the locks (async with self.*_busy)
    are free; "async with" releases also on an exception.  AxcModel.v has several tasks. *)

(** _send_write_address (195-232) *)
Definition send_write_address (fuel : nat) (address length : Z) (b : burst) (size : Z)
           (delay : nat) (sync : bool) : MA unit :=
  x_when sync edge ;;                                                     (* 206-207 *)
  edges delay ;;                                                          (* 209 *)
  assign (x_awidth c) address ax_set_addr ;;                              (* 213 *)
  drive (ax_set_valid L1) ;;                                              (* 214 *)
  x_when (x_full c) (assign 2 (burst_value b) ax_set_burst) ;;            (* 216-217 *)
  x_when (x_full c) (assign 8 (length - 1) ax_set_len) ;;                 (* 219-220 *)
  x_when (x_full c) (assign 3 (bit_length size - 1) ax_set_size) ;;       (* 222-223 *)
  until1 g_awready fuel ;;                                                (* 226-230 *)
  edge ;;                                                                 (* 231 *)
  drive (ax_set_valid L0).                                                (* 232 *)

(** _send_write_data, sending (285-314): [beats] is what [write_beats] gave *)
Fixpoint send_beats (fuel : nat) (delay : nat) (beats : list (Z * Z)) : MW unit :=
  match beats with
  | [] => ret tt
  | (word, strobe) :: r =>
      edges delay ;;                                                      (* 293 *)
      drive (w_set_valid L1) ;;                                           (* 295 *)
      assign (x_width c) word w_set_data ;;                               (* 296 *)
      assign (Z.to_nat (x_bytes c)) strobe w_set_strb ;;                  (* 297; WSTRB has a bit per byte *)
      x_when (x_wlast c) (drive (w_set_last (match r with [] => L1 | _ => L0 end))) ;;  (* 302-306 *)
      loop fuel (fun _ : unit =>
        i <- edge_sample ;; if is1 (g_wready i) then ret (inr tt) else ret (inl tt)) tt ;;  (* 308-311 *)
      x_when (match r with [] => true | _ => false end) (drive (w_set_valid L0)) ;;  (* 313-314 *)
      send_beats fuel delay r
  end.
Definition send_write_data (fuel : nat) (address : Z) (data : list Z) (b : burst) (size : Z)
           (delay : nat) (byte_enable : list (option Z)) (sync : bool) : MW unit :=
  beats <- of_res (write_beats (x_bytes c) address b size data byte_enable) ;;
  x_when sync edge ;;                                                     (* 286-287 *)
  send_beats fuel delay beats.

(** the response phase of write (381-393) and the final check (395-406).
    BREADY is 1 since construction (111) and never changed. *)
Definition write_response (fuel : nat) : M unit axi_in TO unit :=
  r <- loop fuel (fun _ : unit =>
         readonly ;; i <- input ;;
         if is1 (g_bvalid i)
         then match bval (g_bresp i) with
              | Some v => ret (inr v)                                     (* AXIxRESP(int(BRESP)) *)
              | None => raise EValue
              end
         else edge ;; ret (inl tt)) tt ;;
  edge ;;                                                                 (* 393 *)
  if (r =? 0)%Z then ret tt else raise (EAXIProtocol r).                  (* 395-406 *)
End Channels.

(** ** write (316-406) *)
Record waccess := WAccess {
  wa_address : Z; wa_value : list Z; wa_size : option Z; wa_burst : burst;
  wa_be : list (option Z); wa_alat : nat; wa_dlat : nat; wa_sync : bool }.
(** The outcome of a write: the result, the cycles seen on the address, data and
    response channels, the signals driven at the end, and the cycles left.  The
    two tasks start together and run on the same cycles; [Combine] waits for the
    later one, which always ends right after an edge.  An exception in one task is
    the exception of the access (the other task goes on; not modelled further:
    the cycles of that run are those of the task that raised, or of both). *)
Record write_run := WriteRun {
  wr_result : outcome unit;
  wr_aw : list (axi_in * ax_out); wr_w : list (axi_in * w_out);
  wr_aw_out : ax_out; wr_w_out : w_out; wr_rest : list axi_in }.
Definition axi_write (c : axi_cfg) (fuel : nat) (a : waccess) (p : phase) (oa : ax_out) (ow : w_out)
           (l : list axi_in) : write_run :=
  match check_params (x_bytes c) (wa_address a) (Z.of_nat (length (wa_value a))) (wa_size a) (wa_burst a) with
  | Err e => WriteRun (Exn e) [] [] oa ow l                               (* 363-369 *)
  | Ok size =>
      let '(ra, va) := send_write_address c fuel (wa_address a) (Z.of_nat (length (wa_value a)))
                         (wa_burst a) size (wa_alat a) (wa_sync a) (World tt p oa [] l) in
      let '(rw, vw) := send_write_data c fuel (wa_address a) (wa_value a) (wa_burst a) size (wa_dlat a)
                         (wa_be a) (wa_sync a) (World tt p ow [] l) in
      match ra, rw with
      | Exn e, Exn f => (* of two exceptions the earlier one; in the same cycle that of the address task *)
          WriteRun (Exn (if length (trace vw) <? length (trace va) then f else e)) (trace va) (trace vw) (out va) (out vw) (ins va)
      | Exn e, _ | _, Exn e => WriteRun (Exn e) (trace va) (trace vw) (out va) (out vw) (ins va)
      | Done _, Done _ =>
          (* both tasks are over; the later one leaves fewer cycles *)
          let rest := if length (ins va) <=? length (ins vw) then ins va else ins vw in
          let skip := length l - length rest in
          let '(rb, vb) := write_response (TO := unit) fuel (World tt PActive tt [] rest) in
          let n := skip + length (trace vb) in
          WriteRun rb
            (trace va ++ held (out va) (firstn (n - length (trace va)) (ins va)))
            (trace vw ++ held (out vw) (firstn (n - length (trace vw)) (ins vw)))
            (out va) (out vw) (ins vb)
      | Fuel, _ | _, Fuel => WriteRun Fuel (trace va) (trace vw) (out va) (out vw) (ins va)
      | _, _ => (* still waiting: both channels until the last cycle *)
          WriteRun Susp (trace va ++ held (out va) (ins va)) (trace vw ++ held (out vw) (ins vw))
                   (out va) (out vw) []
      end
  end.

(** ** read (408-583) *)
Record raccess := RAccess {
  ra_address : Z; ra_length : Z; ra_size : option Z; ra_burst : burst; ra_sync : bool }.
(** one R beat (517-535): wait for RVALID (RREADY is 1 since construction (112)) *)
Section Read.
Context (c : axi_cfg).
Notation MR := (M unit axi_in ax_out).
Definition read_beat (fuel : nat) (size byte_offset : Z) : MR (bits * Z * logic) :=
  loop fuel (fun _ : unit =>
    readonly ;; i <- input ;;
    if is1 (g_rvalid i)
    then w <- of_res (shift_and_mask (g_rdata i) size byte_offset) ;;     (* 524-528 *)
         match bval (g_rresp i) with
         | Some r => ret (inr (w, r, g_rlast i))                          (* 529 *)
         | None => raise EValue
         end
    else edge ;; ret (inl tt)) tt.
(** the beats (512-540): data and responses, in order *)
Definition read_beats (fuel : nat) (b : burst) (size byte_offset : Z) : MR (list bits * list Z) :=
  loop fuel (fun s : list bits * list Z * Z =>
    let '(data, rresp, off) := s in
    x <- read_beat fuel size off ;;
    let '(w, r, rlast) := x in
    let off := match b with FIXED => off | _ => ((off + size) mod x_bytes c)%Z end in  (* 531-532 *)
    if negb (x_full c) || is1 rlast                                       (* 537 *)
    then ret (inr (data ++ [w], rresp ++ [r]))
    else edge ;; ret (inl (data ++ [w], rresp ++ [r], off))) ([], [], byte_offset).
(** read (476-583): data and responses (return_rresp only changes the end) *)
Definition axi_read_raw (fuel : nat) (a : raccess) : MR (list bits * list Z) :=
  size <- of_res (check_params (x_bytes c) (ra_address a) (ra_length a) (ra_size a) (ra_burst a)) ;;
  let byte_offset := (ra_address a mod x_bytes c / size * size)%Z in      (* 485 *)
  x_when (ra_sync a) edge ;;                                              (* 488-489 *)
  assign (x_awidth c) (ra_address a) ax_set_addr ;;                       (* 491 *)
  drive (ax_set_valid L1) ;;                                              (* 492 *)
  x_when (x_full c) (assign 8 (ra_length a - 1) ax_set_len) ;;            (* 494-495 *)
  x_when (x_full c) (assign 3 (bit_length size - 1) ax_set_size) ;;       (* 497-498 *)
  x_when (x_full c) (assign 2 (burst_value (ra_burst a)) ax_set_burst) ;; (* 500-501 *)
  until1 g_arready fuel ;;                                                (* 503-507 *)
  edge ;;                                                                 (* 509 *)
  drive (ax_set_valid L0) ;;                                              (* 510 *)
  dr <- read_beats fuel (ra_burst a) size byte_offset ;;
  edge ;;                                                                 (* 542 *)
  let '(data, rresp) := dr in
  (if (Z.of_nat (length data) =? ra_length a)%Z then ret tt else raise EAXILength) ;;  (* 544-550 *)
  words <- of_res (realigned (ra_address a) (ra_burst a) size data) ;;    (* 552-560 *)
  ret (words, rresp).
(** return_rresp=True (562-563) *)
Definition axi_read_rresp (fuel : nat) (a : raccess) : MR (list (bits * Z)) :=
  x <- axi_read_raw fuel a ;; ret (combine (fst x) (snd x)).
(** return_rresp=False (564-583) *)
Definition axi_read (fuel : nat) (a : raccess) : MR (list bits) :=
  x <- axi_read_raw fuel a ;;
  match find (fun r => negb (r =? 0)%Z) (snd x) with
  | Some r => raise (EAXIProtocol r)
  | None => ret (fst x)
  end.
End Read.

(** ** AXI4LiteMaster (589-684) *)
(** write: a sequence is refused; otherwise a write of one value (its return value,
    OKAY, is always the same) *)
Inductive lite_value := LiteInt (v : Z) | LiteSeq (l : list Z).
Definition lite_cfg (c : axi_cfg) : axi_cfg := AxiCfg (x_width c) (x_awidth c) false false.
(* drivers/amba.py:614-659 *)
Definition lite_write (c : axi_cfg) (fuel : nat) (address : Z) (v : lite_value) (be : option Z)
           (alat dlat : nat) (sync : bool) (p : phase) (oa : ax_out) (ow : w_out) (l : list axi_in) : write_run :=
  match v with
  | LiteSeq _ => WriteRun (Exn EValue) [] [] oa ow l
  | LiteInt z => axi_write (lite_cfg c) fuel (WAccess address [z] None INCR [be] alat dlat sync) p oa ow l
  end.
(* drivers/amba.py:661-684 *)
Definition lite_read (c : axi_cfg) (fuel : nat) (address : Z) (sync : bool) : M unit axi_in ax_out bits :=
  ws <- axi_read (lite_cfg c) fuel (RAccess address 1 None INCR sync) ;;
  match ws with w :: _ => ret w | [] => raise EIndex end.
