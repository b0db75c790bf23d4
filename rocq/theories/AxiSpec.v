(** AxiSpec.v -- what AXI4 says about bursts (AMBA AXI specification, A3.4), and the
    meaning of AXI4Master's reads and writes in terms of a byte memory. *)
From Verif Require Import Base AxiModel.
Local Open Scope Z_scope.

Definition power_of_two (z : Z) : Prop := exists k, 0 <= k /\ z = 2 ^ k.

(** ** Legal bursts *)
Definition legal_length (n : Z) (b : burst) : Prop :=
  match b with
  | INCR => 1 <= n <= 256
  | FIXED => 1 <= n <= 16
  | WRAP => In n [1; 2; 4; 8; 16]
  end.
Definition legal_size (bus size : Z) : Prop := power_of_two size /\ size <= bus.
(** first address of the size-byte block of an address *)
Definition aligned (a size : Z) : Z := a / size * size.
(** the bytes addressed by an INCR burst of n beats *)
Definition incr_bytes (a size n x : Z) : Prop := a <= x < aligned a size + n * size.
Definition same_page (a x : Z) : Prop := a / 4096 = x / 4096.
Definition legal_burst (bus a n size : Z) (b : burst) : Prop :=
  legal_length n b /\ (b = INCR -> forall x, incr_bytes a size n x -> same_page a x).

(** the beat size of an access: the bus width by default *)
Definition size_or (bus : Z) (size : option Z) : Z := match size with Some s => s | None => bus end.
Definition legal_access (bus a n : Z) (size : option Z) (b : burst) : Prop :=
  (forall s, size = Some s -> legal_size bus s) /\ legal_burst bus a n (size_or bus size) b.

(** ** Beat addresses and byte lanes (A3.4.1, A3.4.2) *)
(** the address of beat i (from 0) of a burst of n beats *)
Definition beat_address (b : burst) (size n a i : Z) : Z :=
  match b with
  | FIXED => a
  | INCR => if i =? 0 then a else aligned a size + i * size
  | WRAP =>
      let total := size * n in                     (* the container *)
      let boundary := a / total * total in         (* its first address *)
      let x := aligned a size + i * size in
      if i =? 0 then a else if x <? boundary + total then x else x - total
  end.
(** the byte lanes of a [bus]-byte bus on which a beat at [addr] may transfer *)
Definition lanes (bus size addr k : Z) : Prop :=
  addr mod bus <= k < (aligned addr size) mod bus + size.

(** byte k of a number *)
Definition byte (k z : Z) : Z := (z / 2 ^ (8 * k)) mod 256.

(** ** A conforming memory *)
(** one write beat: every lane with its strobe set is stored *)
Definition store_beat (bus : Z) (m : Z -> Z) (addr : Z) (beat : Z * Z) : Z -> Z := fun x =>
  if (x / bus =? addr / bus) && Z.testbit (snd beat) (x mod bus) then byte (x mod bus) (fst beat) else m x.
(** a burst, from beat i on *)
Fixpoint store_burst (bus : Z) (b : burst) (size n a : Z) (m : Z -> Z) (i : Z) (beats : list (Z * Z)) : Z -> Z :=
  match beats with
  | [] => m
  | w :: r => store_burst bus b size n a (store_beat bus m (beat_address b size n a i) w) (i + 1) r
  end.
(** the 8 bits of lane k *)
Definition lane_bits (k : Z) (w : bits) : bits := rev (firstn 8 (skipn (Z.to_nat (8 * k)) (rev w))).
(** the read data of beat i: what the memory holds, on the lanes of the beat; the
    other lanes can be anything.  Memory cells are any 8 bits, including X. *)
Definition read_beat_ok (bus : Z) (b : burst) (size n a : Z) (mem : Z -> bits) (i : Z) (rdata : bits) : Prop :=
  let addr := beat_address b size n a i in
  Z.of_nat (length rdata) = 8 * bus /\
  forall k, lanes bus size addr k -> lane_bits k rdata = mem (addr / bus * bus + k).

(** ** What a write should store *)
(** byte k of the j-th value is enabled: the last byte enable also stands for all
    later values, None for "all bytes" *)
Definition enabled (be : list (option Z)) (j : nat) (k : Z) : bool :=
  match nth j be (last be None) with None => true | Some v => Z.testbit v k end.
(** INCR: byte k of the j-th value at a + j * size + k, up to the end of the last beat *)
Definition incr_written (a size : Z) (data : list Z) (be : list (option Z)) (m : Z -> Z) : Z -> Z := fun x =>
  let j := Z.to_nat ((x - a) / size) in
  let k := (x - a) mod size in
  if (a <=? x) && (x <? aligned a size + Z.of_nat (length data) * size) && enabled be j k
  then byte k (nth j data 0) else m x.
(** FIXED: every value in turn at a, its low bytes up to the end of the block *)
Definition put_low (a size : Z) (v : Z) (en : Z -> bool) (m : Z -> Z) : Z -> Z := fun x =>
  if (a <=? x) && (x <? aligned a size + size) && en (x - a) then byte (x - a) v else m x.
Fixpoint fixed_written (a size : Z) (data : list Z) (be : list (option Z)) (j : nat) (m : Z -> Z) : Z -> Z :=
  match data with
  | [] => m
  | d :: r => fixed_written a size r be (S j) (put_low a size d (enabled be j) m)
  end.
(** WRAP at an aligned address: byte k of the j-th value in the j-th block of the
    container, counted from the address and wrapping at its end *)
Definition wrap_written (a size : Z) (data : list Z) (be : list (option Z)) (m : Z -> Z) : Z -> Z := fun x =>
  let total := size * Z.of_nat (length data) in
  let boundary := a / total * total in
  let j := Z.to_nat ((x - a) mod total / size) in
  let k := x mod size in
  if (boundary <=? x) && (x <? boundary + total) && enabled be j k
  then byte k (nth j data 0) else m x.

(** ** What a read should return: the cells a .. a+n-1, first address rightmost *)
Definition cells (mem : Z -> bits) (a : Z) (n : nat) : bits :=
  flat_map (fun k => mem (a + Z.of_nat k)) (rev (seq 0 n)).
(** INCR: consecutive words, the last one cut at the end of the last beat *)
Definition incr_words (mem : Z -> bits) (a size : Z) (n : nat) : list bits :=
  map (fun j => cells mem (a + Z.of_nat j * size)
                  (Z.to_nat (if Nat.eqb (S j) n then size - a mod size else size)))
      (seq 0 n).
(** FIXED: every word is what the block holds from the address on, at the time of
    its beat (the memory can change from beat to beat, as a FIFO does) *)
Definition fixed_words (mems : nat -> Z -> bits) (a size : Z) (n : nat) : list bits :=
  map (fun j => cells (mems j) a (Z.to_nat (size - a mod size))) (seq 0 n).
(** WRAP at an aligned address: the blocks in the order of their beats *)
Definition wrap_words (mem : Z -> bits) (a size : Z) (n : nat) : list bits :=
  map (fun j => cells mem (beat_address WRAP size (Z.of_nat n) a (Z.of_nat j)) (Z.to_nat size)) (seq 0 n).

(** ** The channels, as seen by the slave *)
Definition aw_offered (o : ax_out) : bool := is1 (x_valid o).
Definition aw_accepts (i : axi_in) : bool := is1 (g_awready i).
Definition w_offered (o : w_out) : bool := is1 (x_wvalid o).
Definition w_accepts (i : axi_in) : bool := is1 (g_wready i).
(** the request on an address channel: AxSIZE is the logarithm of the beat size *)
Definition ax_request (c : axi_cfg) (o : ax_out) (address n : Z) (b : burst) (size : Z) : ax_out :=
  AxOut L1 (zbits (x_awidth c) address)
    (if x_full c then zbits 2 (match b with FIXED => 0 | INCR => 1 | WRAP => 2 end) else x_burst o)
    (if x_full c then zbits 8 (n - 1) else x_len o)
    (if x_full c then zbits 3 (Z.log2 size) else x_size o).
(** the data beats: WLAST (if there is one) on exactly the last *)
Fixpoint w_words (c : axi_cfg) (o : w_out) (beats : list (Z * Z)) : list w_out :=
  match beats with
  | [] => []
  | b :: r => WOut L1 (zbits (x_width c) (fst b)) (zbits (Z.to_nat (x_bytes c)) (snd b))
                (if x_wlast c then (match r with [] => L1 | _ => L0 end) else x_last o) :: w_words c o r
  end.
(** an AXI data bus: 1 to 128 bytes *)
Definition axi_bus (c : axi_cfg) : Prop :=
  power_of_two (x_bytes c) /\ x_bytes c <= 128 /\ Z.of_nat (x_width c) = 8 * x_bytes c.
Definition b_valid (i : axi_in) : bool := is1 (g_bvalid i).
(** what a response means: OKAY is 0 *)
Definition response_outcome (resp : bits) : outcome unit :=
  match bval resp with
  | None => Exn EValue
  | Some v => if v =? 0 then Done tt else Exn (EAXIProtocol v)
  end.
(** an address of n bits *)
Definition fits_bits (n : nat) (z : Z) : Prop := 0 <= z < 2 ^ Z.of_nat n.
(** an access may begin in any phase with [sync], otherwise not in the ReadOnly phase *)
Definition may_start (sync : bool) (p : phase) : Prop := sync = false -> p <> PReadOnly.

(** the R beats of a read, in the cycles after its address handshake: all transfers
    (RREADY is always 1) up to and including the first with RLAST *)
Definition r_beat (i : axi_in) : bool := is1 (g_rvalid i).
Definition r_final (c : axi_cfg) (i : axi_in) : bool := r_beat i && (negb (x_full c) || is1 (g_rlast i)).
(** a beat whose RDATA has the width of the bus and whose RRESP is defined *)
Definition r_beat_ok (c : axi_cfg) (i : axi_in) : Prop := length (g_rdata i) = x_width c /\ bval (g_rresp i) <> None.
Definition ar_accepts (i : axi_in) : bool := is1 (g_arready i).
(** the cycles of a complete read: before the request, waiting for ARREADY, the
    address handshake, the R cycles up to the final beat, the rest *)
Record read_cycles (c : axi_cfg) (sync : bool) (l pre w : list axi_in) (h : axi_in) (seg : list axi_in) (f : axi_in) (tl : list axi_in) : Prop := {
  rc_all : l = pre ++ w ++ h :: seg ++ f :: tl;
  rc_pre : length pre = (if sync then 1 else 0)%nat;
  rc_wait : Forall (fun i => ar_accepts i = false) w;
  rc_ack : ar_accepts h = true;
  rc_seg : Forall (fun i => r_final c i = false) seg;
  rc_final : r_final c f = true;
  rc_ok : Forall (fun i => r_beat i = true -> r_beat_ok c i) (seg ++ [f]) }.
Definition rresp_of (i : axi_in) : Z := match bval (g_rresp i) with Some v => v | None => 0 end.

(** ** A conforming slave, from the signals *)
Definition value (b : bits) : Z := match bval b with Some v => v | None => 0 end.
Record request := Request { q_address : Z; q_beats : Z; q_size : Z; q_burst : burst }.
(** an address channel without AxLEN, AxSIZE and AxBURST (AXI4-Lite) asks for one full-width beat *)
Definition decode (c : axi_cfg) (o : ax_out) : request :=
  if x_full c
  then Request (value (x_addr o)) (value (x_len o) + 1) (2 ^ value (x_size o))
         (if value (x_burst o) =? 0 then FIXED else if value (x_burst o) =? 1 then INCR else WRAP)
  else Request (value (x_addr o)) 1 (x_bytes c) INCR.
Definition beat_of (w : w_out) : Z * Z := (value (x_wdata w), value (x_wstrb w)).
(** the memory of the slave after a write *)
Definition slave_store (c : axi_cfg) (req : ax_out) (ws : list w_out) (m : Z -> Z) : Z -> Z :=
  let r := decode c req in
  store_burst (x_bytes c) (q_burst r) (q_size r) (q_beats r) (q_address r) m 0 (map beat_of ws).
(** the strobes are only on the lanes of their beat, and there are as many beats as requested *)
Definition conforming_write (c : axi_cfg) (req : ax_out) (ws : list w_out) : Prop :=
  let r := decode c req in
  Z.of_nat (length ws) = q_beats r /\
  forall i w k, nth_error ws i = Some w -> 0 <= k -> Z.testbit (snd (beat_of w)) k = true ->
    lanes (x_bytes c) (q_size r) (beat_address (q_burst r) (q_size r) (q_beats r) (q_address r) (Z.of_nat i)) k.
(** the R beats of a slave whose memory is [mems i] when it sends beat i *)
Definition slave_reads (c : axi_cfg) (req : ax_out) (mems : nat -> Z -> bits) (beats : list axi_in) : Prop :=
  let r := decode c req in
  Z.of_nat (length beats) = q_beats r /\
  (forall j x, length (mems j x) = 8%nat) /\
  forall i b, nth_error beats i = Some b ->
    read_beat_ok (x_bytes c) (q_burst r) (q_size r) (q_beats r) (q_address r) (mems i) (Z.of_nat i) (g_rdata b).
(** what a read of a burst should return; WRAP only for aligned addresses *)
Definition read_words (b : burst) (mems : nat -> Z -> bits) (a size : Z) (n : nat) : list bits :=
  match b with
  | FIXED => fixed_words mems a size n
  | INCR => incr_words (mems 0%nat) a size n
  | WRAP => wrap_words (mems 0%nat) a size n
  end.
Definition written (b : burst) (a size : Z) (data : list Z) (be : list (option Z)) (m : Z -> Z) : Z -> Z :=
  match b with
  | FIXED => fixed_written a size data be 0 m
  | INCR => incr_written a size data be m
  | WRAP => wrap_written a size data be m
  end.
(** a WRAP burst whose lanes advance without a jump: the container is a multiple of
    the bus width, or the burst starts at its boundary *)
Definition wrap_smooth (bus a size n : Z) : Prop := a mod size = 0 /\ ((bus | size * n) \/ (size * n | a)).

(** the conditions of the write theorems: a legal access whose address fits, from an idle bus,
    with data_latency 0 or one value *)
Record write_ok (c : axi_cfg) (fuel : nat) (a : waccess) (p : phase) (oa : ax_out) (ow : w_out) (l : list axi_in) : Prop := {
  wo_bus : axi_bus c;
  wo_legal : legal_access (x_bytes c) (wa_address a) (Z.of_nat (length (wa_value a))) (wa_size a) (wa_burst a);
  wo_addr : fits_bits (x_awidth c) (wa_address a);
  wo_be : wa_be a <> [];
  wo_start : may_start (wa_sync a) p;
  wo_aw : aw_offered oa = false;
  wo_w : w_offered ow = false;
  wo_fuel : (length l < fuel)%nat;
  wo_lat : (wa_dlat a = 0 \/ length (wa_value a) = 1)%nat }.
(** the same with any latencies *)
Record write_any (c : axi_cfg) (fuel : nat) (a : waccess) (p : phase) (oa : ax_out) (ow : w_out) (l : list axi_in) : Prop := {
  wy_bus : axi_bus c;
  wy_legal : legal_access (x_bytes c) (wa_address a) (Z.of_nat (length (wa_value a))) (wa_size a) (wa_burst a);
  wy_addr : fits_bits (x_awidth c) (wa_address a);
  wy_be : wa_be a <> [];
  wy_start : may_start (wa_sync a) p;
  wy_aw : aw_offered oa = false;
  wy_w : w_offered ow = false;
  wy_fuel : (length l < fuel)%nat }.
