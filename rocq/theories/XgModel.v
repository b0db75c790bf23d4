(** XgModel.v -- model of src/cocotb_bus/drivers/xgmii.py and
    src/cocotb_bus/monitors/xgmii.py.

    The XGMII signal is one vector; [TO] is its value (bits, leftmost first), the
    Python state [TS] is _XGMIIBus._integer, and there are no inputs ([TI] only
    counts clock edges).  zlib.crc32 is an arbitrary function [crc32] (a parameter
    of every definition that uses it), struct.pack("<I", c & 0xFFFFFFFF) is its
    four low bytes in little-endian order.  Logging and hexdump are left out. *)
From Verif Require Import Base CompatModel Async.

(** drivers/xgmii.py:18-25 and monitors/xgmii.py:24-28 *)
Definition XGMII_IDLE : Z := 7.
(* drivers/xgmii.py:19 *)
Definition XGMII_START : Z := 251.
(* drivers/xgmii.py:20 *)
Definition XGMII_TERMINATE : Z := 253.
(* drivers/xgmii.py:25 *)
Definition PREAMBLE_SFD : bytes := [85; 85; 85; 85; 85; 85; 213]%Z.

(** ** The word under construction: _XGMIIBus (28-90) *)
(** a lane as passed to __setitem__: (value, ctrl) *)
Definition lane : Type := (Z * bool).
(* drivers/xgmii.py:141: (_XGMII_IDLE, True) *)
Definition IDLE : lane := (XGMII_IDLE, true).

(** _XGMIIBus.__setitem__ (60-76) *)
Definition bus_set (n : nat) (interleaved : bool) (integer : Z) (index : nat) (v : lane) : res Z :=
  let '(byte, ctrl) := v in
  if n <=? index then Err EIndex                                           (* 66-69 *)
  else
    let i := Z.of_nat index in
    if interleaved
    then Ok (Z.lor (Z.lor integer (Z.shiftl byte (i * 9)))
                   (Z.shiftl (Z.b2z ctrl) (9 * i + 8)))%Z                  (* 71-73 *)
    else Ok (Z.lor (Z.lor integer (Z.shiftl byte (i * 8)))
                   (Z.shiftl (Z.b2z ctrl) (Z.of_nat n * 8 + i)))%Z.        (* 74-76 *)

Section Driver.
(** the configuration: the signal width len(signal), the layout, and whether the
    global name create_binary is bound in the module drivers/xgmii.py (the module
    uses it on line 85 but does not import it: see [bound_as_shipped]) *)
Variables (width : nat) (interleaved bound : bool) (crc32 : bytes -> Z).

Notation D := (M Z unit bits).
(** self.bus = _XGMIIBus(len(signal) // 9, ...) (115) *)
Definition lanes : nat := width / 9.

(** self.bus[index] = v *)
(* drivers/xgmii.py:60-76 *)
Definition set_lane (index : nat) (v : lane) : D unit :=
  integer <- get ;;
  integer' <- of_res (bus_set lanes interleaved integer index v) ;;
  put integer'.

(** _XGMIIBus.value (78-87): NameError if the name is not bound *)
Definition bus_value : D bits :=
  integer <- get ;;
  value <- of_res (if bound then create_binary (BInt integer) (lanes * 9) false
                   else Err EName) ;;                                      (* 85 *)
  put 0%Z ;;                                                               (* 86 *)
  ret value.

(** self.signal.value = self.bus.value; cocotb rejects a value of another length *)
(* drivers/xgmii.py:78-87, 142, 177: self.signal.value = self.bus.value *)
Definition drive_word : D unit :=
  value <- bus_value ;;
  (if Nat.eqb (length value) width then drive (fun _ => value) else raise EValue).

(** idle (138-142) *)
Definition idle : D unit :=
  for_each (fun i => set_lane i IDLE) (seq 0 lanes) ;;
  drive_word.

(** terminate (144-154) *)
Definition terminate (index : nat) : D unit :=
  set_lane index (XGMII_TERMINATE, true) ;;
  (if index <? lanes - 1
   then for_each (fun rem => set_lane rem IDLE) (seq (index + 1) (lanes - (index + 1)))
   else ret tt).

(** layer1 (119-136) *)
Definition layer1 (packet : bytes) : bytes :=
  let packet := if length packet <? 60 then packet ++ repeat 0%Z (60 - length packet) else packet in
  PREAMBLE_SFD ++ packet ++ z_to_le 4 (crc32 packet).

(** pkt[i], IndexError past the end *)
(* drivers/xgmii.py:174, 189: pkt[i] *)
Definition byte_at (pkt : bytes) (i : nat) : res Z :=
  match nth_error pkt i with Some b => Ok b | None => Err EIndex end.

(** the for loop of 183-189: [k] lanes from lane [i]; true if it terminated *)
Fixpoint fill_word (pkt : bytes) (k i : nat) : D bool :=
  match k with
  | O => ret false
  | S k' =>
      if Nat.eqb i (length pkt)
      then terminate i ;; ret true                                         (* 184-188 *)
      else b <- of_res (byte_at pkt i) ;;
           set_lane i (b, false) ;;                                        (* 189 *)
           fill_word pkt k' (S i)
  end.

(** the while loop of 182-193; the result is the flag done *)
Definition send_words (fuel : nat) (pkt : bytes) : D bool :=
  loop fuel (fun x : bytes * bool =>
    let '(pkt, done) := x in
    match pkt with
    | [] => ret (inr done)
    | _ =>
        t <- fill_word pkt lanes 0 ;;
        drive_word ;;                                                      (* 191 *)
        edge ;;                                                            (* 192 *)
        ret (inl (skipn lanes (if t then [] else pkt), done || t))         (* 193 *)
    end) (pkt, false).

(** _driver_send (156-202) *)
Definition driver_send (pkt : bytes) (sync : bool) : D unit :=
  let pkt := layer1 pkt in                                                 (* 162 *)
  (if sync then edge else ret tt) ;;                                       (* 168-169 *)
  set_lane 0 (XGMII_START, true) ;;                                        (* 171 *)
  for_each (fun i => b <- of_res (byte_at pkt (i - 1)) ;; set_lane i (b, false))
           (seq 1 (lanes - 1)) ;;                                          (* 173-174 *)
  drive_word ;;                                                            (* 177 *)
  edge ;;                                                                  (* 178 *)
  let pkt := skipn (lanes - 1) pkt in                                      (* 176 *)
  done <- send_words (S (S (length pkt))) pkt ;;                           (* 180-193 *)
  (if done : bool then ret tt
   else terminate 0 ;; drive_word ;; edge) ;;                              (* 195-198 *)
  idle ;;                                                                  (* 200 *)
  edge.                                                                    (* 201 *)

(** the constructor (96-117): a fresh _XGMIIBus, then idle *)
Definition construct : D unit := put 0%Z ;; idle.

(** the packets a test bench queues: before each send any number of cycles may
    pass; the driver's send thread passes sync=True when it had been waiting and
    sync=False for packets that follow directly (drivers/__init__.py, see
    DriverModel.v) *)
(* drivers/xgmii.py:156-202 once per packet *)
Definition send_all (sends : list (nat * bool * bytes)) : D unit :=
  for_each (fun s => let '(gap, sync, pkt) := s in edges gap ;; driver_send pkt sync) sends.
End Driver.

(** drivers/xgmii.py imports LogicArray and Range (13) but not create_binary *)
Definition bound_as_shipped : bool := false.

(** ** The monitor *)
(** _get_bytes (64-85): int(signal.value) is a ValueError unless every bit is 0/1 *)
Definition get_bytes (n : nat) (interleaved : bool) (value : bits) : res (list lane) :=
  match bval value with
  | None => Err EValue
  | Some v =>
      let byte_shift := (if interleaved then 9 else 8)%Z in
      let ctrl_base := (if interleaved then 8 else 8 * Z.of_nat n)%Z in
      let ctrl_inc := (if interleaved then 9 else 1)%Z in
      Ok (map (fun i =>
                (Z.land (Z.shiftr v (Z.of_nat i * byte_shift)) 255,
                 negb (Z.land v (Z.shiftl 1 (ctrl_base + Z.of_nat i * ctrl_inc)) =? 0))%Z)
              (seq 0 n))
  end.

(** what the monitor does that can be seen from outside: error log messages
    (92, 128, 130, 139, 147) and delivered packets (158) *)
Inductive event :=
| LogControl | LogRunt | LogNoData | LogPreamble | LogCrc
| Deliver (p : bytes).

(** _add_payload (87-99): (more to come?, the new self._pkt, what is logged) *)
Fixpoint add_payload (pkt : bytes) (ls : list lane) : bool * bytes * list event :=
  match ls with
  | [] => (true, pkt, [])
  | (byte, ctrl) :: r =>
      if ctrl
      then if (byte =? XGMII_TERMINATE)%Z then (false, pkt, []) else (false, [], [LogControl])
      else add_payload (pkt ++ [byte]) r
  end.

(** "ctrl[i] and bytes[i] == _XGMII_START"; IndexError when there is no lane i *)
(* monitors/xgmii.py:109, 117 *)
Definition start_at (ls : list lane) (i : nat) : res bool :=
  match nth_error ls i with
  | Some (byte, ctrl) => Ok (ctrl && (byte =? XGMII_START)%Z)
  | None => Err EIndex
  end.

(* monitors/xgmii.py:138, 146: != of bytes *)
Fixpoint bytes_eqb (a b : bytes) : bool :=
  match a, b with
  | [], [] => true
  | x :: a', y :: b' => (x =? y)%Z && bytes_eqb a' b'
  | _, _ => false
  end.

(** the end of the loop body (124-159).  The delivered object is scapy's
    Ether(payload); the model delivers the payload. *)
Definition finish (crc32 : bytes -> Z) (pkt : bytes) : list event :=
  match pkt with
  | [] => []                                                               (* 124 *)
  | _ =>
      (if length pkt <? 64 + 7 then [LogRunt] else []) ++                  (* 127-128 *)
      if length pkt <? 12 then [LogNoData]                                 (* 129-132 *)
      else
        let preamble_sfd := firstn 7 pkt in                                (* 134 *)
        let crc := skipn (length pkt - 4) pkt in                           (* 135 *)
        let payload := firstn (length pkt - 4 - 7) (skipn 7 pkt) in        (* 136 *)
        if negb (bytes_eqb preamble_sfd PREAMBLE_SFD) then [LogPreamble]   (* 138-142 *)
        else (if negb (bytes_eqb crc (z_to_le 4 (crc32 payload)))
              then [LogCrc] else []) ++                                    (* 144-149 *)
             [Deliver payload]                                             (* 158 *)
  end.

(** _monitor_recv (101-159).  [values] are the values of the signal at the
    successive rising edges; [pkt] is self._pkt and [inner] tells at which of the
    "await clk" the coroutine waits: in an inner loop (113/121) or at 106.
    Result: what was seen from outside, and the exception that ended the coroutine. *)
Fixpoint monitor (n : nat) (interleaved : bool) (crc32 : bytes -> Z)
         (pkt : bytes) (inner : bool) (values : list bits) : list event * option exn :=
  match values with
  | [] => ([], None)
  | v :: r =>
      match get_bytes n interleaved v with
      | Err e => ([], Some e)
      | Ok ls =>
          let payload ls :=
            let '(more, pkt', log) := add_payload pkt ls in
            if more then monitor n interleaved crc32 pkt' true r
            else let '(d, e) := monitor n interleaved crc32 [] false r in
                 (log ++ finish crc32 pkt' ++ d, e) in
          if inner then payload ls
          else
            match start_at ls 0 with
            | Err e => ([], Some e)
            | Ok true => payload (skipn 1 ls)                              (* 109-114 *)
            | Ok false =>
                match (if Nat.eqb n 8 then start_at ls 4 else Ok false) with
                | Err e => ([], Some e)
                | Ok true => payload (skipn 5 ls)                          (* 116-122 *)
                | Ok false =>
                    let '(d, e) := monitor n interleaved crc32 [] false r in
                    (finish crc32 pkt ++ d, e)
                end
            end
      end
  end.
(** a new monitor (103) *)
Definition observe (n : nat) (interleaved : bool) (crc32 : bytes -> Z) (values : list bits)
  : list event * option exn := monitor n interleaved crc32 [] false values.
