(** PktModel.v -- the packetized Avalon-ST driver (drivers/avalon.py:596-860) and
    monitor (monitors/avalon.py:74-252). *)
From Verif Require Export Async CompatModel DrvUtilModel AvalonSTModel MonitorModel.
Local Open Scope list_scope.

(** The bus as found at construction and the configuration dictionary.
    dataBitsPerSymbol is assumed positive (0 is a ZeroDivisionError).  readyLatency
    is never read by the code. *)
Record pcfg := PCfg {
  c_width : nat;              (* len(bus.data) *)
  c_dbs : nat;                (* dataBitsPerSymbol *)
  c_high : bool;              (* firstSymbolInHighOrderBits *)
  c_maxch : option Z;         (* maxChannel, if given in config *)
  c_ready : bool;             (* bus has ready *)
  c_ew : option nat;          (* len(bus.empty), if present *)
  c_cw : option nat;          (* len(bus.channel), if present *)
  c_error : bool;             (* bus has error (taken to be one bit) *)
  c_timeout : Z;              (* invalidTimeout (monitor) *)
  c_report : bool             (* report_channel (monitor) *)
}.

(** self.use_empty / config["useEmpty"]: len(data) / dataBitsPerSymbol > 1
    (drivers/avalon.py:623-631, monitors/avalon.py:123-130) *)
Definition use_empty (c : pcfg) : bool := c_dbs c <? c_width c.

(** config["maxChannel"] (drivers/avalon.py:615-621, monitors/avalon.py:110-121) *)
Definition max_channel (c : pcfg) : Z :=
  match c_maxch c with
  | Some m => m
  | None => match c_cw c with Some n => 2 ^ Z.of_nat n - 1 | None => 0 end
  end.

(** The checks of both constructors (drivers/avalon.py:623-664,
    monitors/avalon.py:123-149).  The message for a channel of more than 128 bits
    formats the name (a str) with "%d": TypeError. *)
Definition pk_check (c : pcfg) : res unit :=
  if use_empty c && (match c_ew c with None => true | _ => false end) then Err EAttribute
  else match c_cw c with
       | None => Ok tt
       | Some n =>
           if 128 <? n then Err EType
           else if (2 ^ Z.of_nat n - 1 <? max_channel c)%Z then Err EAttribute
           else Ok tt
       end.

(** the monitor's constructor also checks report_channel first
    (monitors/avalon.py:113-117) *)
Definition pm_check (c : pcfg) : res unit :=
  match c_cw c with
  | None => if c_report c then Err EValue else pk_check c
  | Some _ => pk_check c
  end.

(** what the driver drives (signals absent from the bus are never changed) *)
(* drivers/avalon.py:600-601: the signals driven *)
Record pk_out := PkOut {
  k_valid : logic; k_sop : logic; k_eop : logic;
  k_empty : bits; k_data : bits; k_channel : bits; k_error : logic }.
(* drivers/avalon.py:681-786: self.bus.valid.value = v *)
Definition k_set_valid v o := PkOut v (k_sop o) (k_eop o) (k_empty o) (k_data o) (k_channel o) (k_error o).
(* drivers/avalon.py:681-786: self.bus.startofpacket.value = v *)
Definition k_set_sop v o := PkOut (k_valid o) v (k_eop o) (k_empty o) (k_data o) (k_channel o) (k_error o).
(* drivers/avalon.py:681-786: self.bus.endofpacket.value = v *)
Definition k_set_eop v o := PkOut (k_valid o) (k_sop o) v (k_empty o) (k_data o) (k_channel o) (k_error o).
(* drivers/avalon.py:681-786: self.bus.empty.value = v *)
Definition k_set_empty v o := PkOut (k_valid o) (k_sop o) (k_eop o) v (k_data o) (k_channel o) (k_error o).
(* drivers/avalon.py:681-786: self.bus.data.value = v *)
Definition k_set_data v o := PkOut (k_valid o) (k_sop o) (k_eop o) (k_empty o) v (k_channel o) (k_error o).
(* drivers/avalon.py:681-786: self.bus.channel.value = v *)
Definition k_set_channel v o := PkOut (k_valid o) (k_sop o) (k_eop o) (k_empty o) (k_data o) v (k_error o).
(* drivers/avalon.py:701-702: self.bus.error.value = 0 *)
Definition k_set_error v o := PkOut (k_valid o) (k_sop o) (k_eop o) (k_empty o) (k_data o) (k_channel o) v.

(** handle.value = int for an n-bit handle: ValueError if it does not fit (cocotb) *)
(* drivers/avalon.py:697, 681-786: assignment of an int to a signal of n bits *)
Definition assign_int (n : nat) (z : Z) : res bits :=
  if ((- 2 ^ (Z.of_nat n - 1) <=? z) && (z <? 2 ^ Z.of_nat n))%Z then Ok (zbits n z) else Err EValue.

Section Driver.
Context (c : pcfg).
Notation M := (M valid logic pk_out).

(* drivers/avalon.py:643-645: len(self.bus.empty) *)
Definition ew : nat := match c_ew c with Some n => n | None => 0 end.
(* drivers/avalon.py:647-667: len(self.bus.channel) *)
Definition cw : nat := match c_cw c with Some n => n | None => 0 end.
(** bus_width = int(len(self.bus.data) / 8)  (693) *)
Definition bus_width : nat := Nat.div (c_width c) 8.

(* drivers/avalon.py:696-786: if, without else *)
Definition when (b : bool) (m : M unit) : M unit := if b then m else ret tt.

(** state of the bus signals after __init__ (633-667); error is not driven *)
Definition pk_init_out : pk_out :=
  PkOut L0 LX LX (xs ew) (xs (c_width c)) (xs cw) LX.

(** channel handling of one word (727-736) *)
Definition pk_channel (channel : option Z) : M unit :=
  match c_cw c with
  | None => ret tt
  | Some n =>
      match channel with
      | None => drive (k_set_channel (zeros n))
      | Some ch =>
          if ((max_channel c <? ch) || (ch <? 0))%Z then raise EAssertion
          else v <- of_res (assign_int n ch) ;; drive (k_set_channel v)
      end
  end.

(** One iteration of the loop in _send_string up to _wait_ready (713-759): the
    remaining string afterwards. *)
Definition pk_word (str : bytes) (first : bool) (channel : option Z) : M bytes :=
  gap_code (k_set_valid L0) ;;                                          (* 713-724 *)
  drive (k_set_valid L1) ;;                                             (* 726 *)
  pk_channel channel ;;                                                 (* 727-736 *)
  drive (k_set_sop (if first then L1 else L0)) ;;                       (* 738-742 *)
  rest <- (if length str <=? bus_width then                             (* 747 *)
             drive (k_set_eop L1) ;;
             when (use_empty c)
               (e <- of_res (assign_int ew (Z.of_nat bus_width - Z.of_nat (length str))) ;;
                drive (k_set_empty e)) ;;
             ret []
           else ret (skipn bus_width str)) ;;
  d <- of_res (create_binary (BBytes (firstn bus_width str)) (c_width c) (c_high c)) ;; (* 755-759 *)
  drive (k_set_data d) ;;
  ret rest.

(* drivers/avalon.py:669-679 *)
Definition pk_wait (fuel : nat) : M unit :=
  if c_ready c then wait_ready fuel else ret tt.

(** the loop body (709-764) *)
Definition pk_body (fuel : nat) (sync : bool) (channel : option Z) (x : bytes * bool) : M (bytes * bool + unit) :=
  let '(str, first) := x in
  match str with
  | [] => ret (inr tt)
  | _ =>
      (if negb first || sync then edge else ret tt) ;;                  (* 710-711 *)
      rest <- pk_word str first channel ;;
      pk_wait fuel ;;                                                   (* 763-764 *)
      ret (inl (rest, false))
  end.

(** defaults at the start (695-707) *)
Definition pk_defaults (channel : option Z) : M unit :=
  when (use_empty c) (drive (k_set_empty (zeros ew))) ;;
  drive (k_set_sop L0) ;; drive (k_set_eop L0) ;; drive (k_set_valid L0) ;;
  when (c_error c) (drive (k_set_error L0)) ;;
  match c_cw c with
  | Some n => drive (k_set_channel (zeros n))
  | None => match channel with Some _ => raise EAssertion | None => ret tt end
  end.

(** the end (767-786) *)
Definition pk_finish : M unit :=
  drive (k_set_valid L0) ;;
  drive (k_set_eop L0) ;;
  drive (k_set_data (xs (c_width c))) ;;
  drive (k_set_sop LX) ;; drive (k_set_eop LX) ;;
  when (use_empty c) (drive (k_set_empty (xs ew))) ;;
  match c_cw c with Some n => drive (k_set_channel (xs n)) | None => ret tt end.

(** _send_string (681-786) *)
Definition pk_send (fuel : nat) (str : bytes) (sync : bool) (channel : option Z) : M unit :=
  pk_defaults channel ;;
  loop fuel (pk_body fuel sync channel) (str, true) ;;
  edge ;;
  pk_finish.

(** _driver_send (828-860): bytes only; a str is a TypeError and an iterable goes
    to [pk_send_iterable]. *)
Record packet := Packet { p_data : bytes; p_sync : bool; p_channel : option Z }.
Definition pk_send_all (fuel : nat) (ps : list packet) : M unit :=
  for_each (fun p => pk_send fuel (p_data p) (p_sync p) (p_channel p)) ps.

(** _send_iterable (788-826).  A word has a "valid" attribute ([Some v]) or not.
    [self.bus.value = word] (818) creates an attribute on the Bus object and
    drives nothing (see C28). *)
Definition pk_iter_body (fuel : nat) (sync : bool) (x : list (option bool) * bool)
  : M (list (option bool) * bool + unit) :=
  let '(ws, first) := x in
  match ws with
  | [] => ret (inr tt)
  | w :: r =>
      (if negb first || sync then edge else ret tt) ;;                  (* 797-800 *)
      gap_code (k_set_valid L0) ;;                                      (* 802-813 *)
      (match w with None => drive (k_set_valid L1) | Some _ => ret tt end) ;; (* 815-818 *)
      (match w with
       | Some false => ret tt
       | _ => pk_wait fuel                                              (* 821-823 *)
       end) ;;
      ret (inl (r, false))
  end.
Definition pk_send_iterable (fuel : nat) (ws : list (option bool)) (sync : bool) : M unit :=
  loop fuel (pk_iter_body fuel sync) (ws, true) ;;
  edge ;;
  drive (k_set_valid L0).
End Driver.

(** ** Monitor (monitors/avalon.py:151-252) *)
Section Monitor.
Context (c : pcfg).

(** One rising edge: the reset signals given to the monitor (None: not given),
    ready, and the other bus signals. *)
(* monitors/avalon.py:170-191: the values at a rising edge *)
Record psample := PSample { s_rstn : option bits; s_rst : option bits; s_ready : logic; s_bus : pk_out }.

(** local variables: pkt, in_pkt, invalid_cyclecount, channel, and the variable
    [empty], unbound until a word with a non-zero empty was seen *)
(* monitors/avalon.py:156-159, 199: the local variables *)
Record pmstate := PM { m_pkt : bytes; m_in : bool; m_cnt : Z; m_ch : option Z; m_empty : option Z }.
(* monitors/avalon.py:156-159 *)
Definition pm_init : pmstate := PM [] false 0 None None.

(** what is handed to _recv *)
(* monitors/avalon.py:237-240: what is passed to _recv *)
Inductive report := RData (b : bytes) | RChan (b : bytes) (channel : option Z).

(** the nested function valid() (161-167) *)
Definition pm_valid (s : psample) : bool :=
  if c_ready c then is1 (k_valid (s_bus s)) && is1 (s_ready s) else is1 (k_valid (s_bus s)).

(** Python's value[:-n] and value[n:] for n > 0 *)
Definition drop_right {A} (n : nat) (l : list A) : list A := firstn (length l - n) l.

(** The data of the last word (197-220): the bytes and the new value of [empty].
    create_binary of one bit gives a Logic, which has no to_bytes; a zero-length
    LogicArray is taken to convert to b"". *)
Definition pm_last (e : option Z) (o : pk_out) : res (bytes * option Z) :=
  rbind (if use_empty c then match bval (k_empty o) with
                             | None => Err EValue
                             | Some z => Ok z
                             end
         else Ok 0%Z) (fun n =>
  let '(value, e) :=
    if (n =? 0)%Z then (k_data o, e)
    else let m := (n * Z.of_nat (c_dbs c))%Z in
         (if c_high c then drop_right (Z.to_nat m) (k_data o) else skipn (Z.to_nat m) (k_data o),
          Some m) in
  rbind (create_binary (BStr value) (length value) (c_high c)) (fun vec =>
  if negb (resolvable vec) then
    match e with None => Err EUnboundLocal | Some _ => Err EAvalonProtocol end
  else if length vec =? 1 then Err EAttribute
  else rbind (convert_binary_to_bytes vec (c_high c)) (fun b => Ok (b, e)))).

(** the channel check (222-231) *)
Definition pm_channel (ch : option Z) (o : pk_out) : res (option Z) :=
  match c_cw c with
  | None => Ok ch
  | Some _ =>
      match bval (k_channel o) with
      | None => Err EValue
      | Some v =>
          match ch with
          | None => if (max_channel c <? v)%Z then Err EAvalonProtocol else Ok (Some v)
          | Some w => if (v =? w)%Z then Ok ch else Err EAvalonProtocol
          end
      end
  end.

(** one iteration of the loop (170-252): what is reported, and the new locals *)
Definition pm_step (m : pmstate) (s : psample) : res (option report * pmstate) :=
  rbind (in_reset (s_rstn s) (s_rst s)) (fun rst =>
  if rst then Ok (None, m)                                              (* 172-173 *)
  else if pm_valid s then
    let o := s_bus s in
    rbind (if is1 (k_sop o) then                                        (* 178-185 *)
             match m_pkt m with
             | [] => Ok ([], true)
             | _ => Err EAvalonProtocol
             end
           else Ok (m_pkt m, m_in m)) (fun '(pkt, inp) =>
    if negb inp then Err EAvalonProtocol                                (* 187-188 *)
    else
      rbind (if negb (is1 (k_eop o))                                    (* 190-220 *)
             then rbind (convert_binary_to_bytes (k_data o) (c_high c)) (fun b => Ok (b, m_empty m))
             else pm_last (m_empty m) o) (fun '(b, e) =>
      rbind (pm_channel (m_ch m) o) (fun ch =>
      if is1 (k_eop o)
      then Ok (Some (if c_report c then RChan (pkt ++ b) ch else RData (pkt ++ b)),
               PM [] false 0 None e)
      else Ok (None, PM (pkt ++ b) inp 0 ch e))))
  else if m_in m then
    let n := (m_cnt m + 1)%Z in
    if negb (c_timeout c =? 0)%Z && (c_timeout c <=? n)%Z then Err EAvalonProtocol
    else Ok (None, PM (m_pkt m) true n (m_ch m) (m_empty m))
  else Ok (None, m)).

(** the reports and the final locals, or the exception that ended the coroutine *)
(* monitors/avalon.py:169-252: the loop *)
Fixpoint pm_run (m : pmstate) (l : list psample) : list report * res pmstate :=
  match l with
  | [] => ([], Ok m)
  | s :: r =>
      match pm_step m s with
      | Err e => ([], Err e)
      | Ok (rep, m') =>
          let '(reps, f) := pm_run m' r in
          (match rep with Some x => x :: reps | None => reps end, f)
      end
  end.
End Monitor.
