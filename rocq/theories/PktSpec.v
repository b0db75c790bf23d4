(** PktSpec.v -- packets on an Avalon-ST bus, as an observer sees them. *)
From Verif Require Import Base PktModel HandshakeSpec.
Local Open Scope list_scope.

(** the source offers a word / the sink accepts *)
Definition k_offered (o : pk_out) : bool := match k_valid o with L1 => true | _ => false end.
Definition k_accepts (has_ready : bool) (r : logic) : bool :=
  if has_ready then match r with L1 => true | _ => false end else true.

(** the bits of a bus word holding the given bytes: first byte at the left (high
    order) end or at the right end *)
Definition word_bits (high : bool) (b : bytes) : bits :=
  flat_map (zbits 8) (if high then b else rev b).
(** ... on a bus with [pad] further data lines, which are 0: after the last byte *)
Definition padded (high : bool) (pad : nat) (x : bits) : bits :=
  if high then x ++ repeat L0 pad else repeat L0 pad ++ x.

(** The words [ws] carry the packet [pkt] on a bus of [k] bytes and [pad] further lines. *)
Record framed (high has_empty : bool) (k pad : nat) (pkt : bytes) (ws : list pk_out) : Prop := Framed {
  fr_count : length ws = Nat.div (length pkt + k - 1) k;
  fr_sop : map k_sop ws = L1 :: repeat L0 (length ws - 1);
  fr_eop : map k_eop ws = repeat L0 (length ws - 1) ++ [L1];
  fr_empty : has_empty = true -> exists before w, ws = before ++ [w]
             /\ bval (k_empty w) = Some (Z.of_nat k * Z.of_nat (length ws) - Z.of_nat (length pkt))%Z;
  fr_data : exists chunks, Forall (fun b => length b = k) chunks
             /\ concat chunks = pkt ++ repeat 0%Z (k * length ws - length pkt)
             /\ map k_data ws = map (fun b => padded high pad (word_bits high b)) chunks
}.

(** what a packet looks like to the callbacks of a monitor *)
Definition as_reported (report_channel : bool) (has_channel : bool) (pkt : bytes) (ch : option Z) : report :=
  if report_channel
  then RChan pkt (if has_channel then Some (match ch with Some z => z | None => 0%Z end) else None)
  else RData pkt.

(** a bus of at least a byte, [k] of them whole; any symbol size; the empty signal, if
    there is one, can count to k-1 *)
Record word_bus (c : pcfg) (k : nat) : Prop := WordBus {
  wb_width : 8 * k <= c_width c < 8 * k + 8;
  wb_pos : 0 < k;
  wb_empty : use_empty c = true -> exists n, c_ew c = Some n /\ (Z.of_nat k <= 2 ^ Z.of_nat n)%Z;
  wb_check : pk_check c = Ok tt
}.

(** a bus of [k] whole bytes whose empty signal can count to k-1, one byte per symbol *)
Record byte_bus (c : pcfg) (k : nat) : Prop := ByteBus {
  bb_width : c_width c = 8 * k;
  bb_pos : 0 < k;
  bb_symbol : c_dbs c = 8;
  bb_empty : 1 < k -> exists n, c_ew c = Some n /\ (Z.of_nat k <= 2 ^ Z.of_nat n)%Z;
  bb_check : pk_check c = Ok tt
}.

(** a packet without unused bytes, or unused bytes that are whole symbols *)
Definition fills (c : pcfg) (k : nat) (pkt : bytes) : Prop := c_dbs c = 8 \/ Nat.modulo (length pkt) k = 0.

(** the channel argument is allowed on this bus *)
Definition channel_ok (c : pcfg) (ch : option Z) : Prop :=
  match c_cw c, ch with
  | None, None => True
  | None, Some _ => False
  | Some _, None => (0 <= max_channel c)%Z
  | Some _, Some z => (0 <= z <= max_channel c)%Z
  end.

(** ** What the monitor should do *)

(** the monitor's reset is active / inactive in this cycle (an X is neither) *)
Definition in_reset_cycle (s : psample) : bool :=
  match s_rstn s, s_rst s with
  | Some v, _ => match bval v with Some 0%Z => true | _ => false end
  | None, Some v => match bval v with Some z => negb (z =? 0)%Z | None => false end
  | None, None => false
  end.
Definition running_cycle (s : psample) : bool :=
  match s_rstn s, s_rst s with
  | Some v, _ => match bval v with Some z => negb (z =? 0)%Z | None => false end
  | None, Some v => match bval v with Some z => (z =? 0)%Z | None => false end
  | None, None => true
  end.

Section Observer.
Context (c : pcfg).

Definition transfer (s : psample) : bool :=
  k_offered (s_bus s) && k_accepts (c_ready c) (s_ready s).

(** the words transferred outside reset *)
Definition seen (l : list psample) : list pk_out :=
  map s_bus (filter (fun s => running_cycle s && transfer s) l).

Definition is_eop (w : pk_out) : bool := match k_eop w with L1 => true | _ => false end.
Definition is_sop (w : pk_out) : bool := match k_sop w with L1 => true | _ => false end.

(** cut a sequence of words after each endofpacket: the complete packets, and the
    words after the last endofpacket *)
Definition parse (ws : list pk_out) : list (list pk_out) * list pk_out :=
  fold_left (fun '(done, cur) w => if is_eop w then (done ++ [cur ++ [w]], []) else (done, cur ++ [w])) ws ([], []).
Definition completed (ws : list pk_out) : list (list pk_out) := fst (parse ws).
Definition current (ws : list pk_out) : list pk_out := snd (parse ws).

(** the part of the data that is used *)
Definition used (w : pk_out) : bits :=
  if is_eop w && use_empty c then
    match bval (k_empty w) with
    | Some e => let n := Z.to_nat (e * Z.of_nat (c_dbs c)) in
                if c_high c then firstn (length (k_data w) - n) (k_data w) else skipn n (k_data w)
    | None => k_data w
    end
  else k_data w.

(** the word masks some symbols *)
Definition masks (w : pk_out) : Prop :=
  is_eop w = true /\ use_empty c = true /\ exists e, bval (k_empty w) = Some e /\ e <> 0%Z.

(** all of the word that matters has a value *)
Definition readable (w : pk_out) : Prop :=
  resolvable (used w) = true
  /\ (is_eop w = true -> length (used w) <> 1 /\ (use_empty c = true -> exists e, bval (k_empty w) = Some e))
  /\ (c_cw c <> None -> exists v, bval (k_channel w) = Some v).

Definition word_bytes (w : pk_out) : bytes :=
  match convert_binary_to_bytes (used w) (c_high c) with Ok b => b | Err _ => [] end.

(** the word does not belong where it is *)
Definition misplaced (ws : list pk_out) (w : pk_out) : Prop :=
  (current ws = [] /\ is_sop w = false) \/ (current ws <> [] /\ is_sop w = true).

Definition bad_channel (ws : list pk_out) (w : pk_out) : Prop :=
  c_cw c <> None
  /\ match current ws with
     | [] => exists v, bval (k_channel w) = Some v /\ (max_channel c < v)%Z
     | f :: _ => bval (k_channel w) <> bval (k_channel f)
     end.

(** the channel of a packet is that of its first word *)
Definition first_channel (ws : list pk_out) : option Z :=
  match c_cw c, ws with Some _, f :: _ => bval (k_channel f) | _, _ => None end.
Definition reported (ws : list pk_out) : report :=
  let data := flat_map word_bytes ws in
  if c_report c then RChan data (first_channel ws) else RData data.

(** every transferred word has at least one data bit (a bus without data is not a bus) *)
Definition wide_words (l : list psample) : Prop := Forall (fun w => 0 < length (k_data w)) (seen l).

(** length of the run of idle cycles at the end *)
Definition idle_run (l : list psample) : nat :=
  fold_left (fun n s => if transfer s then 0 else S n) (filter running_cycle l) 0.

(** a packet has been held up: after the cycles [a], which end inside a packet, there are
    invalidTimeout cycles in a row, resets aside, without a transfer (never, when
    invalidTimeout is 0) *)
Definition stalled (l : list psample) : Prop :=
  (0 < c_timeout c)%Z
  /\ exists a mid b, filter running_cycle l = a ++ mid ++ b /\ Z.of_nat (length mid) = c_timeout c
       /\ Forall (fun s => transfer s = false) mid /\ current (seen a) <> [].
End Observer.

(** the bus between two packets: valid low and every other signal the driver drives X *)
Definition idle_bus (c : pcfg) (o : pk_out) : Prop :=
  k_valid o = L0 /\ k_sop o = LX /\ k_eop o = LX /\ k_data o = xs (c_width c)
  /\ (use_empty c = true -> forall n, c_ew c = Some n -> k_empty o = xs n)
  /\ (forall n, c_cw c = Some n -> k_channel o = xs n).

(** what a monitor without reset signals samples of a bus trace *)
Definition sampled (tr : list (logic * pk_out)) : list psample :=
  map (fun '(i, o) => PSample None None i o) tr.
