(** DrvUtilModel.v -- BusDriver._driver_send, BitDriver, the valid generator of
    ValidatedBusDriver and polled_socket_attachment
    (src/cocotb_bus/drivers/__init__.py). *)
From Verif Require Export Base DriverModel.
From Verif Require Import BusModel.
Local Open Scope list_scope.

(** ** BusDriver._driver_send (259-268) *)
Section BusSend.
Context (V : Type).                      (* values of signals and attributes *)

(** What a Python attribute of the Bus instance can hold after [setattr]. *)
(* drivers/__init__.py:268: an attribute of the bus object *)
Inductive pyattr := PHandle (h : option handle) | PObj (o : object V).

(** The Bus instance: [_signals] and its instance dictionary (bus.py:64, 102). *)
Record busobj := BusObj { b_signals : bus; b_attrs : list (string * pyattr) }.

(* bus.py:62-103: the attributes a Bus has *)
Definition bus_object (b : bus) : busobj :=
  BusObj b (map (fun e => (fst e, PHandle (snd e))) b).

(** Names in class Bus (bus.py:19-195) or object that are data descriptors,
    i.e. intercept instance attribute assignment.  Bus defines plain methods
    only (non-data descriptors), so these are the ones of [object]. *)
Definition bus_data_descriptors : list string := ["__class__"%string; "__dict__"%string; "__weakref__"%string].

(** [bus.name = o]: unless the class has a data descriptor of that name, Python
    stores the value in the instance dictionary.  First component: the
    assignments [hdl.value = v] to simulator handles this makes. *)
(* drivers/__init__.py:268: self.bus.value = transaction *)
Definition bus_setattr (b : busobj) (name : string) (o : object V)
  : res (list (handle * V) * busobj) :=
  if existsb (String.eqb name) bus_data_descriptors then Err EType
  else Ok ([], BusObj (b_signals b) (dict_set (b_attrs b) name (PObj o))).

(** Number of rising edges awaited, signal assignments made, new bus object. *)
Definition busdriver_send (b : busobj) (tx : object V) (sync : bool)
  : nat * res (list (handle * V) * busobj) :=
  ((if sync then 1 else 0), bus_setattr b "value" tx).          (* 266-268 *)
End BusSend.
Arguments PHandle {V}. Arguments PObj {V}.
Arguments b_signals {V}. Arguments b_attrs {V}. Arguments bus_object {V}. Arguments busdriver_send {V}.

(** ** BitDriver._cr_twiddler (52-68)

    One step per rising edge.  The generator is given by the list of pairs it
    yields before it ends (or, for an endless one, by any prefix); a [range]
    over a negative number is empty. *)
Local Open Scope Z_scope.
Inductive bitdrv :=
| BOn (left off : Z) (gen : list (Z * Z))   (* in line 65, [left] edges to go *)
| BOff (left : Z) (gen : list (Z * Z))      (* in line 68 *)
| BEnd (e : exn).                           (* the coroutine raised *)

(** From line 61 with the signal at [v] up to the next await: new state and the
    value the signal is left with.  [next] on an ended generator raises
    StopIteration, which leaves a coroutine as RuntimeError (PEP 479). *)
Fixpoint bd_loop (gen : list (Z * Z)) (v : logic) : bitdrv * logic :=
  match gen with
  | [] => (BEnd ERuntime, v)                                    (* 62 *)
  | (on, off) :: g =>
      if 0 <? on then (BOn on off g, L1)                        (* 63-65 *)
      else if 0 <? off then (BOff off g, L0)                    (* 66-68 *)
      else bd_loop g L0
  end.

(** One rising edge. *)
Definition bd_edge (s : bitdrv * logic) : bitdrv * logic :=
  match s with
  | (BOn n off g, v) =>
      if 1 <? n then (BOn (n - 1) off g, v)
      else if 0 <? off then (BOff off g, L0)                    (* 66-68 *)
      else bd_loop g L0
  | (BOff n g, v) => if 1 <? n then (BOff (n - 1) g, v) else bd_loop g v
  | (BEnd e, v) => (BEnd e, v)
  end.

(** State after n edges, and the values the signal has in the first n cycles
    (cycle k: between edge k and edge k+1 after the start). *)
Fixpoint bd_after (n : nat) (s : bitdrv * logic) : bitdrv * logic :=
  match n with O => s | S n' => bd_after n' (bd_edge s) end.
(* drivers/__init__.py:61-68: the signal in each clock cycle *)
Fixpoint bd_wave (n : nat) (s : bitdrv * logic) : list logic :=
  match n with O => [] | S n' => snd s :: bd_wave n' (bd_edge s) end.

(** start(generator) (32-46, 53-56): [stored] is the one given to the constructor. *)
Definition bd_start (given stored : option (list (Z * Z))) (v0 : logic) : bitdrv * logic :=
  match given, stored with
  | Some g, _ => bd_loop g v0
  | None, Some g => bd_loop g v0
  | None, None => (BEnd (EUser 0), v0)                          (* 54 *)
  end.

(** ** ValidatedBusDriver._next_valids (328-354) *)

(** [self.on]: the bool True, or an int (False is 0). *)
Inductive onval := OnTrue | OnInt (z : Z).
Definition truthy (o : onval) : bool := match o with OnTrue => true | OnInt z => negb (z =? 0) end.

(* drivers/__init__.py:323-326, 358: on, off, valid_generator *)
Record valid := Valid { v_on : onval; v_off : Z; v_gen : option (list (Z * Z)) }.

(** lines 338-348: the generator as the list of pairs it still yields.  (A
    generator that yields (0, _) for ever makes line 338 spin for ever; a list
    cannot.) *)
Fixpoint next_pair (gen : list (Z * Z)) (off : Z) : valid :=
  match gen with
  | [] => Valid OnTrue off (Some [])                            (* 341-348 *)
  | (on, off') :: g => if on =? 0 then next_pair g off' else Valid (OnInt on) off' (Some g)
  end.

Definition next_valids (v : valid) : valid :=
  match v_gen v with
  | Some g => next_pair g (v_off v)
  | None => Valid OnTrue 0 None                                 (* 351-353 *)
  end.

(** set_valid_generator (356-359), also run by the constructor (323-326) *)
Definition set_valid_generator (g : option (list (Z * Z))) : valid := next_valids (Valid (OnInt 0) 0 g).

(** The gap code used for every word by the Avalon-ST drivers
    (drivers/avalon.py:565-576, 713-724, 802-813): number of idle cycles
    inserted before the word, new state. *)
Definition throttle (v : valid) : nat * valid :=
  let '(gap, v) := if truthy (v_on v) then (O, v)
                   else (Z.to_nat (v_off v), next_valids v) in
  (gap, match v_on v with
        | OnInt z => if z =? 0 then v else Valid (OnInt (z - 1)) (v_off v) (v_gen v)
        | OnTrue => v
        end).

(** gaps before the next n words *)
(* drivers/avalon.py:565-576: the gaps before successive words *)
Fixpoint gaps (n : nat) (v : valid) : list nat :=
  match n with
  | O => []
  | S n' => let '(g, v') := throttle v in g :: gaps n' v'
  end.

(** ** polled_socket_attachment (362-384) *)
Section Socket.
Context (EAGAIN EWOULDBLOCK : Z).        (* the platform's errno values *)

(** Result of sock.recv(4096) at one clock edge. *)
Inductive sockres := SData (b : bytes) | SError (errno : Z).

(* drivers/__init__.py:371-384: how the loop ends *)
Inductive sockend := SRunning | SClosed | SRaised (errno : Z).

(** The chunks appended to the driver, and how the coroutine stands, after the
    given results of recv (one per rising edge). *)
Fixpoint sock_poll (rs : list sockres) : list bytes * sockend :=
  match rs with
  | [] => ([], SRunning)
  | SError e :: r =>
      if (e =? EAGAIN) || (e =? EWOULDBLOCK) then sock_poll r   (* 376-377 *)
      else ([], SRaised e)                                      (* 378-380 *)
  | SData b :: r =>
      match b with
      | [] => ([], SClosed)                                     (* 381-383 *)
      | _ => let '(l, s) := sock_poll r in (b :: l, s)          (* 384 *)
      end
  end.

(** the append calls this makes on the driver (no callback, no event) *)
(* drivers/__init__.py:384: driver.append(data) *)
Definition chunk_item (b : bytes) : item bytes := Item b None None false.
End Socket.
