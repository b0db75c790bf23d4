(** SampleModel.v -- Bus.sample (bus.py:163-195) with the kinds of objects that attributes and
    signal values can be.  BusModel.v's [sample] looks at values only. *)
From Verif Require Import Base BusModel CompatModel.
Local Open Scope list_scope.

Section Sample.
Variables (A V : Type).           (* objects stored as attributes; values read from signals *)

(** What the call [x.set_binstr(bits)] does: the attribute has no such method, or it leaves the
    object in some state and returns or raises. *)
(* bus.py:193: what set_binstr does, or that there is none *)
Inductive set_result : Type := SNoMethod | SDone (x : A) (r : res unit).

Variable set_binstr : A -> bits -> set_result.      (* class of the attribute *)
Variable get_binstr : V -> option bits.             (* class of the value; None: no such method *)
Variable as_attr : V -> A.                          (* the value itself, stored as an attribute *)

(** bus.py:192-195: first [getattr(obj, attr).set_binstr] is looked up, then the argument
    [hdl.value.get_binstr()] is evaluated, then the method is called; an AttributeError
    of any of these leads to the plain assignment. *)
Definition sample_attr (x : A) (v : V) : A * res unit :=
  match get_binstr v with
  | None => (as_attr v, Ok tt)                                        (* 194-195 *)
  | Some s =>
      match set_binstr x s with
      | SNoMethod => (as_attr v, Ok tt)                               (* 194-195 *)
      | SDone _ (Err EAttribute) => (as_attr v, Ok tt)                (* raised inside set_binstr *)
      | SDone x' r => (x', r)                                         (* 193 *)
      end
  end.

(** Bus.sample (bus.py:163-195) *)
Fixpoint sample_objects (b : bus) (value : handle -> V) (obj : object A) (strict : bool)
  : object A * res unit :=
  match b with
  | [] => (obj, Ok tt)
  | (attr, hdl) :: r =>
      match dict_get obj attr with
      | None => if strict then (obj, Err EAttribute)                   (* 175-186 *)
                else sample_objects r value obj strict                 (* 188 *)
      | Some x =>
          match hdl with
          | None => (obj, Err EAttribute)                              (* None.value, 193 and 195 *)
          | Some h =>
              match sample_attr x (value h) with
              | (x', Ok _) => sample_objects r value (dict_set obj attr x') strict
              | (x', Err e) => (dict_set obj attr x', Err e)
              end
          end
      end
  end.
End Sample.
Arguments SNoMethod {A}.
Arguments SDone {A}.

(** ** cocotb 1.x: a signal's value is a BinaryValue, and so may be the attribute.  A BinaryValue
    has bits, possibly a fixed number of bits, and a byte order (cocotb 1.x, not in /repo). *)
Inductive pyobj : Type :=
| PBin (s : bits) (n_bits : option nat) (big_endian : bool)
| POther (k : nat).                                  (* any object without set_binstr *)

(** BinaryValue.set_binstr: takes the bits, then _adjust pads or cuts them to n_bits *)
(* bus.py:193: set_binstr of cocotb 1.x's BinaryValue *)
Definition set_binstr_1x (x : pyobj) (s : bits) : set_result pyobj :=
  match x with
  | POther _ => SNoMethod
  | PBin _ None big => SDone (PBin s None big) (Ok tt)
  | PBin _ (Some n) big => SDone (PBin (adjust_1x s n big) (Some n) big) (Ok tt)
  end.

(** BinaryValue.get_binstr *)
(* bus.py:193: get_binstr of cocotb 1.x's BinaryValue *)
Definition get_binstr_1x (v : pyobj) : option bits :=
  match v with PBin s _ _ => Some s | POther _ => None end.

(* bus.py:163-195 with the values of cocotb 1.x *)
Definition sample_1x := sample_objects pyobj pyobj set_binstr_1x get_binstr_1x (fun v => v).
