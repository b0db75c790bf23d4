(** GenExnModel.v -- valid generators (drivers/__init__.py:316-359, used by
    drivers/avalon.py:548-597) and generators of a BitDriver (drivers/__init__.py:52-68) that
    may raise an exception or that are no iterators.  (DrvUtilModel.v and AvalonSTModel.v have
    the same code with generators that yield pairs and end.) *)
From Verif Require Export AvalonSTModel.
Local Open Scope list_scope.

(** What the user passes as a generator: an object without __next__, such as a list, or an
    iterator, given by what its next() does call after call: yield a pair, or raise (also if
    the value it yields is not a pair of two things); at the end of the list it raises
    StopIteration. *)
(* drivers/__init__.py:340: a generator whose next() may raise *)
Inductive source := NotIterator | Iter (l : list (res (Z * Z))).

(** ** ValidatedBusDriver *)

(** self.on, self.off, self.valid_generator.  [x_off] is None for Python's None (line 324);
    False (line 352) is 0. *)
Record xvalid := XValid { x_on : onval; x_off : option Z; x_src : option source }.

(** lines 338-348 *)
Fixpoint x_pull (l : list (res (Z * Z))) (off : option Z) : xvalid * res unit :=
  match l with
  | [] => (XValid OnTrue off (Some (Iter [])), Ok tt)                             (* 341-348 *)
  | Err e :: r => (XValid (OnInt 0) off (Some (Iter r)), Err e)                   (* 340 *)
  | Ok (on, off') :: r =>
      if (on =? 0)%Z then x_pull r (Some off')
      else (XValid (OnInt on) (Some off') (Some (Iter r)), Ok tt)
  end.
(** _next_valids (328-354): the new state and what the call raises *)
Definition x_next (v : xvalid) : xvalid * res unit :=
  match x_src v with
  | None => (XValid OnTrue (Some 0%Z) None, Ok tt)                                (* 351-353 *)
  | Some NotIterator => (XValid (OnInt 0) (x_off v) (Some NotIterator), Err EType)
  | Some (Iter l) => x_pull l (x_off v)
  end.
(** set_valid_generator (356-359) *)
Definition x_set (g : option source) (v : xvalid) : xvalid * res unit := x_next (XValid (x_on v) (x_off v) g).
(** __init__ (323-326) *)
Definition x_construct (g : option source) : xvalid * res unit := x_set g (XValid (OnInt 0) None None).

(** avalon.py:575-576 *)
Definition x_consume (v : xvalid) : xvalid :=
  match x_on v with
  | OnInt z => if (z =? 0)%Z then v else XValid (OnInt (z - 1)) (x_off v) (x_src v)
  | OnTrue => v
  end.

Section Driver.
Context (width : nat) (has_ready : bool).
Notation M := (M xvalid logic st_out).

(** the gap (avalon.py:565-576); range(None) raises TypeError *)
Definition x_gap : M unit :=
  v <- get ;;
  (if truthy (x_on v) then ret tt                                      (* 566 *)
   else drive (set_valid L0) ;;                                        (* 567 *)
        match x_off v with None => raise EType | Some n => edges (Z.to_nat n) end ;;   (* 568-569 *)
        v <- get ;; put (fst (x_next v)) ;; of_res (snd (x_next v))) ;;                (* 572 *)
  v <- get ;; put (x_consume v).                                       (* 575-576 *)

(** _driver_send (548-597) *)
Definition x_send (fuel : nat) (value : binsrc) (sync : bool) : M unit :=
  drive (set_valid L0) ;;                                              (* 560 *)
  (if sync then edge else ret tt) ;;                                   (* 562-563 *)
  x_gap ;;                                                             (* 565-576 *)
  drive (set_valid L1) ;;                                              (* 578 *)
  d <- of_res (create_binary value width false) ;;                     (* 579 *)
  drive (set_data d) ;;
  (if has_ready then wait_ready fuel else ret tt) ;;                   (* 583-584 *)
  edge ;;                                                              (* 586 *)
  drive (set_valid L0) ;;                                              (* 587 *)
  drive (set_data (xs width)).                                         (* 588-592 *)

(** A test that awaits one send() after the other, each in a try statement, and notes which
    of them raised. *)
(* drivers/__init__.py:147: try: await driver.send(...) in the test *)
Definition attempt {A} (m : M A) : M (res A) := fun w =>
  match m w with
  | (Done a, w') => (Done (Ok a), w')
  | (Exn e, w') => (Done (Err e), w')
  | (Susp, w') => (Susp, w')
  | (Fuel, w') => (Fuel, w')
  end.
(* drivers/__init__.py:136-147: every send tried, whatever the ones before did *)
Fixpoint x_send_each (fuel : nat) (ws : list (binsrc * bool)) : M (list (res unit)) :=
  match ws with
  | [] => ret []
  | (value, sync) :: r =>
      x <- attempt (x_send fuel value sync) ;;
      xs <- x_send_each fuel r ;;
      ret (x :: xs)
  end.
End Driver.

(** ** BitDriver._cr_twiddler (52-68), as in DrvUtilModel.v *)
Local Open Scope Z_scope.
Inductive xbit :=
| XOn (left off : Z) (gen : list (res (Z * Z)))   (* in line 65, [left] edges to go *)
| XOff (left : Z) (gen : list (res (Z * Z)))      (* in line 68 *)
| XEnd (e : exn).                                 (* the coroutine raised *)
Fixpoint xb_loop (gen : list (res (Z * Z))) (v : logic) : xbit * logic :=
  match gen with
  | [] => (XEnd ERuntime, v)                                    (* 62, PEP 479 *)
  | Err e :: _ => (XEnd e, v)                                   (* 62 *)
  | Ok (on, off) :: g =>
      if 0 <? on then (XOn on off g, L1)                        (* 63-65 *)
      else if 0 <? off then (XOff off g, L0)                    (* 66-68 *)
      else xb_loop g L0
  end.
(** start(generator) *)
Definition xb_start (g : source) (v : logic) : xbit * logic :=
  match g with NotIterator => (XEnd EType, v) | Iter l => xb_loop l v end.
(** one rising edge *)
Definition xb_edge (s : xbit * logic) : xbit * logic :=
  match s with
  | (XOn n off g, v) =>
      if 1 <? n then (XOn (n - 1) off g, v)
      else if 0 <? off then (XOff off g, L0)                    (* 66-68 *)
      else xb_loop g L0
  | (XOff n g, v) => if 1 <? n then (XOff (n - 1) g, v) else xb_loop g v
  | (XEnd e, v) => (XEnd e, v)
  end.
Fixpoint xb_after (n : nat) (s : xbit * logic) : xbit * logic :=
  match n with O => s | S n' => xb_after n' (xb_edge s) end.
(* drivers/__init__.py:61-68: the signal in each clock cycle *)
Fixpoint xb_wave (n : nat) (s : xbit * logic) : list logic :=
  match n with O => [] | S n' => snd s :: xb_wave n' (xb_edge s) end.
