(** StGenModel.v -- the Avalon-ST driver (drivers/avalon.py:548-597) while another task calls
    set_valid_generator (drivers/__init__.py:356-359) at arbitrary times.  (AvalonSTModel.v has
    the code with a generator that is set between two sends at most.) *)
From Verif Require Export AvalonSTModel.
Local Open Scope list_scope.

(** A cycle: what the sink drives on ready, and the last call
    set_valid_generator(valid_generator=g) made after the driver ran at the edge beginning the
    cycle and before it runs at the edge ending it, if there is one (each call overwrites what
    the one before left) *)
(* drivers/__init__.py:356-359: set_valid_generator called in a cycle, or not *)
Definition gcycle : Type := (logic * option (option (list (Z * Z))))%type.

Section Gen.
Context {TO : Type}.
Notation M := (M valid gcycle TO).

(** the state after the call *)
(* drivers/__init__.py:356-359 *)
Definition apply_call (q : option (option (list (Z * Z)))) : M unit :=
  match q with Some g => put (set_valid_generator g) | None => ret tt end.
(** await clkedge; when the driver runs again the calls of the cycle have been made *)
(* drivers/avalon.py:563, 569, 586: await clkedge *)
Definition tick : M unit := fun w =>
  match ins w with
  | [] => edge w
  | c :: _ => (edge ;; apply_call (snd c)) w
  end.
(* drivers/avalon.py:568-569 *)
Fixpoint ticks (n : nat) : M unit :=
  match n with O => ret tt | S n' => tick ;; ticks n' end.

(** _wait_ready (536-546) *)
Definition gwait_body (_ : unit) : M (unit + unit) :=
  c <- input ;;
  if is1 (fst c) then ret (inr tt) else tick ;; readonly ;; ret (inl tt).
(* drivers/avalon.py:536-546 *)
Definition gwait_ready (fuel : nat) : M unit := readonly ;; loop fuel gwait_body tt.

(** "Consume a valid cycle" (574-576) *)
Definition consume (v : valid) : valid :=
  match v_on v with
  | OnInt z => if (z =? 0)%Z then v else Valid (OnInt (z - 1)) (v_off v) (v_gen v)
  | OnTrue => v
  end.
(** the gap (565-576): self.off is read when the gap begins, the generator is asked when it
    is over; [set0] assigns 0 to valid *)
Definition gen_gap (set0 : TO -> TO) : M unit :=
  v <- get ;;
  (if truthy (v_on v) then ret tt                                      (* 566 *)
   else drive set0 ;;                                                  (* 567 *)
        ticks (Z.to_nat (v_off v)) ;;                                  (* 568-569 *)
        v <- get ;; put (next_valids v)) ;;                            (* 572 *)
  v <- get ;; put (consume v).                                         (* 575-576 *)

End Gen.

Section Driver.
Context (width : nat) (has_ready : bool).
Notation M := (M valid gcycle st_out).

(** _driver_send (548-597) *)
Definition gen_send (fuel : nat) (value : binsrc) (sync : bool) : M unit :=
  drive (set_valid L0) ;;                                              (* 560 *)
  (if sync then tick else ret tt) ;;                                   (* 562-563 *)
  gen_gap (set_valid L0) ;;                                            (* 565-576 *)
  drive (set_valid L1) ;;                                              (* 578 *)
  d <- of_res (create_binary value width false) ;;                     (* 579 *)
  drive (set_data d) ;;
  (if has_ready then gwait_ready fuel else ret tt) ;;                  (* 583-584 *)
  tick ;;                                                              (* 586 *)
  drive (set_valid L0) ;;                                              (* 587 *)
  drive (set_data (xs width)).                                         (* 588-592 *)
Definition gen_send_all (fuel : nat) (ws : list (binsrc * bool)) : M unit :=
  for_each (fun p => gen_send fuel (fst p) (snd p)) ws.
End Driver.
