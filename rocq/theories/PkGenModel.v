(** PkGenModel.v -- the packetized Avalon-ST driver (drivers/avalon.py:681-786) while another
    task calls set_valid_generator (drivers/__init__.py:356-359) at arbitrary times: the code of
    PktModel.v with the cycles of StGenModel.v. *)
From Verif Require Export StGenModel PktModel.
Local Open Scope list_scope.

Section Driver.
Context (c : pcfg).
Notation M := (M valid gcycle pk_out).

(* drivers/avalon.py:696-786: if, without else *)
Definition gwhen (b : bool) (m : M unit) : M unit := if b then m else ret tt.

(** channel handling of one word (727-736) *)
Definition gpk_channel (channel : option Z) : M unit :=
  match c_cw c with
  | None => ret tt
  | Some n =>
      match channel with
      | None => drive (k_set_channel (zeros n))
      | Some ch =>
          if ((max_channel c <? ch) || (ch <? 0))%Z then raise EAssertion
          else v <- of_res (assign_int n ch) ;; drive (k_set_channel v)
      end
  end.

(** one iteration of the loop in _send_string up to _wait_ready (713-759) *)
Definition gpk_word (str : bytes) (first : bool) (channel : option Z) : M bytes :=
  gen_gap (k_set_valid L0) ;;                                           (* 713-724 *)
  drive (k_set_valid L1) ;;                                             (* 726 *)
  gpk_channel channel ;;                                                (* 727-736 *)
  drive (k_set_sop (if first then L1 else L0)) ;;                       (* 738-742 *)
  rest <- (if length str <=? bus_width c then                           (* 747 *)
             drive (k_set_eop L1) ;;
             gwhen (use_empty c)
               (e <- of_res (assign_int (ew c) (Z.of_nat (bus_width c) - Z.of_nat (length str))) ;;
                drive (k_set_empty e)) ;;
             ret []
           else ret (skipn (bus_width c) str)) ;;
  d <- of_res (create_binary (BBytes (firstn (bus_width c) str)) (c_width c) (c_high c)) ;; (* 755-759 *)
  drive (k_set_data d) ;;
  ret rest.

(** the loop body (709-764) *)
Definition gpk_body (fuel : nat) (sync : bool) (channel : option Z) (x : bytes * bool) : M (bytes * bool + unit) :=
  let '(str, first) := x in
  match str with
  | [] => ret (inr tt)
  | _ =>
      (if negb first || sync then tick else ret tt) ;;                  (* 710-711 *)
      rest <- gpk_word str first channel ;;
      (if c_ready c then gwait_ready fuel else ret tt) ;;               (* 763-764 *)
      ret (inl (rest, false))
  end.

(** defaults at the start (695-707) *)
Definition gpk_defaults (channel : option Z) : M unit :=
  gwhen (use_empty c) (drive (k_set_empty (zeros (ew c)))) ;;
  drive (k_set_sop L0) ;; drive (k_set_eop L0) ;; drive (k_set_valid L0) ;;
  gwhen (c_error c) (drive (k_set_error L0)) ;;
  match c_cw c with
  | Some n => drive (k_set_channel (zeros n))
  | None => match channel with Some _ => raise EAssertion | None => ret tt end
  end.

(** the end (767-786) *)
Definition gpk_finish : M unit :=
  drive (k_set_valid L0) ;;
  drive (k_set_eop L0) ;;
  drive (k_set_data (xs (c_width c))) ;;
  drive (k_set_sop LX) ;; drive (k_set_eop LX) ;;
  gwhen (use_empty c) (drive (k_set_empty (xs (ew c)))) ;;
  match c_cw c with Some n => drive (k_set_channel (xs n)) | None => ret tt end.

(** _send_string (681-786) *)
Definition gpk_send (fuel : nat) (str : bytes) (sync : bool) (channel : option Z) : M unit :=
  gpk_defaults channel ;;
  loop fuel (gpk_body fuel sync channel) (str, true) ;;
  tick ;;
  gpk_finish.
(* drivers/avalon.py:828-860 once per packet *)
Definition gpk_send_all (fuel : nat) (ps : list packet) : M unit :=
  for_each (fun p => gpk_send fuel (p_data p) (p_sync p) (p_channel p)) ps.

(** _send_iterable (788-826), as in PktModel.v *)
Definition gpk_iter_body (fuel : nat) (sync : bool) (x : list (option bool) * bool)
  : M (list (option bool) * bool + unit) :=
  let '(ws, first) := x in
  match ws with
  | [] => ret (inr tt)
  | w :: r =>
      (if negb first || sync then tick else ret tt) ;;                  (* 797-800 *)
      gen_gap (k_set_valid L0) ;;                                       (* 802-813 *)
      (match w with None => drive (k_set_valid L1) | Some _ => ret tt end) ;; (* 815-818 *)
      (match w with
       | Some false => ret tt
       | _ => if c_ready c then gwait_ready fuel else ret tt            (* 821-823 *)
       end) ;;
      ret (inl (r, false))
  end.
Definition gpk_send_iterable (fuel : nat) (ws : list (option bool)) (sync : bool) : M unit :=
  loop fuel (gpk_iter_body fuel sync) (ws, true) ;;
  tick ;;
  drive (k_set_valid L0).
End Driver.
