(** PktRejModel.v -- the construction of the packet monitor as a whole
    (monitors/avalon.py:96-149): the process that observes the bus is started by
    Monitor.__init__ (monitors/__init__.py:73-74, called in line 107), before the checks of
    lines 113-149. *)
From Verif Require Import Base Async CompatModel MonitorModel PktModel.
Local Open Scope list_scope.

Section Construction.
Context (c : pcfg).

(** One iteration of the loop (170-252) without config["useEmpty"], which is set in line 130
    only: KeyError in the last word of a packet (199), after the checks of lines 178-188.
    When the exception is that of lines 113-117 the options of the config argument are not
    set either; they make no difference to what is reported. *)
Definition pm_step_unset (m : pmstate) (s : psample) : res (option report * pmstate) :=
  rbind (in_reset (s_rstn s) (s_rst s)) (fun rst =>
  if rst then Ok (None, m)
  else if pm_valid c s then
    let o := s_bus s in
    rbind (if is1 (k_sop o) then
             match m_pkt m with
             | [] => Ok ([], true)
             | _ => Err EAvalonProtocol
             end
           else Ok (m_pkt m, m_in m)) (fun '(pkt, inp) =>
    if negb inp then Err EAvalonProtocol
    else if is1 (k_eop o) then Err EKey                                  (* 199 *)
    else
      rbind (convert_binary_to_bytes (k_data o) (c_high c)) (fun b =>
      rbind (pm_channel c (m_ch m) o) (fun ch =>
      Ok (None, PM (pkt ++ b) inp 0 ch (m_empty m)))))
  else if m_in m then
    let n := (m_cnt m + 1)%Z in
    if negb (c_timeout c =? 0)%Z && (c_timeout c <=? n)%Z then Err EAvalonProtocol
    else Ok (None, PM (m_pkt m) true n (m_ch m) (m_empty m))
  else Ok (None, m)).

(* monitors/avalon.py:169-252: the loop, self.channel not yet assigned *)
Fixpoint pm_run_unset (m : pmstate) (l : list psample) : list report * res pmstate :=
  match l with
  | [] => ([], Ok m)
  | s :: r =>
      match pm_step_unset m s with
      | Err e => ([], Err e)
      | Ok (rep, m') =>
          let '(reps, f) := pm_run_unset m' r in
          (match rep with Some x => x :: reps | None => reps end, f)
      end
  end.

(** is line 130 reached? *)
Definition config_set : bool :=
  negb (match c_cw c with None => c_report c | Some _ => false end)
  && negb (use_empty c && match c_ew c with None => true | Some _ => false end).

(** AvalonSTPkts(...): the outcome, and what the process started by it reports (to the
    callback and the event given to the constructor) *)
(* monitors/avalon.py:95-149, 151-252: construction, then the loop *)
Definition pm_construct (l : list psample) : res unit * list report :=
  (pm_check c, fst (if config_set then pm_run c pm_init l else pm_run_unset pm_init l)).
(** ... and how that process stands: running with its locals, or ended by an exception *)
(* monitors/avalon.py:156-159: the local variables after the loop *)
Definition pm_leftover (l : list psample) : res pmstate :=
  snd (if config_set then pm_run c pm_init l else pm_run_unset pm_init l).
End Construction.
