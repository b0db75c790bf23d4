(** PktChModel.v -- the attribute [channel] of the Avalon-ST packet monitor. *)
From Verif Require Export Base CompatModel MonitorModel PktModel.
Local Open Scope list_scope.

(** the attribute self.channel: None until it is first assigned (reading it then raises
    AttributeError), Some ch once ch, which is None on a bus without channel, is assigned *)
(* monitors/avalon.py:236 *)
Definition attribute := option (option Z).

Section Chan.
Context (c : pcfg).

(** one iteration of the loop (170-252) with the attribute: what is handed to _recv together
    with the attribute as the callbacks find it (they run inside _recv), the attribute
    afterwards, and the new locals *)
(* monitors/avalon.py:170-252 *)
Definition chan_step (a : attribute) (m : pmstate) (s : psample)
  : res (option (report * attribute) * attribute * pmstate) :=
  rbind (in_reset (s_rstn s) (s_rst s)) (fun rst =>
  if rst then Ok (None, a, m)                                           (* 172-173 *)
  else if pm_valid c s then
    let o := s_bus s in
    rbind (if is1 (k_sop o) then                                        (* 178-185 *)
             match m_pkt m with
             | [] => Ok ([], true)
             | _ => Err EAvalonProtocol
             end
           else Ok (m_pkt m, m_in m)) (fun '(pkt, inp) =>
    if negb inp then Err EAvalonProtocol                                (* 187-188 *)
    else
      rbind (if negb (is1 (k_eop o))                                    (* 190-220 *)
             then rbind (convert_binary_to_bytes (k_data o) (c_high c)) (fun b => Ok (b, m_empty m))
             else pm_last c (m_empty m) o) (fun '(b, e) =>
      rbind (pm_channel c (m_ch m) o) (fun ch =>                        (* 222-231 *)
      if is1 (k_eop o)
      then let a := Some ch in                                          (* 236 *)
           Ok (Some (if c_report c then RChan (pkt ++ b) ch else RData (pkt ++ b), a), a,   (* 237-240 *)
               PM [] false 0 None e)
      else Ok (None, a, PM (pkt ++ b) inp 0 ch e))))
  else if m_in m then
    let n := (m_cnt m + 1)%Z in
    if negb (c_timeout c =? 0)%Z && (c_timeout c <=? n)%Z then Err EAvalonProtocol
    else Ok (None, a, PM (m_pkt m) true n (m_ch m) (m_empty m))
  else Ok (None, a, m)).

(** what the callbacks get and find, the attribute in the end, and the final locals or the
    exception that ended the coroutine *)
(* monitors/avalon.py:169-252: the loop *)
Fixpoint chan_run (a : attribute) (m : pmstate) (l : list psample)
  : list (report * attribute) * attribute * res pmstate :=
  match l with
  | [] => ([], a, Ok m)
  | s :: r =>
      match chan_step a m s with
      | Err e => ([], a, Err e)
      | Ok (rep, a', m') =>
          let '(reps, a'', f) := chan_run a' m' r in
          (match rep with Some x => x :: reps | None => reps end, a'', f)
      end
  end.

(** a new monitor: __init__ does not assign the attribute (95-148) *)
Definition chan_monitor (l : list psample) : list (report * attribute) * attribute * res pmstate :=
  chan_run None pm_init l.
End Chan.
