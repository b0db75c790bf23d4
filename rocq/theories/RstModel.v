(** RstModel.v -- the Avalon-ST monitor that is not packetized (monitors/avalon.py:28-72),
    constructed with reset signals (monitors/__init__.py:163-188). *)
From Verif Require Export Base CompatModel AvalonSTModel.
Local Open Scope list_scope.

(** what there is at a clock edge: the values of the reset signals given to the constructor
    (self._reset_n and self._reset, 185-186; None if not given), and the bus *)
Record rsample := RSample { r_rstn : option bits; r_rst : option bits; r_cycle : logic * st_out }.

(** _monitor_recv (monitors/avalon.py:47-72): transactions passed to _recv, and the exception
    that ended the coroutine, if any.  The loop (61-71) uses valid, ready and data only;
    in_reset (monitors/__init__.py:189-196) is not looked at. *)
Fixpoint rst_monitor (has_ready big_endian : bool) (l : list rsample) : list bytes * option exn :=
  match l with
  | [] => ([], None)
  | s :: r =>
      if st_transfer has_ready (r_cycle s) then
        match convert_binary_to_bytes (o_data (snd (r_cycle s))) big_endian with
        | Err e => ([], Some e)
        | Ok b => let '(ts, e) := rst_monitor has_ready big_endian r in (b :: ts, e)
        end
      else rst_monitor has_ready big_endian r
  end.
