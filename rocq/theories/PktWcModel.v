(** PktWcModel.v -- AvalonSTPktsWithChannel, the old name of a reporting packet monitor. *)
From Verif Require Export Base CompatModel MonitorModel PktModel PktChModel.
Local Open Scope list_scope.

(** the configuration with the argument report_channel replaced *)
(* monitors/avalon.py:108 *)
Definition with_report (b : bool) (c : pcfg) : pcfg :=
  PCfg (c_width c) (c_dbs c) (c_high c) (c_maxch c) (c_ready c) (c_ew c) (c_cw c) (c_error c) (c_timeout c) b.

(** AvalonSTPkts.__init__: the configuration of the process it starts, or its exception.
    [report]: the argument report_channel, if given *)
(* monitors/avalon.py:95-148 *)
Definition pkts_init (c : pcfg) (report : option bool) : res pcfg :=
  let c := with_report (match report with Some b => b | None => false end) c in
  rbind (pm_check c) (fun _ => Ok c).

(** AvalonSTPktsWithChannel.__init__: report_channel=True next to **kwargs, which is a
    TypeError when they contain it too.  Not modelled: the DeprecationWarning, which a test
    run can turn into an exception. *)
(* monitors/avalon.py:261-268 *)
Definition wc_init (c : pcfg) (report : option bool) : res pcfg :=
  match report with
  | Some _ => Err EType
  | None => pkts_init c (Some true)
  end.
