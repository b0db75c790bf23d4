(** RlModel.v -- the configuration option readyLatency of the packetized Avalon-ST driver and
    monitor (drivers/avalon.py:603-621, monitors/avalon.py:87-121). *)
From Verif Require Import Base Async DrvUtilModel PktModel.
Local Open Scope list_scope.

(** The configuration with the option: it has a default (drivers/avalon.py:607,
    monitors/avalon.py:91) and is stored when given (619-621, 119-121). *)
Record rl_config := RlConfig { rl_latency : nat; rl_other : pcfg }.

(** send (drivers/avalon.py:669-786, 828-861).  No line reads self.config["readyLatency"]; _wait_ready
    (669-679) looks at ready in the cycle of the word, see its FIXME. *)
Definition rl_send (c : rl_config) := pk_send (rl_other c).

(** the monitor (monitors/avalon.py:151-252); valid() (161-167) likewise *)
Definition rl_monitor (c : rl_config) (l : list psample) : list report * res pmstate :=
  pm_run (rl_other c) pm_init l.
