(** RlSpec.v -- transfers on an Avalon-ST bus with a ready latency. *)
From Verif Require Import Base PktModel PktSpec HandshakeSpec.
Local Open Scope list_scope.

(** The Avalon interface specification: with a ready latency of [R], a cycle is a ready cycle if
    ready was high [R] cycles before, and a word is taken in a ready cycle with valid high.
    A cycle is (ready, the rest of the bus). *)
Definition takes (R : nat) (tr : list (logic * pk_out)) : list pk_out :=
  map (fun p => snd (fst p))
      (filter (fun p => k_offered (snd (fst p)) && k_accepts true (snd p))
              (combine (skipn R tr) (map fst tr))).

Definition idle_cycle (x : logic * pk_out) : Prop := k_offered (snd x) = false.
Definition ready_high (x : logic * pk_out) : Prop := fst x = L1.

(** the number of cycles with ready high *)
Definition granted (tr : list (logic * pk_out)) : nat := ready_cycles (k_accepts true) (map fst tr).

(** what a monitor without reset signals sees *)
Definition cycle_of (s : psample) : logic * pk_out := (s_ready s, s_bus s).
Definition sample_of (x : logic * pk_out) : psample := PSample None None (fst x) (snd x).

(** A source and a sink with ready latency [R] that are in no hurry: for each word, the sink
    raises ready for one cycle and the word follows [R] cycles later ([o] is the bus with
    valid low). *)
Definition leisurely (R : nat) (o : pk_out) (ws : list pk_out) : list (logic * pk_out) :=
  flat_map (fun w => (L1, o) :: repeat (L0, o) (R - 1) ++ [(L0, w)]) ws.
