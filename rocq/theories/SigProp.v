(** SigProp.v -- C103: waiting for a signal. *)
From Verif Require Import Base SigModel SigSpec SigProof.
Local Open Scope list_scope.

(** Whatever the signal does, in every time step and inside it: _wait_for_signal returns in
    the first step, from the one of the call on, in which the signal settles to 1, and never
    in another; it goes on waiting only if there is none; it can raise only (ValueError) in a
    step in which the signal settles to an undefined value, with no 1 before. *)
Theorem C103_wait_for_signal : forall v steps,
  match wait_for_signal v steps with
  | Returned n => first_step (eq L1) (values v steps) n
  | Raised n e => e = EValue /\ (exists x, nth_error (values v steps) n = Some x /\ ~ known x)
      /\ forall k, k <= n -> nth_error (values v steps) k <> Some L1
  | Waiting => Forall (fun x => x <> L1) (values v steps)
  end.
Proof. exact wait_signal_thm. Qed.
Print Assumptions C103_wait_for_signal.

(** An undefined value at the call always raises.  Later ones are noticed only in a step in
    which the signal also was 1 for a moment: not if it changes at most once in each step. *)
Theorem C103_undefined :
  (forall v steps, ~ known v -> wait_for_signal v steps = Raised 0 EValue)
  /\ forall v steps, known v -> Forall (fun s => length s <= 1) steps -> forall n e, wait_for_signal v steps <> Raised n e.
Proof.
  split; [|exact wait_smooth]. intros v steps N. unfold wait_for_signal. cbn [wait_loop].
  destruct v; try reflexivity; exfalso; apply N; unfold known; auto.
Qed.
Print Assumptions C103_undefined.

(** _wait_for_nsignal ends in the first step in which the signal does not settle to 1: it
    returns if that is a 0 and raises ValueError otherwise. *)
Theorem C103_wait_for_nsignal : forall v steps,
  match wait_for_nsignal v steps with
  | Returned n => first_step (fun x => x <> L1) (values v steps) n /\ nth_error (values v steps) n = Some L0
  | Raised n e => e = EValue /\ first_step (fun x => x <> L1) (values v steps) n /\ nth_error (values v steps) n <> Some L0
  | Waiting => Forall (eq L1) (values v steps)
  end.
Proof. exact wait_nsignal_thm. Qed.
Print Assumptions C103_wait_for_nsignal.

(** A glitch to 1 and back, an undefined value, a step without change, then a 1 that comes
    after another glitch. *)
Example C103_nonvacuous :
  values L0 [[L1; L0]; [LX]; []; [L0; L1; L0; L1]; [L0]] = [L0; L0; LX; LX; L1; L0]
  /\ wait_for_signal L0 [[L1; L0]; [LX]; []; [L0; L1; L0; L1]; [L0]] = Returned 4
  /\ wait_for_signal L0 [[L1; LX]; [L1]] = Raised 1 EValue
  /\ wait_for_signal L0 [[LX]; [L0]; [L1; L0]] = Waiting
  /\ wait_for_signal L1 [] = Returned 0
  /\ wait_for_nsignal L1 [[L0; L1]; []; [LX; L0]] = Returned 3
  /\ wait_for_nsignal L1 [[L0; L1]; []; [LX]; [L0]] = Raised 3 EValue.
Proof. repeat split; reflexivity. Qed.
