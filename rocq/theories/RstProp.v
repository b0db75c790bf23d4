(** RstProp.v -- C132: the reset of an Avalon-ST monitor. *)
From Verif Require Import Base CompatModel CompatSpec CompatProof AvalonSTModel AvalonSTSpec RstModel RstSpec RstProof.
Local Open Scope list_scope.

(** C132, what holds: if no word is transferred in a cycle with the reset active, those cycles
    make no difference. *)
Theorem C132_quiet_partial : forall has_ready be l,
  Forall (fun s => resetting s = true -> word_seen has_ready s = false) l ->
  rst_monitor has_ready be l = rst_monitor has_ready be (outside l).
Proof. exact quiet. Qed.
Print Assumptions C132_quiet_partial.

(** C132 is false: every (defined) word that is on the bus with valid and ready while the reset
    is active is delivered like any other, ... *)
Theorem C132_delivered_refuted : forall has_ready be a s b,
  snd (rst_monitor has_ready be a) = None ->
  resetting s = true -> word_seen has_ready s = true -> resolvable (the_word s) = true ->
  exists w z, bval (the_word s) = Some z /\ (if be then from_be w else from_le w) = z /\
    fst (rst_monitor has_ready be (a ++ s :: b)) = fst (rst_monitor has_ready be a) ++ w :: fst (rst_monitor has_ready be b) /\
    fst (rst_monitor has_ready be (a ++ b)) = fst (rst_monitor has_ready be a) ++ fst (rst_monitor has_ready be b).
Proof.
  intros hr be a s b A _ S R. destruct (convert_resolvable (the_word s) be R) as (w & z & C & V & _ & _ & _ & E).
  exists w, z. split; [exact V|]. split; [exact E|]. rewrite !split_run, A, rst_step, S, C. split; reflexivity.
Qed.
Print Assumptions C132_delivered_refuted.

(** ... and an undefined word, as a design in reset may well have, ends the monitor: nothing
    is delivered any more, after the reset either. *)
Theorem C132_ended_refuted : forall has_ready be a s b,
  snd (rst_monitor has_ready be a) = None ->
  resetting s = true -> word_seen has_ready s = true -> resolvable (the_word s) = false ->
  rst_monitor has_ready be (a ++ s :: b) = (fst (rst_monitor has_ready be a), Some EValue).
Proof.
  intros hr be a s b A _ S R. rewrite split_run, A, rst_step, S, (convert_unresolvable _ be R). cbn [fst snd]. rewrite app_nil_r. reflexivity.
Qed.
Print Assumptions C132_ended_refuted.

(** Examples: the word 1 before the reset, a word while reset_n is 0, and the word 2
    afterwards; a quiet reset, too. *)
Definition exr_cyc rn v d := RSample (Some [rn]) None (L1, StOut v d).
Definition exr_run w := [exr_cyc L1 L1 (zbits 8 1); exr_cyc L0 (fst w) (snd w); exr_cyc L1 L1 (zbits 8 2)].
Example C132_cases :
  resetting (exr_cyc L0 L1 (zbits 8 9)) = true /\ word_seen true (exr_cyc L0 L1 (zbits 8 9)) = true /\
  rst_monitor true true (exr_run (L1, zbits 8 9)) = ([[1]; [9]; [2]]%Z, None) /\
  rst_monitor true true (outside (exr_run (L1, zbits 8 9))) = ([[1]; [2]]%Z, None) /\
  rst_monitor true true (exr_run (L1, xs 8)) = ([[1]]%Z, Some EValue) /\
  rst_monitor true true (exr_run (LX, xs 8)) = ([[1]; [2]]%Z, None).
Proof. vm_compute. repeat split; reflexivity. Qed.
Example C132_quiet_case : Forall (fun s => resetting s = true -> word_seen true s = false) (exr_run (LX, xs 8)).
Proof. repeat (apply Forall_cons; [intro H; first [discriminate H|reflexivity]|]). apply Forall_nil. Qed.
