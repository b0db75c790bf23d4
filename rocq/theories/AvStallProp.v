(** AvStallProp.v -- the wait states of AvalonMemory are bounded (C99). *)
From Verif Require Import Base Async CompatModel CompatSpec AvMemModel AvMemSpec AvStallSpec AvStallProof.
Local Open Scope list_scope.

(** C99: whatever the masters do and whatever the random generator draws, as long as
    the memory runs a write request is held off for at most MaxWaitReqLen + 1
    cycles in a row (the last of them after the last beat of the previous burst),
    and for at most two more if a read is requested at the same time. *)
Theorem C99_stall c fuel s p o l w r : m_writeable c = true -> m_wait c = true -> Forall some_beats l ->
  respond c fuel (World s p (am_init c o) [] l) = (r, w) ->
  at_most stalled_write (p_maxwait (m_props c) + 1) (trace w) /\
  at_most stalled (p_maxwait (m_props c) + 3) (trace w).
Proof. exact (stall_thm c fuel s p o l w r). Qed.
Print Assumptions C99_stall.

(** C99: without options that is 5 and 7 cycles *)
Theorem C99_default c fuel s p o l w r : m_props c = construct default_props no_props ->
  m_writeable c = true -> m_wait c = true -> Forall some_beats l ->
  respond c fuel (World s p (am_init c o) [] l) = (r, w) ->
  at_most stalled_write 5 (trace w) /\ at_most stalled 7 (trace w).
Proof.
  intros Ep Wr Ww F E. pose proof (stall_thm c fuel s p o l w r Wr Ww F E) as H. rewrite Ep in H. exact H.
Qed.
Print Assumptions C99_default.

(** The bounds are attained: bursts of one beat, one after the other. The draws:
    no wait before a burst, 4 wait cycles after the beat. *)
Definition ex_cfg := AmCfg 8 true true true true true true 1 1 default_props.
Definition ex_rnd (k : nat) : nat := match k mod 3 with 0 => 1 | 1 => 0 | _ => 4 end.
Definition ex_beat (rd : logic) (n : Z) := AmIn rd L1 (zbits 8 4) (zbits 8 9) (zbits 4 n) [L1].
Definition ex_run (rnd : nat -> nat) (l : list am_in) :=
  respond ex_cfg 100 (World (AmState (fun _ => Some 1%Z) [] rnd 0) PMid (am_init ex_cfg (AmOut LX (xs 8) LX)) [] l).
Definition highs rnd (l : list am_in) := map (fun x => logic_eqb (w_wait (snd x)) L1) (trace (snd (ex_run rnd l))).
Example C99_nonvacuous :
  Forall some_beats (repeat (ex_beat L0 1) 20 ++ [ex_beat L1 1]) /\
  highs ex_rnd (repeat (ex_beat L0 1) 20) =
    [true; false; true; true; true; true; true; false; true; true; true; true; true; false;
     true; true; true; true; true; false] /\
  highs ex_rnd (repeat (ex_beat L0 1) 7 ++ repeat (ex_beat L1 1) 6) =
    [true; false; true; true; true; true; true; true; true; false; false; false; true].
Proof.
  split.
  - apply Forall_app. split.
    + apply Forall_forall. intros x Hx. apply repeat_spec in Hx. subst. intros _. discriminate.
    + apply Forall_cons; [|constructor]. intros _. discriminate.
  - split; vm_compute; reflexivity.
Qed.
(** A request for no beats is held off for ever: the hypothesis is needed. *)
Example C99_no_beats : highs (fun _ => 1) (repeat (ex_beat L0 0) 20) = repeat true 20.
Proof. vm_compute. reflexivity. Qed.
