(** DriverSpec.v -- what C22 .. C25 demand of the observable log of a driver. *)
From Verif Require Import DriverModel.

Section Spec.
Context {T : Type}.

(** [follows step s l s']: reading the log [l] from left to right moves a
    reference automaton from [s] to [s'] without getting stuck. *)
Inductive follows {S : Type} (stp : S -> ev T -> S -> Prop) : S -> list (ev T) -> S -> Prop :=
| F_nil s : follows stp s [] s
| F_snoc s l s1 e s2 : follows stp s l s1 -> stp s1 e s2 -> follows stp s (l ++ [e]) s2.

(** C22: a plain FIFO queue.  append adds at the back, clear empties, the entry
    handed to the protocol is always the front one, and it is removed. *)
Inductive fifo : list (item T) -> ev T -> list (item T) -> Prop :=
| Q_append q i : fifo q (VAppend i) (q ++ [i])
| Q_clear q : fifo q VClear []
| Q_start q i s : fifo (i :: q) (VStart i s) q
| Q_reject q i : fifo (i :: q) (VReject i) q
| Q_sent q i : fifo q (VSent i) q
| Q_event q k : fifo q (VEvent k) q
| Q_callback q c t : fifo q (VCallback c t) q
| Q_done q i : fifo q (VDone i) q
| Q_dead q e : fifo q (VDead e) q
| Q_direct q t s : fifo q (VDirect t s) q
| Q_directd q t : fifo q (VDirectDone t) q.

(** the entries appended / handed to the protocol, in order *)
Definition appended (l : list (ev T)) : list (item T) :=
  flat_map (fun e => match e with VAppend i => [i] | _ => [] end) l.
Definition taken (l : list (ev T)) : list (item T) :=
  flat_map (fun e => match e with VStart i _ | VReject i => [i] | _ => [] end) l.
Definition started (l : list (ev T)) : list (item T) :=
  flat_map (fun e => match e with VStart i _ => [i] | _ => [] end) l.
Definition completed (l : list (ev T)) : list (item T) :=
  flat_map (fun e => match e with VSent i => [i] | _ => [] end) l.
Definition never_cleared (l : list (ev T)) : Prop := ~ In VClear l.

Inductive subseq {A} : list A -> list A -> Prop :=
| SS_nil : subseq [] []
| SS_skip a l1 l2 : subseq l1 l2 -> subseq l1 (a :: l2)
| SS_take a l1 l2 : subseq l1 l2 -> subseq (a :: l1) (a :: l2).

(** C24: the reference keeps the FIFO queue and a flag "the next transmission is
    the first of a batch".  The flag is up initially; it is up after an entry is
    done exactly if nothing is queued at that moment; a transmission must
    synchronise exactly if the flag is up. *)
Inductive batch : list (item T) * bool -> ev T -> list (item T) * bool -> Prop :=
| B_append q b i : batch (q, b) (VAppend i) (q ++ [i], b)
| B_clear q b : batch (q, b) VClear ([], b)
| B_start q b i : batch (i :: q, b) (VStart i b) (q, false)
| B_reject q b i : batch (i :: q, b) (VReject i) (q, b)
| B_sent q b i : batch (q, b) (VSent i) (q, b)
| B_event q b k : batch (q, b) (VEvent k) (q, b)
| B_callback q b c t : batch (q, b) (VCallback c t) (q, b)
| B_done q b i : batch (q, b) (VDone i) (q, match q with [] => true | _ => false end)
| B_dead q b e : batch (q, b) (VDead e) (q, b)
| B_direct q b t s : batch (q, b) (VDirect t s) (q, b)
| B_directd q b t : batch (q, b) (VDirectDone t) (q, b).

(** C25: life cycle of the send thread.  One entry at a time; it is sent, then
    its event (if any) is set, then its callback (if any) is called, then it is
    done, then the next may start.  After VDead nothing of this happens. *)
Inductive life :=
| LIdle                    (* no transmission in progress *)
| LSending (i : item T)    (* _driver_send running *)
| LNotify (i : item T)     (* sent; event not yet set (if there is one) *)
| LCall (i : item T)       (* event handled; callback not yet called (if there is one) *)
| LAfter (i : item T)      (* callback handled *)
| LEnded.

Inductive lifecycle : life -> ev T -> life -> Prop :=
| L_start i s : lifecycle LIdle (VStart i s) (LSending i)
| L_reject i : lifecycle LIdle (VReject i) LIdle
| L_sent_ev i k : i_event i = Some k -> lifecycle (LSending i) (VSent i) (LNotify i)
| L_sent_cb i c : i_event i = None -> i_callback i = Some c -> lifecycle (LSending i) (VSent i) (LCall i)
| L_sent i : i_event i = None -> i_callback i = None -> lifecycle (LSending i) (VSent i) (LAfter i)
| L_event_cb i k c : i_event i = Some k -> i_callback i = Some c ->
    lifecycle (LNotify i) (VEvent k) (LCall i)
| L_event i k : i_event i = Some k -> i_callback i = None ->
    lifecycle (LNotify i) (VEvent k) (LAfter i)
| L_call i c : i_callback i = Some c -> lifecycle (LCall i) (VCallback c (i_tx i)) (LAfter i)
| L_done i : lifecycle (LAfter i) (VDone i) LIdle
(* the thread ends while idle (killed), during a transmission, or in a callback *)
| L_dead_idle e : lifecycle LIdle (VDead e) LEnded
| L_dead_send i e : lifecycle (LSending i) (VDead e) LEnded
| L_dead_cb i e : lifecycle (LAfter i) (VDead (Some e)) LEnded
(* what other coroutines and callbacks do is allowed at any time *)
| L_append s i : lifecycle s (VAppend i) s
| L_clear s : lifecycle s VClear s
| L_direct s t b : lifecycle s (VDirect t b) s
| L_directd s t : lifecycle s (VDirectDone t) s.

(** the life-cycle state that corresponds to a thread state *)
Definition life_of (t : thread T) : life :=
  match t with
  | TReady | TAsleep => LIdle
  | TSending i _ => LSending i
  | TDead _ => LEnded
  end.

(** the notifications a completed entry is owed: its event, then its callback *)
Definition owed (i : item T) : list (ev T) :=
  match i_event i with Some k => [VEvent k] | None => [] end
  ++ match i_callback i with Some c => [VCallback c (i_tx i)] | None => [] end.
Definition notifications (l : list (ev T)) : list (ev T) :=
  filter (fun e => match e with VEvent _ | VCallback _ _ => true | _ => false end) l.

(** the entries appended by other coroutines in a schedule *)
Definition appends_of (acts : list (action T)) : list (item T) :=
  flat_map (fun a => match a with AAppend i => [i] | _ => [] end) acts.

(** C23 *)
Definition alive (d : driver T) : Prop := match thr d with TDead _ => False | _ => True end.
Definition sleeping (d : driver T) : Prop := thr d = TAsleep.

(** callbacks that do not touch the driver and do not raise *)
Definition passive (beh : nat -> T -> list (cbop T) * option exn) : Prop :=
  forall c t, beh c t = ([], None).

(** two transmissions on the bus at the same time *)
Definition overlapping (d : driver T) : Prop :=
  direct d <> [] /\ match thr d with TSending _ _ => True | _ => False end.
(** the send() calls made, those that have returned, and the rest of the log and of a schedule *)
Definition sends (l : list (ev T)) : list T := flat_map (fun e => match e with VDirect t _ => [t] | _ => [] end) l.
Definition returned (l : list (ev T)) : list T := flat_map (fun e => match e with VDirectDone t => [t] | _ => [] end) l.
Definition is_direct (e : ev T) : bool := match e with VDirect _ _ | VDirectDone _ => true | _ => false end.
Definition is_send (a : action T) : bool := match a with ADirect _ _ | ADirectDone _ => true | _ => false end.
End Spec.
