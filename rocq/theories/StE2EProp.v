(** StE2EProp.v -- C93: from append() to the scoreboard, one word at a time. *)
From Verif Require Import Base Async BitsLemmas CompatModel CompatSpec DriverModel DriverSpec DrvUtilModel AvalonSTModel AvalonSTSpec
  E2ESpec StE2EModel StE2ESpec StE2EProof.
From Verif Require ScoreboardModel ScoreboardSpec ScoreboardProof.
From Coq Require Import Permutation.
Local Open Scope list_scope.

(** C93.  Any schedule [acts] of appends (ints, bytes or bit strings that fit the bus),
    clears and steps of the send thread (callbacks may do anything to the queue), any number
    of idle cycles before each word ([gws] are the thread's calls with these numbers), any
    cycles [l] of ready, any valid generator [s], either byte order [be] of the monitor: the
    monitor never raises; it delivers the numbers the thread took from the queue, in order,
    all of them if the run reaches its end and a proper prefix if it is cut short; and in
    whatever order these deliveries and the test's expectations reach a scoreboard ([hist]),
    its verdict is a pass exactly if every delivery was expected, in order, before it
    arrived, and nothing else was expected. *)
Theorem C93_prefix_and_verdict :
  forall (ty : bytes -> nat) (eqb : bytes -> bytes -> bool) (str : bytes -> String.string) fn,
    (forall a b, eqb a b = true <-> a = b) ->
    forall width has_ready be beh acts gws s p o fuel l im m loc hist,
    width <> 1 -> queue_only acts ->
    let d := run binsrc beh acts drv_init in
    Forall (fun i => fits width (i_tx i)) (appended (log d)) -> map snd gws = word_calls (log d) ->
    length l < fuel -> p <> PReadOnly -> o_valid o <> L1 ->
    let '(r, w) := st_send_gaps width has_ready fuel gws (World s p o [] l) in
    let '(reps, f) := st_monitor has_ready be (trace w) in
    f = None
    /\ match r with
       | Done _ => word_reports be width (started (log d)) reps
       | Susp => ins w = [] /\ exists all n, word_reports be width (started (log d)) all /\ n < length all /\ reps = firstn n all
       | _ => False
       end
    /\ (hears hist reps ->
        (ScoreboardModel.result bytes (fst (ScoreboardModel.sb_run bytes ty eqb str fn
            (ScoreboardSpec.start bytes im m loc 0) (ScoreboardSpec.ops_of m loc hist))) = Ok tt
         <-> ScoreboardSpec.exps hist = reps /\ ScoreboardSpec.never_early hist)).
Proof.
  intros ty eqb str fn EQ width hr be beh acts gws s p o fuel l im m loc hist W _.
  exact (st_top_prefix ty eqb str fn EQ width hr be beh acts gws s p o fuel l im m loc hist W).
Qed.
Print Assumptions C93_prefix_and_verdict.

(** In particular from the construction of the driver: it offers no word before the first
    is sent. *)
Theorem C93_from_construction :
  forall width has_ready be beh acts gws s fuel l,
    width <> 1 -> queue_only acts ->
    let d := run binsrc beh acts drv_init in
    Forall (fun i => fits width (i_tx i)) (appended (log d)) -> map snd gws = word_calls (log d) ->
    length l < fuel ->
    let '(r, w) := st_send_gaps width has_ready fuel gws (World s PActive (st_init_out width) [] l) in
    let '(reps, f) := st_monitor has_ready be (trace w) in
    f = None /\ (r = Done tt -> word_reports be width (started (log d)) reps).
Proof.
  intros width hr be beh acts gws s fuel l W Q d F E Hl.
  assert (EQ : forall a b : bytes, (if list_eq_dec Z.eq_dec a b then true else false) = true <-> a = b).
  { intros a b. destruct (list_eq_dec Z.eq_dec a b); split; congruence. }
  pose proof (C93_prefix_and_verdict (fun _ => 0) _ (fun _ => String.EmptyString) (fun _ _ x => x) EQ width hr be beh acts gws s PActive (st_init_out width) fuel l
    false 0 0 [] W Q F E Hl ltac:(discriminate) ltac:(discriminate)) as H.
  destruct (st_send_gaps width hr fuel gws _) as [r w]. destruct (st_monitor hr be (trace w)) as [reps f].
  destruct H as (H1 & H2 & _). split; [exact H1|]. intros ->. exact H2.
Qed.
Print Assumptions C93_from_construction.

(** When nothing is cleared, nothing is left in the queue and the run reaches its end, what
    arrives is what was appended, so the verdict is a pass exactly if the test expected, in
    order, the byte strings of what it appended. *)
Theorem C93_end_to_end :
  forall (ty : bytes -> nat) (eqb : bytes -> bytes -> bool) (str : bytes -> String.string) fn,
    (forall a b, eqb a b = true <-> a = b) ->
    forall width has_ready be beh acts gws s p o fuel l im m loc hist,
    width <> 1 -> passive beh -> no_clear acts -> queue_only acts ->
    let d := run binsrc beh acts drv_init in
    Forall (fun i => fits width (i_tx i) /\ i_sync_kw i = false) (appends_of acts) ->
    sendq d = [] -> map snd gws = word_calls (log d) ->
    length l < fuel -> p <> PReadOnly -> o_valid o <> L1 ->
    let '(r, w) := st_send_gaps width has_ready fuel gws (World s p o [] l) in
    let '(reps, f) := st_monitor has_ready be (trace w) in
    r = Done tt -> hears hist reps ->
      word_reports be width (appends_of acts) reps /\
      (ScoreboardModel.result bytes (fst (ScoreboardModel.sb_run bytes ty eqb str fn
          (ScoreboardSpec.start bytes im m loc 0) (ScoreboardSpec.ops_of m loc hist))) = Ok tt
       <-> word_reports be width (appends_of acts) (ScoreboardSpec.exps hist) /\ ScoreboardSpec.never_early hist).
Proof.
  intros ty eqb str fn EQ width hr be beh acts gws s p o fuel l im m loc hist W Pa NC _.
  exact (st_top_all ty eqb str fn EQ width hr be beh acts gws s p o fuel l im m loc hist W Pa NC).
Qed.
Print Assumptions C93_end_to_end.

(** The same with a scoreboard of any reorder depth [depth]. *)
Theorem C93_any_depth :
  forall (ty : bytes -> nat) (eqb : bytes -> bytes -> bool) (str : bytes -> String.string) fn,
    (forall a b, eqb a b = true <-> a = b) ->
    forall width has_ready be beh acts gws s p o fuel l im m loc depth hist,
    width <> 1 -> queue_only acts ->
    let d := run binsrc beh acts drv_init in
    Forall (fun i => fits width (i_tx i)) (appended (log d)) -> map snd gws = word_calls (log d) ->
    length l < fuel -> p <> PReadOnly -> o_valid o <> L1 ->
    let '(r, w) := st_send_gaps width has_ready fuel gws (World s p o [] l) in
    let reps := fst (st_monitor has_ready be (trace w)) in
    let verdict := ScoreboardModel.result bytes (fst (ScoreboardModel.sb_run bytes ty eqb str fn
            (ScoreboardSpec.start bytes im m loc depth) (ScoreboardSpec.ops_of m loc hist))) in
    r = Done tt -> hears hist reps ->
      (verdict = Ok tt <-> ScoreboardSpec.accept depth [] hist) /\
      (word_reports be width (started (log d)) (ScoreboardSpec.exps hist) -> ScoreboardSpec.never_early hist -> verdict = Ok tt) /\
      (verdict = Ok tt -> exists all, word_reports be width (started (log d)) all /\ Permutation (ScoreboardSpec.exps hist) all).
Proof.
  intros ty eqb str fn EQ width hr be beh acts gws s p o fuel l im m loc depth hist W Q d F E Hl Hp Ho.
  pose proof (C93_prefix_and_verdict ty eqb str fn EQ width hr be beh acts gws s p o fuel l im m loc hist W Q F E Hl Hp Ho) as H.
  destruct (st_send_gaps width hr fuel gws _) as [r w]. destruct (st_monitor hr be (trace w)) as [reps f]. cbn [fst].
  destruct H as (_ & H & _). cbn zeta. intros -> R. match goal with |- (?v = Ok tt <-> _) /\ _ => set (verdict := v) end. fold d in H. unfold hears in R.
  destruct (ScoreboardProof.any_depth ty eqb str fn EQ im m loc depth hist) as [A1 A2]. fold verdict in A1, A2. split; [|split].
  - apply (ScoreboardProof.reorder_iff ty eqb str fn EQ im m loc depth hist).
  - intros H1 H2. apply A1; [|exact H2]. rewrite R. exact (reports_inj _ _ _ _ _ H H1).
  - intro H1. apply A2 in H1. exists reps. split; [exact H|]. rewrite <- R. apply H1.
Qed.
Print Assumptions C93_any_depth.

(** The byte string of a number is determined by it, so [word_reports] fixes the reports. *)
Theorem C93_reports_determined :
  forall be width l r r', word_reports be width l r -> word_reports be width l r' -> r = r'.
Proof. exact reports_inj. Qed.
Print Assumptions C93_reports_determined.

(** And the run does reach its end once the sink has been ready often enough. *)
Theorem C93_progress :
  forall width has_ready gws s,
    width <> 1 -> Forall (fun gw => fits width (fst (snd gw))) gws ->
    exists N, forall p o fuel l, length l < fuel -> p <> PReadOnly -> o_valid o <> L1 ->
      N <= ready_cycles has_ready l ->
      exists w, st_send_gaps width has_ready fuel gws (World s p o [] l) = (Done tt, w).
Proof. exact gaps_progress. Qed.
Print Assumptions C93_progress.

(** Full rate: words appended together, without callbacks, to a driver without a valid
    generator and taken by a sink that is always ready are on the bus in consecutive
    cycles, after the one cycle for synchronising. *)
Theorem C93_batch :
  forall width has_ready beh i q fuel x l, width <> 1 ->
    Forall (fun j => fits width (i_tx j) /\ i_sync_kw j = false /\ i_callback j = None) (i :: q) ->
    Forall (fun r => accepts has_ready r = true) l -> length l = length (i :: q) -> S (length l) < fuel ->
    let d := run binsrc beh (map AAppend (i :: q) ++ ARun :: repeat (AFinish None) (length (i :: q))) drv_init in
    exists w, st_send_gaps width has_ready fuel (map (fun c => (0, c)) (word_calls (log d)))
                (World (set_valid_generator None) PActive (st_init_out width) [] (x :: l)) = (Done tt, w) /\
      ins w = [] /\ map (fun c => o_valid (snd c)) (trace w) = L0 :: repeat L1 (length (i :: q)).
Proof. exact batch_rate. Qed.
Print Assumptions C93_batch.

(** An int, a byte string and a bit string on a 12-bit bus, in two batches.  The scoreboard
    passes with the right expectations and fails when two are exchanged. *)
Definition ste_it (v : binsrc) : item binsrc := Item v None None false.
Definition ste_acts : list (action binsrc) :=
  [AAppend (ste_it (BInt 2748)); ARun; AAppend (ste_it (BBytes [7]%Z)); AFinish None; AFinish None;
   AAppend (ste_it (BStr (zbits 12 515))); ARun; AFinish None].
Definition ste_eqb (x y : bytes) : bool := if list_eq_dec Z.eq_dec x y then true else false.
Lemma ste_eqb_ok : forall a b, ste_eqb a b = true <-> a = b.
Proof. intros x y. unfold ste_eqb. destruct (list_eq_dec Z.eq_dec x y); split; congruence. Qed.

Example C93_nonvacuous :
  let d := run binsrc (fun _ _ => ([], None)) ste_acts drv_init in
  let gws := combine [2; 0; 5] (word_calls (log d)) in
  queue_only ste_acts /\ no_clear ste_acts /\ sendq d = [] /\ map snd gws = word_calls (log d)
  /\ Forall (fun i => fits 12 (i_tx i) /\ i_sync_kw i = false) (appends_of ste_acts)
  /\ let '(r, w) := st_send_gaps 12 true 60 gws
                   (World (set_valid_generator (Some [(1, 1); (1, 2)]%Z)) PActive (st_init_out 12) []
                          (concat (repeat [L0; LX; L1; L1] 8))) in
     let run hist := ScoreboardModel.result bytes (fst (ScoreboardModel.sb_run bytes (fun _ => 0) ste_eqb (fun _ => String.EmptyString) (fun _ _ t => t)
          (ScoreboardSpec.start bytes false 3 4 0) (ScoreboardSpec.ops_of 3 4 hist))) in
     r = Done tt
     /\ st_monitor true true (trace w) = ([[10; 188]; [0; 7]; [2; 3]]%Z, None)
     /\ run [ScoreboardSpec.Exp [10; 188]%Z; ScoreboardSpec.Got [10; 188]%Z; ScoreboardSpec.Exp [0; 7]%Z;
             ScoreboardSpec.Exp [2; 3]%Z; ScoreboardSpec.Got [0; 7]%Z; ScoreboardSpec.Got [2; 3]%Z] = Ok tt
     /\ run [ScoreboardSpec.Exp [0; 7]%Z; ScoreboardSpec.Got [10; 188]%Z; ScoreboardSpec.Exp [10; 188]%Z;
             ScoreboardSpec.Got [0; 7]%Z; ScoreboardSpec.Exp [2; 3]%Z; ScoreboardSpec.Got [2; 3]%Z] = Err EAssertion.
Proof.
  cbn zeta. split; [|split; [|split; [|split; [|split]]]].
  - repeat constructor.
  - repeat constructor.
  - vm_compute. reflexivity.
  - vm_compute. reflexivity.
  - repeat constructor; cbn; try lia; try discriminate.
  - vm_compute. repeat split.
Qed.
