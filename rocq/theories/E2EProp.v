(** E2EProp.v -- C85: from append() to the scoreboard. *)
From Verif Require Import Base Async HandshakeSpec DriverModel DriverSpec AvalonSTModel PktModel PktSpec E2EModel E2ESpec E2EProof.
From Verif Require ScoreboardModel ScoreboardSpec ScoreboardProof.
From Coq Require Import Permutation.
Local Open Scope list_scope.

(** C85.  Any schedule [acts] of appends, clears and steps of the send thread (callbacks may
    do anything to the queue), any number of idle cycles before each transmission ([gps]
    are the thread's calls with these numbers), any cycles [l] of ready, any valid generator
    [s]: the monitor raises only if it has an invalidTimeout and a packet is held up for that
    many cycles; it delivers the packets the thread took from the queue, in order, all of
    them if the run reaches its end without such a stall and the first ones otherwise; and
    in whatever order these deliveries and the test's expectations reach a scoreboard
    ([hist]), its verdict is a pass exactly if every delivery was expected, in order, before
    it arrived, and nothing else was expected. *)
Theorem C85_prefix_and_verdict :
  forall (ty : report -> nat) (eqb : report -> report -> bool) (str : report -> String.string) fn,
    (forall a b, eqb a b = true <-> a = b) ->
    forall c k beh acts gps s p o fuel l im m loc hist,
    byte_bus c k -> (0 <= c_timeout c)%Z -> queue_only acts ->
    let d := run ptx beh acts drv_init in
    Forall (fun i => sendable c (i_tx i)) (appended (log d)) -> map snd gps = thread_calls (log d) ->
    Forall (fun p => length l + length (p_data p) < fuel) (map snd gps) -> p <> PReadOnly -> k_offered o = false ->
    let '(r, w) := pk_send_gaps c fuel gps (World s p o [] l) in
    let '(reps, f) := pm_run c pm_init (sampled (trace w)) in
    (~ stalled c (sampled (trace w)) -> exists mst, f = Ok mst)
    /\ (stalled c (sampled (trace w)) -> f = Err EAvalonProtocol)
    /\ (exists n, reps = firstn n (reports_of c (started (log d))))
    /\ match r with
       | Done _ => ~ stalled c (sampled (trace w)) -> reps = reports_of c (started (log d))
       | Susp => ins w = []
       | _ => False
       end
    /\ (receives hist reps ->
        (ScoreboardModel.result report (fst (ScoreboardModel.sb_run report ty eqb str fn
            (ScoreboardSpec.start report im m loc 0) (ScoreboardSpec.ops_of m loc hist))) = Ok tt
         <-> ScoreboardSpec.exps hist = reps /\ ScoreboardSpec.never_early hist)).
Proof. intros ty eqb str fn EQ c k beh acts gps s p o fuel l im m loc hist BB TO _. exact (top_prefix ty eqb str fn EQ c k beh acts gps s p o fuel l im m loc hist BB TO). Qed.
Print Assumptions C85_prefix_and_verdict.

(** When nothing is cleared, nothing is left in the queue and the run reaches its end, what
    arrives is what was appended, so the verdict is a pass exactly if the test expected what
    it appended. *)
Theorem C85_end_to_end :
  forall (ty : report -> nat) (eqb : report -> report -> bool) (str : report -> String.string) fn,
    (forall a b, eqb a b = true <-> a = b) ->
    forall c k beh acts gps s p o fuel l im m loc hist,
    byte_bus c k -> (0 <= c_timeout c)%Z -> passive beh -> no_clear acts -> queue_only acts ->
    let d := run ptx beh acts drv_init in
    Forall (fun i => sendable c (i_tx i) /\ i_sync_kw i = false) (appends_of acts) ->
    sendq d = [] -> map snd gps = thread_calls (log d) ->
    Forall (fun p => length l + length (p_data p) < fuel) (map snd gps) -> p <> PReadOnly -> k_offered o = false ->
    let '(r, w) := pk_send_gaps c fuel gps (World s p o [] l) in
    let '(reps, f) := pm_run c pm_init (sampled (trace w)) in
    r = Done tt -> ~ stalled c (sampled (trace w)) -> receives hist reps ->
      reps = reports_of c (appends_of acts) /\
      (ScoreboardModel.result report (fst (ScoreboardModel.sb_run report ty eqb str fn
          (ScoreboardSpec.start report im m loc 0) (ScoreboardSpec.ops_of m loc hist))) = Ok tt
       <-> ScoreboardSpec.exps hist = reports_of c (appends_of acts) /\ ScoreboardSpec.never_early hist).
Proof. intros ty eqb str fn EQ c k beh acts gps s p o fuel l im m loc hist BB TO Pa NC _. exact (top_all ty eqb str fn EQ c k beh acts gps s p o fuel l im m loc hist BB TO Pa NC). Qed.
Print Assumptions C85_end_to_end.

(** The same with a scoreboard of any reorder depth [depth]: it passes exactly if every
    delivery is one of the first depth+1 outstanding expectations when it arrives and none
    are left; in particular it passes if the test expected in time, in order, what is
    delivered, and it never passes unless what the test expected is, up to the order, what
    is delivered. *)
Theorem C85_any_depth :
  forall (ty : report -> nat) (eqb : report -> report -> bool) (str : report -> String.string) fn,
    (forall a b, eqb a b = true <-> a = b) ->
    forall c k beh acts gps s p o fuel l im m loc depth hist,
    byte_bus c k -> (0 <= c_timeout c)%Z -> queue_only acts ->
    let d := run ptx beh acts drv_init in
    Forall (fun i => sendable c (i_tx i)) (appended (log d)) -> map snd gps = thread_calls (log d) ->
    Forall (fun p => length l + length (p_data p) < fuel) (map snd gps) -> p <> PReadOnly -> k_offered o = false ->
    let '(r, w) := pk_send_gaps c fuel gps (World s p o [] l) in
    let reps := fst (pm_run c pm_init (sampled (trace w))) in
    let verdict := ScoreboardModel.result report (fst (ScoreboardModel.sb_run report ty eqb str fn
            (ScoreboardSpec.start report im m loc depth) (ScoreboardSpec.ops_of m loc hist))) in
    r = Done tt -> ~ stalled c (sampled (trace w)) -> receives hist reps ->
      (verdict = Ok tt <-> ScoreboardSpec.accept depth [] hist) /\
      (ScoreboardSpec.exps hist = reports_of c (started (log d)) -> ScoreboardSpec.never_early hist -> verdict = Ok tt) /\
      (verdict = Ok tt -> Permutation (ScoreboardSpec.exps hist) (reports_of c (started (log d)))).
Proof.
  intros ty eqb str fn EQ c k beh acts gps s p o fuel l im m loc depth hist BB TO Q d Hs E Hf Hp Ho.
  pose proof (C85_prefix_and_verdict ty eqb str fn EQ c k beh acts gps s p o fuel l im m loc hist BB TO Q Hs E Hf Hp Ho) as H.
  destruct (pk_send_gaps c fuel gps (World s p o [] l)) as [r w]. destruct (pm_run c pm_init (sampled (trace w))) as [reps f]. cbn [fst].
  destruct H as (_ & _ & _ & H & _). cbn zeta. intros -> NS R. specialize (H NS). match goal with |- (?v = Ok tt <-> _) /\ _ => set (verdict := v) end. fold d in H. subst reps. unfold receives in R.
  destruct (ScoreboardProof.any_depth ty eqb str fn EQ im m loc depth hist) as [A1 A2]. fold verdict in A1, A2. split; [|split].
  - apply (ScoreboardProof.reorder_iff ty eqb str fn EQ im m loc depth hist).
  - intros H1 H2. apply A1; [congruence|exact H2].
  - intro H. apply A2 in H. rewrite <- R. apply H.
Qed.
Print Assumptions C85_any_depth.

(** And the run does reach its end once the sink has been ready often enough. *)
Theorem C85_progress :
  forall c k gps s o,
    word_bus c k -> Forall (fun p => channel_ok c (p_channel p)) (map snd gps) -> k_offered o = false ->
    exists N, forall p fuel l, p <> PReadOnly ->
      Forall (fun p => length l + length (p_data p) < fuel) (map snd gps) ->
      N <= ready_cycles (k_accepts (c_ready c)) l ->
      exists w, pk_send_gaps c fuel gps (World s p o [] l) = (Done tt, w).
Proof. exact gaps_progress. Qed.
Print Assumptions C85_progress.

(** a schedule with two batches; the packets arrive; a scoreboard that expects them passes,
    one that expects them in the other order does not *)
Definition e2e_cfg : pcfg := PCfg 32 8 true None true (Some 2) (Some 4) true 0 true.
Definition e2e_it (b : bytes) (ch : option Z) : item ptx := Item (b, ch) None None false.
Definition e2e_acts : list (action ptx) :=
  [AAppend (e2e_it [1; 2; 3; 4; 5]%Z (Some 3%Z)); ARun; AAppend (e2e_it [9]%Z None); AFinish None; AFinish None;
   AAppend (e2e_it [7; 7; 7; 7]%Z (Some 15%Z)); ARun; AFinish None].
Definition e2e_eqb (a b : report) : bool :=
  match a, b with
  | RData x, RData y => if list_eq_dec Z.eq_dec x y then true else false
  | RChan x c, RChan y d => (if list_eq_dec Z.eq_dec x y then true else false) && match c, d with Some u, Some v => Z.eqb u v | None, None => true | _, _ => false end
  | _, _ => false
  end.
Lemma e2e_eqb_ok : forall a b, e2e_eqb a b = true <-> a = b.
Proof.
  intros [x|x c] [y|y d]; cbn; try (split; discriminate).
  - destruct (list_eq_dec Z.eq_dec x y); split; try congruence.
  - destruct (list_eq_dec Z.eq_dec x y), c, d; cbn; rewrite ?Z.eqb_eq; split; try congruence; try discriminate.
Qed.

Example C85_nonvacuous :
  let d := run ptx (fun _ _ => ([], None)) e2e_acts drv_init in
  let gps := combine [2; 0; 5] (thread_calls (log d)) in
  byte_bus e2e_cfg 4 /\ queue_only e2e_acts /\ no_clear e2e_acts /\ sendq d = [] /\ map snd gps = thread_calls (log d)
  /\ Forall (fun i => sendable e2e_cfg (i_tx i) /\ i_sync_kw i = false) (appends_of e2e_acts)
  /\ let '(r, w) := pk_send_gaps e2e_cfg 60 gps
                   (World (set_valid_generator (Some [(1, 1); (1, 2)]%Z)) PActive (pk_init_out e2e_cfg) []
                          (concat (repeat [L0; LX; L1; L1] 8))) in
     let run hist := ScoreboardModel.result report (fst (ScoreboardModel.sb_run report (fun _ => 0) e2e_eqb (fun _ => String.EmptyString) (fun _ _ t => t)
          (ScoreboardSpec.start report false 3 4 0) (ScoreboardSpec.ops_of 3 4 hist))) in
     r = Done tt
     /\ match fst (pm_run e2e_cfg pm_init (sampled (trace w))) with
        | [a; b; e] => run [ScoreboardSpec.Exp a; ScoreboardSpec.Got a; ScoreboardSpec.Exp b; ScoreboardSpec.Exp e;
                            ScoreboardSpec.Got b; ScoreboardSpec.Got e] = Ok tt
                       /\ run [ScoreboardSpec.Exp b; ScoreboardSpec.Got a; ScoreboardSpec.Exp a;
                            ScoreboardSpec.Got b; ScoreboardSpec.Exp e; ScoreboardSpec.Got e] = Err EAssertion
                       /\ e = RChan [7; 7; 7; 7]%Z (Some 15%Z)
        | _ => False
        end.
Proof.
  cbn zeta. split; [|split; [|split; [|split; [|split; [|split]]]]].
  - constructor; [reflexivity|lia|reflexivity|intros _; exists 2; split; [reflexivity|discriminate]|reflexivity].
  - repeat constructor.
  - repeat constructor.
  - vm_compute. reflexivity.
  - vm_compute. reflexivity.
  - repeat constructor; try discriminate; cbn; try lia.
  - vm_compute. repeat split.
Qed.
