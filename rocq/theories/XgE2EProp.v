(** XgE2EProp.v -- C116: from append() to the scoreboard on XGMII. *)
From Verif Require Import Base Async DriverModel DriverSpec E2ESpec XgModel XgSpec XgE2EModel XgE2ESpec XgE2EProof.
From Verif Require ScoreboardModel ScoreboardSpec ScoreboardProof.
From Coq Require Import Permutation.
Local Open Scope list_scope.

(** C116 fails as shipped: the driver cannot be constructed (NameError), nothing is ever
    driven, no packet is received, and the verdict is a pass only if the test expected
    nothing. *)
Theorem C116_refuted :
  forall (ty : bytes -> nat) (eqb : bytes -> bytes -> bool) (str : bytes -> String.string) fn,
    (forall a b, eqb a b = true <-> a = b) ->
    forall n interleaved crc32 calls I p o l im m loc hist,
    exists w, xg_bench (9 * n) interleaved bound_as_shipped crc32 calls (World I p o [] l) = (Exn EName, w) /\
      let es := fst (observe n interleaved crc32 (map snd (trace w))) in
      es = [] /\
      (hears hist (delivered es) ->
       (ScoreboardModel.result bytes (fst (ScoreboardModel.sb_run bytes ty eqb str fn
          (ScoreboardSpec.start bytes im m loc 0) (ScoreboardSpec.ops_of m loc hist))) = Ok tt
        <-> ScoreboardSpec.exps hist = [])).
Proof.
  intros ty eqb str fn EQ n interleaved crc32 calls I p o l im m loc hist.
  destruct (xg_shipped (9 * n) interleaved crc32 calls I p o l) as (w & E & T). exists w. split; [exact E|]. rewrite T. cbn zeta. unfold observe. cbn [map monitor fst delivered flat_map].
  split; [reflexivity|]. unfold hears. intro H. rewrite (ScoreboardProof.inorder_iff ty eqb str fn EQ), H. split; [intros [A _]; auto|].
  intro A. split; [auto|]. intros a b Hab. apply (f_equal ScoreboardSpec.gots) in Hab. rewrite H in Hab.
  symmetry in Hab. change (flat_map (fun e => match e with ScoreboardSpec.Got t => [t] | ScoreboardSpec.Exp _ => [] end) (a ++ b) = []) in Hab.
  rewrite flat_map_app in Hab. apply app_eq_nil in Hab. destruct Hab as [Ha _].
  change (ScoreboardSpec.gots a = []) in Ha. rewrite Ha. apply Nat.le_0_l.
Qed.
Print Assumptions C116_refuted.

(** ... and with create_binary bound it still fails: the XGMII monitor has no attribute [name],
    so the first frame it delivers to a scoreboard raises AttributeError and ends it (C82).
    Whatever was on the bus and whatever was expected, nothing is compared: if the test
    expected anything (exactly the frames sent, say), the verdict is a failure. *)
Theorem C116_nameless_refuted :
  forall (ty : bytes -> nat) (eqb : bytes -> bytes -> bool) (str : bytes -> String.string) fn
         n interleaved crc32 words im m loc depth exps,
    let got := delivered (fst (observe n interleaved crc32 words)) in
    got <> [] ->
    let s := fst (ScoreboardModel.sb_run bytes ty eqb str fn (ScoreboardSpec.start bytes im m loc depth)
                    (map (ScoreboardModel.SExpect loc) exps)) in
    exists s', ScoreboardModel.receive_all bytes ty eqb str fn false s m got
               = (s', Err EAttribute :: map (fun _ => Ok tt) (tl got))
      /\ ScoreboardModel.heap s' loc = exps
      /\ (exps <> [] -> ScoreboardModel.result bytes s' = Err EAssertion).
Proof. intros ty eqb str fn n interleaved crc32 words im m loc depth exps got. apply xg_nameless. Qed.
Print Assumptions C116_nameless_refuted.

(** C116, with create_binary bound and a name assigned to the monitor by the test: any schedule [acts] of appends, clears and steps of the send
    thread (callbacks may do anything to the queue), any number of idle cycles before each
    packet ([calls] are the thread's calls with these numbers), any number [l] of clock
    cycles, both layouts, any number of lanes: the monitor never raises and logs no error; it
    delivers the packets the thread took from the queue, padded to 60 bytes, in order, all of
    them if the run reaches its end and a prefix if it is cut short; and in whatever order
    these deliveries and the test's expectations reach a scoreboard ([hist]), its verdict is
    a pass exactly if every delivery was expected, in order, before it arrived, and nothing
    else was expected. *)
Theorem C116_prefix_and_verdict_partial :
  forall (ty : bytes -> nat) (eqb : bytes -> bytes -> bool) (str : bytes -> String.string) fn,
    (forall a b, eqb a b = true <-> a = b) ->
    forall n interleaved crc32 beh acts calls I p o l im m loc hist,
    1 <= n -> queue_only acts ->
    let d := run bytes beh acts drv_init in
    Forall (fun i => xg_sendable n (i_tx i)) (appended (log d)) -> map snd calls = xg_calls (log d) -> p <> PReadOnly ->
    let '(r, w) := xg_bench (9 * n) interleaved true crc32 calls (World I p o [] l) in
    let '(es, f) := observe n interleaved crc32 (map snd (trace w)) in
    f = None /\ es = map Deliver (delivered es)
    /\ match r with
       | Done _ => delivered es = frames_of (started (log d))
       | Susp => ins w = [] /\ exists k, delivered es = firstn k (frames_of (started (log d)))
       | _ => False
       end
    /\ (hears hist (delivered es) ->
        (ScoreboardModel.result bytes (fst (ScoreboardModel.sb_run bytes ty eqb str fn
            (ScoreboardSpec.start bytes im m loc 0) (ScoreboardSpec.ops_of m loc hist))) = Ok tt
         <-> ScoreboardSpec.exps hist = delivered es /\ ScoreboardSpec.never_early hist)).
Proof.
  intros ty eqb str fn EQ n interleaved crc32 beh acts calls I p o l im m loc hist Hn _.
  exact (xg_top n interleaved crc32 Hn ty eqb str fn EQ beh acts calls I p o l im m loc hist).
Qed.
Print Assumptions C116_prefix_and_verdict_partial.

(** ... when nothing is cleared, nothing is left in the queue and the run reaches its end,
    what arrives is what was appended: the verdict is a pass exactly if the test expected, in
    order, the packets it appended, padded, each before it arrived. *)
Theorem C116_end_to_end_partial :
  forall (ty : bytes -> nat) (eqb : bytes -> bytes -> bool) (str : bytes -> String.string) fn,
    (forall a b, eqb a b = true <-> a = b) ->
    forall n interleaved crc32 beh acts calls I p o l im m loc hist,
    1 <= n -> passive beh -> no_clear acts -> queue_only acts ->
    let d := run bytes beh acts drv_init in
    Forall (fun i => xg_sendable n (i_tx i) /\ i_sync_kw i = false) (appends_of acts) -> sendq d = [] ->
    map snd calls = xg_calls (log d) -> p <> PReadOnly ->
    let '(r, w) := xg_bench (9 * n) interleaved true crc32 calls (World I p o [] l) in
    let es := fst (observe n interleaved crc32 (map snd (trace w))) in
    r = Done tt -> hears hist (delivered es) ->
      es = map Deliver (frames_of (appends_of acts)) /\
      (ScoreboardModel.result bytes (fst (ScoreboardModel.sb_run bytes ty eqb str fn
          (ScoreboardSpec.start bytes im m loc 0) (ScoreboardSpec.ops_of m loc hist))) = Ok tt
       <-> ScoreboardSpec.exps hist = frames_of (appends_of acts) /\ ScoreboardSpec.never_early hist).
Proof.
  intros ty eqb str fn EQ n interleaved crc32 beh acts calls I p o l im m loc hist Hn Pa NC _.
  exact (xg_all n interleaved crc32 Hn ty eqb str fn EQ beh acts calls I p o l im m loc hist Pa NC).
Qed.
Print Assumptions C116_end_to_end_partial.

(** ... and the run does reach its end once there were enough clock cycles. *)
Theorem C116_progress_partial :
  forall n interleaved crc32 calls, 1 <= n -> Forall (fun c => xg_sendable n (snd (snd c))) calls ->
    exists N, forall I p o l, p <> PReadOnly -> N <= length l ->
      fst (xg_bench (9 * n) interleaved true crc32 calls (World I p o [] l)) = Done tt.
Proof. intros n interleaved crc32 calls Hn. exact (xg_done n interleaved crc32 Hn calls). Qed.
Print Assumptions C116_progress_partial.

(** The same with a scoreboard of any reorder depth. *)
Theorem C116_any_depth_partial :
  forall (ty : bytes -> nat) (eqb : bytes -> bytes -> bool) (str : bytes -> String.string) fn,
    (forall a b, eqb a b = true <-> a = b) ->
    forall n interleaved crc32 beh acts calls I p o l im m loc depth hist,
    1 <= n -> queue_only acts ->
    let d := run bytes beh acts drv_init in
    Forall (fun i => xg_sendable n (i_tx i)) (appended (log d)) -> map snd calls = xg_calls (log d) -> p <> PReadOnly ->
    let '(r, w) := xg_bench (9 * n) interleaved true crc32 calls (World I p o [] l) in
    let verdict := ScoreboardModel.result bytes (fst (ScoreboardModel.sb_run bytes ty eqb str fn
            (ScoreboardSpec.start bytes im m loc depth) (ScoreboardSpec.ops_of m loc hist))) in
    r = Done tt -> hears hist (delivered (fst (observe n interleaved crc32 (map snd (trace w))))) ->
      (verdict = Ok tt <-> ScoreboardSpec.accept depth [] hist) /\
      (ScoreboardSpec.exps hist = frames_of (started (log d)) -> ScoreboardSpec.never_early hist -> verdict = Ok tt) /\
      (verdict = Ok tt -> Permutation (ScoreboardSpec.exps hist) (frames_of (started (log d)))).
Proof.
  intros ty eqb str fn EQ n interleaved crc32 beh acts calls I p o l im m loc depth hist Hn Q d F E Hp.
  pose proof (C116_prefix_and_verdict_partial ty eqb str fn EQ n interleaved crc32 beh acts calls I p o l im m loc hist Hn Q F E Hp) as H.
  destruct (xg_bench _ _ _ _ _ _) as [r w]. destruct (observe _ _ _ _) as [es f]. cbn [fst].
  destruct H as (_ & _ & H & _). cbn zeta. intros -> R. match goal with |- (?v = Ok tt <-> _) /\ _ => set (verdict := v) end. fold d in H. unfold hears in R.
  destruct (ScoreboardProof.any_depth ty eqb str fn EQ im m loc depth hist) as [A1 A2]. fold verdict in A1, A2. split; [|split].
  - apply (ScoreboardProof.reorder_iff ty eqb str fn EQ im m loc depth hist).
  - intros H1 H2. apply A1; [|exact H2]. congruence.
  - intro H1. apply A2 in H1. rewrite <- H, <- R. apply H1.
Qed.
Print Assumptions C116_any_depth_partial.

(** Two packets in two batches on eight lanes, control bits at the top. *)
Definition xge_it (v : bytes) : item bytes := Item v None None false.
Definition xge_acts : list (action bytes) :=
  [AAppend (xge_it [1; 2; 3]%Z); ARun; AAppend (xge_it (repeat 9%Z 64)); AFinish None; AFinish None;
   AAppend (xge_it [5]%Z); ARun; AFinish None].
Definition xge_eqb (x y : bytes) : bool := if list_eq_dec Z.eq_dec x y then true else false.
Example C116_nonvacuous :
  let d := run bytes (fun _ _ => ([], None)) xge_acts drv_init in
  let calls := combine [2; 0; 5] (xg_calls (log d)) in
  queue_only xge_acts /\ no_clear xge_acts /\ sendq d = [] /\ map snd calls = xg_calls (log d)
  /\ Forall (fun i => xg_sendable 8 (i_tx i) /\ i_sync_kw i = false) (appends_of xge_acts)
  /\ let '(r, w) := xg_bench 72 false true (fun b => fold_left Z.add b 3%Z) calls (World 0%Z PActive [] [] (repeat tt 50)) in
     let run hist := ScoreboardModel.result bytes (fst (ScoreboardModel.sb_run bytes (fun _ => 0) xge_eqb (fun _ => String.EmptyString) (fun _ _ t => t)
          (ScoreboardSpec.start bytes false 3 4 0) (ScoreboardSpec.ops_of 3 4 hist))) in
     let packets := [padded [1; 2; 3]%Z; repeat 9%Z 64; padded [5]%Z] in
     r = Done tt
     /\ observe 8 false (fun b => fold_left Z.add b 3%Z) (map snd (trace w)) = (map Deliver packets, None)
     /\ run (map ScoreboardSpec.Exp packets ++ map ScoreboardSpec.Got packets) = Ok tt
     /\ run (map ScoreboardSpec.Exp (rev packets) ++ map ScoreboardSpec.Got packets) = Err EAssertion
     /\ run (map ScoreboardSpec.Exp [[1; 2; 3]; repeat 9 64; [5]]%Z ++ map ScoreboardSpec.Got packets) = Err EAssertion.
Proof.
  cbn zeta. split; [|split; [|split; [|split; [|split]]]].
  - repeat constructor.
  - repeat constructor.
  - vm_compute. reflexivity.
  - vm_compute. reflexivity.
  - unfold appends_of, xge_acts. cbn [flat_map app]. unfold xg_sendable, fills_word, all_bytes, is_byte. repeat constructor; cbn; try lia.
  - vm_compute. repeat split.
Qed.
