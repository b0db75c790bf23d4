(** XgE2EProof.v *)
From Verif Require Import Base Async DriverModel DriverSpec DriverProof E2ESpec E2EProof XgModel XgSpec XgProof XgDrvProof XgMonProof XgTopProof
  XgE2EModel XgE2ESpec.
From Verif Require ScoreboardModel ScoreboardSpec ScoreboardProof.
Local Open Scope list_scope.

Lemma xg_calls_started (l : list (ev bytes)) : map snd (xg_calls l) = map i_tx (started l).
Proof.
  unfold xg_calls, started. induction l as [|e l IH]; [reflexivity|]. cbn [flat_map]. rewrite !map_app, IH. f_equal.
  destruct e; reflexivity.
Qed.
Lemma delivered_all (l : list bytes) : delivered (map Deliver l) = l.
Proof. induction l as [|a l IH]; [reflexivity|]. cbn. rewrite <- IH at 2. reflexivity. Qed.

Section Xg.
Variables (n : nat) (interleaved : bool) (crc32 : bytes -> Z).
Hypothesis Hn : 1 <= n.

Lemma bench_run calls I p o l : p <> PReadOnly -> Forall (fun c => xg_sendable n (snd (snd c))) calls ->
  let '(r, w) := xg_bench (9 * n) interleaved true crc32 calls (World I p o [] l) in
  exists k, observe n interleaved crc32 (map snd (trace w)) = (map Deliver (firstn k (map (fun c => padded (snd (snd c))) calls)), None)
    /\ (r = Done tt /\ length calls <= k \/ r = Susp /\ ins w = []).
Proof.
  intros Hp F. unfold xg_bench. set (sends := map _ calls).
  assert (F' : Forall (fun s => fills_word n (snd s) /\ all_bytes (snd s)) sends).
  { unfold sends. rewrite Forall_map. exact F. }
  pose proof (end_to_end n interleaved crc32 Hn sends I p o l Hp F') as H.
  destruct (bind _ _ _) as [r w]. destruct H as (es & later & H1 & H2 & H3).
  assert (E : map (fun s : nat * bool * bytes => Deliver (padded (snd s))) sends = map Deliver (map (fun c => padded (snd (snd c))) calls)).
  { unfold sends. rewrite !map_map. reflexivity. }
  rewrite E in H2. exists (length es). rewrite H1.
  assert (Es : es = map Deliver (firstn (length es) (map (fun c => padded (snd (snd c))) calls))).
  { rewrite <- firstn_map, H2. rewrite firstn_app, firstn_all, Nat.sub_diag. cbn. symmetry. apply app_nil_r. }
  split; [rewrite Es at 1; reflexivity|]. destruct H3 as [[-> ->]|[-> H3]]; [left|right; auto]. split; [reflexivity|].
  rewrite app_nil_r in H2. rewrite <- H2, !map_length. apply le_n.
Qed.

Section Top.
Context (ty : bytes -> nat) (eqb : bytes -> bytes -> bool) (str : bytes -> String.string) (fn : nat -> list bytes -> bytes -> bytes).
Context (EQ : forall a b, eqb a b = true <-> a = b).
Definition verdict im m loc hist :=
  ScoreboardModel.result bytes (fst (ScoreboardModel.sb_run bytes ty eqb str fn
     (ScoreboardSpec.start bytes im m loc 0) (ScoreboardSpec.ops_of m loc hist))).

Lemma xg_top beh acts calls I p o l im m loc hist :
  let d := run bytes beh acts drv_init in
  Forall (fun i => xg_sendable n (i_tx i)) (appended (log d)) -> map snd calls = xg_calls (log d) -> p <> PReadOnly ->
  let '(r, w) := xg_bench (9 * n) interleaved true crc32 calls (World I p o [] l) in
  let '(es, f) := observe n interleaved crc32 (map snd (trace w)) in
  f = None /\ es = map Deliver (delivered es)
  /\ match r with
     | Done _ => delivered es = frames_of (started (log d))
     | Susp => ins w = [] /\ exists k, delivered es = firstn k (frames_of (started (log d)))
     | _ => False
     end
  /\ (hears hist (delivered es) ->
      (verdict im m loc hist = Ok tt <-> ScoreboardSpec.exps hist = delivered es /\ ScoreboardSpec.never_early hist)).
Proof.
  intros d Hs E Hp.
  assert (Ec : map (fun c => padded (snd (snd c))) calls = frames_of (started (log d))).
  { unfold frames_of. rewrite <- (map_map i_tx padded (started (log d))), <- xg_calls_started, <- E, !map_map. reflexivity. }
  assert (F : Forall (fun c => xg_sendable n (snd (snd c))) calls).
  { rewrite <- (Forall_map (fun c => snd (snd c)) (xg_sendable n)), <- (map_map snd snd), E, xg_calls_started, Forall_map.
    apply Forall_forall. intros i Hi. rewrite Forall_forall in Hs. apply Hs. apply started_appended, Hi. }
  pose proof (bench_run calls I p o l Hp F) as G. destruct (xg_bench _ _ _ _ _ _) as [r w].
  destruct G as (k & G1 & G2). rewrite G1, Ec in *. rewrite delivered_all. split; [reflexivity|]. split; [reflexivity|]. split.
  - destruct G2 as [[-> G2]|[-> G2]]; [|split; [exact G2|eauto]]. apply firstn_all2.
    rewrite <- Ec, map_length. exact G2.
  - intro H. unfold verdict. rewrite (ScoreboardProof.inorder_iff ty eqb str fn EQ).
    unfold hears in H. rewrite <- H. split; intros [A B]; (split; [symmetry; exact A|exact B]).
Qed.

Lemma xg_all beh acts calls I p o l im m loc hist :
  passive beh -> no_clear acts ->
  let d := run bytes beh acts drv_init in
  Forall (fun i => xg_sendable n (i_tx i) /\ i_sync_kw i = false) (appends_of acts) -> sendq d = [] ->
  map snd calls = xg_calls (log d) -> p <> PReadOnly ->
  let '(r, w) := xg_bench (9 * n) interleaved true crc32 calls (World I p o [] l) in
  let es := fst (observe n interleaved crc32 (map snd (trace w))) in
  r = Done tt -> hears hist (delivered es) ->
      es = map Deliver (frames_of (appends_of acts)) /\
      (verdict im m loc hist = Ok tt <-> ScoreboardSpec.exps hist = frames_of (appends_of acts) /\ ScoreboardSpec.never_early hist).
Proof.
  intros Pa NC d Hs Q E Hp.
  assert (Ea : appended (log d) = appends_of acts) by apply (run_appended beh acts Pa drv_init).
  assert (Et : started (log d) = appends_of acts).
  { rewrite <- Ea. unfold d at 2. rewrite (run_exact beh acts); [|apply run_no_clear; auto]. fold d. rewrite Q, app_nil_r.
    symmetry. apply taken_started. apply run_no_reject. fold d. rewrite Ea.
    eapply Forall_impl; [|exact Hs]. cbn. tauto. }
  pose proof (xg_top beh acts calls I p o l im m loc hist) as G. cbn zeta in G. fold d in G.
  specialize (G ltac:(rewrite Ea; eapply Forall_impl; [|exact Hs]; cbn; tauto) E Hp).
  destruct (xg_bench _ _ _ _ _ _) as [r w]. destruct (observe _ _ _ _) as [es f]. cbn [fst].
  destruct G as (_ & G1 & G2 & G3). intros -> R. rewrite Et in G2. split; [rewrite G1, G2; reflexivity|].
  rewrite <- G2. apply G3, R.
Qed.
End Top.

Lemma xg_done calls : Forall (fun c => xg_sendable n (snd (snd c))) calls ->
  exists N, forall I p o l, p <> PReadOnly -> N <= length l ->
    fst (xg_bench (9 * n) interleaved true crc32 calls (World I p o [] l)) = Done tt.
Proof.
  intro F. unfold xg_bench. set (sends := map _ calls). exists (length (flat_map (send_stream n crc32) sends)).
  intros I p o l Hp G. apply (end_to_end_done n interleaved crc32 Hn sends I p o l Hp); [|exact G].
  unfold sends. rewrite Forall_map. exact F.
Qed.
End Xg.

Lemma xg_shipped width interleaved crc32 calls I p o l :
  exists w, xg_bench width interleaved bound_as_shipped crc32 calls (World I p o [] l) = (Exn EName, w) /\ trace w = [].
Proof.
  destruct (construct_name_error width interleaved (World I p o [] l)) as (w' & E & _ & T). exists w'.
  split; [|exact T]. unfold xg_bench, bind. rewrite E. reflexivity.
Qed.

(** a scoreboard on a monitor without a name *)
Lemma expect_all (ty : bytes -> nat) eqb (str : bytes -> String.string) fn m loc depth im es :
  let s := fst (ScoreboardModel.sb_run bytes ty eqb str fn (ScoreboardSpec.start bytes im m loc depth) (map (ScoreboardModel.SExpect loc) es)) in
  ScoreboardModel.heap s loc = es /\ ScoreboardModel.dead s = []
  /\ ScoreboardModel.cbs s m = [ScoreboardModel.CbCheck (ScoreboardModel.mkIface (ScoreboardModel.EList loc) (Z.of_nat depth) true)]
  /\ ScoreboardModel.expected s = [(m, ScoreboardModel.EList loc)].
Proof.
  cbn zeta.
  assert (G : forall es s0, ScoreboardModel.dead s0 = [] ->
    let s := fst (ScoreboardModel.sb_run bytes ty eqb str fn s0 (map (ScoreboardModel.SExpect loc) es)) in
    ScoreboardModel.heap s loc = ScoreboardModel.heap s0 loc ++ es /\ ScoreboardModel.dead s = []
    /\ ScoreboardModel.cbs s = ScoreboardModel.cbs s0 /\ ScoreboardModel.expected s = ScoreboardModel.expected s0).
  { clear es. induction es as [|e es IH]; intros s0 H; cbn zeta.
    - cbn. rewrite app_nil_r. auto.
    - cbn [map ScoreboardModel.sb_run ScoreboardModel.sb_step].
      specialize (IH (ScoreboardModel.set_heap bytes s0 loc (ScoreboardModel.heap s0 loc ++ [e])) H). cbn zeta in IH.
      destruct (ScoreboardModel.sb_run _ _ _ _ _ _ _) as [s2 xs]. cbn [fst] in *. destruct IH as (A & B & C & D).
      split; [|split; [exact B|split; [exact C|exact D]]]. rewrite A. cbn [ScoreboardModel.heap ScoreboardModel.set_heap].
      unfold ScoreboardModel.upd_fun. rewrite Nat.eqb_refl, <- app_assoc. reflexivity. }
  destruct (G es (ScoreboardSpec.start bytes im m loc depth) eq_refl) as (A & B & C & D).
  split; [exact A|]. split; [exact B|]. rewrite C, D. split; [|reflexivity].
  cbn. unfold ScoreboardModel.upd_fun. rewrite Nat.eqb_refl. reflexivity.
Qed.
Lemma xg_nameless (ty : bytes -> nat) eqb (str : bytes -> String.string) fn im m loc depth es got : got <> [] ->
  let s := fst (ScoreboardModel.sb_run bytes ty eqb str fn (ScoreboardSpec.start bytes im m loc depth) (map (ScoreboardModel.SExpect loc) es)) in
  exists s', ScoreboardModel.receive_all bytes ty eqb str fn false s m got = (s', Err EAttribute :: map (fun _ => Ok tt) (tl got))
    /\ ScoreboardModel.heap s' loc = es /\ (es <> [] -> ScoreboardModel.result bytes s' = Err EAssertion).
Proof.
  intros Hg s. destruct got as [|t got]; [contradiction|].
  destruct (expect_all ty eqb str fn m loc depth im es) as (A & B & C & D). fold s in A, B, C, D.
  destruct (ScoreboardProof.nameless ty eqb str fn s m t got _ [] [] ltac:(rewrite B; intros []) C (Forall_nil _)) as (s' & R & H & _ & _ & _ & V).
  exists s'. split; [exact R|]. rewrite H. split; [exact A|]. intro Hn. rewrite V. unfold ScoreboardModel.result. rewrite D.
  cbn [existsb snd ScoreboardModel.leftover]. rewrite A. destruct es; [contradiction|reflexivity].
Qed.
