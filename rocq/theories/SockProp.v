(** SockProp.v -- C130: from a socket to the packet monitor. *)
From Verif Require Import Base Async HandshakeSpec DriverModel DriverSpec DriverProof AvalonSTModel PktModel PktSpec DrvUtilModel DrvUtilSpec DrvUtilProp
  E2EModel E2ESpec E2EProof E2EProp SockSpec.
Local Open Scope list_scope.

Lemma chunks_stream EAGAIN EWOULDBLOCK rs : Forall (fun r => chunk r \/ would_block EAGAIN EWOULDBLOCK r) rs -> concat (chunks rs) = stream rs.
Proof.
  induction 1 as [|r rs H F IH]; [reflexivity|]. unfold chunks, stream in *. cbn [flat_map]. rewrite concat_app, IH. f_equal.
  destruct r as [[|b l]|e]; cbn; try reflexivity. now rewrite app_nil_r.
Qed.
Lemma poll_chunks EAGAIN EWOULDBLOCK rs : all_octets rs -> Forall (fun b => b <> [] /\ all_bytes b) (fst (sock_poll EAGAIN EWOULDBLOCK rs)).
Proof.
  induction rs as [|r rs IH]; intro H; [constructor|]. assert (IH' := IH (fun b Hb => H b (or_intror Hb))). cbn [sock_poll]. destruct r as [b|e].
  - destruct b as [|x b]; [constructor|]. destruct (sock_poll EAGAIN EWOULDBLOCK rs). cbn [fst] in *. constructor; [|exact IH'].
    split; [discriminate|]. apply H. left. reflexivity.
  - destruct (_ || _); [exact IH'|constructor].
Qed.
Lemma data_report c b ch : data_of (report_of c b ch) = b.
Proof. unfold report_of, as_reported. destruct (c_report c), (c_cw c), ch; reflexivity. Qed.
Lemma firstn_concat {A} (ls : list (list A)) n : exists k, concat (firstn n ls) = firstn k (concat ls).
Proof.
  exists (length (concat (firstn n ls))). rewrite <- (firstn_skipn n ls) at 3. rewrite concat_app, firstn_app, firstn_all, Nat.sub_diag, firstn_O, app_nil_r. reflexivity.
Qed.

(** C130.  Whatever recv returns at the clock edges ([rs]), however the appends of
    polled_socket_attachment interleave with the send thread and the other users of the driver's
    thread ([acts]), with any ready cycles, valid generator and idle cycles: the packets the
    monitor has delivered are the first of the chunks polled, in order, one packet per chunk; if
    the thread has taken everything, the run reaches its end and no packet is held up longer than
    the invalidTimeout, they are all of them. *)
Theorem C130_chunks :
  forall EAGAIN EWOULDBLOCK rs, all_octets rs ->
    let cs := fst (sock_poll EAGAIN EWOULDBLOCK rs) in
    forall c k beh acts gps s p o fuel l,
    byte_bus c k -> (0 <= c_timeout c)%Z -> channel_ok c None -> passive beh -> no_clear acts -> queue_only acts ->
    appends_of acts = map appended_chunk cs ->
    let d := run ptx beh acts drv_init in
    map snd gps = thread_calls (log d) ->
    Forall (fun p => length l + length (p_data p) < fuel) (map snd gps) -> p <> PReadOnly -> k_offered o = false ->
    let '(r, w) := pk_send_gaps c fuel gps (World s p o [] l) in
    let received := map data_of (fst (pm_run c pm_init (sampled (trace w)))) in
    (exists n, received = firstn n cs) /\
    (sendq d = [] -> r = Done tt -> ~ stalled c (sampled (trace w)) -> received = cs).
Proof.
  intros EA EW rs Hb cs c k beh acts gps s p o fuel l BB TO Ch Pa NC Q Ap d Eg Hf Hp Ho.
  assert (Oct := poll_chunks EA EW rs Hb). fold cs in Oct.
  assert (Srt : started (log d) ++ sendq d = appends_of acts).
  { assert (Ea : appended (log d) = appends_of acts) by apply (run_appended beh acts Pa drv_init).
    rewrite <- Ea. unfold d at 3. rewrite (run_exact beh acts); [|apply run_no_clear; auto]. fold d. f_equal. symmetry. apply taken_started, run_no_reject.
    fold d. rewrite Ea, Ap. apply Forall_map, Forall_forall. reflexivity. }
  assert (Ea : appended (log d) = map appended_chunk cs) by (rewrite <- Ap; apply (run_appended beh acts Pa drv_init)).
  assert (Dat : forall l, map data_of (reports_of c (map appended_chunk l)) = l).
  { intro bs. unfold reports_of. rewrite !map_map. rewrite <- (map_id bs) at 2. apply map_ext. intro b. apply data_report. }
  assert (Sta : exists n, started (log d) = map appended_chunk (firstn n cs)).
  { exists (length (started (log d))). rewrite <- firstn_map, <- Ap, <- Srt, firstn_app, firstn_all, Nat.sub_diag, firstn_O, app_nil_r. reflexivity. }
  pose proof (C85_prefix_and_verdict (fun _ => 0) e2e_eqb (fun _ => String.EmptyString) (fun _ _ t => t) e2e_eqb_ok
                c k beh acts gps s p o fuel l false 0 0 [] BB TO Q) as G. cbn zeta in G. fold d in G.
  assert (Snd : Forall (fun i => sendable c (i_tx i)) (appended (log d))).
  { rewrite Ea. apply Forall_map. revert Oct. apply Forall_impl. intros b [B1 B2]. cbn. unfold sendable. cbn. auto. }
  specialize (G Snd Eg Hf Hp Ho).
  destruct (pk_send_gaps c fuel gps (World s p o [] l)) as [r w]. destruct (pm_run c pm_init (sampled (trace w))) as [reps f]. cbn [fst].
  destruct G as (_ & _ & (n & Gn) & Gd & _). split.
  - destruct Sta as [m Em]. exists (Nat.min n m). rewrite Gn, Em, <- firstn_map, Dat. apply firstn_firstn.
  - intros Q0 -> NS. rewrite (Gd NS). rewrite Q0, app_nil_r in Srt. rewrite Srt, Ap. apply Dat.
Qed.
Print Assumptions C130_chunks.

(** The stream: as long as recv gives data or would block, the bytes at the monitor are a prefix of
    the bytes of the socket, in the end all of them; an orderly end or an error of the socket
    changes nothing of this, and nothing after it is read. *)
Theorem C130_stream :
  forall EAGAIN EWOULDBLOCK rs ending, all_octets rs ->
    Forall (fun r => chunk r \/ would_block EAGAIN EWOULDBLOCK r) rs ->
    match ending with
    | [] => True
    | SData b :: _ => b = []
    | SError e :: _ => ~ would_block EAGAIN EWOULDBLOCK (SError e)
    end ->
    forall c k beh acts gps s p o fuel l,
    byte_bus c k -> (0 <= c_timeout c)%Z -> channel_ok c None -> passive beh -> no_clear acts -> queue_only acts ->
    appends_of acts = map appended_chunk (fst (sock_poll EAGAIN EWOULDBLOCK (rs ++ ending))) ->
    let d := run ptx beh acts drv_init in
    map snd gps = thread_calls (log d) ->
    Forall (fun p => length l + length (p_data p) < fuel) (map snd gps) -> p <> PReadOnly -> k_offered o = false ->
    let '(r, w) := pk_send_gaps c fuel gps (World s p o [] l) in
    let received := concat (map data_of (fst (pm_run c pm_init (sampled (trace w))))) in
    (exists n, received = firstn n (stream rs)) /\
    (sendq d = [] -> r = Done tt -> ~ stalled c (sampled (trace w)) -> received = stream rs).
Proof.
  intros EA EW rs ending Hb Hrs He c k beh acts gps s p o fuel l BB TO Ch Pa NC Q Ap d Eg Hf Hp Ho.
  assert (P : fst (sock_poll EA EW (rs ++ ending)) = fst (sock_poll EA EW rs) /\ fst (sock_poll EA EW rs) = chunks rs).
  { destruct (C31_socket EA EW rs Hrs) as (A & B & C). rewrite A. destruct ending as [|[b|e] later].
    - rewrite app_nil_r, A. auto.
    - subst b. rewrite B. auto.
    - rewrite (C e later He). auto. }
  destruct P as [P1 P2]. rewrite P1 in Ap. pose proof (chunks_stream EA EW rs Hrs) as S.
  pose proof (C130_chunks EA EW rs Hb c k beh acts gps s p o fuel l BB TO Ch Pa NC Q Ap Eg Hf Hp Ho) as G. fold d in G.
  destruct (pk_send_gaps c fuel gps (World s p o [] l)) as [r w]. cbn zeta in G |- *. rewrite P2 in G. destruct G as [(n & G1) G2]. split.
  - rewrite G1, <- S. apply firstn_concat.
  - intros Q0 R NS. rewrite (G2 Q0 R NS). exact S.
Qed.
Print Assumptions C130_stream.

(** two chunks, a would-block between them, then the end of the stream *)
Definition so_rs : list sockres := [SError 11; SData [1; 2; 3; 4; 5]%Z; SError 11; SData [9]%Z].
Definition so_acts : list (action ptx) := [AAppend (appended_chunk [1; 2; 3; 4; 5]%Z); ARun; AAppend (appended_chunk [9]%Z); AFinish None; AFinish None].
Example C130_nonvacuous :
  let d := run ptx (fun _ _ => ([], None)) so_acts drv_init in
  let gps := combine [2; 0] (thread_calls (log d)) in
  all_octets so_rs /\ appends_of so_acts = map appended_chunk (fst (sock_poll 11 11 (so_rs ++ [SData []; SData [7]%Z]))) /\
  sendq d = [] /\ map snd gps = thread_calls (log d) /\ channel_ok e2e_cfg None /\
  let '(r, w) := pk_send_gaps e2e_cfg 60 gps
                   (World (set_valid_generator (Some [(1, 1); (1, 2)]%Z)) PActive (pk_init_out e2e_cfg) [] (concat (repeat [L0; LX; L1; L1] 8))) in
  r = Done tt /\ map data_of (fst (pm_run e2e_cfg pm_init (sampled (trace w)))) = [[1; 2; 3; 4; 5]; [9]]%Z.
Proof.
  cbn zeta. split; [|split; [|split; [|split; [|split]]]]; try (vm_compute; reflexivity); try (vm_compute; discriminate).
  - intros b [E|[E|[E|[E|[]]]]]; inversion E; repeat constructor; lia.
  - vm_compute. split; reflexivity.
Qed.
