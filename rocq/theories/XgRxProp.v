(** XgRxProp.v -- C148: an XGMII monitor on the traffic of any transmitter. *)
From Verif Require Import Base CompatModel BitsLemmas XgModel XgSpec XgProof XgMonProof XgTopProof XgProp XgRxSpec XgRxProof.
Local Open Scope list_scope.

(** Exactly the frames are delivered that start in a lane the monitor looks at; nothing is logged. *)
Theorem C148_exact_partial (n : nat) (interleaved : bool) (crc32 : bytes -> Z) ws lss fs tail :
  1 <= n -> Forall2 (carries interleaved) ws lss -> Forall (fun w => length w = n) lss -> concat lss = traffic crc32 fs tail ->
  rx_spaced fs -> no_runt fs ->
  observe n interleaved crc32 ws = (map Deliver (heard_frames n fs), None).
Proof.
  intros Hn C F E S R.
  assert (Fr : frames n lss (map (fun p => (body crc32 p, 253%Z)) (hears n 0 (None, fs, tail)))).
  { apply (heard_traffic n crc32 Hn (length lss)); auto.
    - cbn [good]. eapply Forall_impl; [|exact S]. unfold RX_GAP. intros f H. lia.
    - apply Nat.mod_0_l. lia. }
  destruct (C65_partial n interleaved crc32 ws lss _ Hn C F Fr) as (evs & Re & O). rewrite O.
  rewrite (all_delivered crc32 (hears n 0 (None, fs, tail)) evs); [reflexivity| |exact Re].
  clear - R. unfold hears. cbn [starts_at]. apply Forall_map, Forall_forall. intros [s p] H. apply filter_In in H. destruct H as [H _]. cbn [snd].
  assert (K : forall pos s, In (s, p) (positions pos fs) -> 60 <= length p); [|exact (K _ _ H)]. clear H s.
  induction R as [|[g q] r Q _ IH]; intros pos s H; [destruct H|]. cbn [positions] in H.
  destruct H as [H|H]; [injection H as <- <-; exact Q|]. exact (IH _ _ H).
Qed.
Print Assumptions C148_exact_partial.

Lemma heard_all n fs : Forall (fun x => heard n (fst x) = true) (positions 0 fs) -> heard_frames n fs = map snd fs.
Proof.
  unfold heard_frames. generalize 0. induction fs as [|[g p] r IH]; intros pos F; [reflexivity|]. cbn [positions filter map snd] in *.
  rewrite (Forall_inv F). cbn [map snd]. f_equal. apply IH. exact (Forall_inv_tail F).
Qed.
Lemma heard_none n fs : Forall (fun x => heard n (fst x) = false) (positions 0 fs) -> heard_frames n fs = [].
Proof.
  unfold heard_frames. generalize 0. induction fs as [|[g p] r IH]; intros pos F; [reflexivity|]. cbn [positions filter map snd] in *.
  rewrite (Forall_inv F). apply IH. exact (Forall_inv_tail F).
Qed.

(** C148 for the two widths of XGMII, four and eight lanes: all frames are delivered. *)
Theorem C148_partial (n : nat) (interleaved : bool) (crc32 : bytes -> Z) ws lss fs tail :
  n = 4 \/ n = 8 -> Forall2 (carries interleaved) ws lss -> Forall (fun w => length w = n) lss -> concat lss = traffic crc32 fs tail ->
  column_starts fs -> rx_spaced fs -> no_runt fs ->
  observe n interleaved crc32 ws = (map Deliver (map snd fs), None).
Proof.
  intros Hn C F E Co S R. rewrite (C148_exact_partial n interleaved crc32 ws lss fs tail) by (assumption || lia). rewrite heard_all; [reflexivity|].
  eapply Forall_impl; [|exact Co]. intros [s p] M. cbn [fst] in *. unfold heard. destruct Hn as [-> | ->]; [now rewrite M|].
  pose proof (Nat.div_mod s 4 ltac:(lia)) as D. pose proof (Nat.div_mod s 8 ltac:(lia)) as D8. pose proof (Nat.mod_upper_bound s 8 ltac:(lia)).
  destruct (Nat.eqb_spec (s mod 8) 0); [reflexivity|]. destruct (Nat.eqb_spec (s mod 8) 4); [reflexivity|]. lia.
Qed.
Print Assumptions C148_partial.

(** On every bus: all frames that start in the first lane are delivered. *)
Theorem C148_first_lane_partial (n : nat) (interleaved : bool) (crc32 : bytes -> Z) ws lss fs tail :
  1 <= n -> Forall2 (carries interleaved) ws lss -> Forall (fun w => length w = n) lss -> concat lss = traffic crc32 fs tail ->
  Forall (fun x => fst x mod n = 0) (positions 0 fs) -> rx_spaced fs -> no_runt fs ->
  observe n interleaved crc32 ws = (map Deliver (map snd fs), None).
Proof.
  intros Hn C F E Co S R. rewrite (C148_exact_partial n interleaved crc32 ws lss fs tail) by assumption. rewrite heard_all; [reflexivity|].
  eapply Forall_impl; [|exact Co]. intros [s p] M. cbn [fst] in *. unfold heard. now rewrite M.
Qed.
Print Assumptions C148_first_lane_partial.

(** C148 is false on wider buses: frames that start in another column are lost and nothing is logged. *)
Theorem C148_wide_refuted (n : nat) (interleaved : bool) (crc32 : bytes -> Z) ws lss fs tail :
  8 < n -> n mod 4 = 0 -> Forall2 (carries interleaved) ws lss -> Forall (fun w => length w = n) lss -> concat lss = traffic crc32 fs tail ->
  column_starts fs -> rx_spaced fs -> no_runt fs -> Forall (fun x => fst x mod n <> 0) (positions 0 fs) ->
  observe n interleaved crc32 ws = ([], None).
Proof.
  intros Hn _ C F E _ S R N. rewrite (C148_exact_partial n interleaved crc32 ws lss fs tail) by (assumption || lia). rewrite heard_none; [reflexivity|].
  eapply Forall_impl; [|exact N]. intros [s p] M. cbn [fst] in *. apply heard_no. split; [exact M|lia].
Qed.
Print Assumptions C148_wide_refuted.

(** ** Non-vacuity: all traffic can be put on a bus of [n] lanes *)
Lemma in_words n (l : list lane) k : length l = k * n -> exists lss, concat lss = l /\ Forall (fun w => length w = n) lss.
Proof.
  revert l. induction k as [|k IH]; intros l L.
  - destruct l; [|discriminate]. exists []. split; [reflexivity|constructor].
  - destruct (IH (skipn n l)) as (lss & E & F); [rewrite skipn_length; lia|]. exists (firstn n l :: lss). cbn [concat]. rewrite E, firstn_skipn. split; [reflexivity|].
    constructor; [rewrite firstn_length; lia|exact F].
Qed.
Lemma traffic_bytes crc32 fs tail : Forall (fun f => all_bytes (snd f)) fs -> Forall (fun v : lane => is_byte (fst v)) (traffic crc32 fs tail).
Proof.
  induction 1 as [|[g p] r B _ IH]; cbn [traffic].
  - apply Forall_forall. intros x H. apply repeat_spec in H. subst. unfold is_byte. cbn. lia.
  - apply Forall_app. split; [apply Forall_forall; intros x H; apply repeat_spec in H; subst; unfold is_byte; cbn; lia|].
    constructor; [unfold is_byte; cbn; lia|]. apply Forall_app. split; [|constructor; [unfold is_byte; cbn; lia|exact IH]].
    apply Forall_map. unfold body. cbn [app]. repeat (constructor; [unfold is_byte; cbn; lia|]). apply Forall_app. split; [exact B|].
    unfold le32. cbn [map]. repeat constructor; unfold is_byte, data; cbn [fst]; apply Z.mod_pos_bound; lia.
Qed.
Lemma traffic_length crc32 fs tail : length (traffic crc32 fs tail) = length (traffic crc32 fs 0) + tail.
Proof. induction fs as [|[g p] r IH]; cbn [traffic]; [rewrite !repeat_length; lia|]. rewrite !app_length. cbn [length]. rewrite !app_length. cbn [length]. rewrite IH. lia. Qed.
Theorem C148_nonvacuous n interleaved crc32 fs : 1 <= n -> Forall (fun f => all_bytes (snd f)) fs ->
  exists tail ws lss, Forall2 (carries interleaved) ws lss /\ Forall (fun w => length w = n) lss /\ concat lss = traffic crc32 fs tail.
Proof.
  intros Hn B. set (m := length (traffic crc32 fs 0)). exists ((n - 1) * m).
  destruct (in_words n (traffic crc32 fs ((n - 1) * m)) m) as (lss & E & F).
  { rewrite traffic_length. fold m. nia. }
  destruct (carries_exist_all interleaved lss) as [ws C].
  { pose proof (traffic_bytes crc32 fs ((n - 1) * m) B) as T. rewrite <- E in T. clear - T. induction lss as [|w r IH]; [constructor|].
    cbn [concat] in T. apply Forall_app in T. destruct T. constructor; auto. }
  exists ws, lss. auto.
Qed.
Print Assumptions C148_nonvacuous.

Definition ex_pay : bytes := repeat 1%Z 64.
(** starts in lanes 0 and 4 of eight *)
Example exrx_columns : column_starts [(8, ex_pay); (7, ex_pay); (11, ex_pay)] /\ rx_spaced [(8, ex_pay); (7, ex_pay); (11, ex_pay)] /\
  no_runt [(8, ex_pay); (7, ex_pay); (11, ex_pay)] /\ map (fun x => fst x mod 8) (positions 0 [(8, ex_pay); (7, ex_pay); (11, ex_pay)]) = [0; 4; 4].
Proof. unfold column_starts, rx_spaced, no_runt, RX_GAP. cbn. repeat split; repeat constructor. Qed.
(** a start in the second of three columns *)
Example exrx_wide : column_starts [(4, ex_pay)] /\ Forall (fun x => fst x mod 12 <> 0) (positions 0 [(4, ex_pay)]).
Proof. unfold column_starts. cbn. repeat constructor. discriminate. Qed.
