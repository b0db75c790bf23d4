(** StRefProp.v -- C33 and C46: for which inputs they fail. *)
From Verif Require Import Base Async CompatModel DrvUtilModel AvalonSTModel AvalonSTSpec AvalonSTProof.
From Verif Require AvMemModel.
Local Open Scope list_scope.

(** C33, false for every sequence of words one of which is not the same backwards: with the
    default configuration the monitor reports every word reversed. *)
Theorem C33_every_word_refuted :
  forall k has_ready ws s p o fuel l,
    Forall (fun w => all_bytes (fst w) /\ length (fst w) = k) ws ->
    length l < fuel -> p <> PReadOnly -> o_valid o <> L1 ->
    Exists (fun w => rev (fst w) <> fst w) ws ->
    let '(r, w) := st_send_all (8 * k) has_ready fuel (map (fun x => (BBytes (fst x), snd x)) ws)
                               (World s p o [] l) in
    r = Done tt ->
    exists got, st_monitor has_ready true (trace w) = (got, None) /\ got = map (@rev Z) (map fst ws) /\ got <> map fst ws.
Proof.
  intros k has_ready ws s p o fuel l F Hl Hp Ho Ex.
  assert (R := st_round_trip k has_ready true ws s p o fuel l F Hl Hp Ho). cbn zeta in R.
  destruct (st_send_all (8 * k) has_ready fuel (map (fun x => (BBytes (fst x), snd x)) ws) (World s p o [] l)) as [r w].
  intros ->. destruct R as (n & Em & En). exists (map (@rev Z) (map fst ws)).
  split; [|split; [reflexivity|]].
  - rewrite Em, En. f_equal. rewrite firstn_all2; [reflexivity|rewrite !map_length; lia].
  - clear - Ex. induction Ex as [x ws Hx|x ws _ IH]; cbn [map]; intro E; injection E as E1 E2; [exact (Hx E1)|exact (IH E2)].
Qed.
Print Assumptions C33_every_word_refuted.

(** C46, false for every option: whatever one memory is given, a memory made after it without
    options has the same options. *)
Import AvMemModel.
Theorem C46_every_option_refuted :
  forall u, let later := construct (construct default_props u) no_props in
    (forall b, u_wait u = Some b -> p_wait later = b) /\
    (forall n, u_maxwait u = Some n -> p_maxwait later = n) /\
    (forall n, u_latency u = Some n -> p_latency later = n) /\
    ((u_wait u = Some false \/ (exists n, u_maxwait u = Some n /\ n <> 4) \/ (exists n, u_latency u = Some n /\ n <> 1)) ->
     later <> construct default_props no_props).
Proof.
  intros [a b c]. cbn. repeat split; try (intros x ->; reflexivity).
  intros [->|[(n & -> & N)|(n & -> & N)]]; cbn; intro E; injection E; intros; subst; try discriminate; contradiction.
Qed.
Print Assumptions C46_every_option_refuted.

Example exr_gen :
  let '(r, w) := st_send_all (8 * 2) true 5 (map (fun x : list Z * bool => (BBytes (fst x), snd x)) [([1; 2]%Z, true); ([7; 7]%Z, false)])
                   (World (set_valid_generator None) PActive (st_init_out 16) [] [L1; L1; L1; L1]) in
  r = Done tt /\ Exists (fun w : list Z * bool => rev (fst w) <> fst w) [([1; 2]%Z, true); ([7; 7]%Z, false)] /\
  st_monitor true true (trace w) = ([[2; 1]; [7; 7]]%Z, None) /\
  construct (construct default_props (UProps (Some false) (Some 9) None)) no_props = AProps false 9 1.
Proof. vm_compute. repeat split. left. discriminate. Qed.
