(** StGenProp.v -- C117, C118: set_valid_generator while the Avalon-ST driver is sending.  A cycle
    is (ready, the last call of set_valid_generator in that cycle, if any). *)
From Verif Require Import Base Async CompatModel DrvUtilModel AvalonSTModel HandshakeSpec StGenModel StGenSpec StGenProof.
Local Open Scope list_scope.

(** C117.  As C32, but set_valid_generator is called with any generators in any cycles.  The bus
    trace accounts for every cycle; every word offered and not accepted is repeated unchanged
    (also into the current cycle); nothing is raised; the words transferred are those sent, each
    once and in order: all of them when the sends have returned, and otherwise a prefix, the
    word on offer being the next one. *)
Theorem C117_transfers :
  forall width has_ready ws ds s p o fuel l,
    Forall2 (fun w d => create_binary (fst w) width false = Ok d) ws ds ->
    length l < fuel -> p <> PReadOnly -> o_valid o <> L1 ->
    let '(r, w) := gen_send_all width has_ready fuel ws (World s p o [] l) in
    map fst (trace w) ++ ins w = l
    /\ (forall i, HandshakeSpec.stable offered (takes has_ready) (trace w ++ [(i, out w)]))
    /\ match r with
       | Done _ => HandshakeSpec.transfers offered (takes has_ready) (trace w) = map (StOut L1) ds
                   /\ o_valid (out w) <> L1
       | Susp => ins w = []
                 /\ exists k, HandshakeSpec.transfers offered (takes has_ready) (trace w) = map (StOut L1) (firstn k ds)
                      /\ (o_valid (out w) = L1 -> exists d, nth_error ds k = Some d /\ out w = StOut L1 d)
       | _ => False
       end.
Proof. exact gen_transfers. Qed.
Print Assumptions C117_transfers.

(** ... and the sends return: if no generator asks for gaps of more than [B] cycles, [B] + 2
    accepting cycles for each word suffice, whenever the generators are changed. *)
Theorem C117_progress :
  forall width has_ready ws ds B s p o fuel l,
    Forall2 (fun w d => create_binary (fst w) width false = Ok d) ws ds ->
    length l < fuel -> p <> PReadOnly -> o_valid o <> L1 -> bounded B s -> calls_bounded B l ->
    length ws * (B + 2) <= length (filter (takes has_ready) l) ->
    exists w, gen_send_all width has_ready fuel ws (World s p o [] l) = (Done tt, w).
Proof. exact gen_progress. Qed.
Print Assumptions C117_progress.

(** ... and if nobody calls it, this is the driver of C30, C32. *)
Theorem C117_no_calls :
  forall width has_ready fuel ws s p o l, Forall no_call l ->
    let '(r, w) := gen_send_all width has_ready fuel ws (World s p o [] l) in
    st_send_all width has_ready fuel ws (World s p o [] (map fst l))
    = (r, World (st w) (ph w) (out w) (map (fun c => (fst (fst c), snd c)) (trace w)) (map fst (ins w))).
Proof. exact gen_same. Qed.
Print Assumptions C117_no_calls.

Definition g117 : option (list (Z * Z)) := Some [(1, 3); (2, 1)]%Z.
Example C117_nonvacuous :
  let ws := [(BInt 5, true); (BInt 9, false); (BInt 1, false); (BInt 7, false)] in
  let s := set_valid_generator (Some [(1, 2)]%Z) in
  let l := [(L1, None); (L1, None); (L0, None); (L1, Some g117); (L0, None); (L1, Some None); (L1, None); (LX, None); (L1, None)] in
  let '(r, w) := gen_send_all 8 true 20 ws (World s PActive (st_init_out 8) [] l) in
  bounded 3 s /\ r = Done tt
  /\ map (fun c => o_valid (snd c)) (trace w) = [L0; L1; L0; L0; L1; L1; L1; L1; L1]
  /\ HandshakeSpec.transfers offered (takes true) (trace w) = map (StOut L1) (map (zbits 8) [5; 9; 1; 7]%Z).
Proof.
  cbv zeta. vm_compute. split; [|auto]. split; [discriminate|]. intros g' p E. injection E as <-. intros [].
Qed.

(** C118 is false: a generator set during a gap does not start with its first pair.  Here
    [(2, 3); (5, 1)] is set in the gap before the word.  Whether or not that word counts as one
    of the two "on" words, the first gap should have 3 cycles; it has 1 and comes after five
    words. *)
Theorem C118_refuted :
  exists s l g,
    let '(r, w) := gen_send 8 true 9 (BInt 5) false (World s PActive (st_init_out 8) [] l) in
    r = Done tt /\ after_calls s l = set_valid_generator (Some g)
    /\ gaps 6 (set_valid_generator (Some g)) = [0; 0; 3; 0; 0; 0]
    /\ gaps 6 (snd (throttle (set_valid_generator (Some g)))) = [0; 3; 0; 0; 0; 0]
    /\ gaps 6 (st w) = [0; 0; 0; 0; 1; 0].
Proof.
  exists (Valid (OnInt 0) 2 (Some [])), [(L1, None); (L1, Some (Some [(2, 3); (5, 1)]%Z)); (L1, None)], [(2, 3); (5, 1)]%Z.
  vm_compute. auto 10.
Qed.
Print Assumptions C118_refuted.

(** In general: the first pair of a generator set during a gap is dropped.  The words from the
    present one on are throttled as if the generator without that pair had been set. *)
Theorem C118_dropped_partial :
  forall width has_ready fuel value d (sync : bool) s p o synced gap rest on off g w,
    create_binary value width false = Ok d -> length (synced ++ gap ++ rest) < fuel -> p <> PReadOnly ->
    length synced = (if sync then 1 else 0) ->
    let s1 := after_calls s synced in
    v_on s1 = OnInt 0 -> length gap = Z.to_nat (v_off s1) ->
    after_calls s1 gap = set_valid_generator (Some ((on, off) :: g)) -> on <> 0%Z -> Forall no_call rest ->
    gen_send width has_ready fuel value sync (World s p o [] (synced ++ gap ++ rest)) = (Done tt, w) ->
    forall n, gaps n (st w) = gaps n (snd (throttle (set_valid_generator (Some g)))).
Proof. exact gen_dropped. Qed.
Print Assumptions C118_dropped_partial.

Lemma one_pair_gaps off k : gaps (S k) (Valid (OnInt (Z.of_nat k)) off (Some [])) = repeat 0 k ++ [Z.to_nat off].
Proof.
  induction k as [|k IH].
  - cbn [gaps repeat app]. unfold throttle. cbn. reflexivity.
  - change (gaps (S (S k)) (Valid (OnInt (Z.of_nat (S k))) off (Some [])))
      with (let '(g, v) := throttle (Valid (OnInt (Z.of_nat (S k))) off (Some [])) in g :: gaps (S k) v).
    unfold throttle. cbn [v_on truthy v_off v_gen]. assert (E : (Z.of_nat (S k) =? 0)%Z = false) by (apply Z.eqb_neq; lia).
    rewrite E. cbn [negb v_on v_off v_gen]. rewrite E.
    replace (Z.of_nat (S k) - 1)%Z with (Z.of_nat k) by lia. rewrite IH. reflexivity.
Qed.

(** So C118 fails for every generator of one pair [(on, off)] that is set during a gap: no word
    after it is delayed at all.  By its pair there is a gap of [off] cycles after [on] words,
    or after [on] - 1 words if the word sent now is counted. *)
Theorem C118_one_pair_refuted :
  forall width has_ready fuel value d (sync : bool) s p o synced gap rest on off w,
    create_binary value width false = Ok d -> length (synced ++ gap ++ rest) < fuel -> p <> PReadOnly ->
    length synced = (if sync then 1 else 0) ->
    let s1 := after_calls s synced in
    v_on s1 = OnInt 0 -> length gap = Z.to_nat (v_off s1) ->
    let g := set_valid_generator (Some [(on, off)]) in
    after_calls s1 gap = g -> (0 < on)%Z -> (0 < off)%Z -> Forall no_call rest ->
    gen_send width has_ready fuel value sync (World s p o [] (synced ++ gap ++ rest)) = (Done tt, w) ->
    (forall n, gaps n (st w) = repeat 0 n) /\
    gaps (S (Z.to_nat on)) g = repeat 0 (Z.to_nat on) ++ [Z.to_nat off] /\
    gaps (Z.to_nat on) (snd (throttle g)) = repeat 0 (Z.to_nat on - 1) ++ [Z.to_nat off].
Proof.
  intros width hr fuel value d sync s p o synced gap rest on off w Ed Hl Hp Ls s1 On Lg g Ag Hon Hoff Nr E.
  split; [|].
  - intro n. rewrite (C118_dropped_partial width hr fuel value d sync s p o synced gap rest on off [] w Ed Hl Hp Ls On Lg Ag ltac:(lia) Nr E n).
    apply gaps_true.
  - assert (Eg : g = Valid (OnInt on) off (Some [])).
    { unfold g, set_valid_generator, next_valids. cbn [v_gen next_pair]. destruct (Z.eqb_spec on 0) as [->|]; [lia|reflexivity]. }
    destruct (Z.to_nat on) as [|k] eqn:Ek; [lia|]. assert (Eo : on = Z.of_nat (S k)) by lia. rewrite Eg, Eo. split; [apply one_pair_gaps|].
    unfold throttle. cbn [v_on truthy v_off v_gen]. assert (Ez : (Z.of_nat (S k) =? 0)%Z = false) by (apply Z.eqb_neq; lia).
    rewrite Ez. cbn [negb v_on v_off v_gen snd]. rewrite Ez. cbn [snd]. replace (Z.of_nat (S k) - 1)%Z with (Z.of_nat k) by lia.
    replace (S k - 1) with k by lia. apply one_pair_gaps.
Qed.
Print Assumptions C118_one_pair_refuted.

(** C118, what holds: a send that returns consists of the synchronising cycle, the gap and the
    cycles in which the word is offered.  The gap is the one of the generator set last before it
    began, and calls during the gap do not change its length.  If there is none, the state after
    the send is that of the generator set last: a generator set while the word is on offer is
    left as it was set, with all its pairs; one set in the synchronising cycle has had one word. *)
Theorem C118_send_partial :
  forall width has_ready fuel value d (sync : bool) s p o l w,
    create_binary value width false = Ok d -> length l < fuel -> p <> PReadOnly ->
    gen_send width has_ready fuel value sync (World s p o [] l) = (Done tt, w) ->
    exists synced gap wait,
      trace w = synced ++ gap ++ wait
      /\ Forall (fun c => o_valid (snd c) = L0) (synced ++ gap)
      /\ Forall (fun c => snd c = StOut L1 d) wait
      /\ length synced = (if sync then 1 else 0)
      /\ let s1 := after_calls s (map fst synced) in
         length gap = fst (throttle s1)
         /\ (Forall (fun c => no_call (fst c)) gap -> st w = after_calls (snd (throttle s1)) (map fst wait))
         /\ (forall before c after g, wait = before ++ c :: after -> snd (fst c) = Some g ->
               Forall (fun c => no_call (fst c)) after -> st w = set_valid_generator g).
Proof.
  intros width hr fuel value d sync s p o l w Ed Hf Hp E.
  destruct (gen_shape width hr fuel value d sync s p o l w Ed Hf Hp E) as (sy & gap & wait & T & A & B & L & Lg & St).
  exists sy, gap, wait. split; [exact T|]. split; [exact A|]. split; [exact B|]. split; [exact L|]. cbv zeta.
  split; [exact Lg|]. split.
  - intro N. rewrite St, throttle_consume. destruct (truthy _); [reflexivity|]. rewrite (after_none _ (map fst gap)); [reflexivity|].
    apply Forall_map. exact N.
  - intros before c after g Ew Ec N. rewrite St, Ew, map_app, after_app. cbn [map]. destruct c as [[rr q] oo]. cbn in Ec. subst q.
    cbn [fst after_calls]. apply after_none, Forall_map. exact N.
Qed.
Print Assumptions C118_send_partial.

Example C118_nonvacuous :
  let g := Some [(2, 3); (5, 1)]%Z in
  let s := Valid (OnInt 0) 2 (Some []) in
  let w := snd (gen_send 8 true 9 (BInt 5) true (World s PActive (st_init_out 8) []
                 [(L1, None); (L1, None); (L1, None); (L0, Some g); (L1, None)])) in
  map (fun c => o_valid (snd c)) (trace w) = [L0; L0; L0; L1; L1] /\ st w = set_valid_generator g
  /\ after_calls s [(L1, Some g); (L0, None)] = set_valid_generator g.
Proof. vm_compute. auto. Qed.

Example C118_one_pair_case :
  let s := Valid (OnInt 0) 2 (Some []) in
  let gap := [(L1, None); (L1, Some (Some [(2, 3)]%Z))] in
  v_on s = OnInt 0 /\ length gap = Z.to_nat (v_off s) /\ after_calls s gap = set_valid_generator (Some [(2, 3)]%Z)
  /\ fst (gen_send 8 true 9 (BInt 5) false (World s PActive (st_init_out 8) [] (gap ++ [(L0, None); (L1, None)]))) = Done tt.
Proof. vm_compute. auto. Qed.
