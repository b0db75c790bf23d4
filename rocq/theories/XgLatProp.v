(** XgLatProp.v -- C149: when an XGMII monitor delivers a packet. *)
From Verif Require Import Base CompatModel BitsLemmas XgModel XgSpec XgProof XgMonProof XgTopProof XgProp XgRxSpec XgRxProof XgRxProp XgLatSpec XgLatProof.
Local Open Scope list_scope.

(** At every time ([later] is what is still to come) exactly the frames have been delivered whose terminate character
    has been sampled, of those that start in a lane the monitor looks at (C148). *)
Theorem C149_delivered (n : nat) (interleaved : bool) (crc32 : bytes -> Z) ws lss fs later tail :
  1 <= n -> Forall2 (carries interleaved) ws lss -> Forall (fun w => length w = n) lss -> concat lss ++ later = traffic crc32 fs tail ->
  rx_spaced fs -> no_runt fs ->
  observe n interleaved crc32 ws = (map Deliver (ended_frames n (n * length lss) fs), None).
Proof.
  intros Hn C F E S R.
  assert (Fr : frames n lss (map (fun p => (body crc32 p, 253%Z)) (picks n (n * length lss) 0 (None, fs, tail)))).
  { apply (ended_traffic n crc32 Hn later (n * length lss) (length lss)); auto.
    - cbn [good]. eapply Forall_impl; [|exact S]. unfold RX_GAP. intros f H. lia.
    - apply Nat.mod_0_l. lia. }
  destruct (C65_partial n interleaved crc32 ws lss _ Hn C F Fr) as (evs & Re & O). rewrite O.
  rewrite (all_delivered crc32 (picks n (n * length lss) 0 (None, fs, tail)) evs); [reflexivity| |exact Re].
  clear - R. unfold picks. cbn [starts_at]. apply Forall_map, Forall_forall. intros [s p] H. apply filter_In in H. destruct H as [H _]. cbn [snd].
  assert (K : forall pos s, In (s, p) (positions pos fs) -> 60 <= length p); [|exact (K _ _ H)]. clear H s.
  induction R as [|[g q] r Q _ IH]; intros pos s H; [destruct H|]. cbn [positions] in H.
  destruct H as [H|H]; [injection H as <- <-; exact Q|]. exact (IH _ _ H).
Qed.
Print Assumptions C149_delivered.

Lemma ended_step n k fs : 1 <= n -> ended_frames n (n * S k) fs = ended_frames n (n * k) fs ++ ended_in n k fs.
Proof.
  intro Hn. unfold ended_frames, ended_in. rewrite <- map_app. f_equal.
  match goal with |- filter ?f _ = filter ?g _ ++ filter ?h _ => assert (K : forall pos, filter f (positions pos fs) = filter g (positions pos fs) ++ filter h (positions pos fs)); [|apply K] end.
  induction fs as [|[g p] r IH]; intro pos; [reflexivity|].
  cbn [positions filter fst snd]. set (t := pos + g + (1 + 7 + length p + 4)).
  assert (Eb : forall u, ended_by u (pos + g, p) = (t <? u)) by reflexivity. rewrite !Eb. clear Eb.
  set (pos' := pos + g + (1 + 7 + length p + 4 + 1)). assert (Lt : t < pos') by (unfold t, pos'; lia).
  assert (Later : n * k <= t -> filter (fun x => heard n (fst x) && ended_by (n * k) x) (positions pos' r) = []).
  { intro L. assert (F := positions_from n (fun _ => 0%Z) Hn r pos'). clear IH. induction F as [|y l Y _ IHl]; [reflexivity|]. cbn [filter].
    replace (ended_by (n * k) y) with false; [rewrite andb_false_r; exact IHl|]. symmetry. unfold ended_by. apply Nat.ltb_ge. lia. }
  specialize (IH pos'). destruct (heard n (pos + g)); cbn [andb]; [|exact IH].
  destruct (Nat.ltb_spec t (n * S k)) as [A|A]; destruct (Nat.ltb_spec t (n * k)) as [B|B]; try lia.
  - replace (t / n =? k) with false; [cbn [app]; f_equal; exact IH|]. symmetry. apply Nat.eqb_neq. pose proof (Nat.div_lt_upper_bound t n k ltac:(lia) B). lia.
  - replace (t / n =? k) with true by (symmetry; apply Nat.eqb_eq; symmetry; apply (Nat.div_unique t n k (t - n * k)); lia).
    rewrite IH, (Later B). reflexivity.
  - replace (t / n =? k) with false; [exact IH|]. symmetry. apply Nat.eqb_neq. pose proof (Nat.div_le_lower_bound t n (S k) ltac:(lia) A). lia.
Qed.

(** Each clock edge: delivered are exactly the frames whose terminate character is in the word sampled then. *)
Theorem C149_at_edge (n : nat) (interleaved : bool) (crc32 : bytes -> Z) ws lss fs later tail w ls :
  1 <= n -> Forall2 (carries interleaved) (ws ++ [w]) (lss ++ [ls]) -> Forall (fun w => length w = n) (lss ++ [ls]) ->
  length ws = length lss -> concat (lss ++ [ls]) ++ later = traffic crc32 fs tail -> rx_spaced fs -> no_runt fs ->
  observe n interleaved crc32 (ws ++ [w]) = (fst (observe n interleaved crc32 ws) ++ map Deliver (ended_in n (length ws) fs), None).
Proof.
  intros Hn C F Le E S R. rewrite (C149_delivered n interleaved crc32 _ _ fs later tail Hn C F E S R).
  apply Forall2_app_inv_l in C. destruct C as (l1 & l2 & C1 & C2 & El).
  assert (X : l1 = lss /\ l2 = [ls]).
  { inversion C2 as [|? y ? l3 _ C3]; subst. inversion C3; subst. apply app_inj_tail in El. destruct El as [<- <-]. auto. }
  destruct X as [-> ->]. apply Forall_app in F. destruct F as [F _]. rewrite concat_app, <- app_assoc in E.
  rewrite (C149_delivered n interleaved crc32 ws lss fs _ tail Hn C1 F E S R). cbn [fst].
  rewrite app_length. cbn [length]. rewrite Nat.add_1_r, (ended_step n _ fs Hn), map_app, Le. reflexivity.
Qed.
Print Assumptions C149_at_edge.

(** on eight lanes: a frame of 64 bytes that starts in lane 4 of the second word ends in lane 0 of the twelfth *)
Example exlat : ended_in 8 11 [(12, ex_pay)] = [ex_pay] /\ ended_frames 8 (8 * 11) [(12, ex_pay)] = [] /\ rx_spaced [(12, ex_pay)] /\ no_runt [(12, ex_pay)].
Proof. unfold rx_spaced, no_runt. cbn. repeat split; repeat constructor. Qed.
