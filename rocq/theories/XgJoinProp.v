(** XgJoinProp.v -- C150: an XGMII monitor that is created in the middle of the traffic. *)
From Verif Require Import Base CompatModel BitsLemmas XgModel XgSpec XgProof XgMonProof XgTopProof XgProp XgRxSpec XgRxProof XgRxProp XgLatSpec XgLatProof XgJoinSpec.
Local Open Scope list_scope.

Lemma filter_all {A} (f : A -> bool) l : Forall (fun x => f x = true) l -> filter f l = l.
Proof. induction 1 as [|x l E _ IH]; [reflexivity|]. cbn [filter]. now rewrite E, IH. Qed.
Lemma filter_filter {A} (f g : A -> bool) l : (forall x, f x = true -> g x = true) -> filter f (filter g l) = filter f l.
Proof.
  intro H. induction l as [|x l IH]; [reflexivity|]. cbn [filter]. destruct (g x) eqn:G; cbn [filter]; [now rewrite IH|].
  destruct (f x) eqn:E; [apply H in E; congruence|exact IH].
Qed.
Lemma starts_from n crc32 (Hn : 1 <= n) k pos x : starts_at (pos + k) (Nat.iter k (next crc32) x) = filter (fun y => pos + k <=? fst y) (starts_at pos x).
Proof.
  assert (From : forall pos x, Forall (fun y => pos <= fst y) (starts_at pos x)).
  { intros p0 [[[q|] fs] t]; cbn [starts_at]; [|apply (positions_from n crc32 Hn)].
    eapply Forall_impl; [|apply (positions_from n crc32 Hn)]. intros y H. cbv beta in H. lia. }
  induction k as [|k IH].
  - cbn [Nat.iter nat_rect]. rewrite Nat.add_0_r. symmetry. apply filter_all. eapply Forall_impl; [|apply From]. intros y H. now apply Nat.leb_le.
  - change (Nat.iter (S k) (next crc32) x) with (next crc32 (Nat.iter k (next crc32) x)). rewrite Nat.add_succ_r.
    rewrite <- (filter_filter _ (fun y => pos + k <=? fst y)), <- IH, (starts_next n crc32 Hn (pos + k) (Nat.iter k (next crc32) x)).
    2: { intros y H. apply Nat.leb_le in H. apply Nat.leb_le. lia. }
    rewrite filter_app, (filter_all _ (starts_at (S (pos + k)) _)).
    2: { eapply Forall_impl; [|apply From]. intros y H. now apply Nat.leb_le. }
    destruct (at_start _); [|reflexivity]. cbn [filter fst]. replace (S (pos + k) <=? pos + k) with false by (symmetry; apply Nat.leb_gt; lia). reflexivity.
Qed.

(** A monitor that is created after the words [before], wherever in a frame that is, delivers of the traffic exactly
    the frames that start afterwards and have ended so far, and logs nothing. *)
Theorem C150_window (n : nat) (interleaved : bool) (crc32 : bytes -> Z) before ws lss fs later tail :
  1 <= n -> Forall2 (carries interleaved) ws lss -> Forall (fun w => length w = n) (before ++ lss) ->
  concat (before ++ lss) ++ later = traffic crc32 fs tail -> rx_spaced fs -> no_runt fs ->
  observe n interleaved crc32 ws = (map Deliver (frames_between n (n * length before) (n * length (before ++ lss)) fs), None).
Proof.
  intros Hn C F E S R. apply Forall_app in F. destruct F as [Fb F]. set (k := n * length before). set (e := n * length (before ++ lss)).
  assert (Eq : picks n e k (Nat.iter k (next crc32) (None, fs, tail)) = frames_between n k e fs).
  { unfold picks, frames_between. rewrite (starts_from n crc32 Hn k 0). reflexivity. }
  assert (Fr : frames n lss (map (fun p => (body crc32 p, 253%Z)) (picks n e k (Nat.iter k (next crc32) (None, fs, tail))))).
  { apply (ended_traffic n crc32 Hn later e (length lss)); auto.
    - rewrite (lanes_iter n crc32 Hn). cbn [lanes_at]. rewrite <- E, concat_app, <- app_assoc, skipn_app.
      pose proof (concat_length n Hn before Fb) as Lb. fold k in Lb. rewrite <- Lb, skipn_all, Nat.sub_diag. reflexivity.
    - apply good_iter. cbn [good]. eapply Forall_impl; [|exact S]. unfold RX_GAP. intros f H. lia.
    - unfold k. rewrite Nat.mul_comm. apply Nat.mod_mul. lia.
    - unfold e, k. rewrite app_length. lia. }
  rewrite Eq in Fr. destruct (C65_partial n interleaved crc32 ws lss _ Hn C F Fr) as (evs & Re & O). rewrite O.
  rewrite (all_delivered crc32 (frames_between n k e fs) evs); [reflexivity| |exact Re].
  clear - R. unfold frames_between. apply Forall_map, Forall_forall. intros [s p] H. apply filter_In in H. destruct H as [H _]. apply filter_In in H. destruct H as [H _]. cbn [snd].
  assert (K : forall pos s, In (s, p) (positions pos fs) -> 60 <= length p); [|exact (K _ _ H)]. clear H s.
  induction R as [|[g q] r Q _ IH]; intros pos s H; [destruct H|]. cbn [positions] in H.
  destruct H as [H|H]; [injection H as <- <-; exact Q|]. exact (IH _ _ H).
Qed.
Print Assumptions C150_window.

(** created in the second frame of three: the third is delivered *)
Example exjoin : frames_between 8 (8 * 13) (8 * 40) [(8, ex_pay); (7, ex_pay); (11, repeat 2%Z 64)] = [repeat 2%Z 64].
Proof. reflexivity. Qed.
