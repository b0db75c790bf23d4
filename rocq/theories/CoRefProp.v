(** CoRefProp.v -- C113: any number of tasks that wait for one write of an AvalonMaster. *)
From Verif Require Import Base Async CompatModel MMModel MMSpec MMProof CoModel CoAvModel AvSysSpec CoAvSpec CoProof CoAvProof MMProp CoAvProp CoRefProof.
Local Open Scope list_scope.

(** One task writes [x0]; any number of tasks call write while it is in progress, with [xs] and,
    the last, [xn].  All writes return; the slave sees the first and the last: all of [xs] are lost. *)
Theorem C113_all_lost_refuted c fuel x0 xs xn p o i0 i1 i2 i3 i4 l :
  a_write c = true -> a_wait c = false -> quiet c o ->
  Forall (fun x => fits (a_width c) (fst x) /\ fits (d_width c) (snd x)) (x0 :: xs ++ [xn]) ->
  exists m', ends (test_start c fuel ((0, [MMWrite (fst x0) (snd x0)]) :: map (fun x => (1, [MMWrite (fst x) (snd x)])) (xs ++ [xn])) p o
                     (i0 :: i1 :: i2 :: i3 :: i4 :: l)) m'
    /\ Forall (fun t => ended t = Done [None]) (m_tasks m') /\ length (m_tasks m') = length xs + 2
    /\ accepted_in c (m_trace m') = [AcWrite (Some (fst x0)) (Some (snd x0)); AcWrite (Some (fst xn)) (Some (snd xn))].
Proof.
  intros Wr Wa Q F. pose proof (all_together c fuel x0 xs xn p o i0 i1 i2 i3 i4 l Wr Wa F) as L. cbv zeta in L.
  pose proof (Forall_inv F) as [A0 V0]. apply Forall_inv_tail in F. apply Forall_app in F. destruct F as [_ F]. apply Forall_inv in F. destruct F as [An Vn].
  match type of L with leads _ (mk ?w _) => destruct (idle (A := list (option bits)) (i4 :: l) w
     (DEnd (Done [None]) :: map (fun _ => DEnd (Done [None])) (xs ++ [xn]))
     (TEnd (Done [None]) :: map (fun _ => TEnd (Done [None])) (xs ++ [xn])) eq_refl) as (m' & M1 & M2 & M3) end.
  { right. constructor; [exact I|]. apply Forall_map, Forall_forall. intros; exact I. }
  { constructor; [constructor|]. generalize (xs ++ [xn]). intro ys. induction ys; constructor; auto. constructor. }
  exists m'. split; [exact (L _ M1)|].
  assert (Le : length (m_tasks m') = length xs + 2).
  { pose proof (f_equal (@length _) M3) as H. cbn [map length] in H. rewrite !map_length, app_length in H. cbn [length] in H. rewrite H. lia. }
  split; [|split; [exact Le|]].
  - apply Forall_forall. intros t Ht. pose proof (in_map ended _ _ Ht) as H. rewrite M3 in H. cbn [map end_of] in H. destruct H as [H|H]; [auto|].
    rewrite map_map in H. apply in_map_iff in H. destruct H as (? & H & _). auto.
  - rewrite M2. cbn [trace out ins]. rewrite more by (apply released_quiet; exact Q).
    rewrite !accepted_app, !quiet_none by (try apply released_quiet; exact Q). cbn [app].
    rewrite (one_write c o (fst x0) (snd x0) i1), (one_write c _ (fst xn) (snd xn) i3) by (try apply released_quiet; assumption). reflexivity.
Qed.
Print Assumptions C113_all_lost_refuted.

Example excr_four : quiet co_cfg co_o /\
  Forall (fun x => fits (a_width co_cfg) (fst x) /\ fits (d_width co_cfg) (snd x)) ((1, 2) :: [(3, 4); (5, 6); (7, 8)] ++ [(9, 10)])%Z.
Proof. split; [constructor; cbn; congruence|]. repeat constructor; cbn; lia. Qed.
