(** CoRdProp.v -- C113: any number of tasks that wait for one read of an AvalonMaster. *)
From Verif Require Import Base Async CompatModel MMModel MMSpec MMProof CoModel CoAvModel AvSysSpec CoAvSpec CoProof CoAvProof MMProp CoAvProp CoRefProof CoRdProof.
Local Open Scope list_scope.

Lemma after_read_quiet c o : quiet c o -> quiet c (after_read c o).
Proof.
  intros [R W B C]. constructor; cbn; auto.
  - intros n E. now rewrite E.
  - intro E. now rewrite E.
Qed.
Lemma one_read c o a i : a_wait c = false -> quiet c o -> fits (a_width c) a -> accepted_in c [(i, read_request c o a)] = [AcRead (Some a)].
Proof. intros W [_ Q _ _] A. apply (accepted_read c o a [] i A); [congruence|constructor|intro X; congruence]. Qed.

(** One task reads [x0]; any number of tasks call read while it is in progress, at the addresses
    [xs] and, the last, [xn].  The slave sees the first and the last read only; all the tasks that
    waited return the data of the last one, whatever address they asked for. *)
Theorem C113_reads_refuted c fuel x0 xs xn p o i0 i1 i2 i3 i4 l :
  a_read c = true -> a_wait c = false -> a_rdv c = false -> quiet c o -> Forall (fits (a_width c)) (x0 :: xs ++ [xn]) ->
  exists m', ends (test_start c fuel ((0, [MMRead x0]) :: map (fun x => (1, [MMRead x])) (xs ++ [xn])) p o (i0 :: i1 :: i2 :: i3 :: i4 :: l)) m'
    /\ map ended (m_tasks m') = Done [Some (i_rdata i2)] :: repeat (Done [Some (i_rdata i4)]) (length xs + 1)
    /\ accepted_in c (m_trace m') = [AcRead (Some x0); AcRead (Some xn)].
Proof.
  intros Wr Wa Rv Q F. pose proof (reads_together c fuel x0 xs xn p o i0 i1 i2 i3 i4 l Wr Wa Rv F) as L. cbv zeta in L.
  pose proof (Forall_inv F) as A0. apply Forall_inv_tail in F. apply Forall_app in F. destruct F as [_ F]. apply Forall_inv in F.
  match type of L with leads _ (mk ?w _) => destruct (idle (A := list (option bits)) (i4 :: l) w
     (DEnd (got i2) :: map (fun _ => DEnd (got i4)) (xs ++ [xn]))
     (TEnd (got i2) :: map (fun _ => TEnd (got i4)) (xs ++ [xn])) eq_refl) as (m' & M1 & M2 & M3) end.
  { right. constructor; [exact I|]. apply Forall_map, Forall_forall. intros; exact I. }
  { constructor; [constructor|]. generalize (xs ++ [xn]). intro ys. induction ys; constructor; auto. constructor. }
  exists m'. split; [exact (L _ M1)|]. split.
  - rewrite M3. cbn [map end_of]. rewrite map_map. cbn [end_of]. unfold got. f_equal.
    replace (length xs + 1) with (length (xs ++ [xn])) by (rewrite app_length; reflexivity).
    generalize (xs ++ [xn]). intro ys. induction ys as [|y ys IH]; [reflexivity|]. cbn [map length repeat]. now rewrite IH.
  - rewrite M2. cbn [trace out ins]. rewrite more by (apply after_read_quiet; exact Q).
    rewrite !accepted_app, !quiet_none by (try apply after_read_quiet; exact Q). cbn [app].
    rewrite (one_read c o x0 i1), (one_read c _ xn i3) by (try apply after_read_quiet; assumption). reflexivity.
Qed.
Print Assumptions C113_reads_refuted.

Example excd_four : a_read co_cfg = true /\ a_wait co_cfg = false /\ a_rdv co_cfg = false /\ quiet co_cfg co_o /\
  Forall (fits (a_width co_cfg)) (1 :: [3; 5; 7] ++ [9])%Z.
Proof. repeat (split; [reflexivity|]). split; [constructor; cbn; congruence|]. repeat constructor; cbn; lia. Qed.
