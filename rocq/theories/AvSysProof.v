(** AvSysProof.v -- an AvalonMaster on an AvalonMemory. *)
From Verif Require Import Base Async BitsLemmas CompatModel CompatSpec MMModel MMSpec MMProof AvMemModel AvMemSpec AvMemProof AvSysSpec.
Local Open Scope list_scope.
Notation MW := (World (TS := bool) (TI := mm_in) (TO := mm_out)).

(** ** what the master drives is always defined where the memory looks *)
Section Master.
Context (c : mm_cfg).
Definition sane (o : mm_out) : Prop :=
  (q_read o = L1 \/ q_write o = L1 -> resolvable (q_addr o) = true) /\
  (q_write o = L1 -> resolvable (q_wdata o) = true /\ length (q_wdata o) = d_width c /\
                     forall n, a_be c = Some n -> resolvable (q_be o) = true).
Lemma quiet_sane o : quiet c o -> sane o.
Proof. intros [R W _ _]. unfold sane. rewrite R, W. split; [intros [|]|]; discriminate. Qed.
Lemma resolvable_zbits n z : resolvable (zbits n z) = true.
Proof. apply bval_resolvable. eexists. apply bval_zbits. Qed.
Lemma write_sane o a v : sane (write_request c o a v).
Proof.
  split; intros _; cbn [write_request q_addr q_wdata q_be]; [apply resolvable_zbits|].
  split; [apply resolvable_zbits|]. split; [apply zbits_length|]. intros n ->. clear. unfold resolvable. induction n; [reflexivity|exact IHn].
Qed.
Lemma read_sane o a : q_write o = L0 -> sane (read_request c o a).
Proof.
  intro W. split; cbn [read_request q_addr q_wdata q_be q_write]; [intros _; apply resolvable_zbits|]. rewrite W. discriminate.
Qed.
Lemma held_sane o (l : list mm_in) : sane o -> Forall sane (map snd (held o l)).
Proof. intro H. induction l; constructor; assumption. Qed.

Definition run_sane (o : mm_out) (w : world bool mm_in mm_out) (tr : list (mm_in * mm_out)) (l : list mm_in) : Prop :=
  exists R, history w = tr ++ R /\ match R with [] => True | x :: _ => snd x = o end /\ map fst R = l /\ Forall sane (map snd R).
Ltac sane_tac := unfold history; cbn [trace out ins]; rewrite <- ?app_assoc; split; [cbn [held map]; rewrite ?app_nil_r; reflexivity|]; split; [reflexivity|].
Lemma all_sane fuel ops : 2 <= fuel -> Forall (op_fits c) ops -> forall o p tr l, quiet c o -> length l < fuel ->
  run_sane o (snd (mm_all c fuel ops (MW false p o tr l))) tr l.
Proof.
  intros Hf. induction 1 as [|op ops F _ IH]; intros o p tr l Q Hl.
  - exists (held o l). split; [reflexivity|]. split; [destruct l; reflexivity|]. rewrite held_fst. split; [reflexivity|]. apply held_sane, quiet_sane, Q.
  - pose proof (quiet_sane o Q) as So. destruct op as [a|a v]; cbn [op_fits] in F; cbn [mm_all].
    + destruct F as [Hr Ha]. pose proof (read_sane o a (qt_write _ _ Q)) as Sr. pose proof (quiet_sane _ (after_read_quiet c o Q)) as Sa.
      destruct l as [|i0 l].
      { exists []. unfold mm_read. rewrite Hr. cbn. rewrite app_nil_r. repeat split. constructor. }
      assert (Hp : true = false -> p <> PReadOnly) by discriminate.
      destruct (shape c l) as [S|(waits & ia & r & -> & S & [G|B])].
      * destruct (read_susp_req c fuel a true o p tr [i0] l Hf Hr Ha eq_refl Hp S) as [p' E]. cbn [app] in E. rewrite (bind_susp _ _ _ _ E). cbn [snd].
        exists (held o [i0] ++ held (read_request c o a) l). sane_tac. rewrite !map_app, !held_fst. split; [reflexivity|].
        apply Forall_app. split; apply held_sane; assumption.
      * assert (length r < fuel) by (cbn [length] in Hl; rewrite app_length in Hl; cbn [length] in Hl; lia).
        destruct (data_shape c r) as [[H1 H2]|(lat & iv & r' & -> & [D|B])].
        -- pose proof (read_susp_data c fuel a true o p tr [i0] waits ia r Hf H Hr Ha eq_refl Hp S G H1 H2) as E. cbn [app] in E. rewrite (bind_susp _ _ _ _ E). cbn [snd].
           exists (held o [i0] ++ held (read_request c o a) (waits ++ [ia]) ++ held (after_read c o) r). sane_tac.
           rewrite !map_app, !held_fst. split; [cbn [app]; rewrite <- !app_assoc; reflexivity|]. rewrite !Forall_app. repeat split; apply held_sane; assumption.
        -- rewrite app_length in H. cbn [length] in H.
           pose proof (read_done c fuel a true o p tr [i0] waits ia lat iv r' Hf ltac:(lia) Hr Ha eq_refl Hp S G D) as E. cbn [app] in E. rewrite (bind_done _ _ _ _ _ E).
           set (T := held o _ ++ _). 
           destruct (IH (after_read c o) PReadOnly (tr ++ T) (iv :: r') (after_read_quiet c o Q)) as (R & E1 & _ & E2 & E3).
           { cbn [length]. lia. }
           assert (Es : forall (w : world bool mm_in mm_out), snd ((ds <- mm_all c fuel ops;; ret (i_rdata iv :: ds)) w) = snd (mm_all c fuel ops w)).
           { intro w. unfold bind. destruct (mm_all c fuel ops w) as [[?| ? | | ] ?]; reflexivity. }
           rewrite Es. exists (T ++ R). rewrite app_assoc. split; [exact E1|]. split; [reflexivity|]. unfold T. rewrite !map_app, !held_fst, E2.
           split; [cbn [app]; rewrite <- !app_assoc; reflexivity|]. rewrite !Forall_app. repeat split; try (apply held_sane; assumption). exact E3.
        -- destruct (read_start c fuel a true o p tr [i0] (waits ++ ia :: lat ++ iv :: r') Hr Ha eq_refl Hp) as (p' & Hp' & E). cbn [app] in E.
           rewrite app_length in H. cbn [length] in H.
           assert (E2 : mm_read c fuel a true (MW false p o tr (i0 :: waits ++ ia :: lat ++ iv :: r')) =
              (Exn EValue, MW true PReadOnly (after_read c o) (tr ++ held o [i0] ++ held (read_request c o a) (waits ++ [ia]) ++ held (after_read c o) lat) (iv :: r'))).
           { rewrite E. erewrite bind_done by (apply request_done; [exact Hf|exact Hp'|exact S|exact G]).
             change (_ ;; _ ;; _ ;; _ ;; _) with (drive (q_set_read L0) ;; set_be_none c ;; mm_when (a_cs c) (drive (q_set_cs L0)) ;; drive (q_set_addr (xs (a_width c))) ;; data_phase c fuel).
             rewrite after_request, data_bad by (try assumption; lia). rewrite <- !app_assoc. reflexivity. }
           rewrite (bind_exn _ _ _ _ _ E2). cbn [snd].
           exists (held o [i0] ++ held (read_request c o a) (waits ++ [ia]) ++ held (after_read c o) (lat ++ iv :: r')).
           unfold history. cbn [trace out ins]. rewrite (held_app _ lat), <- !app_assoc. split; [reflexivity|]. split; [reflexivity|].
           rewrite !map_app, !held_fst. split; [cbn [app]; rewrite <- !app_assoc; reflexivity|]. rewrite !Forall_app. repeat split; apply held_sane; assumption.
      * destruct (read_start c fuel a true o p tr [i0] (waits ++ ia :: r) Hr Ha eq_refl Hp) as (p' & Hp' & E). cbn [app] in E.
        assert (E2 : mm_read c fuel a true (MW false p o tr (i0 :: waits ++ ia :: r)) =
              (Exn EValue, MW true PReadOnly (read_request c o a) (tr ++ held o [i0] ++ held (read_request c o a) waits) (ia :: r))).
        { rewrite E. erewrite bind_exn by (apply request_bad; [exact Hf|exact Hp'|exact S|exact B]). rewrite <- !app_assoc. reflexivity. }
        rewrite (bind_exn _ _ _ _ _ E2). cbn [snd].
        exists (held o [i0] ++ held (read_request c o a) (waits ++ ia :: r)).
        unfold history. cbn [trace out ins]. rewrite (held_app _ waits), <- !app_assoc. split; [reflexivity|]. split; [reflexivity|].
        rewrite !map_app, !held_fst. split; [reflexivity|]. rewrite !Forall_app. repeat split; apply held_sane; assumption.
    + destruct F as (Hw & Ha & Hv). pose proof (write_sane o a v) as Sr.
      destruct l as [|i0 l].
      { exists []. unfold mm_write. rewrite Hw. cbn. rewrite app_nil_r. repeat split. constructor. }
      destruct (shape c l) as [S|(waits & ia & r & -> & S & [G|B])].
      * destruct (write_susp c fuel a v o p tr i0 l Hf Hw Ha Hv S) as [p' E]. rewrite (bind_susp _ _ _ _ E). cbn [snd].
        exists ((i0, o) :: held (write_request c o a v) l). sane_tac. cbn [map fst snd]. rewrite held_fst. split; [reflexivity|].
        constructor; [exact So|apply held_sane; assumption].
      * pose proof (write_done c fuel a v o p tr i0 waits ia r Hf Hw Ha Hv S G) as E. rewrite (bind_done _ _ _ _ _ E).
        set (T := (i0, o) :: _).
        destruct (IH (after_write c o) PActive (tr ++ T) r (after_write_quiet c o Q)) as (R & E1 & _ & E2 & E3).
        { cbn [length] in Hl. rewrite app_length in Hl. cbn [length] in Hl. lia. }
        exists (T ++ R). rewrite app_assoc. split; [exact E1|]. split; [reflexivity|]. unfold T. rewrite map_app. cbn [map fst]. rewrite held_fst, E2.
        split; [cbn [app]; rewrite <- !app_assoc; reflexivity|]. rewrite map_app. apply Forall_app. split; [|exact E3].
        constructor; [exact So|apply held_sane; assumption].
      * pose proof (write_bad c fuel a v o p tr i0 waits ia r Hf Hw Ha Hv S B) as E. rewrite (bind_exn _ _ _ _ _ E). cbn [snd].
        exists ((i0, o) :: held (write_request c o a v) (waits ++ ia :: r)).
        unfold history. cbn [trace out ins]. rewrite (held_app _ waits), <- !app_assoc. split; [reflexivity|]. split; [reflexivity|].
        cbn [app map fst snd]. rewrite !map_app, !held_fst. split; [reflexivity|]. constructor; [exact So|]. apply Forall_app. split; apply held_sane; assumption.
Qed.
End Master.

(** ** the memory, cycle by cycle *)
Section Memory.
Context (mc : am_cfg).
Fixpoint adv (s : am_state) (o : am_out) (A : list am_in) : am_state * am_out :=
  match A with
  | [] => (s, o)
  | i :: r => adv (after_cycle mc (set_resp (tl (a_resp s)) s) i) (answer_out mc o (hd RNone (a_resp s))) r
  end.
Lemma cycles_cons s o i r : cycles mc s o (i :: r) =
  (answer_out mc o (hd RNone (a_resp s)) :: fst (cycles mc (after_cycle mc (set_resp (tl (a_resp s)) s) i) (answer_out mc o (hd RNone (a_resp s))) r),
   snd (cycles mc (after_cycle mc (set_resp (tl (a_resp s)) s) i) (answer_out mc o (hd RNone (a_resp s))) r)).
Proof. cbn [cycles]. destruct (cycles _ _ _ r); reflexivity. Qed.
Lemma cycles_app A : forall s o B, fst (cycles mc s o (A ++ B)) = fst (cycles mc s o A) ++ fst (cycles mc (fst (adv s o A)) (snd (adv s o A)) B) /\
  snd (cycles mc s o (A ++ B)) = snd (cycles mc (fst (adv s o A)) (snd (adv s o A)) B).
Proof.
  induction A as [|i A IH]; intros s o B.
  - cbn [app adv fst snd cycles]. split; reflexivity.
  - cbn [app adv]. rewrite !cycles_cons. cbn [fst snd]. destruct (IH (after_cycle mc (set_resp (tl (a_resp s)) s) i) (answer_out mc o (hd RNone (a_resp s))) B) as [E1 E2].
    rewrite E1, E2. split; reflexivity.
Qed.
Definition quiet_in (i : am_in) : Prop := reads mc i = false /\ writes mc i = false.
Lemma after_quiet s i : quiet_in i -> after_cycle mc s i = s.
Proof. intros [R W]. unfold after_cycle, after_read_req, mem_after. rewrite R, W. apply set_mem_same. Qed.
Lemma answer_wait o r : w_wait (answer_out mc o r) = w_wait o.
Proof. unfold answer_out. destruct r, (m_rdv mc); reflexivity. Qed.
Lemma adv_quiet A : Forall quiet_in A -> forall s o,
  a_mem (fst (adv s o A)) = a_mem s /\ a_resp (fst (adv s o A)) = skipn (length A) (a_resp s) /\ w_wait (snd (adv s o A)) = w_wait o.
Proof.
  induction 1 as [|i A Q _ IH]; intros s o; [repeat split|]. cbn [adv length]. rewrite after_quiet by exact Q.
  destruct (IH (set_resp (tl (a_resp s)) s) (answer_out mc o (hd RNone (a_resp s)))) as (E1 & E2 & E3). rewrite E1, E2, E3.
  split; [reflexivity|]. split; [|apply answer_wait]. cbn [set_resp a_resp]. destruct (a_resp s); [destruct (length A); reflexivity|reflexivity].
Qed.
Lemma cycles_wait B : forall s o, Forall (fun y => w_wait y = w_wait o) (fst (cycles mc s o B)).
Proof.
  induction B as [|i B IH]; intros s o; [constructor|]. rewrite cycles_cons. cbn [fst]. constructor; [apply answer_wait|].
  eapply Forall_impl; [|apply IH]. cbn beta. intros y E. rewrite E. apply answer_wait.
Qed.
Lemma after_resp s i : exists q, a_resp (after_cycle mc s i) = a_resp s ++ q.
Proof.
  unfold after_cycle, after_read_req. cbn zeta. cbn [set_mem a_resp]. destruct (reads mc i); cbn [a_resp].
  - unfold enqueue, pad. rewrite <- app_assoc. eexists. reflexivity.
  - exists []. rewrite app_nil_r. reflexivity.
Qed.
Lemma cycles_queue v r d : resp_word mc r = Some v -> forall s o B q, a_resp s = repeat RNone d ++ r :: q ->
  Forall (fun y => m_rdv mc = true -> w_valid y = L0) (firstn d (fst (cycles mc s o B))) /\
  forall y, nth_error (fst (cycles mc s o B)) d = Some y -> (m_rdv mc = true -> w_valid y = L1) /\ w_data y = v.
Proof.
  intro Hr. induction d as [|d IH]; intros s o B q Hq.
  - rewrite firstn_O. split; [constructor|]. destruct B as [|i B]; [discriminate|]. rewrite cycles_cons. cbn [fst nth_error]. intros y [= <-].
    rewrite Hq. cbn [repeat app hd]. destruct r; cbn [resp_word] in Hr; [discriminate| |]; inversion Hr; unfold answer_out; destruct (m_rdv mc); cbn; split; auto; discriminate.
  - destruct B as [|i B]; [cbn; split; [constructor|discriminate]|]. rewrite cycles_cons. cbn [fst nth_error]. rewrite firstn_cons.
    destruct (after_resp (set_resp (tl (a_resp s)) s) i) as [q' Hq']. cbn [set_resp a_resp] in Hq'. rewrite Hq in Hq'. cbn [repeat app tl] in Hq'. rewrite <- app_assoc in Hq'. cbn [app] in Hq'.
    rewrite Hq. cbn [repeat app hd tl].
    destruct (IH _ (answer_out mc o RNone) B _ Hq') as [I1 I2]. split; [|exact I2]. constructor; [|exact I1].
    intro V. unfold answer_out. rewrite V. reflexivity.
Qed.
Lemma mem_quiet B m : Forall quiet_in B -> fold_left (mem_after mc) B m = m.
Proof.
  intro Q. revert m. induction Q as [|i B [_ W] _ IH]; intro m; [reflexivity|]. cbn [fold_left]. rewrite <- (IH m) at 2. f_equal. unfold mem_after. rewrite W. reflexivity.
Qed.
End Memory.
