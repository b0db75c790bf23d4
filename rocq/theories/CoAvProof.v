(** CoAvProof.v -- tasks that call one AvalonMaster. *)
From Verif Require Import Base Async CompatModel DrvUtilModel PktModel MMModel MMSpec MMProof CoModel CoAvModel AvSysSpec CoAvSpec CoProof CoEqProof.
Local Open Scope list_scope.

Lemma alone_teq {TS TI TO A} (t u : co TS TI TO A) : teq t u -> forall w, alone t w = alone u w.
Proof.
  induction 1; intro w; cbn [alone]; try reflexivity; try (apply co_bind_ext; intros; auto).
  - apply co_bind_ext; intros; auto.
  - destruct (snd a); auto.
  - apply co_bind_ext; intros; auto.
  - apply co_bind_ext; intros; auto.
Qed.

(** ** Between taking the lock and releasing it *)
Section Lifts.
Context {TI TO : Type}.
Definition with_st {S S' : Type} (s : S') (w : world S TI TO) : world S' TI TO := World s (ph w) (out w) (trace w) (ins w).
Definition lifts {A} (m : M (bool * bool) TI TO A) (n : M bool TI TO A) : Prop := forall p o tr l,
  let '(r, w) := n (World true p o tr l) in
  st w = true /\ m (World (true, false) p o tr l) = (r, with_st (true, false) w).

Lemma lifts_ext {A} (m m' : M (bool * bool) TI TO A) n : (forall w, m w = m' w) -> lifts m' n -> lifts m n.
Proof. intros E H p o tr l. rewrite E. apply H. Qed.
Lemma lifts_ret {A} (a : A) : lifts (ret a) (ret a).
Proof. intros p o tr l. now split. Qed.
Lemma lifts_raise {A} e : lifts (A := A) (raise e) (raise e).
Proof. intros p o tr l. now split. Qed.
Lemma lifts_fuel {A} : lifts (A := A) (fun w => (Fuel, w)) (fun w => (Fuel, w)).
Proof. intros p o tr l. now split. Qed.
Lemma lifts_bind {A B} m n (f : A -> M (bool * bool) TI TO B) g :
  lifts m n -> (forall a, lifts (f a) (g a)) -> lifts (bind m f) (bind n g).
Proof.
  intros H F p o tr l. specialize (H p o tr l). unfold bind. destruct (n _) as [r w]. destruct H as (S & ->).
  destruct w as [s p' o' tr' l']. cbn in S. subst s. destruct r as [a|e| |]; [exact (F a p' o' tr' l')|now split..].
Qed.
Lemma lifts_drive f : lifts (drive f) (drive f).
Proof. intros p o tr l. unfold drive. cbn. destruct p; now split. Qed.
Lemma lifts_input : lifts input input.
Proof. intros p o tr l. unfold input. cbn. destruct l; now split. Qed.
Lemma lifts_edge : lifts edge edge.
Proof. intros p o tr l. unfold edge. cbn. destruct l; now split. Qed.
Lemma lifts_readonly : lifts readonly readonly.
Proof. intros p o tr l. unfold readonly. cbn. destruct p, l; now split. Qed.
Lemma lifts_mid : lifts midstep midstep.
Proof. intros p o tr l. unfold midstep. cbn. destruct l; now split. Qed.
Lemma lifts_edge_of key : lifts (edge_of logic_eqb key) (edge_of logic_eqb key).
Proof.
  intros p o tr l. unfold edge_of. cbn. destruct l as [|i l]; [now split|]. destruct (edge_of_rest _ _ _ _ _ _) as [[? ?]|]; now split.
Qed.
Lemma lifts_loop {L A} fuel (b : L -> M (bool * bool) TI TO (L + A)) b' :
  (forall l, lifts (b l) (b' l)) -> forall l, lifts (loop fuel b l) (loop fuel b' l).
Proof.
  intro H. induction fuel as [|n IH]; intro l; [exact lifts_fuel|]. cbn [loop]. apply lifts_bind; [apply H|].
  intros [l'|a]; [apply IH|apply lifts_ret].
Qed.
Definition tlifts {A} (t : co bool TI TO A) n : Prop := lifts (alone t) n.
Lemma tlifts_bind {A B} (t : co bool TI TO A) n (f : A -> co bool TI TO B) g :
  tlifts t n -> (forall a, tlifts (f a) (g a)) -> tlifts (cbind t f) (bind n g).
Proof. intros H F. eapply lifts_ext; [intro w; apply alone_bind|]. now apply lifts_bind. Qed.
Lemma bind_ret_r {S A} (m : M S TI TO A) w : bind m ret w = m w.
Proof. unfold bind, ret. now destruct (m w) as [[a|e| |] w']. Qed.
Lemma tlifts_input : tlifts cinput input.
Proof. eapply lifts_ext; [intro w; apply bind_ret_r|apply lifts_input]. Qed.
Lemma unit_ret {S} (m : M S TI TO unit) w : bind m (fun _ => ret tt) w = m w.
Proof. unfold bind, ret. now destruct (m w) as [[[]|e| |] w']. Qed.
Lemma tlifts_drive f : tlifts (cdrive f) (drive f).
Proof. eapply lifts_ext; [intro w; apply unit_ret|apply lifts_drive]. Qed.
Lemma tlifts_edge : tlifts cedge edge.
Proof. eapply lifts_ext; [intro w; apply unit_ret|apply lifts_edge]. Qed.
Lemma tlifts_readonly : tlifts creadonly readonly.
Proof. eapply lifts_ext; [intro w; apply unit_ret|apply lifts_readonly]. Qed.
Lemma tlifts_mid : tlifts cmid midstep.
Proof. eapply lifts_ext; [intro w; apply unit_ret|apply lifts_mid]. Qed.
Lemma tlifts_loop {L A} fuel (b : L -> co bool TI TO (L + A)) b' : (forall l, tlifts (b l) (b' l)) ->
  forall l, tlifts (cloop fuel b l) (loop fuel b' l).
Proof. intros H l. eapply lifts_ext; [intro w; apply alone_loop|]. now apply lifts_loop. Qed.
Lemma tlifts_of_res {A} (r : res A) : tlifts (cof_res r) (of_res r).
Proof. destruct r; [apply lifts_ret|apply lifts_raise]. Qed.
Lemma tlifts_nsignal key fuel : tlifts (cwait_for_nsignal key fuel) (wait_for_nsignal key fuel).
Proof.
  apply tlifts_bind; [apply tlifts_readonly|]. intros ?. apply tlifts_bind; [|intros _; apply tlifts_mid]. apply tlifts_loop. intros ?.
  apply tlifts_bind; [apply tlifts_input|]. intro i. destruct (key i); try apply lifts_raise; [apply lifts_ret|].
  unfold tlifts. cbn [alone]. apply lifts_bind; [apply lifts_edge_of|]. intros ?. apply tlifts_bind; [apply tlifts_readonly|]. intros ?. apply lifts_ret.
Qed.
End Lifts.

Section Master.
Context (c : mm_cfg) (fuel : nat).
Notation co := (co bool mm_in mm_out).

Lemma tlifts_when b t (m : M bool mm_in mm_out unit) : tlifts t m -> tlifts (cwhen b t) (mm_when b m).
Proof. intro H. destruct b; [exact H|apply lifts_ret]. Qed.
Lemma tlifts_be_all : tlifts (cset_be_all c) (set_be_all c).
Proof. unfold cset_be_all, set_be_all. destruct (a_be c); [apply tlifts_drive|apply lifts_ret]. Qed.
Lemma tlifts_be_none : tlifts (cset_be_none c) (set_be_none c).
Proof. unfold cset_be_none, set_be_none. destruct (a_be c); [apply tlifts_drive|apply lifts_ret]. Qed.
Lemma tlifts_rdv u : tlifts (crdv_body u) (rdv_body u).
Proof.
  apply tlifts_bind; [apply tlifts_readonly|]. intros _. apply tlifts_bind; [apply tlifts_input|]. intro i.
  destruct (i_rdv i); try apply lifts_raise; [|apply lifts_ret]. apply tlifts_bind; [apply tlifts_edge|]. intros _. apply lifts_ret.
Qed.

(** a call from the moment it has the lock *)
Definition locked {A} (k : option bits -> co A) (x : mm_op) : co A :=
  match x with
  | MMRead a => cbind (cread_body c fuel a true) (fun d => CPut false (CSet (k (Some d))))
  | MMWrite a v => cbind (cwrite_body c fuel a v) (fun _ => CPut false (CSet (k None)))
  end.

Definition ends_as {A} (k : option bits -> co A) (m : M (bool * bool) mm_in mm_out A) (n : M bool mm_in mm_out (option bits)) : Prop :=
  forall p o tr l,
  match n (World true p o tr l) with
  | (Done d, w) => st w = false /\ m (World (true, false) p o tr l) = alone (k d) (with_st (false, true) w)
  | (Exn e, w) => st w = true /\ m (World (true, false) p o tr l) = (Exn e, with_st (true, false) w)
  | (Susp, w) => st w = true /\ m (World (true, false) p o tr l) = (Susp, with_st (true, false) w)
  | (Fuel, w) => st w = true /\ m (World (true, false) p o tr l) = (Fuel, with_st (true, false) w)
  end.
Lemma ends_as_ext {A} k (m m' : M (bool * bool) mm_in mm_out A) n n' :
  (forall w, m w = m' w) -> (forall w, n w = n' w) -> ends_as k m' n' -> ends_as k m n.
Proof. intros E E' H p o tr l. rewrite E, E'. apply H. Qed.
Lemma ends_as_mbind {A B} k (m : M (bool * bool) mm_in mm_out B) n (f : B -> M (bool * bool) mm_in mm_out A) h :
  lifts m n -> (forall b, ends_as k (f b) (h b)) -> ends_as k (bind m f) (bind n h).
Proof.
  intros H F p o tr l. specialize (H p o tr l). unfold bind. destruct (n _) as [r w]. destruct H as (S & ->).
  destruct w as [s p' o' tr' l']. cbn in S. subst s. destruct r as [a|e| |]; [exact (F a p' o' tr' l')|now split..].
Qed.
Lemma ends_as_bind {A B C D} k (t : co B) m (f : B -> co C) (g : C -> co A) (h : B -> M bool mm_in mm_out D) q :
  tlifts t m -> (forall b, ends_as k (alone (cbind (f b) g)) (bind (h b) q)) -> ends_as k (alone (cbind (cbind t f) g)) (bind (bind m h) q).
Proof.
  intros H F. refine (ends_as_ext k _ (bind (alone t) (fun b => alone (cbind (f b) g))) _ (bind m (fun b => bind (h b) q)) _ _ (ends_as_mbind k _ _ _ _ H F)).
  - intro w. rewrite (alone_teq _ _ (teq_assoc t f g)). apply alone_bind.
  - intro w. apply co_bind_assoc.
Qed.
Lemma ends_as_last {A B D} k (t : co B) m (g : B -> co A) (h : B -> M bool mm_in mm_out D) q :
  tlifts t m -> (forall b, ends_as k (alone (g b)) (bind (h b) q)) -> ends_as k (alone (cbind t g)) (bind (bind m h) q).
Proof.
  intros H F. refine (ends_as_ext k _ (bind (alone t) (fun b => alone (g b))) _ (bind m (fun b => bind (h b) q)) _ _ (ends_as_mbind k _ _ _ _ H F)).
  - intro w. apply alone_bind.
  - intro w. apply co_bind_assoc.
Qed.

Definition read_rest (address : Z) : M bool mm_in mm_out bits :=
  mm_when true edge ;;                                                     
  a <- of_res (assign_int (a_width c) address) ;;
  drive (q_set_addr a) ;;                                               
  drive (q_set_read L1) ;;                                              
  set_be_all c ;;                                                         
  mm_when (a_cs c) (drive (q_set_cs L1)) ;;                                
  mm_when (a_wait c) (wait_for_nsignal i_wait fuel) ;;                     
  edge ;;                                                               
  drive (q_set_read L0) ;;                                              
  set_be_none c ;;                                                        
  mm_when (a_cs c) (drive (q_set_cs L0)) ;;                                
  drive (q_set_addr (xs (a_width c))) ;;                                
  (if a_rdv c then loop fuel rdv_body tt else readonly) ;;              
  i <- input ;;                                                         
  release_lock ;;                                                       
  ret (i_rdata i).
Definition write_rest (address value : Z) : M bool mm_in mm_out unit :=
  edge ;;                                                               
  a <- of_res (assign_int (a_width c) address) ;;
  drive (q_set_addr a) ;;                                               
  v <- of_res (assign_int (d_width c) value) ;;
  drive (q_set_wdata v) ;;                                              
  drive (q_set_write L1) ;;                                             
  set_be_all c ;;                                                         
  mm_when (a_cs c) (drive (q_set_cs L1)) ;;                                
  mm_when (a_wait c) (wait_for_nsignal i_wait fuel) ;;                     
  edge ;;                                                               
  drive (q_set_write L0) ;;                                             
  set_be_none c ;;                                                        
  mm_when (a_cs c) (drive (q_set_cs L0)) ;;                                
  drive (q_set_addr (xs (a_width c))) ;;                                
  drive (q_set_wdata (xs (d_width c))) ;;                               
  release_lock.
Hint Resolve tlifts_edge tlifts_drive tlifts_input tlifts_readonly tlifts_be_all tlifts_be_none tlifts_of_res tlifts_when
  tlifts_nsignal tlifts_loop tlifts_rdv : tlifts.

Lemma tlifts_latency : tlifts (if a_rdv c then cloop fuel crdv_body tt else creadonly) (if a_rdv c then loop fuel rdv_body tt else readonly).
Proof. destruct (a_rdv c); auto with tlifts. Qed.
Hint Resolve tlifts_latency : tlifts.

Lemma read_locked {A} (k : option bits -> co A) a :
  ends_as k (alone (locked k (MMRead a))) (bind (read_rest a) (fun d => ret (Some d))).
Proof.
  cbn [locked]. unfold cread_body, read_rest.
  repeat (apply ends_as_bind; [auto with tlifts|]; intros ?).
  intros p o tr l. cbn. now split.
Qed.
Lemma write_locked {A} (k : option bits -> co A) a v :
  ends_as k (alone (locked k (MMWrite a v))) (bind (write_rest a v) (fun _ => ret None)).
Proof.
  cbn [locked]. unfold cwrite_body, write_rest.
  repeat (apply ends_as_bind; [auto with tlifts|]; intros ?).
  apply ends_as_last; [auto with tlifts|]. intros ? p o tr l. cbn. now split.
Qed.

Lemma locked_run {A} (k : option bits -> co A) x p o tr l : supported c x ->
  match mm_call c fuel x (World false p o tr l) with
  | (Done d, w) => st w = false /\ alone (locked k x) (World (true, false) p o tr l) = alone (k d) (with_st (false, true) w)
  | (Exn e, w) => st w = true /\ alone (locked k x) (World (true, false) p o tr l) = (Exn e, with_st (true, false) w)
  | (Susp, w) => st w = true /\ alone (locked k x) (World (true, false) p o tr l) = (Susp, with_st (true, false) w)
  | (Fuel, w) => st w = true /\ alone (locked k x) (World (true, false) p o tr l) = (Fuel, with_st (true, false) w)
  end.
Proof.
  destruct x as [a|a v]; cbn [supported mm_call locked]; intro S.
  - assert (E : bind (mm_read c fuel a true) (fun d => ret (Some d)) (World false p o tr l) = bind (read_rest a) (fun d => ret (Some d)) (World true p o tr l)).
    { unfold mm_read. rewrite S. reflexivity. }
    rewrite E. exact (read_locked k a p o tr l).
  - assert (E : bind (mm_write c fuel a v) (fun _ => ret None) (World false p o tr l) = bind (write_rest a v) (fun _ => ret (@None bits)) (World true p o tr l)).
    { unfold mm_write. rewrite S. reflexivity. }
    rewrite E. exact (write_locked k a v p o tr l).
Qed.

(** ** The calls of a task *)
Lemma neutral_bind {TI TO A B} (t : CoModel.co bool TI TO A) (f : A -> CoModel.co bool TI TO B) : neutral t -> (forall a, neutral (f a)) -> neutral (cbind t f).
Proof. intros H F. induction t; cbn [cbind neutral] in *; auto; contradiction. Qed.
Lemma neutral_loop {TI TO L A} n (b : L -> CoModel.co bool TI TO (L + A)) : (forall l, neutral (b l)) -> forall l, neutral (cloop n b l).
Proof.
  intro H. induction n as [|n IH]; intro l; [exact I|]. cbn [cloop]. apply neutral_bind; [apply H|]. intros [l'|a]; [apply IH|exact I].
Qed.
Lemma neutral_when b (t : co unit) : neutral t -> neutral (cwhen b t).
Proof. intro H. destruct b; [exact H|exact I]. Qed.
Lemma neutral_res {A} (r : res A) : neutral (cof_res (TS := bool) (TI := mm_in) (TO := mm_out) r).
Proof. destruct r; exact I. Qed.
Lemma neutral_nsignal (key : mm_in -> logic) : neutral (cwait_for_nsignal (TO := mm_out) key fuel).
Proof.
  apply neutral_bind; [exact I|]. intros _. apply neutral_bind; [|intros _; exact I]. apply neutral_loop. intro u. intro i. cbn. destruct (key i); cbn; auto.
Qed.
Lemma neutral_rdv : neutral (if a_rdv c then cloop fuel crdv_body tt else creadonly).
Proof. destruct (a_rdv c); [|exact I]. apply neutral_loop. intros u i. cbn. destruct (i_rdv i); exact I. Qed.
Lemma neutral_all : neutral (cset_be_all c). Proof. unfold cset_be_all. destruct (a_be c); exact I. Qed.
Lemma neutral_none : neutral (cset_be_none c). Proof. unfold cset_be_none. destruct (a_be c); exact I. Qed.
Lemma neutral_drive f : neutral (cdrive (TS := bool) (TI := mm_in) (TO := mm_out) f). Proof. exact I. Qed.
Lemma neutral_edge : neutral (cedge (TS := bool) (TI := mm_in) (TO := mm_out)). Proof. exact I. Qed.
Lemma neutral_input : neutral (cinput (TS := bool) (TI := mm_in) (TO := mm_out)). Proof. intro i. exact I. Qed.
Hint Resolve neutral_when neutral_res neutral_nsignal neutral_rdv neutral_all neutral_none neutral_drive neutral_edge neutral_input : neutral.
Lemma neutral_read a s : neutral (cread_body c fuel a s).
Proof. unfold cread_body. repeat (apply neutral_bind; [auto with neutral|]; intros ?). exact I. Qed.
Lemma neutral_write a v : neutral (cwrite_body c fuel a v).
Proof. unfold cwrite_body. repeat (apply neutral_bind; [auto with neutral|]; intros ?). exact I. Qed.
Lemma locked_call {A} (fin : option bits -> A) x : is_call (locked (fun d => CRet (fin d)) x).
Proof.
  destruct x as [a|a v].
  - exists bits, (cread_body c fuel a true), (fun d => fin (Some d)). split; [apply neutral_read|reflexivity].
  - exists unit, (cwrite_body c fuel a v), (fun _ => fin None). split; [apply neutral_write|reflexivity].
Qed.

Lemma ccall_teq {A} x (k : option bits -> co A) : supported c x -> teq (cbind (ccall c fuel x) k) (acq (locked k x)).
Proof.
  unfold acq. destruct x as [a|a v]; cbn [supported ccall locked]; intro S.
  - unfold cread. rewrite S. eapply teq_trans; [apply teq_assoc|]. eapply teq_trans; [apply teq_assoc|]. apply teq_bind. intros _.
    eapply teq_trans; [apply teq_assoc|]. apply teq_bind. intro d. cbn. apply teq_refl.
  - unfold cwrite. rewrite S. eapply teq_trans; [apply teq_assoc|]. eapply teq_trans; [apply teq_assoc|]. apply teq_bind. intros _.
    eapply teq_trans; [apply teq_assoc|]. apply teq_bind. intro d. cbn. apply teq_refl.
Qed.
Lemma ccalls_teq x r : supported c x ->
  teq (ccalls c fuel (x :: r)) (acq (locked (fun d => ds <-- ccalls c fuel r ;;; CRet (d :: ds)) x)).
Proof. exact (ccall_teq x _). Qed.

(** ** One task *)
Lemma task_run ops : forall ev p o tr l,
  let '(r, w) := mm_all c fuel ops (World false p o tr l) in
  exists s, alone (ccalls c fuel ops) (World (false, ev) p o tr l) = (omap (replies ops) r, with_st s w).
Proof.
  induction ops as [|x r IH]; intros ev p o tr l; [now exists (false, ev)|].
  assert (D : supported c x \/ ~ supported c x) by (destruct x; cbn; [destruct (a_read c)|destruct (a_write c)]; auto).
  destruct D as [S|N].
  - rewrite (alone_teq _ _ (ccalls_teq x r S)).
    pose proof (locked_run (fun d => ds <-- ccalls c fuel r ;;; CRet (d :: ds)) x p o tr l S) as H.
    set (k := fun d => ds <-- ccalls c fuel r ;;; CRet (d :: ds)) in *.
    replace (alone (acq (locked k x)) (World (false, ev) p o tr l)) with (alone (locked k x) (World (true, false) p o tr l)) by reflexivity.
    destruct x as [a|a v]; cbn [mm_call mm_all] in *; unfold bind at 1; unfold bind at 1 in H.
    + destruct (mm_read c fuel a true (World false p o tr l)) as [[d|e| |] w]; cbn [ret] in H.
      * destruct H as (S' & ->). unfold k. rewrite alone_bind. destruct w as [s p' o' tr' l']. cbn in S'. subst s.
        specialize (IH true p' o' tr' l'). unfold bind at 1. unfold bind at 1. unfold with_st at 1. cbn [ph out trace ins].
        destruct (mm_all c fuel r _) as [[ds|e| |] w']; destruct IH as (s & ->); now exists s.
      * destruct H as (_ & ->). now exists (true, false).
      * destruct H as (_ & ->). now exists (true, false).
      * destruct H as (_ & ->). now exists (true, false).
    + destruct (mm_write c fuel a v (World false p o tr l)) as [[d|e| |] w]; cbn [ret] in H.
      * destruct H as (S' & ->). unfold k. rewrite alone_bind. destruct w as [s p' o' tr' l']. cbn in S'. subst s.
        specialize (IH true p' o' tr' l'). unfold bind at 1. unfold with_st at 1. cbn [ph out trace ins].
        destruct (mm_all c fuel r _) as [[ds|e| |] w']; destruct IH as (s & ->); now exists s.
      * destruct H as (_ & ->). now exists (true, false).
      * destruct H as (_ & ->). now exists (true, false).
      * destruct H as (_ & ->). now exists (true, false).
  - destruct x as [a|a v]; cbn [supported ccalls ccall mm_all] in *.
    + unfold cread, mm_read. apply Bool.not_true_is_false in N. rewrite N. now exists (false, ev).
    + unfold cwrite, mm_write. apply Bool.not_true_is_false in N. rewrite N. now exists (false, ev).
Qed.

Lemma after_edges {A} n (t : co A) : forall w, alone (after n t) w = (edges n ;; alone t) w.
Proof.
  induction n as [|n IH]; intro w; cbn [after alone edges]; [reflexivity|]. rewrite co_bind_assoc. apply co_bind_ext. intros _ w'. apply IH.
Qed.
Lemma edges_st {S S'} n (s : S') : forall (w : world S mm_in mm_out),
  edges n (with_st s w) = (fst (edges n w), with_st s (snd (edges n w))) /\ st (snd (edges n w)) = st w.
Proof.
  intro w. rewrite !edges_spec. cbn [with_st st ph out trace ins].
  destruct (n <=? length (ins w)); cbn; split; try reflexivity; now destruct n.
Qed.

Theorem one_task n ops p o l :
  let '(r, w) := (edges n ;; mm_all c fuel ops) (World false p o [] l) in
  exists m', ends (test_start c fuel [(n, ops)] p o l) m' /\ m_trace m' = history w /\
    map ended (m_tasks m') = [omap (replies ops) r].
Proof.
  set (w0 := World (false, false) p o [] l).
  pose proof (lead (after n (ccalls c fuel ops)) CRet w0 [] [] [] [] (or_intror (conj (Forall_nil _) (Forall_nil _))) (Forall2_nil _) (Forall2_nil _)) as L.
  rewrite after_edges in L. unfold bind in L |- *.
  destruct (edges_st n (false, false) (World false p o [] l)) as (E1 & E2). change (with_st (false, false) (World false p o [] l)) with w0 in E1.
  rewrite E1 in L. destruct (edges n (World false p o [] l)) as [[[]|e| |] w] eqn:En; cbn [fst snd] in *.
  - destruct w as [s p' o' tr' l']. cbn in E2. subst s. pose proof (task_run ops false p' o' tr' l') as T.
    unfold with_st in L at 1. cbn [ph out trace ins] in L. destruct (mm_all c fuel ops _) as [r w']. destruct T as (s & T). rewrite T in L. clear T.
    unfold test_start. cbn [map fst snd].
    eapply ends_tasks; [constructor; [apply xeq_sym_ready, teq_sym, teq_bind_ret|constructor]|].
    destruct r as [ds|e| |]; cbn [led omap] in L.
    + destruct L as (_ & pre & post & P1 & P2 & L). inversion P1; inversion P2; subst. cbn [app] in L.
      assert (L2 : leads (mk (with_st s w') [TReady (CRet (replies ops ds))]) (mk (with_st s w') [TEnd (Done (replies ops ds))])).
      { exact (start_wait (with_st s w') [] (CRet (replies ops ds)) (TEnd (Done (replies ops ds))) [] (Forall_nil _) eq_refl). }
      destruct (idle (A := list (option bits)) (ins w') (with_st s w') [DEnd (Done (replies ops ds))] [TEnd (Done (replies ops ds))] eq_refl) as (m' & M1 & M2 & M3).
      { right. constructor; [exact I|constructor]. }
      { constructor; [constructor|constructor]. }
      exists m'. split; [exact (L _ (L2 _ M1))|]. split; [exact M2|exact M3].
    + destruct L as (_ & pre & post & P1 & P2 & L). inversion P1; inversion P2; subst. cbn [app] in L.
      destruct (idle (A := list (option bits)) (ins w') (with_st s w') [DEnd (Exn e)] [TEnd (Exn e)] eq_refl) as (m' & M1 & M2 & M3).
      { right. constructor; [exact I|constructor]. }
      { constructor; [constructor|constructor]. }
      exists m'. split; [exact (L _ M1)|]. split; [exact M2|exact M3].
    + destruct L as (m' & M1 & M2 & M3). exists m'. split; [exact M1|]. split; [exact M2|exact M3].
    + destruct L as (_ & pre & post & P1 & P2 & L). inversion P1; inversion P2; subst. cbn [app] in L.
      destruct (idle (A := list (option bits)) (ins w') (with_st s w') [DEnd Fuel] [TEnd Fuel] eq_refl) as (m' & M1 & M2 & M3).
      { right. constructor; [exact I|constructor]. }
      { constructor; [constructor|constructor]. }
      exists m'. split; [exact (L _ M1)|]. split; [exact M2|exact M3].
  - exfalso. rewrite edges_spec in En. destruct (_ <=? _); discriminate En.
  - unfold test_start. cbn [map fst snd].
    eapply ends_tasks; [constructor; [apply xeq_sym_ready, teq_sym, teq_bind_ret|constructor]|].
    destruct L as (m' & M1 & M2 & M3). exists m'. split; [exact M1|]. split; [exact M2|exact M3].
  - exfalso. rewrite edges_spec in En. destruct (_ <=? _); discriminate En.
Qed.

(** ** Several tasks, one call each *)
Definition ctree (x : nat * mm_op) : nat * co (list (option bits)) := (fst x, locked (fun d => CRet [d]) (snd x)).
Lemma call_agrees n x ev (w : world bool mm_in mm_out) : supported c x -> st w = false ->
  match call_at c fuel n x w with
  | (Done d, w') => st w' = false /\ one_call n (locked (fun d => CRet [d]) x) (with_st (false, ev) w) = (Done [d], with_st (false, true) w')
  | (Exn e, w') => exists s, one_call n (locked (fun d => CRet [d]) x) (with_st (false, ev) w) = (Exn e, with_st s w')
  | (Susp, w') => exists s, one_call n (locked (fun d => CRet [d]) x) (with_st (false, ev) w) = (Susp, with_st s w')
  | (Fuel, w') => exists s, one_call n (locked (fun d => CRet [d]) x) (with_st (false, ev) w) = (Fuel, with_st s w')
  end.
Proof.
  intros S Sw. unfold call_at, one_call. change (trace (with_st (false, ev) w)) with (trace w). unfold bind.
  destruct (edges_st (n - length (trace w)) (false, ev) w) as (E1 & E2). rewrite E1.
  destruct (edges (n - length (trace w)) w) as [[[]|e| |] w1] eqn:En; cbn [fst snd] in *.
  - destruct w1 as [s p o tr l]. cbn in E2. rewrite Sw in E2. subst s. unfold put. cbn [with_st ph out trace ins].
    pose proof (locked_run (fun d => CRet [d]) x p o tr l S) as H. destruct (mm_call c fuel x _) as [[d|e| |] w'].
    + destruct H as (S' & ->). split; [exact S'|reflexivity].
    + destruct H as (_ & ->). now exists (true, false).
    + destruct H as (_ & ->). now exists (true, false).
    + destruct H as (_ & ->). now exists (true, false).
  - now exists (false, ev).
  - now exists (false, ev).
  - now exists (false, ev).
Qed.
Lemma turn_agrees calls : forall w ev, Forall (fun x => supported c (snd x)) calls -> st w = false ->
  fst (one_by_one (map ctree calls) (with_st (false, ev) w)) = map (omap (fun d => [d])) (fst (in_turn c fuel calls w)) /\
  history (snd (one_by_one (map ctree calls) (with_st (false, ev) w))) = history (snd (in_turn c fuel calls w)) /\
  (one_waiting c fuel calls w -> one_waits (map ctree calls) (with_st (false, ev) w)).
Proof.
  induction calls as [|[n x] r IH]; intros w ev S Sw; [now repeat split|]. inversion S as [|? ? S1 S2]; subst. cbn [snd] in S1.
  cbn [map ctree fst snd one_by_one in_turn one_waiting one_waits].
  pose proof (call_agrees n x ev w S1 Sw) as H. destruct (call_at c fuel n x w) as [[d|e| |] w'].
  - destruct H as (S' & ->). destruct (IH w' true S2 S') as (I1 & I2 & I3).
    destruct (one_by_one _ _) as [os w2], (in_turn c fuel r w') as [os' w2']. cbn [fst snd] in *. split; [cbn; now rewrite I1|]. split; [exact I2|].
    intros (W1 & W2). split; [|exact (I3 W2)]. destruct r as [|? [|[n3 x3] r]]; cbn; auto.
  - destruct H as (s & ->). cbn. rewrite !map_map. now repeat split.
  - destruct H as (s & ->). cbn. rewrite !map_map. now repeat split.
  - destruct H as (s & ->). cbn. rewrite !map_map. now repeat split.
Qed.

Theorem calls_in_turn calls p o l : Forall (fun x => supported c (snd x)) calls -> by_arrival calls ->
  one_waiting c fuel calls (World false p o [] l) ->
  let '(rs, w) := in_turn c fuel calls (World false p o [] l) in
  exists m', ends (test_start c fuel (single calls) p o l) m' /\ m_trace m' = history w /\
    map ended (m_tasks m') = map (omap (fun d => [d])) rs.
Proof.
  intros S O W. destruct (turn_agrees calls (World false p o [] l) false S eq_refl) as (T1 & T2 & T3). specialize (T3 W).
  change (with_st (false, false) (World false p o [] l)) with (World (false, false) p o [] l) in *.
  destruct (in_turn c fuel calls _) as [rs w]. cbn [fst snd] in *. rewrite <- T1, <- T2.
  unfold test_start. eapply (ends_tasks false false p o [] l (map (fun x => TReady (after (fst x) (acq (snd x)))) (map ctree calls))).
  { clear - S. unfold single. rewrite !map_map. induction S as [|[n x] r S1 _ IH]; cbn [map]; constructor; [|exact IH].
    apply xeq_sym_ready, teq_after, teq_sym. exact (ccalls_teq x [] S1). }
  assert (O' : in_order (map ctree calls)).
  { clear - O. induction calls as [|[n x] r IH]; [exact I|]. destruct O as (O1 & O2). cbn [map ctree fst snd in_order]. split; [|exact (IH O2)].
    apply Forall_map. exact O1. }
  assert (C : Forall (fun x => is_call (snd x)) (map ctree calls)).
  { clear. induction calls as [|x r IH]; constructor; [|exact IH]. exact (locked_call (fun d => [d]) (snd x)). }
  destruct (serve (map ctree calls) (World (false, false) p o [] l) false [] [] (map (fun x => TReady (after (fst x) (acq (snd x)))) (map ctree calls)))
    as (m' & M1 & M2 & M3); auto.
  - clear. destruct calls as [|[n x] r]; [exact I|]. cbn [map ctree fst snd]. split; [|split].
    + right. cbn [fst snd trace length]. split; [lia|]. left. now rewrite Nat.sub_0_r.
    + induction r as [|[k y] r IH]; constructor; [|exact IH]. cbn [ctree dcall fst snd trace length].
      pose proof (bg_ready 0 k (locked (fun d => CRet [d]) y) (Nat.le_0_l k)) as B. rewrite Nat.sub_0_r in B. exact B.
    + induction r as [|[k y] r IH]; constructor; [exact I|exact IH].
  - exists m'. split; [exact M1|]. split; [exact M2|exact M3].
Qed.

(** ** What the slave sees *)
Definition fine (l : list mm_in) : Prop :=
  (forall i, In i l -> a_wait c = true -> i_wait i = L0 \/ i_wait i = L1) /\
  (forall i, In i l -> a_rdv c = true -> i_rdv i = L0 \/ i_rdv i = L1).
Lemma fine_suffix a b : fine (a ++ b) -> fine b.
Proof. intros (H1 & H2). split; intros i I; [apply H1|apply H2]; apply in_or_app; now right. Qed.

Lemma mm_call_accepted x p o tr l d w' : 2 <= fuel -> length l < fuel -> op_fits c x -> quiet c o -> fine l ->
  mm_call c fuel x (World false p o tr l) = (Done d, w') ->
  exists a, l = a ++ ins w' /\ st w' = false /\ quiet c (out w') /\
    accepted_in c (trace w') = accepted_in c tr ++ [op_accepted x].
Proof.
  intros F1 F2 Ft Q (Fw & Fr). destruct x as [a|a v]; cbn [mm_call op_fits op_accepted] in *; unfold bind.
  - destruct Ft as (T1 & T2).
    destruct (mm_read_thm c fuel a true o p tr l F1 F2 T1 T2 Q Fw Fr ltac:(discriminate)) as [H|[H|[H|H]]].
    + destruct H as (pre & waits & ia & lat & iv & r & o' & El & _ & _ & _ & _ & _ & -> & Q' & Ac). unfold ret. intro H. injection H as <- <-.
      exists (pre ++ waits ++ ia :: lat). cbn [ins st out trace]. split; [rewrite El, <- !app_assoc; reflexivity|]. split; [reflexivity|].
      split; [exact Q'|]. now rewrite accepted_app, Ac.
    + destruct H as (? & ? & ? & _ & _ & _ & ->). discriminate.
    + destruct H as (? & ? & ? & ? & ? & _ & _ & _ & _ & _ & _ & _ & ->). discriminate.
    + destruct H as (_ & _ & ->). discriminate.
  - destruct Ft as (T1 & T2 & T3).
    destruct (mm_write_thm c fuel a v o p tr l F1 T1 T2 T3 Q Fw) as [H|[H|H]].
    + destruct H as (i0 & waits & ia & r & o' & El & _ & _ & -> & Q' & Ac). unfold ret. intro H. injection H as <- <-.
      exists (i0 :: waits ++ [ia]). cbn [ins st out trace]. split; [rewrite El; cbn; rewrite <- app_assoc; reflexivity|]. split; [reflexivity|].
      split; [exact Q'|]. rewrite accepted_app. exact (f_equal _ Ac).
    + destruct H as (? & ? & ? & _ & _ & ->). discriminate.
    + destruct H as (_ & ->). discriminate.
Qed.
Lemma quiet_none o l : quiet c o -> accepted_in c (held o l) = [].
Proof. intros [R W _ _]. apply accepted_none; congruence. Qed.

Lemma call_accepted n x w d w' : 2 <= fuel -> length (ins w) < fuel -> op_fits c x -> quiet c (out w) -> fine (ins w) -> st w = false ->
  call_at c fuel n x w = (Done d, w') ->
  exists a, ins w = a ++ ins w' /\ st w' = false /\ quiet c (out w') /\
    accepted_in c (trace w') = accepted_in c (trace w) ++ [op_accepted x].
Proof.
  intros F1 F2 Ft Q Fi S. unfold call_at, bind. rewrite edges_spec.
  set (j := n - length (trace w)). destruct (j <=? length (ins w)) eqn:J; [|intro H; discriminate H].
  intro H. rewrite S in H.
  assert (G1 : length (skipn j (ins w)) < fuel) by (rewrite skipn_length; lia).
  assert (G2 : fine (skipn j (ins w))) by (apply (fine_suffix (firstn j (ins w))); now rewrite firstn_skipn).
  destruct (mm_call_accepted x _ _ _ _ d w' F1 G1 Ft Q G2 H) as (a & A1 & A2 & A3 & A4).
  exists (firstn j (ins w) ++ a). split; [rewrite <- app_assoc, <- A1; symmetry; apply firstn_skipn|]. split; [exact A2|]. split; [exact A3|].
    now rewrite A4, accepted_app, (quiet_none _ _ Q), app_nil_r.
Qed.

Lemma turn_accepted calls : forall w, 2 <= fuel -> length (ins w) < fuel -> Forall (fun x => op_fits c (snd x)) calls -> quiet c (out w) ->
  fine (ins w) -> st w = false -> Forall returned (fst (in_turn c fuel calls w)) ->
  accepted_in c (history (snd (in_turn c fuel calls w))) = accepted_in c (trace w) ++ map (fun x => op_accepted (snd x)) calls.
Proof.
  induction calls as [|[n x] r IH]; intros w F1 F2 Ft Q Fi S R; cbn [in_turn fst snd map] in *.
  - unfold history. now rewrite accepted_app, (quiet_none _ _ Q).
  - inversion Ft as [|? ? T1 T2]; subst. cbn [snd] in T1. destruct (call_at c fuel n x w) as [[d|e| |] w'] eqn:E.
    2,3,4: cbn [fst] in R; inversion R as [|? ? (b & X) _]; discriminate X.
    destruct (call_accepted n x w d w' F1 F2 T1 Q Fi S E) as (a & A1 & A2 & A3 & A4).
    specialize (IH w' F1). destruct (in_turn c fuel r w') as [os w2]. cbn [fst snd] in *. inversion R; subst.
    rewrite IH; auto.
    + now rewrite A4, <- app_assoc.
    + rewrite A1, app_length in F2. lia.
    + rewrite A1 in Fi. exact (fine_suffix _ _ Fi).
Qed.
Lemma fits_supported x : op_fits c x -> supported c x.
Proof. destruct x; cbn; tauto. Qed.

Theorem calls_accepted calls p o l : 2 <= fuel -> length l < fuel -> Forall (fun x => op_fits c (snd x)) calls -> quiet c o -> fine l ->
  by_arrival calls -> one_waiting c fuel calls (World false p o [] l) ->
  exists m', ends (test_start c fuel (single calls) p o l) m' /\
    (Forall returned (map ended (m_tasks m')) -> accepted_in c (m_trace m') = map (fun x => op_accepted (snd x)) calls).
Proof.
  intros F1 F2 Ft Q Fi O W.
  pose proof (calls_in_turn calls p o l (Forall_impl _ (fun x => fits_supported (snd x)) Ft) O W) as H.
  pose proof (turn_accepted calls (World false p o [] l) F1 F2 Ft Q Fi eq_refl) as T.
  destruct (in_turn c fuel calls _) as [rs w]. destruct H as (m' & M1 & M2 & M3). exists m'. split; [exact M1|]. rewrite M2, M3.
  intro R. apply T. cbn [fst]. clear - R. induction rs as [|r rs IH]; constructor; inversion R as [|? ? (b & X) R']; subst; [|auto].
  destruct r as [d|e| |]; try discriminate X. now exists d.
Qed.
End Master.
