(** OpbTopProof.v -- whole OPB accesses. *)
From Verif Require Import Base Async BitsLemmas CompatModel PktModel MMModel MMSpec MMProof OpbModel OpbSpec OpbProof.
Local Open Scope list_scope.

Section Top.
Context (c : opb_cfg) (before : opb_in).
Notation world := (world bool opb_in opb_out).

Lemma fits_be : 4 <= p_bew c -> assign_int (p_bew c) 15 = Ok (zbits (p_bew c) 15).
Proof.
  intro H. apply assign_fits. split; [lia|].
  assert (2 ^ 4 <= 2 ^ Z.of_nat (p_bew c))%Z by (apply Z.pow_le_mono_r; lia). lia.
Qed.

(** what follows the wait *)
Definition read_tail : M bool opb_in opb_out Z :=
  i <- sample before ;;
  data <- of_res (match bval (p_dout i) with Some v => Ok v | None => Err EValue end) ;;
  drive (p_set_select L0) ;;
  release_lock ;;
  ret data.
Definition write_tail : M bool opb_in opb_out unit := drive (p_set_select L0) ;; release_lock.

Lemma read_setup fuel a p o tr i0 l : 4 <= p_bew c -> fits (p_aw c) a ->
  opb_read c before fuel a true (World false p o tr (i0 :: l)) =
  (wait_ack before fuel ;; read_tail) (World true PActive (opb_read_request c o a) (tr ++ [(i0, o)]) l).
Proof.
  intros B F. unfold opb_read, bind at 1, acquire_lock, bind, get, put, edge. cbn [st ph out trace ins].
  rewrite (assign_fits _ _ F). cbn [of_res ret]. unfold ret, drive. cbn [ph st out trace ins].
  rewrite (fits_be B). reflexivity.
Qed.
Lemma write_setup fuel a v p o tr i0 l : opb_ok c a v ->
  opb_write c before fuel a v true (World false p o tr (i0 :: l)) =
  (wait_ack before fuel ;; write_tail) (World true PActive (opb_write_request c o a v) (tr ++ [(i0, o)]) l).
Proof.
  intros (B & F & G). unfold opb_write, bind at 1, acquire_lock, bind, get, put, edge. cbn [st ph out trace ins].
  rewrite (assign_fits _ _ F), (assign_fits _ _ G). unfold of_res, ret, drive. cbn [ph st out trace ins].
  rewrite (fits_be B). reflexivity.
Qed.

Lemma sample_active s o tr i0 (x : opb_out) l :
  sample before (World s PActive o (tr ++ [(i0, x)]) l) = (Done i0, World s PActive o (tr ++ [(i0, x)]) l).
Proof. unfold sample. cbn. rewrite map_app. cbn. rewrite last_last. reflexivity. Qed.

(** *** acknowledged before it was requested *)
Lemma read_now fuel a p o tr i0 l d : 0 < fuel -> 4 <= p_bew c -> fits (p_aw c) a ->
  p_ack i0 = L1 -> bval (p_dout i0) = Some d ->
  opb_read c before fuel a true (World false p o tr (i0 :: l)) =
  (Done d, World false PActive (p_set_select L0 (opb_read_request c o a)) (tr ++ held o [i0]) l).
Proof.
  intros Hf B F A D. rewrite (read_setup _ _ _ _ _ _ _ B F).
  pose proof (wait_ack_now before fuel true PActive (opb_read_request c o a) (tr ++ [(i0, o)]) l i0 (sample_active _ _ _ _ _ _) Hf) as W.
  rewrite A in W. specialize (W ltac:(discriminate)). rewrite (bind_done _ _ _ _ _ W).
  unfold read_tail. rewrite (bind_done _ _ _ _ _ (sample_active _ _ _ _ _ _)). rewrite D. reflexivity.
Qed.
Lemma write_now fuel a v p o tr i0 l : 0 < fuel -> opb_ok c a v -> p_ack i0 = L1 ->
  opb_write c before fuel a v true (World false p o tr (i0 :: l)) =
  (Done tt, World false PActive (p_set_select L0 (opb_write_request c o a v)) (tr ++ held o [i0]) l).
Proof.
  intros Hf B A. rewrite (write_setup _ _ _ _ _ _ _ _ B).
  pose proof (wait_ack_now before fuel true PActive (opb_write_request c o a v) (tr ++ [(i0, o)]) l i0 (sample_active _ _ _ _ _ _) Hf) as W.
  rewrite A in W. specialize (W ltac:(discriminate)). rewrite (bind_done _ _ _ _ _ W). reflexivity.
Qed.

(** *** otherwise *)
Definition write_exn (e : ending) : exn := match e with EdAck => ERuntime | EdTimeout => EOPB | _ => EValue end.
Definition read_exn (e : ending) (j : opb_in) : exn :=
  match e with EdAck => match bval (p_dout j) with Some _ => ERuntime | None => EValue end | EdTimeout => EOPB | _ => EValue end.

Lemma write_later fuel a v p o tr i0 i1 l : S (length l) < fuel -> opb_ok c a v -> p_ack i0 = L0 ->
  let req := opb_write_request c o a v in
  (forall l1 j l2 e, l = l1 ++ j :: l2 -> ends l1 j e ->
     opb_write c before fuel a v true (World false p o tr (i0 :: i1 :: l)) =
     (Exn (write_exn e), World true PReadOnly req (tr ++ held o [i0] ++ held req (i1 :: l1)) (j :: l2))) /\
  (waiting l -> opb_write c before fuel a v true (World false p o tr (i0 :: i1 :: l)) =
     (Susp, World true PActive req (tr ++ held o [i0] ++ held req (i1 :: l)) [])).
Proof.
  intros Hf B A req. rewrite (write_setup _ _ _ _ _ _ _ _ B). fold req.
  destruct (wait_ack_later before fuel true PActive req (tr ++ [(i0, o)]) i1 l i0 (sample_active _ _ _ _ _ _) Hf A) as [W1 W2].
  split.
  - intros l1 j l2 e E He. specialize (W1 l1 j l2 e E He). unfold ends_result in W1.
    rewrite <- app_assoc in W1. change (([(i0, o)] ++ held req (i1 :: l1))) with (held o [i0] ++ held req (i1 :: l1)) in W1.
    destruct e.
    + rewrite (bind_done _ _ _ _ _ W1). reflexivity.
    + exact (bind_exn _ _ _ _ _ W1).
    + exact (bind_exn _ _ _ _ _ W1).
    + exact (bind_exn _ _ _ _ _ W1).
  - intro W. specialize (W2 W). rewrite <- app_assoc in W2. exact (bind_susp _ _ _ _ W2).
Qed.
Lemma read_later fuel a p o tr i0 i1 l : S (length l) < fuel -> 4 <= p_bew c -> fits (p_aw c) a -> p_ack i0 = L0 ->
  let req := opb_read_request c o a in
  (forall l1 j l2 e, l = l1 ++ j :: l2 -> ends l1 j e ->
     opb_read c before fuel a true (World false p o tr (i0 :: i1 :: l)) =
     (Exn (read_exn e j), World true PReadOnly req (tr ++ held o [i0] ++ held req (i1 :: l1)) (j :: l2))) /\
  (waiting l -> opb_read c before fuel a true (World false p o tr (i0 :: i1 :: l)) =
     (Susp, World true PActive req (tr ++ held o [i0] ++ held req (i1 :: l)) [])).
Proof.
  intros Hf B F A req. rewrite (read_setup _ _ _ _ _ _ _ B F). fold req.
  destruct (wait_ack_later before fuel true PActive req (tr ++ [(i0, o)]) i1 l i0 (sample_active _ _ _ _ _ _) Hf A) as [W1 W2].
  split.
  - intros l1 j l2 e E He. specialize (W1 l1 j l2 e E He). unfold ends_result in W1.
    rewrite <- app_assoc in W1. change (([(i0, o)] ++ held req (i1 :: l1))) with (held o [i0] ++ held req (i1 :: l1)) in W1.
    destruct e.
    + rewrite (bind_done _ _ _ _ _ W1). unfold read_tail, bind, sample, input. cbn [ph ins read_exn].
      destruct (bval (p_dout j)); reflexivity.
    + exact (bind_exn _ _ _ _ _ W1).
    + exact (bind_exn _ _ _ _ _ W1).
    + exact (bind_exn _ _ _ _ _ W1).
  - intro W. specialize (W2 W). rewrite <- app_assoc in W2. exact (bind_susp _ _ _ _ W2).
Qed.

(** *** no access is both seen by the slave and completed *)
Lemma body_done count (w w' : world) r : ack_body before count w = (Done r, w') ->
  match r with inl _ => ph w' = PReadOnly | inr _ => w' = w end.
Proof.
  unfold ack_body, bind. destruct (sample before w) as [[i|e| |] w1] eqn:S; try discriminate.
  assert (w1 = w).
  { unfold sample, input in S. destruct (ph w); [injection S as _ <-; reflexivity| |];
      (destruct (ins w); [discriminate|injection S as _ <-; reflexivity]). }
  subst w1. unfold int_bit. destruct (p_ack i); try discriminate.
  2:{ intro H. injection H as <- <-. reflexivity. }
  unfold ret, edge. destruct w as [s p o tr [|i1 [|j l]]]; try discriminate. cbn.
  destruct (p_sup j); try discriminate.
  - match goal with |- context [if ?b then raise _ else _] => destruct b end; intro H; [discriminate|].
    injection H as <- <-. reflexivity.
  - intro H. injection H as <- <-. reflexivity.
Qed.
Lemma loop_done fuel : forall count (w w' : world), loop fuel (ack_body before) count w = (Done tt, w') ->
  w' = w \/ ph w' = PReadOnly.
Proof.
  induction fuel as [|f IH]; intros count w w' H; [discriminate|]. cbn [loop] in H. unfold bind in H.
  destruct (ack_body before count w) as [[r|e| |] w1] eqn:E; try discriminate.
  pose proof (body_done _ _ _ _ E) as G. destruct r as [c'|u].
  - destruct (IH _ _ _ H) as [->|K]; right; [exact G|exact K].
  - injection H as _ <-. left. exact G.
Qed.
Lemma sample_world (w w' : world) i : sample before w = (Done i, w') -> w' = w.
Proof.
  unfold sample, input. destruct (ph w); [intro H; injection H as _ <-; reflexivity| |];
    (destruct (ins w); [discriminate|intro H; injection H as _ <-; reflexivity]).
Qed.

(** [quietly m]: if m returns, no cycle has passed; [freed m]: if it returns, the lock
    is free and the slave deselected; [stuck m]: if it raises, the lock is still held *)
Notation MM := (M bool opb_in opb_out).
Definition quietly {A} (m : MM A) : Prop := forall w a w', m w = (Done a, w') -> trace w' = trace w.
Definition freed {A} (m : MM A) : Prop := forall w a w', m w = (Done a, w') -> st w' = false /\ p_select (out w') = L0.
Definition same_st {A} (m : MM A) : Prop := forall w, st (snd (m w)) = st w.
Definition stuck {A} (m : MM A) : Prop := forall w e w', m w = (Exn e, w') -> st w = true -> st w' = true.

Lemma quietly_bind {A B} (m : MM A) (f : A -> MM B) : quietly m -> (forall a, quietly (f a)) -> quietly (bind m f).
Proof.
  intros H G w b w' E. unfold bind in E. destruct (m w) as [[a|e| |] w1] eqn:E1; try discriminate.
  rewrite (G _ _ _ _ E). exact (H _ _ _ E1).
Qed.
Lemma freed_bind {A B} (m : MM A) (f : A -> MM B) : (forall a, freed (f a)) -> freed (bind m f).
Proof.
  intros G w b w' E. unfold bind in E. destruct (m w) as [[a|e| |] w1]; try discriminate. exact (G _ _ _ _ E).
Qed.
Lemma stuck_bind {A B} (m : MM A) (f : A -> MM B) : same_st m -> (forall a, stuck (f a)) -> stuck (bind m f).
Proof.
  intros H G w e w' E S. unfold bind in E. specialize (H w). destruct (m w) as [[a|e'| |] w1] eqn:E1; try discriminate; cbn in H.
  - apply (G _ _ _ _ E). congruence.
  - injection E as _ <-. congruence.
Qed.
Lemma same_bind {A B} (m : MM A) (f : A -> MM B) : same_st m -> (forall a, same_st (f a)) -> same_st (bind m f).
Proof.
  intros H G w. unfold bind. specialize (H w). destruct (m w) as [[a|e| |] w1]; cbn in *; try exact H.
  rewrite (G a w1). exact H.
Qed.
Lemma quietly_of_res {A} (r : res A) : quietly (of_res r).
Proof. intros w a w' H. destruct r; [injection H as _ <-; reflexivity|discriminate]. Qed.
Lemma quietly_drive f : quietly (drive f).
Proof. intros w a w' H. unfold drive in H. destruct (ph w); try discriminate; injection H as _ <-; reflexivity. Qed.
Lemma same_of_res {A} (r : res A) : same_st (of_res r). Proof. intro w. destruct r; reflexivity. Qed.
Lemma same_drive f : same_st (drive f). Proof. intro w. unfold drive. destruct (ph w); reflexivity. Qed.
Lemma same_sample : same_st (sample before).
Proof. intro w. unfold sample, input. destruct (ph w); [reflexivity| |]; destruct (ins w); reflexivity. Qed.
Lemma same_edge : same_st edge. Proof. intros [s p o tr [|i l]]; reflexivity. Qed.
Lemma same_readonly : same_st readonly. Proof. intros [s [] o tr [|i l]]; reflexivity. Qed.
Lemma same_bit b : same_st (int_bit b). Proof. intro w. destruct b; reflexivity. Qed.
Lemma same_ret {A} (a : A) : same_st (ret a). Proof. intro w. reflexivity. Qed.
Lemma same_raise {A} e : same_st (raise e : MM A). Proof. intro w. reflexivity. Qed.
Lemma same_body n : same_st (ack_body before n).
Proof.
  unfold ack_body. apply same_bind; [apply same_sample|intro i]. apply same_bind; [apply same_bit|intros []]; [apply same_ret|].
  apply same_bind; [apply same_edge|intros _]. apply same_bind; [apply same_readonly|intros _].
  apply same_bind; [apply same_sample|intro j]. apply same_bind; [apply same_bit|intro sup].
  destruct (max_cycles <=? (if sup then 0 else n + 1)); [apply same_raise|apply same_ret].
Qed.
Lemma same_loop fuel : forall n, same_st (loop fuel (ack_body before) n).
Proof.
  induction fuel as [|f IH]; intro n; [intro w; reflexivity|]. cbn [loop].
  apply same_bind; [apply same_body|]. intros [x|x]; [apply IH|apply same_ret].
Qed.
Lemma same_wait fuel : same_st (wait_ack before fuel). Proof. apply same_loop. Qed.

Lemma quietly_write_end fuel : quietly (wait_ack before fuel ;; write_tail).
Proof.
  intros w a w' H. unfold bind in H. destruct (wait_ack before fuel w) as [[[]|e| |] w1] eqn:E; try discriminate.
  destruct (loop_done _ _ _ _ E) as [->|P].
  - unfold write_tail, bind, drive, release_lock, put in H. destruct (ph w); try discriminate; injection H as _ <-; reflexivity.
  - unfold write_tail, bind, drive in H. rewrite P in H. discriminate.
Qed.
Lemma quietly_read_end fuel : quietly (wait_ack before fuel ;; read_tail).
Proof.
  intros w a w' H. unfold bind at 1 in H. destruct (wait_ack before fuel w) as [[[]|e| |] w1] eqn:E; try discriminate.
  unfold read_tail, bind at 1 in H. destruct (sample before w1) as [[i|e| |] w2] eqn:S; try discriminate.
  apply sample_world in S. subst w2. unfold bind at 1 in H.
  destruct (bval (p_dout i)); [|discriminate]. cbn [of_res] in H. unfold ret at 1 in H. unfold bind, drive in H.
  destruct (loop_done _ _ _ _ E) as [->|P].
  - unfold release_lock, put in H. destruct (ph w); try discriminate; injection H as _ <-; reflexivity.
  - rewrite P in H. discriminate.
Qed.
Lemma freed_release {A} (a : A) : freed (drive (p_set_select L0) ;; release_lock ;; ret a).
Proof. intros w b w' H. unfold bind, drive, release_lock, put in H. destruct (ph w); try discriminate; injection H as _ <-; split; reflexivity. Qed.
Lemma freed_release' : freed (drive (p_set_select L0) ;; release_lock).
Proof. intros w b w' H. unfold bind, drive, release_lock, put in H. destruct (ph w); try discriminate; injection H as _ <-; split; reflexivity. Qed.
Lemma stuck_release {A} (a : A) : stuck (drive (p_set_select L0) ;; release_lock ;; ret a).
Proof.
  apply stuck_bind; [apply same_drive|intros _]. intros w e w' H. discriminate.
Qed.
Lemma stuck_release' : stuck (drive (p_set_select L0) ;; release_lock).
Proof.
  apply stuck_bind; [apply same_drive|intros _]. intros w e w' H. discriminate.
Qed.

(** the programs after the lock and the synchronising edge *)
Definition read_rest fuel a : MM Z :=
  x <- of_res (assign_int (p_aw c) a) ;; drive (p_set_abus x) ;; drive (p_set_select L1) ;; drive (p_set_rnw L1) ;;
  be <- of_res (assign_int (p_bew c) 15) ;; drive (p_set_be be) ;; wait_ack before fuel ;; read_tail.
Definition write_rest fuel a v : MM unit :=
  x <- of_res (assign_int (p_aw c) a) ;; drive (p_set_abus x) ;; drive (p_set_select L1) ;; drive (p_set_rnw L0) ;;
  be <- of_res (assign_int (p_bew c) 15) ;; drive (p_set_be be) ;;
  y <- of_res (assign_int (p_dw c) v) ;; drive (p_set_dout y) ;; wait_ack before fuel ;; write_tail.
Ltac step_tac l := repeat (apply l; [first [apply quietly_of_res|apply quietly_drive|apply same_of_res|apply same_drive|apply same_sample|apply same_wait]|intro]).
Lemma read_quietly fuel a : quietly (read_rest fuel a).
Proof. unfold read_rest. step_tac (@quietly_bind). apply quietly_read_end. Qed.
Lemma write_quietly fuel a v : quietly (write_rest fuel a v).
Proof. unfold write_rest. step_tac (@quietly_bind). apply quietly_write_end. Qed.
Lemma read_freed fuel a : freed (read_rest fuel a).
Proof. unfold read_rest, read_tail. do 9 (apply freed_bind; intro). apply freed_release. Qed.
Lemma write_freed fuel a v : freed (write_rest fuel a v).
Proof. unfold write_rest, write_tail. do 9 (apply freed_bind; intro). apply freed_release'. Qed.
Lemma read_stuck fuel a : stuck (read_rest fuel a).
Proof. unfold read_rest, read_tail. do 9 (apply stuck_bind; [first [apply same_of_res|apply same_drive|apply same_sample|apply same_wait]|intro]). apply stuck_release. Qed.
Lemma write_stuck fuel a v : stuck (write_rest fuel a v).
Proof. unfold write_rest, write_tail. do 9 (apply stuck_bind; [first [apply same_of_res|apply same_drive|apply same_sample|apply same_wait]|intro]). apply stuck_release'. Qed.

(** an access is the lock, the edge, then the rest *)
Lemma access_cases {A} (rest : MM A) (sync : bool) (w w' : world) r :
  (acquire_lock ;; (if sync then edge else ret tt) ;; rest) w = (r, w') ->
  (r = Susp /\ (st w = true \/ sync = true /\ ins w = [])) \/
  exists w1, st w = false /\ st w1 = true /\ out w1 = out w /\
    trace w1 = trace w ++ held (out w) (firstn (if sync then 1 else 0) (ins w)) /\ rest w1 = (r, w').
Proof.
  destruct w as [s p o tr l]. unfold bind, acquire_lock, bind, get, put. cbn [st ph out trace ins].
  destruct s. { intro H. injection H as <- _. left. auto. }
  destruct sync.
  - unfold edge. cbn [ins st ph out trace]. destruct l as [|i l]. { intro H. injection H as <- _. left. auto. }
    intro H. right. eexists. repeat split; [| | |exact H]; reflexivity.
  - unfold ret. intro H. right. eexists. repeat split; [| | |exact H]; try reflexivity. cbn. rewrite app_nil_r. reflexivity.
Qed.
Lemma read_cases fuel a sync w w' r : opb_read c before fuel a sync w = (r, w') ->
  (r = Susp /\ (st w = true \/ sync = true /\ ins w = [])) \/
  exists w1, st w = false /\ st w1 = true /\ out w1 = out w /\
    trace w1 = trace w ++ held (out w) (firstn (if sync then 1 else 0) (ins w)) /\ read_rest fuel a w1 = (r, w').
Proof. exact (access_cases (read_rest fuel a) sync w w' r). Qed.
Lemma write_cases fuel a v sync w w' r : opb_write c before fuel a v sync w = (r, w') ->
  (r = Susp /\ (st w = true \/ sync = true /\ ins w = [])) \/
  exists w1, st w = false /\ st w1 = true /\ out w1 = out w /\
    trace w1 = trace w ++ held (out w) (firstn (if sync then 1 else 0) (ins w)) /\ write_rest fuel a v w1 = (r, w').
Proof. exact (access_cases (write_rest fuel a v) sync w w' r). Qed.

Lemma selected_held o l : p_select o <> L1 -> selected (held o l) = [].
Proof. intro H. induction l as [|i l IH]; [reflexivity|]. cbn. destruct (p_select o); try contradiction; exact IH. Qed.
Lemma selected_app a b : selected (a ++ b) = selected a ++ selected b.
Proof. apply filter_app. Qed.

Lemma read_unseen fuel a sync w d w' : p_select (out w) <> L1 ->
  opb_read c before fuel a sync w = (Done d, w') ->
  selected (trace w') = selected (trace w) /\ st w' = false /\ p_select (out w') = L0.
Proof.
  intros P H. destruct (read_cases _ _ _ _ _ _ H) as [[? _]|(w1 & _ & _ & O & T & E)]; [discriminate|].
  split; [|exact (read_freed _ _ _ _ _ E)]. rewrite (read_quietly _ _ _ _ _ E), T, selected_app, selected_held by exact P. apply app_nil_r.
Qed.
Lemma write_unseen fuel a v sync w d w' : p_select (out w) <> L1 ->
  opb_write c before fuel a v sync w = (Done d, w') ->
  selected (trace w') = selected (trace w) /\ st w' = false /\ p_select (out w') = L0.
Proof.
  intros P H. destruct (write_cases _ _ _ _ _ _ _ H) as [[? _]|(w1 & _ & _ & O & T & E)]; [discriminate|].
  split; [|exact (write_freed _ _ _ _ _ _ E)]. rewrite (write_quietly _ _ _ _ _ _ E), T, selected_app, selected_held by exact P. apply app_nil_r.
Qed.
Lemma locked_stuck (w : world) : st w = true ->
  (forall fuel a sync, opb_read c before fuel a sync w = (Susp, w)) /\
  (forall fuel a v sync, opb_write c before fuel a v sync w = (Susp, w)).
Proof. destruct w as [s p o tr l]. cbn. intros ->. split; reflexivity. Qed.
Lemma read_raise fuel a sync w e w' : opb_read c before fuel a sync w = (Exn e, w') -> st w' = true.
Proof.
  intro H. destruct (read_cases _ _ _ _ _ _ H) as [[? _]|(w1 & _ & S & _ & _ & E)]; [discriminate|].
  exact (read_stuck _ _ _ _ _ E S).
Qed.
Lemma write_raise fuel a v sync w e w' : opb_write c before fuel a v sync w = (Exn e, w') -> st w' = true.
Proof.
  intro H. destruct (write_cases _ _ _ _ _ _ _ H) as [[? _]|(w1 & _ & S & _ & _ & E)]; [discriminate|].
  exact (write_stuck _ _ _ _ _ _ E S).
Qed.

(** *** the timeout *)
Lemma expired_sup w j : expired (w ++ [j]) -> p_sup j = L0.
Proof.
  intros (a & b & E & L & F). destruct b as [|x b] using rev_ind; [discriminate|].
  rewrite app_assoc in E. apply app_inj_tail in E. destruct E as [_ ->]. apply Forall_app in F. destruct F as [_ F]. exact (Forall_inv F).
Qed.
Lemma ends_timeout w j : waiting w -> expired (w ++ [j]) -> ends w j EdTimeout.
Proof. intros W E. split; [exact W|]. split; [left; exact (expired_sup _ _ E)|exact E]. Qed.
Lemma write_timeout fuel a v p o tr i0 l : length l < fuel -> opb_ok c a v ->
  (fst (opb_write c before fuel a v true (World false p o tr (i0 :: l))) = Exn EOPB <->
   p_ack i0 = L0 /\ exists i1 w j r, l = i1 :: w ++ j :: r /\ waiting w /\ expired (w ++ [j])).
Proof.
  intros Hf B. split.
  - intro H. destruct (p_ack i0) eqn:A.
    2-4: rewrite (write_setup _ _ _ _ _ _ _ _ B) in H;
         pose proof (wait_ack_now before fuel true PActive (opb_write_request c o a v) (tr ++ [(i0, o)]) l i0 (sample_active _ _ _ _ _ _) ltac:(lia)) as W;
         rewrite A in W; specialize (W ltac:(discriminate)); unfold bind in H; rewrite W in H; discriminate H.
    split; [reflexivity|]. destruct l as [|i1 l].
    { rewrite (write_setup _ _ _ _ _ _ _ _ B) in H. unfold wait_ack in H. destruct fuel; [lia|].
      cbn [loop] in H. unfold bind, ack_body, bind in H. rewrite sample_active in H. unfold int_bit in H. rewrite A in H. discriminate H. }
    destruct (write_later fuel a v p o tr i0 i1 l Hf B A) as [W1 W2].
    destruct (ends_split l [] waiting_nil) as [(l1 & j & l2 & e & E & He)|W].
    + rewrite (W1 _ _ _ _ E He) in H. destruct e; try discriminate. destruct He as (W & Hs & X).
      exists i1, l1, j, l2. rewrite E. auto.
    + rewrite (W2 W) in H. discriminate.
  - intros (A & i1 & w & j & r & E & W & X). subst l.
    destruct (write_later fuel a v p o tr i0 i1 (w ++ j :: r) Hf B A) as [W1 _].
    rewrite (W1 _ _ _ _ eq_refl (ends_timeout _ _ W X)). reflexivity.
Qed.
Lemma read_timeout fuel a p o tr i0 l : length l < fuel -> 4 <= p_bew c -> fits (p_aw c) a ->
  (fst (opb_read c before fuel a true (World false p o tr (i0 :: l))) = Exn EOPB <->
   p_ack i0 = L0 /\ exists i1 w j r, l = i1 :: w ++ j :: r /\ waiting w /\ expired (w ++ [j])).
Proof.
  intros Hf B F. split.
  - intro H. destruct (p_ack i0) eqn:A.
    3-4: rewrite (read_setup _ _ _ _ _ _ _ B F) in H;
         pose proof (wait_ack_now before fuel true PActive (opb_read_request c o a) (tr ++ [(i0, o)]) l i0 (sample_active _ _ _ _ _ _) ltac:(lia)) as W;
         rewrite A in W; specialize (W ltac:(discriminate)); unfold bind in H; rewrite W in H; discriminate H.
    2:{ rewrite (read_setup _ _ _ _ _ _ _ B F) in H.
        pose proof (wait_ack_now before fuel true PActive (opb_read_request c o a) (tr ++ [(i0, o)]) l i0 (sample_active _ _ _ _ _ _) ltac:(lia)) as W.
        rewrite A in W. specialize (W ltac:(discriminate)). rewrite (bind_done _ _ _ _ _ W) in H.
        unfold read_tail in H. rewrite (bind_done _ _ _ _ _ (sample_active _ _ _ _ _ _)) in H. destruct (bval (p_dout i0)); discriminate H. }
    split; [reflexivity|]. destruct l as [|i1 l].
    { rewrite (read_setup _ _ _ _ _ _ _ B F) in H. unfold wait_ack in H. destruct fuel; [lia|].
      cbn [loop] in H. unfold bind, ack_body, bind in H. rewrite sample_active in H. unfold int_bit in H. rewrite A in H. discriminate H. }
    destruct (read_later fuel a p o tr i0 i1 l Hf B F A) as [W1 W2].
    destruct (ends_split l [] waiting_nil) as [(l1 & j & l2 & e & E & He)|W].
    + rewrite (W1 _ _ _ _ E He) in H. destruct e; try discriminate.
      * cbn in H. destruct (bval (p_dout j)); discriminate H.
      * destruct He as (W & Hs & X). exists i1, l1, j, l2. rewrite E. auto.
    + rewrite (W2 W) in H. discriminate.
  - intros (A & i1 & w & j & r & E & W & X). subst l.
    destruct (read_later fuel a p o tr i0 i1 (w ++ j :: r) Hf B F A) as [W1 _].
    rewrite (W1 _ _ _ _ eq_refl (ends_timeout _ _ W X)). reflexivity.
Qed.

(** fifteen cycles and an acknowledge in the sixteenth *)
Lemma fifteen w j : length w = 15 -> unacked w -> Forall (fun i => p_sup i = L0) w -> p_sup j = L0 ->
  waiting w /\ expired (w ++ [j]).
Proof.
  intros L U S J. split.
  - constructor; [exact U|eapply Forall_impl; [|exact S]; intros i H; left; exact H|].
    intros a b E (x & y & E' & L' & _). subst a. rewrite E, !app_length in L. lia.
  - exists [], (w ++ [j]). repeat split; [rewrite app_length, L; reflexivity|].
    apply Forall_app. split; [exact S|]. constructor; [exact J|constructor].
Qed.

(** *** DBus_in *)
Lemma write_din fuel a v sync (w : world) d : p_din (out w) = d -> Forall (fun x => p_din (snd x) = d) (trace w) ->
  p_din (out (snd (opb_write c before fuel a v sync w))) = d /\
  Forall (fun x => p_din (snd x) = d) (trace (snd (opb_write c before fuel a v sync w))).
Proof.
  intros H G. set (P := fun o : opb_out => p_din o = d). change (always P (snd (opb_write c before fuel a v sync w))).
  assert (HS : keeps P (sample before)).
  { intros w0 A. unfold sample, input. destruct (ph w0); [exact A| |]; destruct (ins w0); exact A. }
  assert (HB : forall b, keeps P (int_bit b : MM bool)) by (intros [] w0 A; exact A).
  assert (HD : forall f, (forall o, p_din (f o) = p_din o) -> keeps P (drive f : MM unit)).
  { intros f Hf w0 [A B]. unfold drive. destruct (ph w0); split; cbn; try exact A; try exact B; unfold P in *; rewrite Hf; exact A. }
  assert (HR : forall A (r : res A), keeps P (of_res r : MM A)) by (intros A [] w0 K; exact K).
  assert (HE : keeps P (edge : MM unit)).
  { intros [s p o tr [|i l]] [A B]; split; cbn; try exact A; try exact B.
    apply Forall_app. split; [exact B|]. constructor; [exact A|constructor]. }
  assert (HO : keeps P (readonly : MM unit)) by (intros [s [] o tr [|i l]] K; exact K).
  assert (HBody : forall n, keeps P (ack_body before n)).
  { intro n. unfold ack_body. apply keeps_bind; [exact HS|intro i]. apply keeps_bind; [apply HB|intros []]; [intros w0 K; exact K|].
    apply keeps_bind; [exact HE|intros _]. apply keeps_bind; [exact HO|intros _]. apply keeps_bind; [exact HS|intro j].
    apply keeps_bind; [apply HB|intro sup]. destruct (max_cycles <=? (if sup then 0 else n + 1)); intros w0 K; exact K. }
  assert (HL : forall f n, keeps P (loop f (ack_body before) n)).
  { induction f as [|f IH]; intro n; [intros w0 K; exact K|]. cbn [loop]. apply keeps_bind; [apply HBody|].
    intros [x|x]; [apply IH|intros w0 K; exact K]. }
  assert (HW : keeps P (opb_write c before fuel a v sync)).
  { unfold opb_write. apply keeps_bind; [intros [[] p o tr l] K; exact K|intros _].
    apply keeps_bind; [destruct sync; [exact HE|intros w0 K; exact K]|intros _].
    repeat (apply keeps_bind; [first [apply HR|apply HD; reflexivity|apply HL]|intro]). intros w0 K. exact K. }
  apply HW. split; assumption.
Qed.

(** *** what is on the bus while a write is waiting *)
Lemma write_shape fuel a v p o tr i0 i1 l : S (length l) < fuel -> opb_ok c a v -> p_ack i0 = L0 ->
  let req := opb_write_request c o a v in
  exists w rest r p', l = w ++ rest /\ waiting w /\
    opb_write c before fuel a v true (World false p o tr (i0 :: i1 :: l))
    = (r, World true p' req (tr ++ held o [i0] ++ held req (i1 :: w)) rest).
Proof.
  intros Hf B A req. destruct (write_later fuel a v p o tr i0 i1 l Hf B A) as [W1 W2].
  destruct (ends_split l [] waiting_nil) as [(l1 & j & l2 & e & E & He)|W].
  - exists l1, (j :: l2), (Exn (write_exn e)), PReadOnly. split; [exact E|]. split; [apply He|]. exact (W1 _ _ _ _ E He).
  - exists l, [], Susp, PActive. rewrite app_nil_r. split; [reflexivity|]. split; [exact W|]. exact (W2 W).
Qed.
End Top.
