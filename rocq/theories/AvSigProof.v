(** AvSigProof.v -- lemmas for AvSigProp.v. *)
From Verif Require Import Base Async CompatModel AvSigModel AvSigSpec.
From Verif Require PktModel.
Local Open Scope list_scope.

(** ** never AttributeError *)
Section Never.
Context {S I O : Type} (x : exn).
Definition never {A} (m : M S I O A) : Prop := forall w, fst (m w) <> Exn x.

Lemma never_bind {A B} (m : M S I O A) (k : A -> M S I O B) : never m -> (forall a, never (k a)) -> never (bind m k).
Proof.
  intros H K w. unfold bind. specialize (H w). destruct (m w) as [[a|e| |] w1]; [apply K|intro E; cbn in *; congruence|discriminate|discriminate].
Qed.
Lemma never_ret {A} (a : A) : never (ret a).
Proof. intros w. discriminate. Qed.
Lemma never_raise {A} e : e <> x -> never (@raise S I O A e).
Proof. intros N w E. cbn in E. congruence. Qed.
Lemma never_get : never get.
Proof. intros w. discriminate. Qed.
Lemma never_put s : never (put s).
Proof. intros w. discriminate. Qed.
Lemma never_edge : never edge.
Proof. intros w. unfold edge. destruct (ins w); discriminate. Qed.
Lemma never_mid : never midstep.
Proof. intros w. unfold midstep. destruct (ins w); try destruct (ph w); discriminate. Qed.
Lemma never_readonly : x <> ERuntime -> never readonly.
Proof. intros N w. unfold readonly. destruct (ph w), (ins w); cbn; congruence. Qed.
Lemma never_input : never input.
Proof. intros w. unfold input. destruct (ins w); discriminate. Qed.
Lemma never_drive f : x <> ERuntime -> never (drive f).
Proof. intros N w. unfold drive. destruct (ph w); cbn; congruence. Qed.
Lemma never_res {A} (r : res A) : r <> Err x -> never (of_res r).
Proof. intros N w. destruct r; cbn; congruence. Qed.
Lemma never_for {A} (f : A -> M S I O unit) l : (forall a, never (f a)) -> never (for_each f l).
Proof. intro H. induction l as [|a l IH]; [apply never_ret|]. apply never_bind; auto. Qed.
Lemma never_edges n : never (edges n).
Proof. induction n; [apply never_ret|]. apply never_bind; [apply never_edge|auto]. Qed.
Lemma never_loop {L A} fuel (body : L -> M S I O (L + A)) : (forall l, never (body l)) -> forall l, never (loop fuel body l).
Proof.
  intro H. induction fuel as [|f IH]; intros l w; [discriminate|]. cbn [loop]. unfold bind.
  pose proof (H l w) as B. destruct (body l w) as [[[l'|a]|e| |] w1]; [apply IH|discriminate|intro E; cbn in *; congruence|discriminate|discriminate].
Qed.
Lemma never_if {A} (b : bool) (m1 m2 : M S I O A) : never m1 -> never m2 -> never (if b then m1 else m2).
Proof. destruct b; auto. Qed.
End Never.

Ltac nv := repeat match goal with
  | |- never _ (ret _) => apply never_ret
  | |- never _ get => apply never_get
  | |- never _ (put _) => apply never_put
  | |- never _ edge => apply never_edge
  | |- never _ midstep => apply never_mid
  | |- never _ input => apply never_input
  | |- never _ (edges _) => apply never_edges
  | |- never _ readonly => apply never_readonly; discriminate
  | |- never _ (drive _) => apply never_drive; discriminate
  | |- never _ (raise _) => apply never_raise; discriminate
  | |- never _ (if _ then _ else _) => apply never_if
  | |- never _ (bind _ _) => apply never_bind; [|intro]
  | |- never _ (for_each _ _) => apply never_for; intro
  end.

Section Mem.
Context (c : am_cfg).
Notation nev := (never EAttribute).

Lemma nev_sample : nev (@sample).
Proof. intros w. unfold sample. destruct (ph w), (rev (trace w)) as [|[? ?] ?]; try discriminate; apply never_input. Qed.
Lemma nev_toint b : nev (toint b).
Proof. unfold toint. destruct (bval b); nv. Qed.
Lemma nev_draw : nev (@draw).
Proof. unfold draw. nv. Qed.
Lemma nev_modify f : nev (modify f).
Proof. unfold modify. nv. Qed.
Lemma nev_randint lo hi : nev (randint lo hi).
Proof. unfold randint. nv; apply nev_draw. Qed.
Lemma nev_coin : nev (@coin).
Proof. unfold coin. nv; apply nev_draw. Qed.
Lemma create_binary_attr z n be : create_binary (BInt z) n be <> Err EAttribute.
Proof.
  unfold create_binary, logic_of, logicarray_of_int.
  repeat match goal with |- context [if ?b then _ else _] => destruct b end; try discriminate;
  repeat match goal with |- context [match ?b with _ => _ end] => destruct b end; discriminate.
Qed.
Lemma nev_do_response : nev (do_response c).
Proof.
  unfold do_response. apply never_bind; [nv|]. intro s. destruct (a_resp s) as [|[| |v] r]; nv; try apply nev_modify.
  apply never_res, create_binary_attr.
Qed.
Ltac nm := repeat first
  [ progress nv | apply nev_sample | apply nev_toint | apply nev_modify | apply nev_randint | apply nev_coin | apply nev_do_response ].
Lemma nev_simple_read : nev (simple_read c).
Proof. unfold simple_read. nm. Qed.
Lemma nev_simple_write : nev (simple_write c).
Proof. unfold simple_write. nm. Qed.
Lemma word_at_attr m n : forall a, word_at m a n <> Err EAttribute.
Proof.
  induction n as [|n IH]; intro a; cbn; [discriminate|]. destruct (m a); [|discriminate].
  specialize (IH (a + 1)%Z). destruct (word_at m (a + 1) n); cbn; congruence.
Qed.
Lemma nev_burst_beat a n : nev (burst_beat c a n).
Proof.
  unfold burst_beat. apply never_bind; [nv|]. intro s. apply never_bind; [|intro; nm].
  destruct (a_mem s _); nm; apply never_res, word_at_attr.
Qed.
Lemma nev_need {A} b (m : M am_state am_in am_out A) : b = true -> nev m -> nev (need b m).
Proof. intros -> H. exact H. Qed.
Lemma nev_burst_read : m_wait c = true -> m_be c = true -> nev (burst_read c).
Proof.
  intros W B. unfold burst_read. nm; apply nev_need; [exact B|]. apply nev_need; [exact W|]. nm; apply nev_burst_beat.
Qed.
Lemma nev_waitrequest : m_wait c = true -> nev (waitrequest c).
Proof. intros W. unfold waitrequest. nm; apply nev_need; [exact W|]. nm. Qed.
Lemma nev_wait_write : nev (@wait_write).
Proof.
  unfold wait_write. apply never_bind; [apply nev_sample|]. intro i. nv.
  intro w. destruct (span nzero (ins w)) as [l1 [|b r]]; destruct l1; discriminate.
Qed.
Lemma nev_write_beat a n : m_wait c = true -> nev (write_beat c a n).
Proof. intros W. unfold write_beat. nm; try apply nev_wait_write. now apply nev_waitrequest. Qed.
Lemma nev_burst_write : m_wait c = true -> m_be c = true -> nev (burst_write c).
Proof.
  intros W B. unfold burst_write. apply never_bind; [now apply nev_waitrequest|]. intros []. nm.
  apply nev_need; [exact B|]. nm; now apply nev_write_beat.
Qed.
End Mem.
Ltac nm := repeat first
  [ progress nv | apply nev_sample | apply nev_toint | apply nev_modify | apply nev_randint | apply nev_coin | apply nev_do_response ].

Lemma complete_never b fuel w : complete_mem b -> fst (mem_respond b fuel w) <> Exn EAttribute.
Proof.
  intros (_ & R & W & B). revert w. change (never EAttribute (mem_respond b fuel)). unfold mem_respond.
  assert (P1 : forall i, never EAttribute (if m_readable (b_cfg b)
     then need (b_read b) (if is_one (v_read i) then (if burstread (b_cfg b) then burst_read (b_cfg b) else simple_read (b_cfg b)) else ret tt)
     else ret tt)).
  { intro i. destruct (m_readable (b_cfg b)) eqn:E; [|nv]. apply nev_need; [auto|].
    destruct (is_one (v_read i)); [|nv]. destruct (burstread (b_cfg b)) eqn:E2; [|apply nev_simple_read].
    unfold burstread in E2. apply andb_prop in E2. destruct E2 as [E2 _]. apply andb_prop in E2.
    destruct (B (proj2 E2)). now apply nev_burst_read. }
  assert (P2 : forall i, never EAttribute (if m_writeable (b_cfg b)
     then need (b_write b) (if is_one (v_write i) then (if burstwrite (b_cfg b) then burst_write (b_cfg b) else simple_write (b_cfg b)) else ret tt)
     else ret tt)).
  { intro i. destruct (m_writeable (b_cfg b)) eqn:E; [|nv]. apply nev_need; [auto|].
    destruct (is_one (v_write i)); [|nv]. destruct (burstwrite (b_cfg b)) eqn:E2; [|apply nev_simple_write].
    destruct (B E2). now apply nev_burst_write. }
  apply never_loop. intros []. apply never_bind; [|intro; nv]. unfold mem_respond_body.
  apply never_bind; [nv|intros _]. apply never_bind; [apply nev_do_response|intros _]. apply never_bind; [nv|intros _].
  apply never_bind; [apply nev_sample|intro i]. apply never_bind; [apply P1|intros _].
  apply never_bind; [apply nev_sample|exact P2].
Qed.

(** ** with the signals it is the process of AvMemModel.v *)
Lemma body_eq b : (m_readable (b_cfg b) = true -> b_read b = true) -> (m_writeable (b_cfg b) = true -> b_write b = true) ->
  forall w, mem_respond_body b w = respond_body (b_cfg b) w.
Proof.
  intros R W w. unfold mem_respond_body, respond_body.
  destruct (m_readable (b_cfg b)), (m_writeable (b_cfg b)); cbn [andb];
    rewrite ?(R eq_refl), ?(W eq_refl); reflexivity.
Qed.
Lemma loop_eq {S I O L A} fuel (f g : L -> M S I O (L + A)) : (forall l w, f l w = g l w) -> forall l w, loop fuel f l w = loop fuel g l w.
Proof.
  intro E. induction fuel as [|n IH]; intros l w; [reflexivity|]. cbn [loop]. unfold bind. rewrite E.
  destruct (g l w) as [[[l'|a]|e| |] w1]; auto.
Qed.
Lemma respond_eq b fuel w : (m_readable (b_cfg b) = true -> b_read b = true) -> (m_writeable (b_cfg b) = true -> b_write b = true) ->
  mem_respond b fuel w = respond (b_cfg b) fuel w.
Proof.
  intros R W. unfold mem_respond, respond. apply loop_eq. intros [] w1. unfold bind. now rewrite body_eq.
Qed.

(** ** the first cycle without read or write *)
Lemma dead_read b fuel s p o i0 i l : m_readable (b_cfg b) = true -> b_read b = false -> a_resp s = [] ->
  exists w, mem_respond b (S fuel) (World s p o [] (i0 :: i :: l)) = (Exn EAttribute, w) /\ ins w = i :: l.
Proof.
  intros R B E. destruct s as [m r rnd pos], b as [c rd wr]. cbn in R, B, E. subst.
  unfold mem_respond, mem_respond_body, do_response, need. cbn [b_cfg b_read b_write loop].
  destruct (m_rdv c) eqn:V; cbn; rewrite ?V; cbn; rewrite R; cbn; eexists; split; reflexivity.
Qed.
Lemma dead_write b fuel s p o i0 i l : m_writeable (b_cfg b) = true -> b_write b = false -> a_resp s = [] ->
  (m_readable (b_cfg b) = true -> b_read b = true /\ v_read i <> L1) ->
  exists w, mem_respond b (S fuel) (World s p o [] (i0 :: i :: l)) = (Exn EAttribute, w) /\ ins w = i :: l.
Proof.
  intros R B E N. destruct s as [m r rnd pos], b as [c rd wr]. cbn in R, B, E, N. subst.
  unfold mem_respond, mem_respond_body, do_response, need. cbn [b_cfg b_read b_write loop].
  destruct (m_rdv c) eqn:V; cbn; rewrite ?V; cbn; rewrite R; cbn;
    (destruct (m_readable c) eqn:Y;
       [destruct (N eq_refl) as [-> N2]; cbn; destruct (v_read i) eqn:Z; try (exfalso; apply N2; reflexivity)|]);
    unfold bind, edge, get, sample; cbn; rewrite ?Z; cbn; eexists; split; reflexivity.
Qed.

Lemma mem_next b f w w' : mem_respond_body b w = (Done tt, w') -> mem_respond b (S f) w = mem_respond b f w'.
Proof. intro H. unfold mem_respond. cbn [loop]. unfold bind. rewrite H. reflexivity. Qed.
Lemma mem_susp b f w w' : mem_respond_body b w = (Susp, w') -> mem_respond b (S f) w = (Susp, w').
Proof. intro H. unfold mem_respond. cbn [loop]. unfold bind. rewrite H. reflexivity. Qed.

(** ** the process of a memory that has been rejected *)
Lemma ghost b fuel s p o i0 i1 i2 a v : m_readable (b_cfg b) = true -> b_read b = true -> m_writeable (b_cfg b) = false ->
  m_rdv (b_cfg b) = false -> m_latmin (b_cfg b) = 1 -> m_latmax (b_cfg b) = 1 ->
  a_resp s = [] -> v_read i1 = L1 -> bval (v_addr i1) = Some a -> a_mem s a = Some v ->
  (0 <= v < 2 ^ Z.of_nat (m_width (b_cfg b)))%Z -> 2 <= m_width (b_cfg b) -> v_read i2 <> L1 ->
  let '(r, w) := mem_respond b (4 + fuel) (World s p o [] [i0; i1; i2]) in
  r = Susp /\ w_data (out w) = zbits (m_width (b_cfg b)) v.
Proof.
  intros R B W V L1' L2' E N A Mv Fit Wd N2. destruct s as [m r rnd pos], b as [c rd wr].
  cbn in R, B, W, V, L1', L2', E, A, Mv, Fit, Wd. subst.
  assert (C : create_binary (BInt v) (m_width c) false = Ok (zbits (m_width c) v)).
  { unfold create_binary, logicarray_of_int. destruct (Nat.eqb_spec (m_width c) 1) as [|_]; [lia|].
    destruct (Z.leb_spec 0 v), (Z.ltb_spec v (2 ^ Z.of_nat (m_width c))); try lia. reflexivity. }
  pose (b := MemBus c true wr).
  assert (S1 : forall q, mem_respond_body b (World (AmState m [] rnd pos) q o [] [i0; i1; i2])
          = (Done tt, World (AmState m [RNone; RVal v] rnd (S pos)) PReadOnly o [(i0, o)] [i1; i2])).
  { intro q. unfold mem_respond_body, do_response, need, simple_read, randint, burstread, is_one, b. cbn [b_cfg b_read b_write].
    rewrite R, W, V, L1', L2', andb_false_r. cbn -[bval]. rewrite N. cbn -[bval]. unfold bind, draw, modify, sample, toint, bind; cbn -[bval]. rewrite A. cbn -[bval]. unfold mem_resp. rewrite Mv. reflexivity. }
  assert (S2 : forall q, mem_respond_body b (World (AmState m [RNone; RVal v] rnd (S pos)) q o [(i0, o)] [i1; i2])
          = (Done tt, World (AmState m [RVal v] rnd (S pos)) PReadOnly o [(i0, o); (i1, o)] [i2])).
  { intro q. unfold mem_respond_body, do_response, need, b, is_one. cbn [b_cfg b_read b_write].
    rewrite R, W, V. cbn. destruct (v_read i2); try congruence; reflexivity. }
  assert (S3 : forall q, exists w, mem_respond_body b (World (AmState m [RVal v] rnd (S pos)) q o [(i0, o); (i1, o)] [i2]) = (Susp, w)
           /\ w_data (out w) = zbits (m_width c) v).
  { intro q. eexists. unfold mem_respond_body, do_response, need, b. cbn [b_cfg b_read b_write].
    rewrite R, W, V. unfold bind, edge, get, modify, bind. cbn -[create_binary]. rewrite C. cbn. split; reflexivity. }
  destruct (S3 PReadOnly) as [w [S4 S5]].
  assert (E : mem_respond b (4 + fuel) (World (AmState m [] rnd pos) p o [] [i0; i1; i2]) = (Susp, w)).
  { etransitivity; [exact (mem_next b (3 + fuel) _ _ (S1 p))|].
    etransitivity; [exact (mem_next b (2 + fuel) _ _ (S2 PReadOnly))|].
    exact (mem_susp b (1 + fuel) _ _ S4). }
  unfold b in E. rewrite E. auto.
Qed.

(** ** the master *)
Section Stays.
Context {S I O : Type}.
Definition stays {A} (m : M S I O A) : Prop := forall w, st (snd (m w)) = st w.
Lemma stays_bind {A B} (m : M S I O A) (k : A -> M S I O B) : stays m -> (forall a, stays (k a)) -> stays (bind m k).
Proof.
  intros H K w. unfold bind. specialize (H w). destruct (m w) as [[a|e| |] w1]; cbn [snd] in *; auto.
  rewrite (K a w1). exact H.
Qed.
Lemma stays_ret {A} (a : A) : stays (ret a). Proof. intro. reflexivity. Qed.
Lemma stays_raise {A} e : stays (@raise S I O A e). Proof. intro. reflexivity. Qed.
Lemma stays_edge : stays edge. Proof. intro w. unfold edge. destruct (ins w); reflexivity. Qed.
Lemma stays_mid : stays midstep. Proof. intros w. unfold midstep. destruct (ins w); try destruct (ph w); reflexivity. Qed.
Lemma stays_readonly : stays readonly. Proof. intro w. unfold readonly. destruct (ph w), (ins w); reflexivity. Qed.
Lemma stays_input : stays input. Proof. intro w. unfold input. destruct (ins w); reflexivity. Qed.
Lemma stays_drive f : stays (drive f). Proof. intro w. unfold drive. destruct (ph w); reflexivity. Qed.
Lemma stays_res {A} (r : res A) : stays (of_res r). Proof. intro w. destruct r; reflexivity. Qed.
Lemma stays_loop {L A} fuel (body : L -> M S I O (L + A)) : (forall l, stays (body l)) -> forall l, stays (loop fuel body l).
Proof.
  intro H. induction fuel as [|f IH]; intros l w; [reflexivity|]. cbn [loop]. apply stays_bind; [apply H|].
  intros [l'|a]; [apply IH|apply stays_ret].
Qed.
Lemma stays_edge_of {K} (eqb : K -> K -> bool) key : stays (edge_of eqb key).
Proof.
  intro w. unfold edge_of. destruct (ins w) as [|i r]; [reflexivity|].
  destruct (edge_of_rest _ _ _ _ _ _) as [[? ?]|]; reflexivity.
Qed.
End Stays.
Ltac sv := repeat match goal with
  | |- stays (ret _) => apply stays_ret
  | |- stays edge => apply stays_edge
  | |- stays midstep => apply stays_mid
  | |- stays input => apply stays_input
  | |- stays readonly => apply stays_readonly
  | |- stays (drive _) => apply stays_drive
  | |- stays (raise _) => apply stays_raise
  | |- stays (of_res _) => apply stays_res
  | |- stays (edge_of _ _) => apply stays_edge_of
  | |- stays (loop _ _ _) => apply stays_loop; intro
  | |- stays (if ?b then _ else _) => destruct b
  | |- stays (match ?b with _ => _ end) => destruct b
  | |- stays (bind _ _) => apply stays_bind; [|intro]
  end.

(** lines 117-149 *)
Definition read_part (c : mm_cfg) (fuel : nat) (address : Z) (sync : bool) : M bool mm_in mm_out unit :=
  mm_when sync edge ;;
  a <- of_res (PktModel.assign_int (a_width c) address) ;;
  drive (q_set_addr a) ;; drive (q_set_read L1) ;; set_be_all c ;; mm_when (a_cs c) (drive (q_set_cs L1)) ;;
  mm_when (a_wait c) (wait_for_nsignal i_wait fuel) ;;
  edge ;; drive (q_set_read L0) ;; set_be_none c ;; mm_when (a_cs c) (drive (q_set_cs L0)) ;;
  drive (q_set_addr (xs (a_width c))) ;;
  (if a_rdv c then loop fuel rdv_body tt else readonly).
Lemma read_part_stays c fuel address sync : stays (read_part c fuel address sync).
Proof.
  unfold read_part, mm_when, set_be_all, set_be_none, wait_for_nsignal, nsignal_body, rdv_body. sv.
Qed.
Definition acquired (c : mm_cfg) : M bool mm_in mm_out unit :=
  (if a_read c then ret tt else raise EAssertion) ;; acquire_lock.
Lemma mm_read_parts c fuel address sync w :
  mm_read c fuel address sync w =
  bind (acquired c) (fun _ => bind (read_part c fuel address sync) (fun _ => i <- input ;; release_lock ;; ret (i_rdata i))) w.
Proof.
  unfold mm_read, acquired, read_part. rewrite !bind_assoc. unfold bind.
  repeat (match goal with |- context [let (_, _) := ?m in _] => destruct m as [[?|?| |] ?] end; try reflexivity).
Qed.
Lemma master_read_parts b fuel address sync w :
  master_read b fuel address sync w =
  bind (acquired (e_cfg b)) (fun _ => bind (read_part (e_cfg b) fuel address sync) (fun _ =>
    (if e_rdata b then ret tt else raise EAttribute) ;; i <- input ;; release_lock ;; ret (i_rdata i))) w.
Proof.
  unfold master_read, acquired, read_part. rewrite !bind_assoc. unfold bind.
  repeat (match goal with |- context [let (_, _) := ?m in _] => destruct m as [[?|?| |] ?] end; try reflexivity).
Qed.
Lemma master_read_eq b fuel address sync w : e_rdata b = true ->
  master_read b fuel address sync w = mm_read (e_cfg b) fuel address sync w.
Proof. intro E. rewrite master_read_parts, mm_read_parts, E. reflexivity. Qed.

Lemma master_locked b fuel address value sync w : st w = true ->
  (a_read (e_cfg b) = true -> master_read b fuel address sync w = (Susp, w))
  /\ (a_write (e_cfg b) = true -> mm_write (e_cfg b) fuel address value w = (Susp, w)).
Proof.
  destruct w as [s p o tr l]. cbn [st]. intros ->. split; intro E.
  - rewrite master_read_parts. unfold acquired. rewrite E. reflexivity.
  - unfold mm_write. rewrite E. reflexivity.
Qed.
Lemma master_broken b fuel address sync w d w' : e_rdata b = false ->
  mm_read (e_cfg b) fuel address sync w = (Done d, w') ->
  exists w1, master_read b fuel address sync w = (Exn EAttribute, w1)
    /\ trace w1 = trace w' /\ out w1 = out w' /\ ins w1 = ins w' /\ st w1 = true.
Proof.
  intros E. rewrite master_read_parts, mm_read_parts, E.
  destruct w as [s p o tr l]. unfold acquired, bind. destruct (a_read (e_cfg b)); cbn; [|discriminate].
  destruct s; cbn; [discriminate|].
  pose proof (read_part_stays (e_cfg b) fuel address sync (World true p o tr l)) as K.
  destruct (read_part (e_cfg b) fuel address sync (World true p o tr l)) as [[[]|e| |] w1]; try discriminate.
  destruct w1 as [s1 p1 o1 tr1 [|i l1]]; cbn in *; [discriminate|]. intro H. injection H as <- <-.
  subst s1. eexists. split; [reflexivity|]. cbn. auto.
Qed.

(** with readdata, never AttributeError *)
Lemma nev_nsignal {S I O} (key : I -> logic) fuel : never (S := S) (O := O) EAttribute (wait_for_nsignal key fuel).
Proof.
  unfold wait_for_nsignal, nsignal_body. apply never_bind; [nv|intros _]. apply never_bind; [|intros _; nv].
  apply never_loop. intros _. apply never_bind; [nv|intro i]. destruct (key i); nv.
  intro w. unfold edge_of. destruct (ins w); [discriminate|]. destruct (edge_of_rest _ _ _ _ _ _) as [[? ?]|]; discriminate.
Qed.
Lemma nev_assign n z : never (S := bool) (I := mm_in) (O := mm_out) EAttribute (of_res (PktModel.assign_int n z)).
Proof. apply never_res. unfold PktModel.assign_int. destruct (_ && _); discriminate. Qed.
Lemma nev_acquire : never (I := mm_in) (O := mm_out) EAttribute acquire_lock.
Proof. unfold acquire_lock. apply never_bind; [nv|]. intros []; [intro; discriminate|nv]. Qed.
Lemma nev_set_be c : never EAttribute (set_be_all c) /\ never EAttribute (set_be_none c).
Proof. unfold set_be_all, set_be_none. destruct (a_be c); split; nv. Qed.
Lemma nev_rdv fuel : never EAttribute (loop fuel rdv_body tt).
Proof.
  apply never_loop. intro. unfold rdv_body. apply never_bind; [nv|intros _]. apply never_bind; [nv|intro i].
  destruct (i_rdv i); nv.
Qed.
Ltac nw := repeat first [ progress nv | apply nev_nsignal | apply nev_assign | apply nev_acquire | apply nev_rdv
  | apply (proj1 (nev_set_be _)) | apply (proj2 (nev_set_be _)) ].
Lemma nev_read b fuel address sync : (a_read (e_cfg b) = true -> e_rdata b = true) -> never EAttribute (master_read b fuel address sync).
Proof.
  intros E w. destruct (a_read (e_cfg b)) eqn:R.
  - rewrite master_read_eq by auto. revert w. change (never EAttribute (mm_read (e_cfg b) fuel address sync)).
    unfold mm_read, mm_when, release_lock. nw.
  - rewrite master_read_parts. unfold acquired. rewrite R. discriminate.
Qed.
Lemma nev_write c fuel address value : never EAttribute (mm_write c fuel address value).
Proof. unfold mm_write, mm_when, release_lock. nw. Qed.
