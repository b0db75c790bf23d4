(** PktIterProof.v -- words sent as an iterable (C74). *)
From Verif Require Import Base Async DrvUtilModel HandshakeSpec Handshake PktModel PktSpec PktProof.
From Verif Require AvalonSTProof BitsLemmas.
Local Open Scope list_scope.

Section Iter.
Context (c : pcfg).
Notation acc := (k_accepts (c_ready c)).
Notation off := k_offered.
Notation tx := (tx off acc).
Notation free := (free off acc).
Notation world := (world valid logic pk_out).

Definition irest (fuel f : nat) (sync : bool) (n : nat) : M valid logic pk_out unit :=
  bind (bind (pk_wait c fuel) (fun _ => loop f (pk_iter_body c fuel sync) (repeat None n, false))) (fun _ => edge).
Lemma irest_unfold fuel f sync n w :
  irest fuel (S f) sync n w =
  bind (bind (pk_wait c fuel) (fun _ => edge))
    (fun _ => match n with
              | O => ret tt
              | S n => bind (gap_code (k_set_valid L0)) (fun _ => bind (drive (k_set_valid L1)) (fun _ => irest fuel f sync n))
              end) w.
Proof.
  unfold irest. rewrite !bind_assoc. apply bind_ext. intros [] w1. cbn [loop].
  destruct n as [|n].
  - cbn [repeat pk_iter_body]. unfold bind, ret. destruct (edge w1) as [[[]|e| |] w2]; reflexivity.
  - cbn [repeat pk_iter_body negb orb]. rewrite !bind_assoc. apply bind_ext. intros [] w2.
    rewrite !bind_assoc. apply bind_ext. intros [] w3. rewrite !bind_assoc. apply bind_ext.
    intros [] w4. rewrite !bind_assoc. apply bind_ext. intros [] w5. reflexivity.
Qed.
Lemma tx_irest fuel sync : forall f n s p o tr l (Q : unit -> world -> Prop),
  n < f -> length l < fuel -> p <> PReadOnly -> free tr ->
  (forall s' tr' i l', acc i = true -> Q tt (World s' PActive (k_set_valid L1 o) (tr' ++ [(i, k_set_valid L1 o)]) l')) ->
  tx (irest fuel f sync n) (World s p (k_set_valid L1 o) tr l) (repeat (k_set_valid L1 o) (S n)) (1 + cost n s) Q.
Proof.
  induction f as [|f IH]; intros n s p o tr l Q Hf Hl Hp Hfree HQ; [lia|].
  intro S. rewrite irest_unfold. revert S.
  change (tx (bind (bind (pk_wait c fuel) (fun _ => edge))
    (fun _ => match n with
              | O => ret tt
              | S n => bind (gap_code (k_set_valid L0)) (fun _ => bind (drive (k_set_valid L1)) (fun _ => irest fuel f sync n))
              end)) (World s p (k_set_valid L1 o) tr l) ([k_set_valid L1 o] ++ repeat (k_set_valid L1 o) n) (1 + cost n s) Q).
  apply tx_bind. apply tx_offer; cbn [ins st out trace]; [|reflexivity|apply Hfree|].
  { destruct (AvalonSTProof.wait_spec (c_ready c) fuel s p (k_set_valid L1 o) tr l Hl Hp) as [p' E]. exists p'. exact E. }
  intros tr1 i l1 Hi Hl1.
  destruct n as [|n].
  - apply tx_ret. apply HQ; assumption.
  - rewrite cost_S. replace (1 + fst (throttle s) + _) with (fst (throttle s) + (1 + cost n (snd (throttle s)))) by lia.
    change (repeat (k_set_valid L1 o) (S n)) with ([] ++ repeat (k_set_valid L1 o) (S n)).
    apply tx_bind. apply tx_gap; [discriminate|apply free_accept; exact Hi|reflexivity|].
    intros p2 tr2 l2 o2 Hp2 Hf2 Ho2 Hl2. cbn [ins] in Hl1, Hl2. apply tx_drive; [exact Hp2|].
    replace (k_set_valid L1 o2) with (k_set_valid L1 o) by (destruct Ho2 as [-> | ->]; reflexivity).
    apply IH; [lia|lia|exact Hp2|exact Hf2|exact HQ].
Qed.

Lemma iter_send_tx fuel n (sync : bool) s p o l :
  p <> PReadOnly -> k_offered o = false -> length l < fuel -> n < fuel ->
  tx (pk_send_iterable c fuel (repeat None n) sync) (World s p o [] l) (repeat (k_set_valid L1 o) n)
     (2 + cost n s) (fun _ w => k_valid (out w) = L0 /\ free (trace w)).
Proof.
  intros Hp Ho Hl Hn. destruct fuel as [|f]; [lia|]. destruct n as [|n].
  - unfold pk_send_iterable. cbn [repeat loop pk_iter_body]. intro S.
    assert (E : bind (bind (ret (inr tt)) (fun x : list (option bool) * bool + unit => match x with inl b => loop f (pk_iter_body c (Datatypes.S f) sync) b | inr y => ret y end))
       (fun _ => bind edge (fun _ => drive (k_set_valid L0))) (World s p o [] l) = bind edge (fun _ => drive (k_set_valid L0)) (World s p o [] l)) by reflexivity.
    rewrite E. revert S. change (@nil pk_out) with (@nil pk_out ++ []).
    apply (tx_conseq _ _ _ _ _ (1 + 0) _ (fun _ w => k_valid (out w) = L0 /\ free (trace w))); [|unfold cost; lia|auto].
    apply tx_bind. apply tx_edge; [exact Ho|apply free_nil|exact Hp|].
    intros p' tr' l' Hp' Hf' _. apply tx_drive_last; [exact Hp'|]. split; [reflexivity|exact Hf'].
  - assert (E : forall w, pk_send_iterable c (S f) (repeat None (S n)) sync w =
      bind (if sync then edge else ret tt) (fun _ => bind (gap_code (k_set_valid L0)) (fun _ => bind (drive (k_set_valid L1))
        (fun _ => bind (irest (S f) f sync n) (fun _ => drive (k_set_valid L0))))) w).
    { intro w. unfold pk_send_iterable. cbn [repeat loop pk_iter_body negb orb]. unfold irest. rewrite !bind_assoc.
      apply bind_ext. intros [] w1. rewrite !bind_assoc. apply bind_ext. intros [] w2. rewrite !bind_assoc. apply bind_ext.
      intros [] w3. rewrite !bind_assoc. apply bind_ext. intros [] w4. reflexivity. }
    intro S. rewrite E. revert S. rewrite cost_S.
    change (repeat (k_set_valid L1 o) (S n)) with ([] ++ repeat (k_set_valid L1 o) (S n)).
    apply (tx_conseq _ _ _ _ _ (1 + (fst (throttle s) + (1 + cost n (snd (throttle s))))) _ (fun _ w => k_valid (out w) = L0 /\ free (trace w))); [|lia|auto].
    assert (R : forall p1 tr1 l1, p1 <> PReadOnly -> free tr1 -> length l1 <= length l ->
      tx (bind (gap_code (k_set_valid L0)) (fun _ => bind (drive (k_set_valid L1))
        (fun _ => bind (irest (S f) f sync n) (fun _ => drive (k_set_valid L0))))) (World s p1 o tr1 l1)
        (repeat (k_set_valid L1 o) (S n)) (fst (throttle s) + (1 + cost n (snd (throttle s)))) (fun _ w => k_valid (out w) = L0 /\ free (trace w))).
    { intros p1 tr1 l1 Hp1 Hf1 Hl1. change (repeat (k_set_valid L1 o) (S n)) with ([] ++ repeat (k_set_valid L1 o) (S n)).
      apply tx_bind. apply tx_gap; [exact Hp1|exact Hf1|reflexivity|].
      intros p2 tr2 l2 o2 Hp2 Hf2 Ho2 Hl2. cbn [ins] in Hl2. apply tx_drive; [exact Hp2|].
      replace (k_set_valid L1 o2) with (k_set_valid L1 o) by (destruct Ho2 as [-> | ->]; reflexivity).
      replace (1 + cost n (snd (throttle s))) with ((1 + cost n (snd (throttle s))) + 0) by lia.
      rewrite <- (app_nil_r (repeat (k_set_valid L1 o) (S n))).
      apply tx_bind. apply tx_irest; [lia|lia|exact Hp2|exact Hf2|].
      intros s' tr' i l' Hi Hlen. apply tx_drive_last; [discriminate|]. split; [reflexivity|apply free_accept; exact Hi]. }
    apply tx_bind. destruct sync.
    + apply tx_edge; [exact Ho|apply free_nil|exact Hp|]. intros p' tr' l' Hp' Hf' Hl'. cbn [ins] in Hl'. apply R; [exact Hp'|exact Hf'|exact Hl'].
    + apply tx_ret. cbn [ins]. intros _. apply R; [exact Hp|apply free_nil|lia].
Qed.
Lemma iter_count_thm fuel n (sync : bool) s p o l :
  p <> PReadOnly -> k_offered o = false -> length l < fuel -> n < fuel ->
  let '(r, w) := pk_send_iterable c fuel (repeat None n) sync (World s p o [] l) in
  (forall i, stable off acc (trace w ++ [(i, out w)])) /\
  match r with
  | Done _ => transfers off acc (trace w) = repeat (k_set_valid L1 o) n /\ k_valid (out w) = L0
  | Susp => ready_cycles acc l < 2 + n + list_sum (gaps n s) /\ length (transfers off acc (trace w)) <= n
  | _ => False
  end.
Proof.
  intros Hp Ho Hl Hn. pose proof (tx_result off acc _ s p o l _ _ _ (iter_send_tx fuel n sync s p o l Hp Ho Hl Hn)) as T.
  specialize (T ltac:(intros a w H; apply H)). destruct (pk_send_iterable _ _ _ _ _) as [r w].
  destruct T as (_ & T2 & T3). split; [exact T2|]. destruct r; try contradiction.
  - destruct T3 as [A [B _]]. split; assumption.
  - destruct T3 as (_ & A & k & B). unfold cost in A. split; [lia|]. rewrite B, firstn_length, repeat_length. lia.
Qed.
End Iter.

(** ** words with a valid attribute that is 0 *)
Section Idle.
Context (c : pcfg).
Notation world := (world valid logic pk_out).
Notation M := (M valid logic pk_out).
Definition quiet (tr tr' : list (logic * pk_out)) (k : nat) : Prop :=
  exists d, tr' = tr ++ d /\ length d = k /\ Forall (fun x => k_offered (snd x) = false) d.
(** m takes k cycles whatever the inputs are, offers nothing and leaves the state f *)
Definition dull {A} (m : M A) (a : A) (k : nat) (s s' : valid) : Prop :=
  forall p o tr l, p <> PReadOnly -> k_offered o = false ->
  (k <= length l -> exists p' o' tr', m (World s p o tr l) = (Done a, World s' p' o' tr' (skipn k l)) /\
     p' <> PReadOnly /\ k_offered o' = false /\ quiet tr tr' k) /\
  (length l < k -> exists w, m (World s p o tr l) = (Susp, w) /\ quiet tr (trace w) (length l)).
Lemma quiet_nil tr : quiet tr tr 0.
Proof. exists []. rewrite app_nil_r. repeat split. constructor. Qed.
Lemma quiet_app a b d j k : quiet a b j -> quiet b d k -> quiet a d (j + k).
Proof.
  intros (x & -> & Lx & Fx) (y & -> & Ly & Fy). exists (x ++ y). rewrite app_assoc, app_length, Lx, Ly. split; [reflexivity|]. split; [reflexivity|].
  apply Forall_app. split; assumption.
Qed.
Lemma dull_ret {A} (a : A) s : dull (ret a) a 0 s s.
Proof.
  intros p o tr l Hp Ho. split; [|lia]. intros _. exists p, o, tr. repeat split; try assumption. apply quiet_nil.
Qed.
Lemma dull_bind {A B} (m : M A) (f : A -> M B) a b j k s s' s'' : dull m a j s s' -> dull (f a) b k s' s'' -> dull (bind m f) b (j + k) s s''.
Proof.
  intros D1 D2 p o tr l Hp Ho. destruct (D1 p o tr l Hp Ho) as [A1 B1]. unfold bind. destruct (Nat.le_gt_cases j (length l)) as [L|L].
  - destruct (A1 L) as (p' & o' & tr' & -> & Hp' & Ho' & Q). destruct (D2 p' o' tr' (skipn j l) Hp' Ho') as [A2 B2]. rewrite skipn_length in A2, B2. split.
    + intros K. destruct (A2 ltac:(lia)) as (p2 & o2 & tr2 & E & Hp2 & Ho2 & Q2). exists p2, o2, tr2. rewrite E.
      split; [|split; [exact Hp2|split; [exact Ho2|exact (quiet_app _ _ _ _ _ Q Q2)]]].
      rewrite BitsLemmas.skipn_skipn. reflexivity.
    + intros K. destruct (B2 ltac:(lia)) as (w & E & Q2). exists w. split; [exact E|]. pose proof (quiet_app _ _ _ _ _ Q Q2) as Q3.
      replace (j + (length l - j)) with (length l) in Q3 by lia. exact Q3.
  - split; [lia|]. intros _. destruct (B1 L) as (w & -> & Q). exists w. split; [reflexivity|exact Q].
Qed.
Lemma dull_edge s : dull edge tt 1 s s.
Proof.
  intros p o tr l Hp Ho. destruct l as [|i l]; cbn [length]; split; intros L; try lia.
  - exists (World s p o tr []). split; [reflexivity|]. apply quiet_nil.
  - exists PActive, o, (tr ++ [(i, o)]). split; [reflexivity|]. split; [discriminate|]. split; [exact Ho|].
    exists [(i, o)]. repeat split. repeat constructor. exact Ho.
Qed.
Lemma dull_edges n s : dull (edges n) tt n s s.
Proof.
  induction n as [|n IH]; [apply dull_ret|]. cbn [edges]. change (S n) with (1 + n). apply (dull_bind _ _ tt _ _ _ _ s); [apply dull_edge|exact IH].
Qed.
Lemma dull_low s : dull (drive (k_set_valid L0)) tt 0 s s.
Proof.
  intros p o tr l Hp Ho. split; [|lia]. intros _. exists p, (k_set_valid L0 o), tr.
  split; [destruct p; [reflexivity|congruence|reflexivity]|]. split; [exact Hp|]. split; [reflexivity|apply quiet_nil].
Qed.
Lemma dull_gap s : dull (gap_code (k_set_valid L0)) tt (fst (throttle s)) s (snd (throttle s)).
Proof.
  unfold gap_code. change (fst (throttle s)) with (0 + (0 + fst (throttle s))) at 1. apply (dull_bind _ _ s _ _ _ _ s).
  { intros p o tr l Hp Ho. split; [|lia]. intros _. exists p, o, tr. repeat split; try assumption. apply quiet_nil. }
  apply (dull_bind _ _ tt _ _ _ _ s).
  { destruct (truthy (v_on s)); [apply dull_ret|apply dull_low]. }
  rewrite <- (Nat.add_0_r (fst (throttle s))) at 2. apply (dull_bind _ _ tt _ _ _ _ s); [apply dull_edges|].
  intros p o tr l Hp Ho. split; [|lia]. intros _. exists p, o, tr. repeat split; try assumption. apply quiet_nil.
Qed.
Fixpoint settle (n : nat) (s : valid) : valid := match n with O => s | S n => settle n (snd (throttle s)) end.
Lemma dull_words fuel sync : forall f n s first, n < f ->
  dull (loop f (pk_iter_body c fuel sync) (repeat (Some false) n, first)) tt
    ((if first then if sync then n else n - 1 else n) + list_sum (gaps n s)) s (settle n s).
Proof.
  induction f as [|f IH]; intros n s first L; [lia|]. cbn [loop]. destruct n as [|n].
  - cbn [repeat pk_iter_body gaps settle list_sum fold_right]. intros p o tr l Hp Ho.
    replace (if first then if sync then 0 else 0 - 1 else 0) with 0 by (destruct first, sync; reflexivity). apply dull_ret; assumption.
  - cbn [repeat pk_iter_body settle].
    assert (E : (if first then if sync then S n else S n - 1 else S n) + list_sum (gaps (S n) s)
                = ((if negb first || sync then 1 else 0) + (fst (throttle s) + (0 + (0 + 0)))) + (n + list_sum (gaps n (snd (throttle s))))).
    { cbn [gaps]. destruct (throttle s) as [g s']. change (list_sum (g :: gaps n s')) with (g + list_sum (gaps n s')). cbn [fst snd].
      destruct first, sync; cbn [negb orb]; lia. }
    rewrite E. apply (dull_bind _ _ (inl (repeat (Some false) n, false)) _ _ _ _ (snd (throttle s))); [|apply (IH n (snd (throttle s)) false); lia].
    apply (dull_bind _ _ tt _ _ _ _ s); [destruct (negb first || sync); [apply dull_edge|apply dull_ret]|].
    apply (dull_bind _ _ tt _ _ _ _ (snd (throttle s))); [apply dull_gap|].
    apply (dull_bind _ _ tt _ _ _ _ (snd (throttle s))); [apply dull_ret|].
    apply (dull_bind _ _ tt _ _ _ _ (snd (throttle s))); apply dull_ret.
Qed.
Lemma iter_idle_thm fuel n (sync : bool) s p o l : p <> PReadOnly -> k_offered o = false -> n < fuel ->
  let cycles := 1 + (if sync then n else n - 1) + list_sum (gaps n s) in
  let '(r, w) := pk_send_iterable c fuel (repeat (Some false) n) sync (World s p o [] l) in
  r = (if cycles <=? length l then Done tt else Susp) /\ length (trace w) = Nat.min cycles (length l) /\
  Forall (fun x => k_offered (snd x) = false) (trace w).
Proof.
  intros Hp Ho Hn cycles.
  assert (D : dull (pk_send_iterable c fuel (repeat (Some false) n) sync) tt (((if sync then n else n - 1) + list_sum (gaps n s)) + (1 + 0)) s (settle n s)).
  { unfold pk_send_iterable. apply (dull_bind _ _ tt _ _ _ _ (settle n s)); [apply (dull_words fuel sync fuel n s true Hn)|].
    apply (dull_bind _ _ tt _ _ _ _ (settle n s)); [apply dull_edge|apply dull_low]. }
  destruct (D p o [] l Hp Ho) as [A B]. replace (((if sync then n else n - 1) + list_sum (gaps n s)) + (1 + 0)) with cycles in A, B by (unfold cycles; lia).
  destruct (Nat.leb_spec cycles (length l)) as [L|L].
  - destruct (A L) as (p' & o' & tr' & -> & _ & _ & d & -> & Ld & Fd). cbn [app trace]. split; [reflexivity|]. split; [lia|exact Fd].
  - destruct (B L) as (w & -> & d & Ed & Ld & Fd). cbn [app] in Ed. rewrite Ed. split; [reflexivity|]. split; [lia|exact Fd].
Qed.
End Idle.
