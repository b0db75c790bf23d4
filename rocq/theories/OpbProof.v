(** OpbProof.v *)
From Verif Require Import Base Async BitsLemmas CompatModel PktModel MMModel MMSpec MMProof OpbModel OpbSpec.
Local Open Scope list_scope.

(** ** the timeout counter *)
Definition cnt (l : list opb_in) : nat :=
  fold_left (fun c i => match p_sup i with L1 => 0 | _ => c + 1 end) l 0.
Lemma cnt_snoc l i : cnt (l ++ [i]) = match p_sup i with L1 => 0 | _ => cnt l + 1 end.
Proof. unfold cnt. rewrite fold_left_app. reflexivity. Qed.
Definition sup_ok (i : opb_in) : Prop := p_sup i = L0 \/ p_sup i = L1.

Lemma cnt_tail l : Forall sup_ok l -> exists a b, l = a ++ b /\ length b = cnt l /\ Forall (fun i => p_sup i = L0) b.
Proof.
  induction l as [|i l IH] using rev_ind; intro H; [exists [], []; repeat split; constructor|].
  apply Forall_app in H. destruct H as [H Hi]. apply Forall_inv in Hi. rewrite cnt_snoc.
  destruct (IH H) as (a & b & E & L & F). destruct Hi as [Hi|Hi]; rewrite Hi.
  - exists a, (b ++ [i]). split; [rewrite E at 1; symmetry; apply app_assoc|].
    split; [rewrite app_length, L; reflexivity|].
    apply Forall_app. split; [exact F|]. constructor; [exact Hi|constructor].
  - exists (l ++ [i]), []. rewrite app_nil_r. repeat split. constructor.
Qed.
Lemma cnt_ge a b : Forall (fun i => p_sup i = L0) b -> length b <= cnt (a ++ b).
Proof.
  induction b as [|i b IH] using rev_ind; intro H; [cbn; lia|].
  apply Forall_app in H. destruct H as [H Hi]. apply Forall_inv in Hi.
  rewrite app_assoc, cnt_snoc, Hi, app_length. cbn. specialize (IH H). lia.
Qed.
Lemma expired_cnt l : expired l -> 16 <= cnt l.
Proof. intros (a & b & E & L & F). subst l. rewrite <- L. apply cnt_ge, F. Qed.
Lemma cnt_expired l : Forall sup_ok l -> 16 <= cnt l -> expired l.
Proof.
  intros H G. destruct (cnt_tail l H) as (a & b & E & L & F).
  exists (a ++ firstn (length b - 16) b), (skipn (length b - 16) b). rewrite <- app_assoc, firstn_skipn. split; [exact E|].
  split; [rewrite skipn_length; lia|]. rewrite <- (firstn_skipn (length b - 16) b) in F.
  apply Forall_app in F. apply F.
Qed.
Lemma waiting_cnt l : waiting l -> cnt l < 16.
Proof.
  intros [A B C]. destruct (Nat.lt_ge_cases (cnt l) 16) as [H|H]; [exact H|].
  exfalso. apply (C l []); [symmetry; apply app_nil_r|]. apply cnt_expired; assumption.
Qed.
Lemma app_snoc_split {A} (l : list A) x a b : l ++ [x] = a ++ b -> (b = [] /\ a = l ++ [x]) \/ exists b', l = a ++ b'.
Proof.
  intro E. destruct b as [|y b] using rev_ind.
  - left. rewrite app_nil_r in E. auto.
  - right. rewrite app_assoc in E. apply app_inj_tail in E. exists b. apply E.
Qed.
Lemma waiting_snoc l i : waiting l -> p_ack i = L0 -> sup_ok i -> ~ expired (l ++ [i]) -> waiting (l ++ [i]).
Proof.
  intros [A B C] Ha Hs He. constructor.
  - apply Forall_app. split; [exact A|]. constructor; [exact Ha|constructor].
  - apply Forall_app. split; [exact B|]. constructor; [exact Hs|constructor].
  - intros a b E. apply app_snoc_split in E. destruct E as [[-> ->]|[b' E]]; [exact He|]. apply (C a b' E).
Qed.
Lemma waiting_app a b : waiting (a ++ b) -> waiting a.
Proof.
  intros [A B C]. apply Forall_app in A. apply Forall_app in B. constructor; [apply A|apply B|].
  intros x y E. apply (C x (y ++ b)). rewrite app_assoc, E. reflexivity.
Qed.
Lemma waiting_nil : waiting [].
Proof.
  constructor; [constructor|constructor|]. intros a b E (x & y & E' & L & _).
  destruct a; [|discriminate]. destruct x; [|discriminate]. destruct y; [discriminate L|discriminate].
Qed.

(** ** how the wait can end *)
Inductive ending := EdAck | EdTimeout | EdSup | EdAckX.
Definition ends (w : list opb_in) (i : opb_in) (e : ending) : Prop :=
  waiting w /\
  match e with
  | EdAck => sup_ok i /\ ~ expired (w ++ [i]) /\ p_ack i = L1
  | EdTimeout => sup_ok i /\ expired (w ++ [i])
  | EdSup => ~ sup_ok i
  | EdAckX => sup_ok i /\ ~ expired (w ++ [i]) /\ p_ack i <> L0 /\ p_ack i <> L1
  end.
Definition end_exn (e : ending) : option exn :=
  match e with EdAck => None | EdTimeout => Some EOPB | EdSup => Some EValue | EdAckX => Some EValue end.

Lemma sup_dec i : {sup_ok i} + {~ sup_ok i}.
Proof.
  unfold sup_ok. destruct (p_sup i); [left; auto|left; auto|right|right]; intros [H|H]; discriminate.
Qed.
Lemma expired_dec l i : Forall sup_ok l -> sup_ok i -> {expired (l ++ [i])} + {~ expired (l ++ [i])}.
Proof.
  intros H Hi. assert (G : Forall sup_ok (l ++ [i])) by (apply Forall_app; split; [exact H|constructor; [exact Hi|constructor]]).
  destruct (le_lt_dec 16 (cnt (l ++ [i]))) as [L|L]; [left; apply cnt_expired; assumption|].
  right. intro E. apply expired_cnt in E. lia.
Qed.

Lemma ends_split l : forall w, waiting w ->
  (exists l1 i l2 e, l = l1 ++ i :: l2 /\ ends (w ++ l1) i e) \/ waiting (w ++ l).
Proof.
  induction l as [|i l IH]; intros w W; [right; rewrite app_nil_r; exact W|].
  destruct (sup_dec i) as [Hs|Hs].
  2:{ left. exists [], i, l, EdSup. rewrite app_nil_r. split; [reflexivity|split; [exact W|exact Hs]]. }
  destruct (expired_dec w i (wt_sup _ W) Hs) as [He|He].
  { left. exists [], i, l, EdTimeout. rewrite app_nil_r. split; [reflexivity|split; [exact W|split; assumption]]. }
  destruct (p_ack i) eqn:A.
  - destruct (IH _ (waiting_snoc w i W A Hs He)) as [(l1 & j & l2 & e & E & H)|H].
    + left. exists (i :: l1), j, l2, e. rewrite E. split; [reflexivity|].
      rewrite <- app_assoc in H. exact H.
    + right. rewrite <- app_assoc in H. exact H.
  - left. exists [], i, l, EdAck. rewrite app_nil_r. split; [reflexivity|split; [exact W|repeat split; assumption]].
  - left. exists [], i, l, EdAckX. rewrite app_nil_r. split; [reflexivity|split; [exact W|repeat split; try assumption; congruence]].
  - left. exists [], i, l, EdAckX. rewrite app_nil_r. split; [reflexivity|split; [exact W|repeat split; try assumption; congruence]].
Qed.

Section Loop.
Context (before : opb_in).
Notation world := (world bool opb_in opb_out).
Notation body := (ack_body before).

(** one turn, from a sampled input without acknowledge *)
Definition turn (count : nat) (s : bool) (o : opb_out) tr (l : list opb_in) : outcome (nat + unit) * world :=
  match l with
  | [] => (Susp, World s PActive o tr [])
  | i :: [] => (Susp, World s PActive o (tr ++ [(i, o)]) [])
  | i :: (j :: r) =>
      let w := World s PReadOnly o (tr ++ [(i, o)]) (j :: r) in
      match p_sup j with
      | L1 => (Done (inl 0), w)
      | L0 => if 16 <=? count + 1 then (Exn EOPB, w) else (Done (inl (count + 1)), w)
      | _ => (Exn EValue, w)
      end
  end.
Lemma body_turn count s p o tr l i0 : sample before (World s p o tr l) = (Done i0, World s p o tr l) ->
  p_ack i0 = L0 -> l <> [] ->
  body count (World s p o tr l) = turn count s o tr l.
Proof.
  intros S A N. unfold ack_body. rewrite (bind_done _ _ _ _ _ S). unfold int_bit. rewrite A.
  destruct l as [|i [|j r]]; [contradiction| |]; unfold bind, ret, edge, readonly, sample, input; cbn; [reflexivity|].
  destruct (p_sup j); try reflexivity.
  match goal with |- (if ?b then _ else _) = _ => destruct b; reflexivity
                | |- (if ?b then _ else _) _ = _ => destruct b; reflexivity
                | |- _ = (if ?b then _ else _) => destruct b; reflexivity end.
Qed.
Lemma body_stop count s p o tr l i0 : sample before (World s p o tr l) = (Done i0, World s p o tr l) ->
  body count (World s p o tr l) =
  match p_ack i0 with
  | L0 => body count (World s p o tr l)
  | L1 => (Done (inr tt), World s p o tr l)
  | _ => (Exn EValue, World s p o tr l)
  end.
Proof.
  intros S. destruct (p_ack i0) eqn:A; [reflexivity| | |];
  unfold ack_body; rewrite (bind_done _ _ _ _ _ S); unfold int_bit; rewrite A; reflexivity.
Qed.

Definition ends_result (e : ending) (w : world) : outcome unit * world :=
  (match e with EdAck => Done tt | EdTimeout => Exn EOPB | _ => Exn EValue end, w).

(** from ReadOnly with the head of the inputs already judged *)
Lemma loop_ro fuel : forall l w i s o tr,
  length l < fuel -> waiting (w ++ [i]) ->
  (forall l1 j l2 e, l = l1 ++ j :: l2 -> ends (w ++ i :: l1) j e ->
     loop fuel body (cnt (w ++ [i])) (World s PReadOnly o tr (i :: l))
     = ends_result e (World s PReadOnly o (tr ++ held o (i :: l1)) (j :: l2))) /\
  (waiting (w ++ i :: l) ->
     loop fuel body (cnt (w ++ [i])) (World s PReadOnly o tr (i :: l))
     = (Susp, World s PActive o (tr ++ held o (i :: l)) [])).
Proof.
  induction fuel as [|f IH]; intros l w i s o tr Hf W; [lia|].
  assert (A : p_ack i = L0) by (destruct W as [A _ _]; apply Forall_app in A; destruct A as [_ A]; exact (Forall_inv A)).
  assert (B : body (cnt (w ++ [i])) (World s PReadOnly o tr (i :: l)) = turn (cnt (w ++ [i])) s o tr (i :: l)).
  { apply (body_turn _ _ _ _ _ _ i); [reflexivity|exact A|discriminate]. }
  destruct l as [|j l].
  { split; [intros l1 j l2 e E; destruct l1; discriminate|].
    intros _. exact (loop_susp f body (cnt (w ++ [i])) _ _ B). }
  cbn [turn] in B.
  assert (Cs : cnt ((w ++ [i]) ++ [j]) = match p_sup j with L1 => 0 | _ => cnt (w ++ [i]) + 1 end) by apply cnt_snoc.
  (* continuing *)
  assert (K : waiting (w ++ [i]) -> sup_ok j -> ~ expired ((w ++ [i]) ++ [j]) ->
     loop (S f) body (cnt (w ++ [i])) (World s PReadOnly o tr (i :: j :: l))
     = loop f body (cnt ((w ++ [i]) ++ [j])) (World s PReadOnly o (tr ++ [(i, o)]) (j :: l))).
  { intros W' Hs He.
    assert (G : Forall sup_ok ((w ++ [i]) ++ [j])) by (apply Forall_app; split; [apply (wt_sup _ W')|constructor; [exact Hs|constructor]]).
    assert (L : cnt ((w ++ [i]) ++ [j]) < 16).
    { destruct (Nat.lt_ge_cases (cnt ((w ++ [i]) ++ [j])) 16) as [H|H]; [exact H|]. exfalso. apply He, cnt_expired; assumption. }
    assert (D : body (cnt (w ++ [i])) (World s PReadOnly o tr (i :: j :: l)) =
                (Done (inl (cnt ((w ++ [i]) ++ [j]))), World s PReadOnly o (tr ++ [(i, o)]) (j :: l))).
    { rewrite B. rewrite Cs in *. destruct Hs as [Hs|Hs]; rewrite Hs in *; [|reflexivity].
      destruct (Nat.leb_spec 16 (cnt (w ++ [i]) + 1)); [lia|reflexivity]. }
    exact (loop_step f body _ _ _ _ D). }
  split.
  - intros l1 k l2 e E He. destruct l1 as [|x l1].
    + injection E as -> ->.
      destruct He as [_ He]. cbn [held map app].
      destruct e.
      * destruct He as (Hs & He & Ha). rewrite (K W Hs He).
        destruct f as [|f']; [cbn in Hf; lia|].
        assert (D : body (cnt ((w ++ [i]) ++ [k])) (World s PReadOnly o (tr ++ [(i, o)]) (k :: l2)) = (Done (inr tt), World s PReadOnly o (tr ++ [(i, o)]) (k :: l2))).
        { rewrite (body_stop _ _ _ _ _ _ k) by reflexivity. rewrite Ha. reflexivity. }
        exact (loop_step f' body _ _ _ _ D).
      * destruct He as (Hs & He). apply expired_cnt in He. rewrite Cs in He.
        destruct Hs as [Hs|Hs]; rewrite Hs in *; [|cbn in He; lia].
        assert (D : body (cnt (w ++ [i])) (World s PReadOnly o tr (i :: k :: l2)) = (Exn EOPB, World s PReadOnly o (tr ++ [(i, o)]) (k :: l2))).
        { rewrite B. destruct (Nat.leb_spec 16 (cnt (w ++ [i]) + 1)); [reflexivity|lia]. }
        exact (loop_exn f body _ _ _ _ D).
      * assert (D : body (cnt (w ++ [i])) (World s PReadOnly o tr (i :: k :: l2)) = (Exn EValue, World s PReadOnly o (tr ++ [(i, o)]) (k :: l2))).
        { rewrite B. unfold sup_ok in He. destruct (p_sup k); try reflexivity; exfalso; apply He; auto. }
        exact (loop_exn f body _ _ _ _ D).
      * destruct He as (Hs & He & Ha & Hb). rewrite (K W Hs He).
        destruct f as [|f']; [cbn in Hf; lia|].
        assert (D : body (cnt ((w ++ [i]) ++ [k])) (World s PReadOnly o (tr ++ [(i, o)]) (k :: l2)) = (Exn EValue, World s PReadOnly o (tr ++ [(i, o)]) (k :: l2))).
        { rewrite (body_stop _ _ _ _ _ _ k) by reflexivity. destruct (p_ack k); try reflexivity; contradiction. }
        exact (loop_exn f' body _ _ _ _ D).
    + injection E as -> E. subst l.
      assert (W2 : waiting ((w ++ [i]) ++ [x])).
      { destruct He as [He _]. apply (waiting_app _ l1). rewrite <- !app_assoc. exact He. }
      assert (Hs : sup_ok x) by (destruct W2 as [_ S _]; apply Forall_app in S; destruct S as [_ S]; exact (Forall_inv S)).
      rewrite (K W Hs).
      2:{ destruct W2 as [_ _ T]. apply (T _ []). symmetry. apply app_nil_r. }
      destruct (IH (l1 ++ k :: l2) (w ++ [i]) x s o (tr ++ [(i, o)])) as [I1 _]; [cbn in Hf; lia|exact W2|].
      rewrite (I1 l1 k l2 e eq_refl).
      2:{ rewrite <- app_assoc. exact He. }
      cbn [held map]. rewrite <- app_assoc. reflexivity.
  - intro Wl.
    assert (W2 : waiting ((w ++ [i]) ++ [j])) by (apply (waiting_app _ l); rewrite <- !app_assoc; exact Wl).
    assert (Hs : sup_ok j) by (destruct W2 as [_ S _]; apply Forall_app in S; destruct S as [_ S]; exact (Forall_inv S)).
    rewrite (K W Hs).
    2:{ destruct W2 as [_ _ T]. apply (T _ []). symmetry. apply app_nil_r. }
    destruct (IH l (w ++ [i]) j s o (tr ++ [(i, o)])) as [_ I2]; [cbn in Hf; lia|exact W2|].
    rewrite I2.
    2:{ rewrite <- app_assoc. exact Wl. }
    cbn [held map]. rewrite <- app_assoc. reflexivity.
Qed.

(** the whole wait, from the request: [i0] is what is sampled first *)
Lemma wait_ack_now fuel s p o tr l i0 : sample before (World s p o tr l) = (Done i0, World s p o tr l) ->
  0 < fuel -> p_ack i0 <> L0 ->
  wait_ack before fuel (World s p o tr l) =
  (match p_ack i0 with L1 => Done tt | _ => Exn EValue end, World s p o tr l).
Proof.
  intros S F A. unfold wait_ack. destruct fuel as [|f]; [lia|].
  pose proof (body_stop 0 _ _ _ _ _ _ S) as B.
  destruct (p_ack i0) eqn:E; [contradiction| | |].
  - exact (loop_step f body 0 _ _ _ B).
  - exact (loop_exn f body 0 _ _ _ B).
  - exact (loop_exn f body 0 _ _ _ B).
Qed.
Lemma wait_ack_later fuel s p o tr i1 l i0 : sample before (World s p o tr (i1 :: l)) = (Done i0, World s p o tr (i1 :: l)) ->
  S (length l) < fuel -> p_ack i0 = L0 ->
  (forall l1 j l2 e, l = l1 ++ j :: l2 -> ends l1 j e ->
     wait_ack before fuel (World s p o tr (i1 :: l))
     = ends_result e (World s PReadOnly o (tr ++ held o (i1 :: l1)) (j :: l2))) /\
  (waiting l -> wait_ack before fuel (World s p o tr (i1 :: l)) = (Susp, World s PActive o (tr ++ held o (i1 :: l)) [])).
Proof.
  intros S F A. unfold wait_ack. destruct fuel as [|f]; [lia|].
  assert (B : body 0 (World s p o tr (i1 :: l)) = turn 0 s o tr (i1 :: l)).
  { apply (body_turn _ _ _ _ _ _ i0); [exact S|exact A|discriminate]. }
  destruct l as [|j l].
  { split; [intros l1 j l2 e E; destruct l1; discriminate|]. intros _. exact (loop_susp f body 0 _ _ B). }
  cbn [turn] in B.
  assert (K : sup_ok j ->
     loop (Datatypes.S f) body 0 (World s p o tr (i1 :: j :: l))
     = loop f body (cnt ([] ++ [j])) (World s PReadOnly o (tr ++ [(i1, o)]) (j :: l))).
  { intros Hs. assert (D : body 0 (World s p o tr (i1 :: j :: l)) = (Done (inl (cnt ([] ++ [j]))), World s PReadOnly o (tr ++ [(i1, o)]) (j :: l))).
    { rewrite B, cnt_snoc. destruct Hs as [Hs|Hs]; rewrite Hs; reflexivity. }
    exact (loop_step f body _ _ _ _ D). }
  assert (NE : ~ expired ([] ++ [j])).
  { intro H. apply expired_cnt in H. rewrite cnt_snoc in H. cbn in H. destruct (p_sup j); lia. }
  split.
  - intros l1 k l2 e E He. destruct l1 as [|x l1].
    + injection E as -> ->. destruct He as [W He]. cbn [held map app].
      destruct e.
      * destruct He as (Hs & He & Ha). rewrite (K Hs). destruct f as [|f']; [cbn in F; lia|].
        assert (D : body (cnt ([] ++ [k])) (World s PReadOnly o (tr ++ [(i1, o)]) (k :: l2)) = (Done (inr tt), World s PReadOnly o (tr ++ [(i1, o)]) (k :: l2))).
        { rewrite (body_stop _ _ _ _ _ _ k) by reflexivity. rewrite Ha. reflexivity. }
        exact (loop_step f' body _ _ _ _ D).
      * destruct He as (Hs & He). exfalso. exact (NE He).
      * assert (D : body 0 (World s p o tr (i1 :: k :: l2)) = (Exn EValue, World s PReadOnly o (tr ++ [(i1, o)]) (k :: l2))).
        { rewrite B. unfold sup_ok in He. destruct (p_sup k); try reflexivity; exfalso; apply He; auto. }
        exact (loop_exn f body _ _ _ _ D).
      * destruct He as (Hs & He & Ha & Hb). rewrite (K Hs). destruct f as [|f']; [cbn in F; lia|].
        assert (D : body (cnt ([] ++ [k])) (World s PReadOnly o (tr ++ [(i1, o)]) (k :: l2)) = (Exn EValue, World s PReadOnly o (tr ++ [(i1, o)]) (k :: l2))).
        { rewrite (body_stop _ _ _ _ _ _ k) by reflexivity. destruct (p_ack k); try reflexivity; contradiction. }
        exact (loop_exn f' body _ _ _ _ D).
    + injection E as -> E. subst l.
      assert (W2 : waiting ([] ++ [x])) by (destruct He as [He _]; apply (waiting_app _ l1); exact He).
      assert (Hs : sup_ok x) by (destruct W2 as [_ Q _]; exact (Forall_inv Q)).
      rewrite (K Hs).
      destruct (loop_ro f (l1 ++ k :: l2) [] x s o (tr ++ [(i1, o)])) as [I1 _]; [cbn in F; lia|exact W2|].
      rewrite (I1 l1 k l2 e eq_refl He). cbn [held map]. rewrite <- app_assoc. reflexivity.
  - intro Wl.
    assert (W2 : waiting ([] ++ [j])) by (apply (waiting_app _ l); exact Wl).
    assert (Hs : sup_ok j) by (destruct W2 as [_ Q _]; exact (Forall_inv Q)).
    rewrite (K Hs). destruct (loop_ro f l [] j s o (tr ++ [(i1, o)])) as [_ I2]; [cbn in F; lia|exact W2|].
    rewrite (I2 Wl). cbn [held map]. rewrite <- app_assoc. reflexivity.
Qed.
End Loop.
