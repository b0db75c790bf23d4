From Verif Require Import Base Async CompatSpec AvMemModel AvMemSpec AvMemProof AvUndefSpec AvUndefProof AvPortModel AvPortSpec.
From Coq Require Import Permutation.
Local Open Scope list_scope.

(** ** one port, with a memory that others change *)
Section One.
Context (c : am_cfg).
Fixpoint vcycles (s : am_state) (o : am_out) (view : nat -> memory) (l : list am_in) : list am_out * am_state :=
  match l with
  | [] => ([], s)
  | i :: r =>
      let o1 := answer_out c o (hd RNone (a_resp s)) in
      let s1 := set_resp (tl (a_resp s)) (set_mem (view 0) s) in
      let '(os, s') := vcycles (after_cycle c s1 i) o1 (fun n => view (S n)) r in (o1 :: os, s')
  end.
Lemma seen_ge l : forall k free v d t x, In (t, x) (answers_seen c k free v d l) -> k < t /\ free <= t.
Proof.
  induction l as [|i l IH]; intros k free m d t v H; [contradiction|]. cbn [answers_seen] in H. destruct (reads c i).
  - destruct H as [H|H]; [inversion H; subst; lia|]. apply IH in H. lia.
  - apply IH in H. lia.
Qed.
Lemma seen_free l : forall k free free' v d, Nat.max (k + 1) free = Nat.max (k + 1) free' ->
  answers_seen c k free v d l = answers_seen c k free' v d l.
Proof.
  induction l as [|i l IH]; intros k free free' m d H; [reflexivity|]. cbn [answers_seen]. destruct (reads c i).
  - replace (Nat.max (k + 1 + d 0) free') with (Nat.max (k + 1 + d 0) free) by lia. reflexivity.
  - apply IH. lia.
Qed.
Lemma seen_ext l : forall k free v d d', (forall j, d j = d' j) ->
  answers_seen c k free v d l = answers_seen c k free v d' l.
Proof.
  induction l as [|i l IH]; intros k free v d d' Hd; [reflexivity|]. cbn [answers_seen].
  destruct (reads c i); [|apply IH; assumption]. rewrite (Hd 0). f_equal. apply IH. intro j. apply Hd.
Qed.
Lemma vcycles_due l : forall s o view k j prev cur,
  nth_error (o :: fst (vcycles s o view l)) j = Some prev ->
  nth_error (fst (vcycles s o view l)) j = Some cur ->
  due c (queued c (S k) (a_resp s) ++ answers_seen c (S k) (S k + length (a_resp s)) view (latency c s) l)
      (S k + j) prev cur.
Proof.
  induction l as [|i l IH]; intros s o view k j prev cur Hp Hc; [destruct j; discriminate|].
  cbn [vcycles] in *. set (o1 := answer_out c o (hd RNone (a_resp s))) in *. set (s1 := set_resp (tl (a_resp s)) (set_mem (view 0) s)) in *.
  destruct (vcycles (after_cycle c s1 i) o1 (fun n => view (S n)) l) as [os s'] eqn:E. cbn [fst] in *.
  destruct j as [|j].
  - cbn [nth_error] in *. inversion Hp; subst prev. inversion Hc; subst cur. rewrite Nat.add_0_r.
    assert (NA : forall v, ~ In (S k, v) (answers_seen c (S k) (S k + length (a_resp s)) view (latency c s) (i :: l))).
    { intros v H. apply seen_ge in H. lia. }
    unfold o1. destruct (a_resp s) as [|r q]; cbn [hd queued].
    + exact (due_head c o RNone _ (S k) NA).
    + rewrite <- app_assoc. apply due_head. intros v H. apply in_app_or in H. destruct H as [H|H]; [|exact (NA v H)].
      apply queued_ge in H. lia.
  - cbn [nth_error] in Hp, Hc.
    assert (Hc' : nth_error (fst (vcycles (after_cycle c s1 i) o1 (fun n => view (S n)) l)) j = Some cur) by (rewrite E; exact Hc).
    assert (Hp' : nth_error (o1 :: fst (vcycles (after_cycle c s1 i) o1 (fun n => view (S n)) l)) j = Some prev) by (rewrite E; exact Hp).
    specialize (IH (after_cycle c s1 i) o1 (fun n => view (S n)) (S k) j prev cur Hp' Hc').
    replace (S (S k) + j) with (S k + S j) in IH by lia.
    assert (Q : forall v, In (S k + S j, v) (queued c (S k) (a_resp s)) <-> In (S k + S j, v) (queued c (S (S k)) (tl (a_resp s)))).
    { intro v. destruct (a_resp s) as [|r q]; [reflexivity|]. cbn [queued tl]. rewrite in_app_iff.
      split; [intros [H|H]; [|exact H]|intro H; right; exact H]. destruct (resp_word c r); [|contradiction].
      destruct H as [H|[]]. inversion H. lia. }
    assert (A : forall v, In (S k + S j, v) (queued c (S k) (a_resp s) ++ answers_seen c (S k) (S k + length (a_resp s)) view (latency c s) (i :: l))
              <-> In (S k + S j, v) (queued c (S (S k)) (a_resp (after_cycle c s1 i)) ++
                     answers_seen c (S (S k)) (S (S k) + length (a_resp (after_cycle c s1 i))) (fun n => view (S n)) (latency c (after_cycle c s1 i)) l)).
    { intro v. rewrite !in_app_iff. rewrite Q. unfold after_cycle, after_read_req. cbn zeta. cbn [answers_seen].
      assert (L : S k + length (a_resp s) = S (S k) + length (tl (a_resp s)) \/ a_resp s = []).
      { destruct (a_resp s); [right; reflexivity|left; cbn [length tl]; lia]. }
      assert (Fr : Nat.max (S k + 1 + latency c s 0) (S k + length (a_resp s)) = S (S k) + Nat.max (length (tl (a_resp s))) (latency c s 0)).
      { destruct L as [L|L]; [lia|]. rewrite L. cbn [tl length]. lia. }
      destruct (reads c i).
      - cbn [a_resp a_mem set_mem]. unfold enqueue. rewrite queued_app, queued_pad, pad_length. cbn [queued]. rewrite mem_resp_word, app_nil_r.
        rewrite in_app_iff. rewrite Fr. cbn [a_resp a_mem s1 set_resp set_mem].
        rewrite (seen_ext l (S (S k)) _ (fun n => view (S n))
                   (fun j => latency c s (S j))
                   (latency c (set_mem (mem_after c (view 0) i) (AmState (view 0) (pad (tl (a_resp s)) (latency c s1 0) ++ [mem_resp (view 0) (num (v_addr i))]) (a_rnd s1) (S (a_pos s1)))))).
        2:{ intro n. unfold latency. cbn [a_rnd a_pos set_mem s1 set_resp]. rewrite Nat.add_succ_r. reflexivity. }
        change (latency c s1 0) with (latency c s 0).
        replace (S (S k) + length (pad (tl (a_resp s)) (latency c s 0) ++ [mem_resp (view 0) (num (v_addr i))]))
          with (S (S (S k) + Nat.max (length (tl (a_resp s))) (latency c s 0)))
          by (rewrite app_length, pad_length; cbn [length]; lia).
        cbn [In]. tauto.
      - cbn [a_resp a_mem set_mem s1 set_resp].
        rewrite (seen_free l (S (S k)) (S k + length (a_resp s)) (S (S k) + length (tl (a_resp s)))).
        2:{ destruct L as [L|L]; [lia|]. rewrite L. cbn [tl length]. lia. }
        reflexivity. }
    destruct IH as [IH1 IH2]. split.
    + intros v H. apply IH1, A, H.
    + intro H. apply IH2. intros v H'. apply (H v), A, H'.
Qed.
Lemma vcycles_length l : forall s o v, length (fst (vcycles s o v l)) = length l.
Proof.
  induction l as [|i l IH]; intros s o v; [reflexivity|]. cbn [vcycles].
  destruct (vcycles _ _ _ l) as [os s'] eqn:E. cbn [fst length]. f_equal.
  change os with (fst (os, s')). rewrite <- E. apply IH.
Qed.
End One.

(** ** all ports *)
Section All.
Context (width : nat).
Definition wide (m : memory) : Prop := forall a v, m a = Some v -> (0 <= v < 2 ^ Z.of_nat width)%Z.
Lemma wide_fits c m : m_width c = width -> wide m -> fitting c m.
Proof. intros E W a v H. rewrite E. exact (W a v H). Qed.
Lemma fits_wide c m : m_width c = width -> fitting c m -> wide m.
Proof. intros E W a v H. rewrite <- E. exact (W a v H). Qed.

(** a port in the course of a run: it goes on ... *)
Record live (p : port) (l rest : list am_in) : Prop := Live {
  lv_words : m_bc (p_cfg p) = false;
  lv_latency : m_latmin (p_cfg p) <= m_latmax (p_cfg p);
  lv_width : m_width (p_cfg p) = width;
  lv_alive : p_alive p = true;
  lv_queue : Forall (fit_resp (p_cfg p)) (a_resp (st (p_world p)));
  lv_ins : exists i0, ins (p_world p) = i0 :: l ++ rest;
  lv_requests : Forall (well_formed (p_cfg p)) l }.
(** ... or has ended *)
Definition good_port (n : nat) (p : port) (l : list am_in) : Prop :=
  (exists rest, live p l rest /\ length (l ++ rest) = n /\ (rest = [] \/ exists bad post, rest = bad :: post /\ undefined_operand (p_cfg p) bad))
  \/ (p_alive p = false /\ l = []).

(** the world after a turn *)
Definition advanced (p : port) (m : memory) : port :=
  let w := p_world p in let c := p_cfg p in
  match ins w with
  | i0 :: i :: l =>
      Port c true (World (after_cycle c (set_resp (tl (a_resp (st w))) (set_mem m (st w))) i) PReadOnly
                         (answer_out c (out w) (hd RNone (a_resp (st w)))) (trace w ++ [(i0, out w)]) (i :: l))
  | _ => p
  end.
Lemma turn_live p i l rest m : live p (i :: l) rest -> wide m ->
  turn m p = (mem_after (p_cfg p) m i, advanced p m) /\ live (advanced p m) l rest /\ wide (mem_after (p_cfg p) m i).
Proof.
  intros [Hb Hl Hw Ha Hq [i0 Hi] Hr] Wm.
  assert (Wi : well_formed (p_cfg p) i) by (inversion Hr; assumption).
  destruct p as [c al w]. cbn [p_cfg p_alive p_world] in *. subst al. destruct w as [s ph o tr is]. cbn [st ins app] in *. subst is.
  pose proof (body_spec c (set_mem m s) ph o tr i0 i (l ++ rest) Hb Hl Hq Wi) as B. cbn zeta in B.
  assert (F : fitting c (mem_after c m i)) by (apply fitting_after; [exact Wi|apply wide_fits; assumption]).
  assert (Em : a_mem (after_cycle c (set_resp (tl (a_resp (set_mem m s))) (set_mem m s)) i) = mem_after c m i).
  { unfold after_cycle, after_read_req. cbn zeta. destruct (reads c i); reflexivity. }
  split; [|split].
  - unfold turn. cbn [p_alive p_world p_cfg st Async.ph out trace ins]. rewrite B. cbn [st]. rewrite Em. reflexivity.
  - unfold advanced. cbn [p_world p_cfg ins st out trace].
    destruct (inv_after c (set_mem m s) i Wi Hq (wide_fits c m Hw Wm)) as [I1 _].
    constructor; cbn [p_cfg p_alive p_world st ins]; try assumption; try reflexivity.
    + exists i. reflexivity.
    + inversion Hr; assumption.
  - exact (fits_wide c _ Hw F).
Qed.
Lemma turn_dies p bad post m : live p [] (bad :: post) -> undefined_operand (p_cfg p) bad ->
  exists q, turn m p = (m, q) /\ p_cfg q = p_cfg p /\ p_alive q = false /\
    exists i0, ins (p_world p) = i0 :: bad :: post /\ ins (p_world q) = bad :: post /\
      trace (p_world q) = trace (p_world p) ++ [(i0, out (p_world p))] /\
      out (p_world q) = answer_out (p_cfg p) (out (p_world p)) (hd RNone (a_resp (st (p_world p)))).
Proof.
  intros [Hb Hl Hw Ha Hq [i0 Hi] Hr] U.
  destruct p as [c al w]. cbn [p_cfg p_alive p_world] in *. subst al. destruct w as [s ph o tr is]. cbn [st ins app] in *. subst is.
  destruct (body_raises c (set_mem m s) ph o tr i0 bad post Hb Hl Hq U) as (w & E & M & T & O & I).
  exists (Port c false w). unfold turn. cbn [p_alive p_world p_cfg st Async.ph out trace ins]. rewrite E, M.
  repeat (split; [reflexivity|]). exists i0. split; [reflexivity|]. split; [exact I|]. split; [exact T|]. exact O.
Qed.
Lemma turn_dead p m : p_alive p = false -> turn m p = (m, p).
Proof. intro H. unfold turn. rewrite H. reflexivity. Qed.

(** what a turn does to the dictionary *)
Lemma turn_good n p l m : good_port (S n) p l -> wide m ->
  fst (turn m p) = after m (match l with i :: _ => [(p_cfg p, i)] | [] => [] end) /\ wide (fst (turn m p)) /\
  p_cfg (snd (turn m p)) = p_cfg p /\ good_port n (snd (turn m p)) (tl l).
Proof.
  intros [(rest & Lv & Ln & R)|[D El]] Wm.
  - destruct l as [|i l].
    + cbn [app] in Ln. destruct R as [->|(bad & post & -> & U)]; [discriminate|].
      destruct (turn_dies p bad post m Lv U) as (q & E & C & A & _). rewrite E. cbn [fst snd]. split; [reflexivity|]. split; [exact Wm|].
      split; [exact C|]. right. split; [exact A|reflexivity].
    + destruct (turn_live p i l rest m Lv Wm) as (E & L' & W'). rewrite E. cbn [fst snd tl]. split; [reflexivity|]. split; [exact W'|].
      assert (C : p_cfg (advanced p m) = p_cfg p) by (unfold advanced; destruct (ins (p_world p)) as [|? [|? ?]]; reflexivity).
      split; [exact C|]. left. exists rest. split; [exact L'|]. split; [cbn [app length] in Ln; lia|]. rewrite C. exact R.
  - rewrite (turn_dead p m D). cbn [fst snd]. subst l. split; [reflexivity|]. split; [exact Wm|]. split; [reflexivity|]. right. split; [exact D|reflexivity].
Qed.

Lemma set_port_same j p ports : j < length ports -> nth_error (set_port j p ports) j = Some p.
Proof. revert j. induction ports as [|q r IH]; intros [|j] H; cbn [length] in H; try lia; [reflexivity|]. cbn. apply IH. lia. Qed.
Lemma set_port_other j k p ports : j <> k -> nth_error (set_port j p ports) k = nth_error ports k.
Proof. revert j k. induction ports as [|q r IH]; intros [|j] [|k] H; try reflexivity; [lia|]. cbn. apply IH. lia. Qed.
Lemma set_port_length j p ports : length (set_port j p ports) = length ports.
Proof. revert j. induction ports as [|q r IH]; intros [|j]; try reflexivity. cbn. f_equal. apply IH. Qed.
Lemma after_app m a b : after m (a ++ b) = after (after m a) b.
Proof. apply fold_left_app. Qed.
Lemma before_out j order : ~ In j order -> before j order = order.
Proof.
  induction order as [|x r IH]; intro H; [reflexivity|]. cbn [before]. destruct (Nat.eqb_spec x j); [exfalso; apply H; left; assumption|].
  f_equal. apply IH. intro K. apply H. right. exact K.
Qed.

(** one cycle *)
Definition good_ports (n : nat) (ports : list port) (cols : list column) (t j : nat) : Prop :=
  exists p c l, nth_error ports j = Some p /\ nth_error cols j = Some (c, l) /\ p_cfg p = c /\ good_port n p (skipn t l).
Lemma access_head cols j c l t : nth_error cols j = Some (c, l) ->
  access cols t j = match skipn t l with i :: _ => [(c, i)] | [] => [] end.
Proof.
  unfold access, column. intro H. rewrite H. clear H. revert t. induction l as [|x l IH]; intros [|t]; try reflexivity. cbn [nth_error skipn]. apply IH.
Qed.
Lemma tl_skipn {A} t (l : list A) : tl (skipn t l) = skipn (S t) l.
Proof. revert l. induction t as [|t IH]; intros [|x l]; try reflexivity. cbn [skipn]. apply IH. Qed.
Lemma cycle_good n cols t order : forall m ports, NoDup order -> (forall j, In j order -> good_ports (S n) ports cols t j) -> wide m ->
  fst (cycle_all order m ports) = after m (row cols t order) /\ wide (after m (row cols t order)) /\
  length (snd (cycle_all order m ports)) = length ports /\
  (forall j, ~ In j order -> nth_error (snd (cycle_all order m ports)) j = nth_error ports j) /\
  (forall j p, In j order -> nth_error ports j = Some p ->
     nth_error (snd (cycle_all order m ports)) j = Some (snd (turn (after m (row cols t (before j order))) p)) /\
     wide (after m (row cols t (before j order)))).
Proof.
  induction order as [|x r IH]; intros m ports N G Wm.
  - cbn [cycle_all fst snd row flat_map after fold_left]. split; [reflexivity|]. split; [exact Wm|]. split; [reflexivity|]. split; [reflexivity|]. intros j p [].
  - inversion N as [|? ? Nx Nr]; subst. destruct (G x (or_introl eq_refl)) as (p & c & l & Hp & Hc & Ec & Gp).
    destruct (turn_good n p _ m Gp Wm) as (T1 & T2 & T3 & T4).
    cbn [cycle_all]. rewrite Hp. destruct (turn m p) as [m1 p1] eqn:ET. cbn [fst snd] in *.
    assert (Lx : x < length ports) by (apply nth_error_Some; congruence).
    assert (G' : forall j, In j r -> good_ports (S n) (set_port x p1 ports) cols t j).
    { intros j Hj. destruct (G j (or_intror Hj)) as (q & c' & l' & H1 & H2). exists q, c', l'. rewrite set_port_other by (intro E; subst; contradiction). auto. }
    destruct (IH m1 (set_port x p1 ports) Nr G' T2) as (I1 & I2 & I3 & I4 & I5).
    assert (Ea : after m (access cols t x) = m1).
    { rewrite (access_head _ _ _ _ _ Hc). rewrite Ec in T1. symmetry. exact T1. }
    assert (Er : forall r', after m (row cols t (x :: r')) = after m1 (row cols t r')).
    { intro r'. cbn [row flat_map]. rewrite after_app, Ea. reflexivity. }
    rewrite Er. split; [exact I1|]. split; [exact I2|]. split; [rewrite I3; apply set_port_length|]. split.
    + intros j Hj. rewrite I4 by (intro K; apply Hj; right; exact K). apply set_port_other. intro E; apply Hj; left; exact E.
    + intros j q [Hj|Hj] Hq.
      * subst j. rewrite I4 by exact Nx. rewrite set_port_same by exact Lx. cbn [before]. rewrite Nat.eqb_refl. cbn [row flat_map after fold_left].
        rewrite Hp in Hq. inversion Hq; subst q. rewrite ET. split; [reflexivity|exact Wm].
      * assert (Nj : x <> j) by (intro E; subst; contradiction). cbn [before]. destruct (Nat.eqb_spec x j); [contradiction|].
        rewrite Er. apply I5; [exact Hj|]. rewrite set_port_other by exact Nj. exact Hq.
Qed.

(** all cycles: every port sees its turns only *)
Definition port_run (ms : list memory) (p : port) : port := fold_left (fun p m => snd (turn m p)) ms p.
Lemma accesses_shift cols t orders order : 
  flat_map (fun x => row cols (fst x) (snd x)) (combine (seq t (S (length orders))) (order :: orders))
  = row cols t order ++ flat_map (fun x => row cols (fst x) (snd x)) (combine (seq (S t) (length orders)) orders).
Proof. reflexivity. Qed.
Definition from (cols : list column) (t : nat) (orders : list (list nat)) (k : nat) : list (am_cfg * am_in) :=
  flat_map (fun x => row cols (fst x) (snd x)) (combine (seq t k) orders).
Definition seen_by (cols : list column) (j t : nat) (orders : list (list nat)) (m : memory) (k : nat) : memory :=
  after m (from cols t orders k ++ row cols (t + k) (before j (nth k orders []))).
Lemma run_good cols orders : forall t m ports, length cols = length ports ->
  Forall (Permutation (seq 0 (length ports))) orders ->
  (forall j, j < length ports -> good_ports (length orders) ports cols t j) -> wide m ->
  fst (run_ports orders m ports) = after m (from cols t orders (length orders)) /\
  length (snd (run_ports orders m ports)) = length ports /\
  (forall j p, nth_error ports j = Some p ->
     nth_error (snd (run_ports orders m ports)) j = Some (port_run (map (seen_by cols j t orders m) (seq 0 (length orders))) p) /\
     forall k, k < length orders -> wide (seen_by cols j t orders m k)).
Proof.
  induction orders as [|order orders IH]; intros t m ports Lc P G Wm.
  - cbn [run_ports fst snd length]. split; [reflexivity|]. split; [reflexivity|]. intros j p Hp. split; [exact Hp|]. intros k Hk. lia.
  - inversion P as [|? ? P0 P']; subst.
    assert (Nd : NoDup order) by (apply (Permutation_NoDup P0), seq_NoDup).
    assert (In' : forall j, In j order <-> j < length ports).
    { intro j. split; intro H.
      - apply (Permutation_in _ (Permutation_sym P0)) in H. apply in_seq in H. lia.
      - apply (Permutation_in _ P0). apply in_seq. lia. }
    destruct (cycle_good (length orders) cols t order m ports Nd (fun j Hj => G j (proj1 (In' j) Hj)) Wm) as (C1 & C2 & C3 & C4 & C5).
    cbn [run_ports]. destruct (cycle_all order m ports) as [m1 ps1] eqn:E. cbn [fst snd] in *. subst m1.
    destruct (IH (S t) (after m (row cols t order)) ps1) as (I1 & I2 & I3).
    + congruence.
    + rewrite C3. exact P'.
    + intros j Hj. rewrite C3 in Hj. destruct (G j Hj) as (p & c & l & Hp & Hc & Ec & Gp).
      destruct (C5 j p (proj2 (In' j) Hj) Hp) as [Cj Wj].
      destruct (turn_good (length orders) p _ _ Gp Wj) as (_ & _ & T3 & T4). rewrite tl_skipn in T4.
      eexists _, c, l. split; [exact Cj|]. split; [exact Hc|]. split; [congruence|exact T4].
    + exact C2.
    + cbn [length]. split; [|split].
      * rewrite I1. unfold from. rewrite accesses_shift, after_app. reflexivity.
      * congruence.
      * intros j p Hp. assert (Hj : j < length ports) by (apply nth_error_Some; congruence).
        destruct (C5 j p (proj2 (In' j) Hj) Hp) as [Cj Wj]. destruct (I3 j _ Cj) as [R W'].
        assert (S0 : seen_by cols j t (order :: orders) m 0 = after m (row cols t (before j order))).
        { unfold seen_by, from. cbn [seq combine flat_map app nth]. rewrite Nat.add_0_r. reflexivity. }
        assert (SS : forall k, seen_by cols j (S t) orders (after m (row cols t order)) k = seen_by cols j t (order :: orders) m (S k)).
        { intro k. unfold seen_by, from. rewrite <- after_app. f_equal. cbn [seq combine flat_map nth fst snd]. rewrite <- app_assoc. f_equal. f_equal. f_equal. lia. }
        split.
        -- rewrite R. cbn [seq map]. f_equal. unfold port_run. cbn [fold_left]. rewrite S0. f_equal.
           rewrite <- seq_shift, map_map. apply map_ext. exact SS.
        -- intros [|k] Hk; [rewrite S0; exact Wj|]. rewrite <- SS. apply W'. lia.
Qed.

(** one port through its turns *)
Lemma last_default {A} (x : A) l : forall d d', last (x :: l) d = last (x :: l) d'.
Proof. revert x. induction l as [|y l IH]; intros x d d'; [reflexivity|]. exact (IH y d d'). Qed.
Lemma vcycles_ext c l : forall v v' s o, (forall t, v t = v' t) -> vcycles c s o v l = vcycles c s o v' l.
Proof.
  induction l as [|x l IH]; intros v v' s o H; [reflexivity|]. cbn [vcycles].
  rewrite (H 0). rewrite (IH (fun n => v (S n)) (fun n => v' (S n))); [reflexivity|]. intro t. apply H.
Qed.
Lemma port_run_dead ms p : p_alive p = false -> port_run ms p = p.
Proof.
  intro D. induction ms as [|m ms IH]; [reflexivity|]. unfold port_run. cbn [fold_left]. rewrite (turn_dead p m D). exact IH.
Qed.
Lemma port_run_spec l : forall v p rest, live p l rest -> (forall k, k < length (l ++ rest) -> wide (v k)) ->
  (rest = [] \/ exists bad post, rest = bad :: post /\ undefined_operand (p_cfg p) bad) ->
  let c := p_cfg p in let w := p_world p in
  let q := port_run (map v (seq 0 (length (l ++ rest)))) p in
  exists i0, ins w = i0 :: l ++ rest /\ p_alive q = match rest with [] => true | _ => false end /\
    on_bus q = trace w ++ match rest with
                          | [] => combine (i0 :: l) (out w :: fst (vcycles c (st w) (out w) v l))
                          | bad :: post => let os := fst (vcycles c (st w) (out w) v (l ++ [bad])) in
                              combine (i0 :: l ++ [bad]) (out w :: os) ++ held (last os (out w)) post
                          end.
Proof.
  induction l as [|i l IH]; intros v p rest Lv Wv R c w q.
  - destruct (lv_ins _ _ _ Lv) as [i0 Hi]. fold w in Hi. cbn [app] in Hi. exists i0. split; [exact Hi|].
    destruct R as [->|(bad & post & -> & U)].
    + unfold q. cbn [app length seq map port_run fold_left]. split; [exact (lv_alive _ _ _ Lv)|]. unfold on_bus. fold w. rewrite Hi. reflexivity.
    + destruct (turn_dies p bad post (v 0) Lv U) as (q' & E & _ & A & i0' & Hi' & I & T & O). fold w in Hi', T, O. rewrite Hi in Hi'. inversion Hi'; subst i0'.
      assert (Eq : q = q').
      { unfold q. cbn [app length seq map]. unfold port_run. cbn [fold_left]. rewrite E. exact (port_run_dead _ q' A). }
      rewrite Eq. split; [exact A|]. unfold on_bus. rewrite T, I, O. cbn [app vcycles fst combine held map last]. rewrite <- app_assoc. reflexivity.
  - pose proof (Wv 0 ltac:(cbn [app length]; lia)) as W0. destruct (turn_live p i l rest (v 0) Lv W0) as (E & L' & _).
    destruct (lv_ins _ _ _ Lv) as [i0 Hi]. fold w in Hi. cbn [app] in Hi.
    assert (C : p_cfg (advanced p (v 0)) = p_cfg p) by (unfold advanced; destruct (ins (p_world p)) as [|? [|? ?]]; reflexivity).
    destruct (IH (fun k => v (S k)) (advanced p (v 0)) rest L') as (i1 & Hi1 & A & B).
    { intros k Hk. apply Wv. cbn [app length]. lia. }
    { rewrite C. exact R. }
    assert (Eq : q = port_run (map (fun k => v (S k)) (seq 0 (length (l ++ rest)))) (advanced p (v 0))).
    { unfold q. cbn [app length seq map]. unfold port_run. cbn [fold_left]. rewrite E. cbn [snd]. f_equal. rewrite <- seq_shift, map_map. reflexivity. }
    rewrite <- Eq in A, B. exists i0. split; [exact Hi|]. split; [exact A|]. rewrite B. rewrite C.
    unfold advanced in Hi1 |- *. fold w in Hi1 |- *. rewrite Hi in Hi1 |- *. cbn [p_world ins trace out st] in Hi1 |- *. inversion Hi1; subst i1.
    rewrite <- app_assoc. f_equal. fold c.
    set (s1 := after_cycle c (set_resp (tl (a_resp (st w))) (set_mem (v 0) (st w))) i). set (o1 := answer_out c (out w) (hd RNone (a_resp (st w)))).
    destruct rest as [|bad post]; cbn [app vcycles]; cbv zeta; fold s1 o1.
    + destruct (vcycles c s1 o1 (fun k => v (S k)) l) as [os s'] eqn:EV. reflexivity.
    + destruct (vcycles c s1 o1 (fun k => v (S k)) (l ++ [bad])) as [os s'] eqn:EV. cbn [fst combine app]. f_equal. f_equal. f_equal. f_equal.
      assert (Lo : length os = length (l ++ [bad])) by (change os with (fst (os, s')); rewrite <- EV; apply vcycles_length).
      rewrite app_length in Lo. cbn [length] in Lo. destruct os as [|a os]; [cbn [length] in Lo; lia|]. change (last (o1 :: a :: os) (out w)) with (last (a :: os) (out w)). apply last_default.
Qed.
End All.

Lemma fresh_good width n p col : fresh width n p col -> p_cfg p = fst col /\ exists rest, live width p (snd col) rest /\ length (snd col ++ rest) = n /\
  (rest = [] \/ exists bad post, rest = bad :: post /\ undefined_operand (p_cfg p) bad).
Proof.
  intros [A B C D E F _ G H (i0 & rest & J & K)]. split; [congruence|]. exists rest. split; [|split].
  - constructor; try assumption; [rewrite F; constructor|]. exists i0. exact J.
  - rewrite J in G. cbn [length] in G. lia.
  - exact K.
Qed.
Lemma seen_beyond c l bad : forall k free v d t x, In (t, x) (answers_seen c k free v d (l ++ [bad])) -> t <= k + length l ->
  In (t, x) (answers_seen c k free v d l).
Proof.
  induction l as [|i l IH]; intros k free v d t x H Ht.
  - exfalso. cbn [app length] in *. apply seen_ge in H. lia.
  - cbn [app length answers_seen] in *. destruct (reads c i).
    + destruct H as [H|H]; [left; exact H|right]. apply IH; [exact H|lia].
    + apply IH; [exact H|lia].
Qed.
Lemma seen_grow c l bad : forall k free v d t x, In (t, x) (answers_seen c k free v d l) -> In (t, x) (answers_seen c k free v d (l ++ [bad])).
Proof.
  induction l as [|i l IH]; intros k free v d t x H; [contradiction|]. cbn [app answers_seen] in *. destruct (reads c i).
  - destruct H as [H|H]; [left; exact H|right; apply IH; exact H].
  - apply IH; exact H.
Qed.
Lemma combine_nth {A B} (a : list A) (b : list B) t x y : nth_error (combine a b) t = Some (x, y) -> nth_error b t = Some y.
Proof.
  revert b t. induction a as [|x0 a IH]; intros [|y0 b] [|t] H; try discriminate; cbn in *; [inversion H; reflexivity|exact (IH b t H)].
Qed.
Lemma map_fst_comb {A B} (a : list A) (b : list B) : length a = length b -> map fst (combine a b) = a.
Proof. revert b. induction a as [|x a IH]; intros [|y b] H; try discriminate; [reflexivity|]. cbn. f_equal. apply IH. cbn in H. lia. Qed.
Lemma ports_thm width orders m ports cols : Forall2 (fresh width (length orders)) ports cols ->
  Forall (Permutation (seq 0 (length ports))) orders ->
  (forall a v, m a = Some v -> (0 <= v < 2 ^ Z.of_nat width)%Z) ->
  fst (run_ports orders m ports) = after m (accesses cols orders (length orders)) /\
  length (snd (run_ports orders m ports)) = length ports /\
  forall j p c l, nth_error ports j = Some p -> nth_error cols j = Some (c, l) ->
    exists q, nth_error (snd (run_ports orders m ports)) j = Some q /\
      (p_alive q = true <-> length l = length orders) /\
      map fst (on_bus q) = ins (p_world p) /\
      forall t i i' prev cur, nth_error (on_bus q) t = Some (i, prev) -> nth_error (on_bus q) (S t) = Some (i', cur) ->
        (t <= length l -> due c (answers_seen c 1 1 (fun t => after m (earlier cols orders j t)) (latency c (st (p_world p))) l) (S t) prev cur) /\
        (length l < t -> cur = prev).
Proof.
  intros F P W.
  assert (At : forall j p c l, nth_error ports j = Some p -> nth_error cols j = Some (c, l) -> fresh width (length orders) p (c, l)).
  { clear P W. intros j p c l. revert j. induction F as [|? ? ? ? R F IH]; intros [|j] Hp Hc; try discriminate; cbn in *.
    - inversion Hp; inversion Hc; subst; exact R.
    - eapply IH; eassumption. }
  assert (Lc : length cols = length ports) by (clear - F; induction F; cbn; congruence).
  assert (G : forall j, j < length ports -> good_ports width (length orders) ports cols 0 j).
  { intros j Hj. destruct (nth_error ports j) as [p|] eqn:Hp; [|apply nth_error_None in Hp; lia].
    destruct (nth_error cols j) as [[c l]|] eqn:Hc; [|apply nth_error_None in Hc; lia].
    destruct (fresh_good _ _ _ _ (At j p c l Hp Hc)) as (E & rest & H). exists p, c, l. repeat (split; [assumption|]). left. exists rest. exact H. }
  destruct (run_good width cols orders 0 m ports Lc P G W) as (R1 & R2 & R3). split; [exact R1|]. split; [exact R2|].
  intros j p c l Hp Hc. destruct (R3 j p Hp) as [Q Wv]. pose proof (At j p c l Hp Hc) as Fr.
  destruct (fresh_good _ _ _ _ Fr) as (Ec & rest & Lv & Ln & Rr). cbn [fst snd] in *.
  set (v := seen_by cols j 0 orders m) in *. rewrite <- Ln in Q, Wv.
  destruct (port_run_spec width l v p rest Lv Wv Rr) as (i0 & Hi & A & B). cbn zeta in *.
  eexists. split; [exact Q|]. rewrite A, B. rewrite (fr_trace _ _ _ _ Fr). cbn [app]. rewrite Ec in *.
  assert (Idle : a_resp (st (p_world p)) = []) by exact (fr_idle _ _ _ _ Fr).
  set (o := out (p_world p)) in *. set (s := st (p_world p)) in *.
  assert (V : forall x t prev cur, nth_error (o :: fst (vcycles c s o v x)) t = Some prev -> nth_error (fst (vcycles c s o v x)) t = Some cur ->
    due c (answers_seen c 1 1 (fun t => after m (earlier cols orders j t)) (latency c s) x) (S t) prev cur).
  { intros x t prev cur H1 H2. pose proof (vcycles_due c x s o v 0 t prev cur H1 H2) as D. rewrite Idle in D. exact D. }
  split; [|split].
  - rewrite <- Ln, app_length. destruct rest; cbn [length]; split; intro H; try reflexivity; try discriminate; lia.
  - rewrite Hi. destruct rest as [|bad post].
    + rewrite app_nil_r, map_fst_comb; [reflexivity|]. cbn [length]. rewrite vcycles_length. reflexivity.
    + rewrite map_app, map_fst_comb by (cbn [length]; rewrite vcycles_length; reflexivity). rewrite held_fst.
      cbn [app]. rewrite <- app_assoc. reflexivity.
  - intros t i i' prev cur H1 H2. destruct rest as [|bad post].
    + apply combine_nth in H1, H2. cbn [nth_error] in H2. split.
      * intros _. exact (V l t prev cur H1 H2).
      * intro Ht. exfalso. assert (X : t < length (fst (vcycles c s o v l))) by (apply nth_error_Some; congruence). rewrite vcycles_length in X. lia.
    + set (os := fst (vcycles c s o v (l ++ [bad]))) in *.
      assert (Lo : length os = S (length l)) by (unfold os; rewrite vcycles_length, app_length; cbn [length]; lia).
      assert (Lk : length (combine (i0 :: l ++ [bad]) (o :: os)) = 2 + length l) by (rewrite combine_length; cbn [length]; rewrite Lo, app_length; cbn [length]; lia).
      split.
      * intro Ht. rewrite nth_error_app1 in H1, H2 by (rewrite Lk; lia). apply combine_nth in H1, H2. cbn [nth_error] in H2.
        destruct (V (l ++ [bad]) t prev cur H1 H2) as [D1 D2]. split.
        -- intros x Hx. apply D1, seen_grow, Hx.
        -- intro N. apply D2. intros x Hx. apply (N x). apply (seen_beyond c l bad); [exact Hx|lia].
      * intro Ht. rewrite (nth_error_app2 _ _ (n := S t)) in H2 by (rewrite Lk; lia). rewrite Lk in H2.
        assert (Ec' : cur = last os o).
        { unfold held in H2. rewrite nth_error_map in H2. destruct (nth_error post (S t - (2 + length l))); inversion H2. reflexivity. }
        destruct (Nat.eq_dec t (S (length l))) as [->|Nt].
        -- rewrite nth_error_app1 in H1 by (rewrite Lk; lia). apply combine_nth in H1. cbn [nth_error] in H1.
           rewrite Ec'. clear - H1 Lo. destruct (exists_last (l := os)) as (os' & z & E); [intro E; rewrite E in Lo; discriminate|].
           rewrite E in *. rewrite last_last. rewrite app_length in Lo. cbn [length] in Lo.
           rewrite nth_error_app2 in H1 by lia. replace (length l - length os') with 0 in H1 by lia. inversion H1. reflexivity.
        -- rewrite nth_error_app2 in H1 by (rewrite Lk; lia). unfold held in H1. rewrite nth_error_map in H1.
           destruct (nth_error post (t - _)); inversion H1. congruence.
Qed.

(** the last write wins *)
Lemma untouched m a accs : Forall (fun x => writes (fst x) (snd x) = true -> num (v_addr (snd x)) <> a) accs -> after m accs a = m a.
Proof.
  intro F. revert m. induction F as [|[c i] accs H F IH]; intro m; [reflexivity|]. cbn [after fold_left fst snd] in *.
  unfold after in IH. rewrite IH. unfold mem_after. destruct (writes c i); [|reflexivity]. unfold mupd.
  destruct (Z.eqb_spec a (num (v_addr i))); [exfalso; apply H; auto|reflexivity].
Qed.
Lemma last_write_thm m pre c i post a : writes c i = true -> num (v_addr i) = a ->
  Forall (fun x => writes (fst x) (snd x) = true -> num (v_addr (snd x)) <> a) post ->
  after m (pre ++ (c, i) :: post) a
  = Some (if m_be c then merged c (num (v_be i)) (num (v_wdata i)) (opt (after m pre a) 0%Z) else num (v_wdata i)).
Proof.
  intros Hw Ha F. rewrite after_app. change ((c, i) :: post) with ([(c, i)] ++ post). rewrite after_app, untouched by exact F.
  cbn [after fold_left fst snd]. unfold mem_after. rewrite Hw, Ha. unfold mupd. rewrite Z.eqb_refl. reflexivity.
Qed.
Lemma seen_schedule c l : forall view k free d, 
  length (answers_seen c k free view d l) = length (filter (reads c) l) /\
  forall pre i post, l = pre ++ i :: post -> reads c i = true ->
    exists t, nth_error (answers_seen c k free view d l) (length (filter (reads c) pre)) = Some (t, word c (view (length pre)) (num (v_addr i)))
      /\ k + length pre + 1 + d (length (filter (reads c) pre)) <= t.
Proof.
  induction l as [|x l IH]; intros view k free d.
  - split; [reflexivity|]. intros [|y pre] i post E; discriminate.
  - cbn [answers_seen filter]. split.
    + destruct (reads c x); cbn [length]; rewrite (proj1 (IH _ _ _ _)); reflexivity.
    + intros [|y pre] i post E R; cbn [app] in E; inversion E; subst.
      * rewrite R. cbn [filter length nth_error]. eexists. split; [reflexivity|]. lia.
      * cbn [filter length]. destruct (reads c y); cbn [length nth_error].
        -- destruct (proj2 (IH (fun n => view (S n)) (S k) (S (Nat.max (k + 1 + d 0) free)) (fun j => d (S j))) pre i post eq_refl R) as (t & E1 & E2).
           exists t. split; [exact E1|]. lia.
        -- destruct (proj2 (IH (fun n => view (S n)) (S k) free d) pre i post eq_refl R) as (t & E1 & E2).
           exists t. split; [exact E1|]. lia.
Qed.
