(** AvMemThm.v -- theorems about whole runs of AvalonMemory, and counterexamples. *)
From Verif Require Import Base Async BitsLemmas CompatModel CompatSpec AvMemModel AvMemSpec AvMemProof AvBurstProof.
Local Open Scope list_scope.

Section Thm.
Context (c : am_cfg).
Notation world := (world am_state am_in am_out).

Lemma fit_nil : Forall (fit_resp c) []. Proof. constructor. Qed.

(** ** C43 *)
Lemma write_thm fuel s p o i0 l i : m_bc c = false -> m_latmin c <= m_latmax c ->
  Forall (well_formed c) (l ++ [i]) -> S (length l) < fuel -> a_resp s = [] -> fitting c (a_mem s) ->
  exists w w',
    respond c fuel (World s p o [] (i0 :: l) : world) = (Susp, w) /\
    respond c fuel (World s p o [] (i0 :: l ++ [i]) : world) = (Susp, w') /\
    (writes c i = false -> a_mem (st w') = a_mem (st w)) /\
    (writes c i = true ->
       (forall x, x <> num (v_addr i) -> a_mem (st w') x = a_mem (st w) x) /\
       exists v, a_mem (st w') (num (v_addr i)) = Some v /\ (0 <= v < 2 ^ Z.of_nat (m_width c))%Z /\
         (m_be c = false -> v = num (v_wdata i)) /\
         (m_be c = true -> (v < 2 ^ (8 * Z.of_nat (m_width c / 8)))%Z /\
            forall k, k < m_width c / 8 ->
            lane k v = lane k (if Z.testbit (num (v_be i)) (Z.of_nat k) then num (v_wdata i)
                               else opt (a_mem (st w) (num (v_addr i))) 0%Z))).
Proof.
  intros Hb Hl W Hf Hr Fm.
  assert (Wl : Forall (well_formed c) l) by (apply Forall_app in W; apply W).
  assert (Wi : well_formed c i) by (apply Forall_app in W; destruct W as [_ W]; inversion W; assumption).
  assert (Fq : Forall (fit_resp c) (a_resp s)) by (rewrite Hr; constructor).
  destruct (run_cycles c l Hb Hl Wl fuel s p o [] i0 ltac:(lia) Fq Fm) as (p1 & o1 & E1).
  destruct (run_cycles c (l ++ [i]) Hb Hl W fuel s p o [] i0 ltac:(rewrite app_length; cbn [length]; lia) Fq Fm) as (p2 & o2 & E2).
  eexists _, _. split; [exact E1|]. split; [exact E2|]. cbn [st]. rewrite !cycles_mem, fold_left_app. cbn [fold_left].
  assert (Fl : fitting c (fold_left (mem_after c) l (a_mem s))).
  { clear - Wl Fm. revert Fm. generalize (a_mem s). induction Wl as [|x l Wx Wl IH]; intros m F; [exact F|]. cbn [fold_left].
    apply IH. apply fitting_after; assumption. }
  pose proof (fitting_after c _ i Wi Fl) as Fi.
  set (m := fold_left (mem_after c) l (a_mem s)) in *. unfold mem_after in Fi |- *.
  split; [intros ->; reflexivity|]. intro Hw. rewrite Hw in Fi |- *. split.
  - intros x Hx. unfold mupd. destruct (Z.eqb_spec x (num (v_addr i))); [contradiction|reflexivity].
  - eexists. split; [unfold mupd; rewrite Z.eqb_refl; reflexivity|]. split; [|split].
    + apply (Fi (num (v_addr i))). unfold mupd. rewrite Z.eqb_refl. reflexivity.
    + intros ->. reflexivity.
    + intros ->. split; [|intros k Hk; apply merged_lane; exact Hk].
      unfold merged. eapply Z.lt_le_trans; [apply from_le_bound; apply Forall_map, Forall_forall; intros k _; apply lane_byte|].
      rewrite map_length, seq_length, pow256. lia.
Qed.

(** ** C44 *)
Lemma map_snd_combine {A B} (l : list A) : forall (l' : list B), length l = length l' -> map snd (combine l l') = l'.
Proof. induction l as [|x l IH]; intros [|y l'] H; try discriminate; [reflexivity|]. cbn. f_equal. apply IH. injection H. auto. Qed.
Lemma map_fst_combine {A B} (l : list A) : forall (l' : list B), length l = length l' -> map fst (combine l l') = l.
Proof. induction l as [|x l IH]; intros [|y l'] H; try discriminate; [reflexivity|]. cbn. f_equal. apply IH. injection H. auto. Qed.

Lemma responses_thm fuel s p o i0 l : m_bc c = false -> m_latmin c <= m_latmax c ->
  Forall (well_formed c) l -> length l < fuel -> a_resp s = [] -> fitting c (a_mem s) ->
  exists w, respond c fuel (World s p o [] (i0 :: l) : world) = (Susp, w) /\
    map fst (trace w) = i0 :: l /\
    forall t i i' prev cur, nth_error (trace w) t = Some (i, prev) -> nth_error (trace w) (S t) = Some (i', cur) ->
      due c (answers c 1 1 (a_mem s) (latency c s) l) (S t) prev cur.
Proof.
  intros Hb Hl W Hf Hr Fm.
  destruct (run_cycles c l Hb Hl W fuel s p o [] i0 Hf ltac:(rewrite Hr; constructor) Fm) as (p1 & o1 & E1).
  eexists. split; [exact E1|]. cbn [trace app].
  assert (L : length (i0 :: l) = length (o :: fst (cycles c s o l))) by (cbn [length]; rewrite cycles_length; reflexivity).
  split; [apply map_fst_combine; exact L|]. intros t i i' prev cur H1 H2.
  apply (map_nth_error snd) in H1, H2. rewrite map_snd_combine in H1, H2 by exact L. cbn [snd] in *.
  pose proof (cycles_due c l s o 0 t prev cur H1 H2) as D. rewrite Hr in D. exact D.
Qed.

(** the schedule: one answer per request, in order, at the right time with the right data *)
Definition requests (l : list am_in) : nat := length (filter (reads c) l).
Lemma answers_length l : forall k free m d, length (answers c k free m d l) = requests l.
Proof.
  unfold requests. induction l as [|i l IH]; intros; [reflexivity|]. cbn [answers filter]. destruct (reads c i); cbn [length]; rewrite IH; reflexivity.
Qed.
Lemma answers_nth l : forall pre i post k free m d, l = pre ++ i :: post -> reads c i = true ->
  exists t, nth_error (answers c k free m d l) (requests pre) = Some (t, word c (fold_left (mem_after c) pre m) (num (v_addr i)))
    /\ k + length pre + 1 + d (requests pre) <= t.
Proof.
  induction l as [|x l IH]; intros pre i post k free m d E R; [destruct pre; discriminate|].
  destruct pre as [|y pre]; cbn [app] in E; injection E as <- ->.
  - cbn [answers fold_left]. rewrite R. eexists. split; [reflexivity|]. cbn [length requests filter]. unfold requests. cbn [filter length]. lia.
  - cbn [answers fold_left]. unfold requests in *. cbn [filter]. destruct (reads c x).
    + destruct (IH pre i post (S k) (S (Nat.max (k + 1 + d 0) free)) (mem_after c m x) (fun j => d (S j)) eq_refl R) as (t & A & B).
      exists t. cbn [length nth_error]. split; [exact A|]. lia.
    + destruct (IH pre i post (S k) free (mem_after c m x) d eq_refl R) as (t & A & B). exists t. split; [exact A|]. cbn [length]. lia.
Qed.
Lemma answers_sorted l : forall k free m d j j' t t' v v', j < j' ->
  nth_error (answers c k free m d l) j = Some (t, v) -> nth_error (answers c k free m d l) j' = Some (t', v') -> t < t'.
Proof.
  induction l as [|x l IH]; intros k free m d j j' t t' v v' L A B; [destruct j; discriminate|].
  cbn [answers] in A, B. destruct (reads c x); [|eapply IH; eassumption].
  destruct j' as [|j']; [lia|]. destruct j as [|j]; cbn [nth_error] in A, B.
  - inversion A; subst. apply nth_error_In, answers_ge in B. lia.
  - apply (IH _ _ _ _ j j' _ _ _ _ ltac:(lia) A B).
Qed.
Lemma latency_range s j : m_latmin c <= m_latmax c -> m_latmin c <= latency c s j <= m_latmax c.
Proof.
  intro H. unfold latency. pose proof (Nat.mod_upper_bound (a_rnd s (a_pos s + j)) (S (m_latmax c - m_latmin c))). lia.
Qed.

Lemma schedule_thm s m l : m_latmin c <= m_latmax c ->
  let ans := answers c 1 1 m (latency c s) l in
  length ans = length (filter (reads c) l) /\
  (forall pre i post, l = pre ++ i :: post -> reads c i = true ->
     exists t, nth_error ans (length (filter (reads c) pre))
               = Some (t, word c (fold_left (mem_after c) pre m) (num (v_addr i)))
               /\ S (length pre) + 1 + m_latmin c <= t) /\
  (forall j j' t t' v v', j < j' -> nth_error ans j = Some (t, v) -> nth_error ans j' = Some (t', v') -> t < t').
Proof.
  intro H. cbn zeta. split; [apply answers_length|]. split.
  - intros pre i post E R. destruct (answers_nth l pre i post 1 1 m (latency c s) E R) as (t & A & B). exists t. split; [exact A|].
    pose proof (latency_range s (requests pre) H). lia.
  - apply answers_sorted.
Qed.

(** no answer comes later than needed: at the drawn latency, or right after the answer before *)
Lemma answers_prompt l : forall pre i post k free m d, l = pre ++ i :: post -> reads c i = true ->
  exists t v, nth_error (answers c k free m d l) (requests pre) = Some (t, v) /\
    (t = k + length pre + 1 + d (requests pre) \/ (requests pre = 0 /\ t = free) \/
     exists j v', requests pre = S j /\ nth_error (answers c k free m d l) j = Some (t - 1, v')).
Proof.
  induction l as [|x l IH]; intros pre i post k free m d E R; [destruct pre; discriminate|].
  destruct pre as [|y pre]; cbn [app] in E; injection E as <- ->.
  - cbn [answers]. rewrite R. eexists _, _. split; [reflexivity|]. cbn [length]. unfold requests. cbn [filter length].
    destruct (Nat.max_spec (k + 1 + d 0) free) as [[_ ->]|[_ ->]]; [right; left; auto|left; lia].
  - cbn [answers]. unfold requests in *. cbn [filter]. destruct (reads c x).
    + destruct (IH pre i post (S k) (S (Nat.max (k + 1 + d 0) free)) (mem_after c m x) (fun j => d (S j)) eq_refl R) as (t & v & A & B).
      exists t, v. cbn [length nth_error]. split; [exact A|]. destruct B as [B|[(B & B')|(j & v' & B & B')]].
      * left. lia.
      * right. right. eexists 0, _. rewrite B. split; [reflexivity|]. cbn [nth_error]. rewrite B'. cbn [Nat.sub]. rewrite Nat.sub_0_r. reflexivity.
      * right. right. exists (S j), v'. rewrite B. split; [reflexivity|]. exact B'.
    + destruct (IH pre i post (S k) free (mem_after c m x) d eq_refl R) as (t & v & A & B). exists t, v. split; [exact A|]. cbn [length].
      destruct B as [B|B]; [left; lia|right; exact B].
Qed.

(** ** C45, C47: bursts *)
Lemma burst_thm fuel s p o0 m cur l ds acc m' : burst_bus c ->
  session c (a_rnd s) (a_pos s) m (cur :: l) ds acc m' -> length (cur :: l) <= fuel ->
  a_resp s = [] -> (forall x, a_mem s x = m x) -> v_write cur <> L1 \/ p_wait (m_props c) = true ->
  exists w, respond c fuel (World s p (am_init c o0) [] (cur :: l) : world) = (Susp, w)
    /\ map fst (trace w) = cur :: l
    /\ (forall x, a_mem (st w) x = m' x)
    /\ delivered (trace w) = map (zbits (m_width c)) ds
    /\ map bval (beats_accepted (trace w)) = map Some acc.
Proof.
  intros BB Se Hf Hr Hm Hc. pose proof BB as (R & W & V & Wt & Bc & BE & _).
  destruct (session_spec c BB _ _ _ _ _ _ _ Se fuel s p (am_init c o0) [] cur l eq_refl Hf Hr eq_refl eq_refl Hm)
    as (p' & o' & tr' & s' & ws & E & Em & D & A & U & X).
  - unfold am_init. cbn [w_wait]. rewrite Bc. intros ->. reflexivity.
  - destruct Hc as [H|H]; [left; exact H|right]. unfold am_init. cbn [w_wait]. rewrite Bc, H. reflexivity.
  - eexists. split; [exact E|]. cbn [trace app st]. subst ws. repeat split; try assumption.
    unfold pend, am_init in D. cbn [w_valid] in D. rewrite V in D. exact D.
Qed.

(** C47: with the first draw "wait" a burst write is never performed *)
Lemma wait_first_thm fuel s p o tr cur b l : burst_bus c -> a_resp s = [] ->
  p_wait (m_props c) = true -> a_rnd s (a_pos s) mod 4 = 0 -> v_read b <> L1 -> v_write b = L1 ->
  exists w, respond c (S fuel) (World s p o tr (cur :: b :: l) : world) = (Exn ERuntime, w)
    /\ a_mem (st w) = a_mem s /\ beats_accepted (skipn (S (length tr)) (trace w)) = [].
Proof.
  intros BB Hr Hw Hd Rb Wb.
  assert (E : exists w, respond_body c (World s p o tr (cur :: b :: l) : world) = (Exn ERuntime, w)
     /\ a_mem (st w) = a_mem s /\ trace w = tr ++ [(cur, o)]).
  { rewrite (body_split c BB) by exact Hr. destruct BB as (R & W & V & Wt & Bc & BE & _).
    rewrite (is_one_not _ Rb), andb_false_r, W. unfold bind at 1. cbn [ret]. unfold bind at 1. cbn [sample ph input ins].
    rewrite Wb. cbn [is_one logic_eqb andb]. unfold burst_write. unfold bind at 1. unfold waitrequest. rewrite Hw.
    unfold bind at 1, coin, bind at 1, draw, bind at 1, get, bind at 1, put. cbn [st ph out trace ins ret a_rnd a_pos a_mem a_resp].
    rewrite Hd. cbn [Nat.eqb]. unfold randint. cbn [Nat.leb Nat.add]. rewrite Nat.sub_0_r, bind_assoc.
    unfold bind at 1, bind at 1, draw, bind at 1, get, bind at 1, put. cbn [st ph out trace ins ret a_rnd a_pos a_mem a_resp].
    destruct (a_rnd s (S (a_pos s)) mod S (p_maxwait (m_props c))) as [|n]; cbn [seq for_each].
    - unfold bind at 1. cbn [ret]. unfold need. rewrite Wt. eexists. split; [reflexivity|]. split; reflexivity.
    - unfold bind at 1, bind at 1, bind at 1. cbn [drive ph]. eexists. split; [reflexivity|]. split; reflexivity. }
  destruct E as (w & E & Em & Et). exists w. split; [|split; [exact Em|]].
  - unfold respond. apply loop_exn, bind_exn. exact E.
  - rewrite Et. replace (S (length tr)) with (length (tr ++ [(cur, o)])) by (rewrite app_length; cbn [length]; lia).
    rewrite skipn_all. reflexivity.
Qed.

(** a burst read of a word that is only partly initialised *)
Lemma word_at_err m a n : (exists k, k < n /\ m (a + Z.of_nat k)%Z = None) -> word_at m a n = Err EKey.
Proof.
  revert a. induction n as [|n IH]; intros a (k & Hk & E); [lia|]. cbn [word_at]. destruct (m a) eqn:Ea; [|reflexivity].
  destruct k as [|k]; [rewrite Z.add_0_r in E; congruence|].
  rewrite IH; [reflexivity|]. exists k. split; [lia|]. rewrite <- E. f_equal. lia.
Qed.
Lemma partial_word_thm fuel s p o tr cur q q1 pre y l a n k : burst_bus c -> a_resp s = [] ->
  v_read q = L1 -> bval (v_addr q) = Some a -> (a mod Z.of_nat (dsize c) = 0)%Z -> (a / Z.of_nat (dsize c) < 2 ^ 53)%Z ->
  bval (v_bcount q) = Some (Z.of_nat (S n)) -> length pre = p_latency (m_props c) ->
  a_mem s a <> None -> k < dsize c -> a_mem s (a + Z.of_nat k)%Z = None ->
  exists w, respond c (S fuel) (World s p o tr (cur :: q :: q1 :: pre ++ y :: l) : world) = (Exn EKey, w).
Proof.
  intros BB Hr Rq Ea Eal Esz Ebc Lpre N0 Hk Nk. unfold respond.
  assert (E : exists w, respond_body c (World s p o tr (cur :: q :: q1 :: pre ++ y :: l) : world) = (Exn EKey, w)).
  2:{ destruct E as (w & E). exists w. apply loop_exn, bind_exn. exact E. }
  rewrite (body_split c BB) by exact Hr. pose proof (dsize_pos c BB) as P. destruct BB as (R & W & V & Wt & B & BE & _).
  rewrite R, Rq. cbn [andb is_one logic_eqb].
  set (b := (a / Z.of_nat (dsize c))%Z).
  assert (Ha : (0 <= a)%Z) by (apply (bval_bound _ _ Ea)).
  assert (Eb : a = (b * Z.of_nat (dsize c))%Z) by (pose proof (Z.div_mod a (Z.of_nat (dsize c)) ltac:(lia)); unfold b; lia).
  eexists. apply bind_exn. unfold burst_read. unfold bind at 1. cbn [sample ph input ins].
  unfold bind at 1, toint at 1. rewrite Ea. cbn [ret]. destruct (Nat.eqb_spec (dsize c) 0); [lia|].
  unfold bind at 1. cbn [ret]. rewrite float_div_aligned by (assumption || lia). fold b.
  unfold bind at 1, toint at 1. rewrite Ebc. cbn [ret]. unfold need. rewrite BE, Wt.
  unfold bind at 1. cbn [midstep ins st ph out trace].
  unfold bind at 1. cbn [drive ph st out trace ins]. unfold bind at 1. cbn [edge ins st out trace].
  unfold bind at 1. cbn [edge ins st out trace]. unfold bind at 1. cbn [drive ph st out trace ins].
  unfold bind at 1. rewrite edges_spec. cbn [ins st ph out trace].
  replace (p_latency (m_props c) <=? length (pre ++ y :: l)) with true
    by (symmetry; apply Nat.leb_le; rewrite app_length; lia).
  rewrite Nat2Z.id. cbn [seq for_each]. apply bind_exn. unfold burst_beat, bind at 1, get. cbn [st].
  rewrite Z.add_0_r, <- Eb. destruct (a_mem s a) eqn:E0; [|contradiction]. apply bind_exn. apply bind_exn.
  rewrite word_at_err; [reflexivity|]. exists k. auto.
Qed.
End Thm.
