(** AvMemProp.v -- the Avalon memory. *)
From Verif Require Import Base Async CompatModel CompatSpec AvMemModel AvMemSpec AvMemProof AvBurstProof AvMemThm.
Local Open Scope list_scope.

(** C43: compare the memory before and after the last cycle of any run.  Without a
    write it is the same; with one, no other address changes, and the addressed
    word has the written data in the enabled byte lanes and the old word (0 if
    there was none) in the others. *)
Theorem C43_byte_enables c fuel s p o i0 l i : m_bc c = false -> m_latmin c <= m_latmax c ->
  Forall (well_formed c) (l ++ [i]) -> S (length l) < fuel -> a_resp s = [] -> fitting c (a_mem s) ->
  exists w w',
    respond c fuel (World s p o [] (i0 :: l)) = (Susp, w) /\
    respond c fuel (World s p o [] (i0 :: l ++ [i])) = (Susp, w') /\
    (writes c i = false -> a_mem (st w') = a_mem (st w)) /\
    (writes c i = true ->
       (forall x, x <> num (v_addr i) -> a_mem (st w') x = a_mem (st w) x) /\
       exists v, a_mem (st w') (num (v_addr i)) = Some v /\ (0 <= v < 2 ^ Z.of_nat (m_width c))%Z /\
         (m_be c = false -> v = num (v_wdata i)) /\
         (m_be c = true -> (v < 2 ^ (8 * Z.of_nat (m_width c / 8)))%Z /\
            forall k, k < m_width c / 8 ->
            lane k v = lane k (if Z.testbit (num (v_be i)) (Z.of_nat k) then num (v_wdata i)
                               else opt (a_mem (st w) (num (v_addr i))) 0%Z))).
Proof. exact (write_thm c fuel s p o i0 l i). Qed.
Print Assumptions C43_byte_enables.

(** C44: in every cycle of every run the memory puts on the bus the answer due in
    that cycle according to [answers], and otherwise nothing new. *)
Theorem C44_responses c fuel s p o i0 l : m_bc c = false -> m_latmin c <= m_latmax c ->
  Forall (well_formed c) l -> length l < fuel -> a_resp s = [] -> fitting c (a_mem s) ->
  exists w, respond c fuel (World s p o [] (i0 :: l)) = (Susp, w) /\
    map fst (trace w) = i0 :: l /\
    forall t i i' prev cur, nth_error (trace w) t = Some (i, prev) -> nth_error (trace w) (S t) = Some (i', cur) ->
      due c (answers c 1 1 (a_mem s) (latency c s) l) (S t) prev cur.
Proof. exact (responses_thm c fuel s p o i0 l). Qed.
Print Assumptions C44_responses.

(** C44: about [answers]: there is one answer per request; a request in cycle
    t0 = 1 + length pre has its own answer, later answers are later; the data is
    what the memory held; the answer comes at least 1 + readlatency_min cycles later *)
Theorem C44_schedule c s m l : m_latmin c <= m_latmax c ->
  let ans := answers c 1 1 m (latency c s) l in
  length ans = length (filter (reads c) l) /\
  (forall pre i post, l = pre ++ i :: post -> reads c i = true ->
     exists t, nth_error ans (length (filter (reads c) pre))
               = Some (t, word c (fold_left (mem_after c) pre m) (num (v_addr i)))
               /\ S (length pre) + 1 + m_latmin c <= t) /\
  (forall j j' t t' v v', j < j' -> nth_error ans j = Some (t, v) -> nth_error ans j' = Some (t', v') -> t < t').
Proof. exact (schedule_thm c s m l). Qed.
Print Assumptions C44_schedule.

(** C44: the answer comes at the latency drawn for the request (which is between
    readlatency_min and readlatency_max), or directly after the answer before *)
Theorem C44_prompt c s m l : m_latmin c <= m_latmax c ->
  let ans := answers c 1 1 m (latency c s) l in
  (forall j, m_latmin c <= latency c s j <= m_latmax c) /\
  forall pre i post, l = pre ++ i :: post -> reads c i = true ->
  exists t v, nth_error ans (length (filter (reads c) pre)) = Some (t, v) /\
    (t = 1 + length pre + 1 + latency c s (length (filter (reads c) pre))
     \/ (length (filter (reads c) pre) = 0 /\ t = 1)
     \/ exists j v', length (filter (reads c) pre) = S j /\ nth_error ans j = Some (t - 1, v')).
Proof.
  exact (fun H => conj (fun j => latency_range c s j H)
                       (fun pre i post => answers_prompt c l pre i post 1 1 m (latency c s))).
Qed.
Print Assumptions C44_prompt.

(** C45, partial: in a session of bursts (one after the other, no gap between the
    beats of a write burst, requests not pipelined) the memory delivers exactly the
    words of the ranges read, accepts exactly the beats written, and ends with
    exactly the words stored.  It never raises (C47). *)
Theorem C45_bursts_partial c fuel s p o0 m cur l ds acc m' : burst_bus c ->
  session c (a_rnd s) (a_pos s) m (cur :: l) ds acc m' -> length (cur :: l) <= fuel ->
  a_resp s = [] -> (forall x, a_mem s x = m x) -> v_write cur <> L1 \/ p_wait (m_props c) = true ->
  exists w, respond c fuel (World s p (am_init c o0) [] (cur :: l)) = (Susp, w)
    /\ map fst (trace w) = cur :: l
    /\ (forall x, a_mem (st w) x = m' x)
    /\ delivered (trace w) = map (zbits (m_width c)) ds
    /\ map bval (beats_accepted (trace w)) = map Some acc.
Proof. exact (burst_thm c fuel s p o0 m cur l ds acc m'). Qed.
Print Assumptions C45_bursts_partial.

(** C45: the words of a range just stored are the words stored *)
Theorem C45_read_back c m a ds : burst_bus c -> (0 <= a)%Z ->
  Forall (fun d => 0 <= d < 256 ^ Z.of_nat (dsize c))%Z ds ->
  initialised c (stored c m a ds) a (length ds) /\ range_words c (stored c m a ds) a (length ds) = ds.
Proof. exact (fun B H F => conj (stored_initialised c m a ds) (stored_words c B m a ds H F)). Qed.
Print Assumptions C45_read_back.

(** A bus with 8-bit data; no wait states; every draw is 1 ("no wait"). *)
Definition ex_cfg (w : bool) := AmCfg 8 true true true true true true 1 1 (AProps w 4 1).
Definition ex_st (r : nat) := AmState (fun _ => None) [] (fun _ => r) 0.
Definition ex_o := AmOut LX (xs 8) LX.
Definition beat (a n d : Z) := AmIn L0 L1 (zbits 8 a) (zbits 8 d) (zbits 4 n) [L1].
Definition rd (a n : Z) := AmIn L1 L0 (zbits 8 a) (zbits 8 0) (zbits 4 n) [L1].
Definition idle := AmIn L0 L0 (zbits 8 0) (zbits 8 0) (zbits 4 0) [L1].
(** idle with something on the data lines *)
Definition junk (d : Z) := AmIn L0 L0 (zbits 8 0) (zbits 8 d) (zbits 4 0) [L1].
Definition ex_run (w : bool) (r : nat) (l : list am_in) :=
  respond (ex_cfg w) 100 (World (ex_st r) PMid (am_init (ex_cfg w) ex_o) [] l).

(** C45, false with a gap between two beats: the beats 10, 20 to address 4 are both
    accepted, but what is stored in 5 is the data of the idle cycle between them. *)
Theorem C45_gap_refuted :
  exists w, ex_run false 1 [idle; beat 4 2 10; junk 99; beat 4 2 20; idle; idle] = (Susp, w)
    /\ beats_accepted (trace w) = [zbits 8 10; zbits 8 20]
    /\ a_mem (st w) 4%Z = Some 10%Z /\ a_mem (st w) 5%Z = Some 99%Z.
Proof. eexists. vm_compute. repeat split. Qed.
Print Assumptions C45_gap_refuted.

(** C45, false for a burst directly after another: its first beat is accepted and lost. *)
Theorem C45_back_to_back_refuted :
  exists w, ex_run false 1 [idle; beat 4 1 10; beat 6 2 20; beat 6 2 30; idle; idle; idle] = (Susp, w)
    /\ beats_accepted (trace w) = [zbits 8 10; zbits 8 20; zbits 8 30]
    /\ a_mem (st w) 6%Z = Some 30%Z /\ a_mem (st w) 7%Z <> Some 30%Z.
Proof. eexists. vm_compute. repeat split; discriminate. Qed.
Print Assumptions C45_back_to_back_refuted.

(** C45, false for a read requested while another is answered: it is accepted
    (waitrequest low) and never answered. *)
Theorem C45_pipelined_refuted :
  exists w, ex_run false 1 ([idle; beat 4 2 10; beat 4 2 20; idle; rd 4 1; idle; idle; rd 5 1] ++ repeat idle 20) = (Susp, w)
    /\ nth_error (map (fun x => (v_read (fst x), w_wait (snd x))) (trace w)) 7 = Some (L1, L0)
    /\ delivered (trace w) = [zbits 8 10].
Proof. eexists. vm_compute. repeat split. Qed.
Print Assumptions C45_pipelined_refuted.

(** C46, false: constructing an instance with options changes the options of the
    instances constructed before and after it. *)
Theorem C46_refuted : exists u,
  construct (construct default_props u) no_props <> construct default_props no_props.
Proof. exists (UProps (Some false) None None). vm_compute. discriminate. Qed.
Print Assumptions C46_refuted.
(** C46, what holds: constructing instances without options changes nothing, and
    each option given takes effect. *)
Theorem C46_partial d u : construct d no_props = d /\
  (forall b, u_wait u = Some b -> p_wait (construct d u) = b) /\
  (forall n, u_maxwait u = Some n -> p_maxwait (construct d u) = n) /\
  (forall n, u_latency u = Some n -> p_latency (construct d u) = n) /\
  (u_wait u = None -> p_wait (construct d u) = p_wait d) /\
  (u_maxwait u = None -> p_maxwait (construct d u) = p_maxwait d) /\
  (u_latency u = None -> p_latency (construct d u) = p_latency d).
Proof. destruct d, u. repeat split; cbn; intros; subst; reflexivity. Qed.
Print Assumptions C46_partial.

(** C47, false: if the draw at the start of a burst write is "wait" (one in four,
    and it is the default to draw), the memory process ends with RuntimeError and
    nothing is written or accepted. *)
Theorem C47_refuted c fuel s p o tr cur b l : burst_bus c -> a_resp s = [] ->
  p_wait (m_props c) = true -> a_rnd s (a_pos s) mod 4 = 0 -> v_read b <> L1 -> v_write b = L1 ->
  exists w, respond c (S fuel) (World s p o tr (cur :: b :: l)) = (Exn ERuntime, w)
    /\ a_mem (st w) = a_mem s /\ beats_accepted (skipn (S (length tr)) (trace w)) = [].
Proof. exact (wait_first_thm c fuel s p o tr cur b l). Qed.
Print Assumptions C47_refuted.
(** C47, what holds: with "no wait" drawn there, all other draws are harmless. *)
Theorem C47_partial c fuel s p o0 m cur l ds acc m' : burst_bus c ->
  session c (a_rnd s) (a_pos s) m (cur :: l) ds acc m' -> length (cur :: l) <= fuel ->
  a_resp s = [] -> (forall x, a_mem s x = m x) -> v_write cur <> L1 \/ p_wait (m_props c) = true ->
  fst (respond c fuel (World s p (am_init c o0) [] (cur :: l))) = Susp.
Proof.
  exact (fun B Se F R M C => match burst_thm c fuel s p o0 m cur l ds acc m' B Se F R M C with
                             | ex_intro _ w (conj E _) => f_equal fst E end).
Qed.
Print Assumptions C47_partial.

(** C48, false: with 32-bit words, memory word 2^53 + 1 (address 2^55 + 4) holding
    7 7 7 7 and word 2^53 holding 1 1 1 1, a read of the former returns the latter. *)
Theorem C48_refuted :
  let r := respond (AmCfg 32 true true true true true true 1 1 (AProps false 4 1)) 100
      (World (AmState (fun a => if (a <? 2 ^ 55)%Z then None else if (a <? 2 ^ 55 + 4)%Z then Some 1%Z else Some 7%Z)
                      [] (fun _ => 1) 0) PMid (AmOut L0 (xs 32) L0) []
        ([idle; AmIn L1 L0 (zbits 56 (2 ^ 55 + 4)) (zbits 32 0) (zbits 4 1) [L1]] ++ repeat idle 10)) in
  fst r = Susp /\ delivered (trace (snd r)) = [zbits 32 16843009 (* 1 1 1 1 *)].
Proof. cbn zeta. split; vm_compute; reflexivity. Qed.
Print Assumptions C48_refuted.
(** C48, what holds: the quotient is exact for aligned addresses of the first 2^53
    words, and for all addresses up to 2^52. *)
Theorem C48_partial a b : (0 <= a -> 0 < b ->
  (a mod b = 0 /\ a / b < 2 ^ 53 \/ a <= 2 ^ 52 /\ b <= 2 ^ 53) -> float_div a b = a / b)%Z.
Proof.
  exact (fun Ha Hb H => match H with
    | or_introl (conj A B) => float_div_aligned a b Ha Hb A B
    | or_intror (conj A B) => float_div_small a b (conj Ha A) (conj Hb B) end).
Qed.
Print Assumptions C48_partial.

(** C77, false: reading a word that was written only in part ends the memory
    process with KeyError. *)
Theorem C77_refuted c fuel s p o tr cur q q1 pre y l a n k : burst_bus c -> a_resp s = [] ->
  v_read q = L1 -> bval (v_addr q) = Some a -> (a mod Z.of_nat (dsize c) = 0)%Z -> (a / Z.of_nat (dsize c) < 2 ^ 53)%Z ->
  bval (v_bcount q) = Some (Z.of_nat (S n)) -> length pre = p_latency (m_props c) ->
  a_mem s a <> None -> k < dsize c -> a_mem s (a + Z.of_nat k)%Z = None ->
  exists w, respond c (S fuel) (World s p o tr (cur :: q :: q1 :: pre ++ y :: l)) = (Exn EKey, w).
Proof. exact (partial_word_thm c fuel s p o tr cur q q1 pre y l a n k). Qed.
Print Assumptions C77_refuted.

(** Examples *)
Definition ex_word := AmCfg 16 true true true true false true 1 3 default_props.
Definition wr (a d be : Z) := AmIn L0 L1 (zbits 8 a) (zbits 16 d) [] (zbits 2 be).
Definition rdw (a : Z) := AmIn L1 L0 (zbits 8 a) (zbits 16 0) [] (zbits 2 3).
Example ex_well_formed : Forall (well_formed ex_word) [wr 3 4660 3; wr 3 255 1; rdw 3; rdw 4].
Proof. repeat (constructor; [split; intros; vm_compute; repeat split|]). constructor. Qed.
Example ex_word_run :
  let w := snd (respond ex_word 100 (World (ex_st 5) PMid (am_init ex_word (AmOut LX (xs 16) LX)) []
                 ([idle; wr 3 4660 3; wr 3 255 1; rdw 3; rdw 4] ++ repeat idle 6))) in
  a_mem (st w) 3%Z = Some 4863%Z /\ delivered (trace w) = [zbits 16 4863; xs 16]
  /\ answers ex_word 1 1 (fun _ => None) (latency ex_word (ex_st 5)) [wr 3 4660 3; wr 3 255 1; rdw 3; rdw 4]
     = [(7, zbits 16 4863); (8, xs 16)].
Proof. vm_compute. repeat split. Qed.
(** draws: no wait, then wait 2, then no wait, no wait *)
Definition ex_rnd (k : nat) : nat := nth k [1; 4; 7; 3; 2] 1.
Definition ex_bst := AmState (fun _ => None) [] ex_rnd 0.
Definition ex_bursts :=
  idle :: beat 4 3 10 :: [idle; idle] ++ beat 4 3 20 :: [] ++ beat 4 3 30 :: [] ++ idle
  :: rd 5 2 :: idle :: idle :: [idle] ++ [idle] ++ idle :: [].
Example ex_bus : burst_bus (ex_cfg true).
Proof. repeat split. cbn. lia. Qed.
Example ex_session : exists m', session (ex_cfg true) ex_rnd 0 (fun _ => None) ex_bursts [20; 30]%Z [10; 20; 30]%Z m'.
Proof.
  eexists. unfold ex_bursts. change [20; 30]%Z with (range_words (ex_cfg true) (stored (ex_cfg true) (fun _ => None) 4 [10; 20; 30]%Z) 5 2 ++ []).
  eapply (ss_write (ex_cfg true) ex_rnd 0 _ idle 4 10 [20; 30]%Z); try reflexivity; try discriminate.
  - cbn. apply (bt_more (ex_cfg true) ex_rnd 1 [idle; idle] (beat 4 3 20)); try reflexivity.
    cbn. apply (bt_more (ex_cfg true) ex_rnd 3 [] (beat 4 3 30)); try reflexivity.
    cbn. apply (bt_end (ex_cfg true) ex_rnd 4 []). reflexivity.
  - eapply (ss_read (ex_cfg true) ex_rnd _ _ idle 5 1 (rd 5 2) idle idle [idle] [idle] idle []); try reflexivity.
    + repeat constructor; discriminate.
    + intros x Hx. cbn in Hx. assert (x = 5 \/ x = 6)%Z as [->| ->] by lia; eexists; split; try reflexivity; unfold is_byte; vm_compute; split; congruence.
    + constructor.
Qed.
Example ex_bursts_run : let w := snd (respond (ex_cfg true) 100 (World ex_bst PMid (am_init (ex_cfg true) ex_o) [] ex_bursts)) in
  delivered (trace w) = [zbits 8 20; zbits 8 30] /\ map (a_mem (st w)) [4; 5; 6; 7]%Z = [Some 10; Some 20; Some 30; None]%Z.
Proof. vm_compute. repeat split. Qed.
Example ex_wait_first : fst (ex_run true 4 [idle; beat 4 2 10; idle]) = Exn ERuntime.
Proof. vm_compute. reflexivity. Qed.
