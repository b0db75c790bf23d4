(** MemRefProp.v -- C45, C48: for which bursts and addresses they fail. *)
From Verif Require Import Base Async CompatModel CompatSpec AvMemModel AvMemSpec AvMemProof AvBurstProof AvMemThm AvMemProp MemRefProof.
Local Open Scope list_scope.

(** C45, false for every write burst of two beats with a cycle without write between them: the
    data of that cycle [d1] is stored as the second word, although the second beat accepted is
    [d2].  What the masters do afterwards is any session (see C45_bursts_partial): it finds
    [d; d1] in the memory. *)
Theorem C45_every_gap_refuted c fuel s p o0 m cur a d b g d1 e d2 l rs acc m' : burst_bus c ->
  p_wait (m_props c) = false -> a_resp s = [] -> (forall x, a_mem s x = m x) ->
  v_write cur <> L1 -> v_read b <> L1 -> v_write b = L1 ->
  bval (v_addr b) = Some a -> bval (v_bcount b) = Some 2%Z -> bval (v_wdata b) = Some d ->
  v_write g <> L1 -> bval (v_wdata g) = Some d1 ->
  v_write e = L1 -> bval (v_wdata e) = Some d2 ->
  session c (a_rnd s) (a_pos s) (stored c m a [d; d1]) (e :: l) rs acc m' ->
  length (cur :: b :: g :: e :: l) <= fuel ->
  exists w, respond c fuel (World s p (am_init c o0) [] (cur :: b :: g :: e :: l)) = (Susp, w)
    /\ map fst (trace w) = cur :: b :: g :: e :: l
    /\ (forall x, a_mem (st w) x = m' x)
    /\ delivered (trace w) = map (zbits (m_width c)) rs
    /\ map bval (beats_accepted (trace w)) = map Some (d :: d2 :: acc).
Proof. exact (fun B => gap_burst c B fuel s p o0 m cur a d b g d1 e d2 l rs acc m'). Qed.
Print Assumptions C45_every_gap_refuted.

(** C45, false for every write burst (of any length) with gaps anywhere, as long as no two of its
    cycles directly after each other are without write: the cycles after the first beat are
    [cs], as many as the burst has further beats, and the words on writedata in them ([ds]) are all
    stored, whether written or not.  The beats accepted are those of the cycles with write, and the
    cycle [e] after that, where the burst goes on if there was a gap, is not looked at. *)
Theorem C45_gaps_refuted c fuel s p o0 m cur a d ds b cs e l rs acc m' : burst_bus c ->
  p_wait (m_props c) = false -> a_resp s = [] -> (forall x, a_mem s x = m x) ->
  v_write cur <> L1 -> v_read b <> L1 -> v_write b = L1 ->
  bval (v_addr b) = Some a -> bval (v_bcount b) = Some (Z.of_nat (S (length cs))) -> bval (v_wdata b) = Some d ->
  (forall j x y, nth_error (b :: cs) j = Some x -> nth_error cs j = Some y -> v_write x = L1 \/ v_write y = L1) ->
  map (fun i => bval (v_wdata i)) cs = map Some ds ->
  session c (a_rnd s) (a_pos s) (stored c m a (d :: ds)) (e :: l) rs acc m' ->
  let ins := cur :: b :: cs ++ e :: l in
  length ins <= fuel ->
  exists w ws, respond c fuel (World s p (am_init c o0) [] ins) = (Susp, w)
    /\ map fst (trace w) = ins
    /\ (forall x, a_mem (st w) x = m' x)
    /\ delivered (trace w) = map (zbits (m_width c)) rs
    /\ beats_accepted (trace w) = map v_wdata (filter (fun i => logic_eqb (v_write i) L1) (b :: cs ++ [e])) ++ ws
    /\ map bval ws = map Some acc.
Proof. exact (fun B => gaps_burst c B fuel s p o0 m cur a d ds b cs e l rs acc m'). Qed.
Print Assumptions C45_gaps_refuted.

(** C45, false for every write burst (of any length) with a beat [d2] of the next burst in the
    cycle directly after it: that beat is accepted and has no effect; all that follows behaves
    as if it had not been there. *)
Theorem C45_every_back_to_back_refuted c fuel s p o0 m cur a d ds b l pos' e d2 l' rs acc m' : burst_bus c ->
  p_wait (m_props c) = false -> a_resp s = [] -> (forall x, a_mem s x = m x) ->
  v_write cur <> L1 -> v_read b <> L1 -> v_write b = L1 ->
  bval (v_addr b) = Some a -> bval (v_bcount b) = Some (Z.of_nat (S (length ds))) -> bval (v_wdata b) = Some d ->
  beats c (a_rnd s) (a_pos s) ds l pos' (e :: l') -> v_write e = L1 -> bval (v_wdata e) = Some d2 ->
  session c (a_rnd s) pos' (stored c m a (d :: ds)) (e :: l') rs acc m' ->
  length (cur :: b :: l) <= fuel ->
  exists w, respond c fuel (World s p (am_init c o0) [] (cur :: b :: l)) = (Susp, w)
    /\ map fst (trace w) = cur :: b :: l
    /\ (forall x, a_mem (st w) x = m' x)
    /\ delivered (trace w) = map (zbits (m_width c)) rs
    /\ map bval (beats_accepted (trace w)) = map Some (d :: ds ++ d2 :: acc).
Proof. exact (fun B => lost_beat c B fuel s p o0 m cur a d ds b l pos' e d2 l' rs acc m'). Qed.
Print Assumptions C45_every_back_to_back_refuted.

(** C45, false for every read burst during whose answer another read is requested: that read [r],
    in any cycle from one cycle after waitrequest is low until the last word, is accepted
    (waitrequest is low) and has no answer: what is delivered is the first burst's words and what
    the masters ask for afterwards. *)
Theorem C45_every_pipelined_refuted c fuel s p o0 m cur a n q q1 q2 lat bs e l k r rs acc m' : burst_bus c ->
  a_resp s = [] -> (forall z, a_mem s z = m z) -> v_write cur <> L1 ->
  v_read q = L1 -> Forall (fun i => v_write i <> L1) (q :: q1 :: q2 :: lat ++ bs ++ [e]) ->
  bval (v_addr q) = Some a -> (a mod Z.of_nat (dsize c) = 0)%Z -> (a / Z.of_nat (dsize c) < 2 ^ 53)%Z ->
  bval (v_bcount q) = Some (Z.of_nat (S n)) -> initialised c m a (S n) ->
  length lat = p_latency (m_props c) -> length bs = n ->
  nth_error (lat ++ bs) k = Some r -> v_read r = L1 ->
  session c (a_rnd s) (a_pos s) m (e :: l) rs acc m' ->
  let ins := cur :: q :: q1 :: q2 :: lat ++ bs ++ e :: l in
  length ins <= fuel ->
  exists w o, respond c fuel (World s p (am_init c o0) [] ins) = (Susp, w)
    /\ map fst (trace w) = ins
    /\ nth_error (trace w) (4 + k) = Some (r, o) /\ v_read r = L1 /\ w_wait o = L0
    /\ delivered (trace w) = map (zbits (m_width c)) (range_words c m a (S n) ++ rs).
Proof. exact (fun B => lost_read c B fuel s p o0 m cur a n q q1 q2 lat bs e l k r rs acc m'). Qed.
Print Assumptions C45_every_pipelined_refuted.

(** C48, false for every odd word index [x] between 2^53 and 2^54: a read burst at the address
    of word [x] (x times the word size) delivers the words from index [x'] on, x - 1 or x + 1. *)
Theorem C48_every_far_word_refuted c fuel s p o0 m cur x n q q1 q2 lat bs e l rs acc m' : burst_bus c ->
  let d := Z.of_nat (dsize c) in
  let x' := (if x mod 4 =? 1 then x - 1 else x + 1)%Z in
  a_resp s = [] -> (forall z, a_mem s z = m z) -> v_write cur <> L1 ->
  v_read q = L1 -> Forall (fun i => v_write i <> L1) (q :: q1 :: q2 :: lat ++ bs ++ [e]) ->
  bval (v_addr q) = Some (x * d)%Z -> Z.odd x = true -> (2 ^ 53 < x < 2 ^ 54)%Z ->
  bval (v_bcount q) = Some (Z.of_nat (S n)) -> initialised c m (x' * d) (S n) ->
  length lat = p_latency (m_props c) -> length bs = n ->
  session c (a_rnd s) (a_pos s) m (e :: l) rs acc m' ->
  let ins := cur :: q :: q1 :: q2 :: lat ++ bs ++ e :: l in
  length ins <= fuel ->
  exists w, respond c fuel (World s p (am_init c o0) [] ins) = (Susp, w)
    /\ map fst (trace w) = ins /\ (forall z, a_mem (st w) z = m' z)
    /\ delivered (trace w) = map (zbits (m_width c)) (range_words c m (x' * d) (S n) ++ rs).
Proof. exact (fun B => far_read c B fuel s p o0 m cur x n q q1 q2 lat bs e l rs acc m'). Qed.
Print Assumptions C48_every_far_word_refuted.

(** ** cases: both on the 8-bit bus of C45's examples *)
Example exm_gap :
  burst_bus (ex_cfg false) /\ v_write (junk 99) <> L1 /\ bval (v_wdata (junk 99)) = Some 99%Z /\ bval (v_bcount (beat 4 2 10)) = Some 2%Z /\
  session (ex_cfg false) (fun _ => 1) 0 (stored (ex_cfg false) (fun _ => None) 4 [10; 99]%Z) (beat 4 2 20 :: [idle; idle]) [] []
          (stored (ex_cfg false) (fun _ => None) 4 [10; 99]%Z).
Proof.
  split; [vm_compute; repeat split; lia|]. split; [discriminate|]. split; [reflexivity|]. split; [reflexivity|].
  apply ss_idle; [discriminate|discriminate|]. apply ss_idle; [discriminate|discriminate|]. apply ss_end.
Qed.
Example exm_back :
  beats (ex_cfg false) (fun _ => 1) 0 [11]%Z [beat 4 2 11; beat 6 2 20; idle] 0 [beat 6 2 20; idle] /\
  session (ex_cfg false) (fun _ => 1) 0 (stored (ex_cfg false) (fun _ => None) 4 [10; 11]%Z) [beat 6 2 20; idle] [] []
          (stored (ex_cfg false) (fun _ => None) 4 [10; 11]%Z).
Proof.
  split.
  - apply (bt_more (ex_cfg false) (fun _ => 1) 0 [] (beat 4 2 11) 11%Z [] [beat 6 2 20; idle] 0 [beat 6 2 20; idle]); try reflexivity.
    apply (bt_end (ex_cfg false) (fun _ => 1) 0 [] (beat 6 2 20) [idle]). reflexivity.
  - apply ss_idle; [discriminate|discriminate|]. apply ss_end.
Qed.

(** the memory of 8-bit words holds in every byte its address modulo 256; word 2^53 + 3 is read: byte
    4 comes *)
Definition exm_mem : memory := fun z => Some (z mod 256)%Z.
Definition exm_far := AmIn L1 L0 (zbits 56 (2 ^ 53 + 3)) (zbits 8 0) (zbits 4 1) [L1].
Example exm_far_word :
  let x := (2 ^ 53 + 3)%Z in
  Z.of_nat (dsize (ex_cfg false)) = 1%Z /\ Z.odd x = true /\ (2 ^ 53 < x < 2 ^ 54)%Z /\
  bval (v_addr exm_far) = Some (x * 1)%Z /\ bval (v_bcount exm_far) = Some 1%Z /\
  initialised (ex_cfg false) exm_mem (x + 1) 1 /\
  range_words (ex_cfg false) exm_mem x 1 = [3%Z] /\
  range_words (ex_cfg false) exm_mem (if x mod 4 =? 1 then x - 1 else x + 1)%Z 1 = [4%Z] /\
  session (ex_cfg false) (fun _ => 1) 0 exm_mem [idle; idle] [] [] exm_mem.
Proof.
  cbn zeta. split; [reflexivity|]. split; [reflexivity|]. split; [lia|]. split; [vm_compute; reflexivity|]. split; [reflexivity|].
  split; [|split; [vm_compute; reflexivity|split; [vm_compute; reflexivity|]]].
  - intros z _. exists (z mod 256)%Z. split; [reflexivity|]. unfold is_byte. pose proof (Z.mod_pos_bound z 256). lia.
  - apply ss_idle; [discriminate|discriminate|]. apply ss_end.
Qed.

(** two words are read from 4; a read of 5 comes with the second word *)
Example exm_pipelined :
  v_read (rd 4 2) = L1 /\ bval (v_addr (rd 4 2)) = Some 4%Z /\ bval (v_bcount (rd 4 2)) = Some 2%Z /\
  initialised (ex_cfg false) exm_mem 4 2 /\
  Forall (fun i => v_write i <> L1) (rd 4 2 :: idle :: idle :: repeat idle (p_latency (m_props (ex_cfg false))) ++ [rd 5 1] ++ [idle]) /\
  nth_error (repeat idle (p_latency (m_props (ex_cfg false))) ++ [rd 5 1]) (p_latency (m_props (ex_cfg false))) = Some (rd 5 1) /\
  range_words (ex_cfg false) exm_mem 4 2 = [4; 5]%Z /\
  session (ex_cfg false) (fun _ => 1) 0 exm_mem [idle; idle] [] [] exm_mem.
Proof.
  split; [reflexivity|]. split; [reflexivity|]. split; [reflexivity|]. split; [|split; [|split; [|split]]].
  - intros z _. exists (z mod 256)%Z. split; [reflexivity|]. unfold is_byte. pose proof (Z.mod_pos_bound z 256). lia.
  - vm_compute. repeat constructor; discriminate.
  - reflexivity.
  - reflexivity.
  - apply ss_idle; [discriminate|discriminate|]. apply ss_end.
Qed.

(** four beats 10, 20, 30, 40 to address 4 with a gap after the first and after the second: the words
    stored are 10, 99, 20, 98; of the beats accepted 10, 20 and 30 are the first three *)
Example exm_gaps :
  let cs := [junk 99; beat 4 4 20; junk 98] in
  bval (v_bcount (beat 4 4 10)) = Some (Z.of_nat (S (length cs))) /\
  (forall j x y, nth_error (beat 4 4 10 :: cs) j = Some x -> nth_error cs j = Some y -> v_write x = L1 \/ v_write y = L1) /\
  map (fun i => bval (v_wdata i)) cs = map Some [99; 20; 98]%Z /\
  map v_wdata (filter (fun i => logic_eqb (v_write i) L1) (beat 4 4 10 :: cs ++ [beat 4 4 30])) = map (zbits 8) [10; 20; 30]%Z /\
  session (ex_cfg false) (fun _ => 1) 0 (stored (ex_cfg false) (fun _ => None) 4 [10; 99; 20; 98]%Z) [beat 4 4 30; idle] [] []
          (stored (ex_cfg false) (fun _ => None) 4 [10; 99; 20; 98]%Z).
Proof.
  cbn zeta. split; [reflexivity|]. split; [|split; [reflexivity|split; [reflexivity|]]].
  - intros [|[|[|j]]] x y Hx Hy; [injection Hx as <-; injection Hy as <-; auto..|]. destruct j; discriminate.
  - apply ss_idle; [discriminate|discriminate|]. apply ss_end.
Qed.
