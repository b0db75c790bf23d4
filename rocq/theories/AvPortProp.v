(** AvPortProp.v -- C98: several Avalon memories on one dictionary. *)
From Coq Require Import Permutation.
From Verif Require Import Base Async AvMemModel AvMemSpec AvUndefSpec AvPortModel AvPortSpec AvPortProof.
Local Open Scope list_scope.

(** C98.  Any number of memories of the same width, constructed with the same dictionary, with
    any requests on their buses, for any number of cycles, in each of which the ports have their
    turns in any order: afterwards the dictionary is as after all writes of all ports, cycle by
    cycle and within a cycle in the order of the turns; each port puts on its bus, in every
    cycle, the answer due to its own reads ([answers_seen]), made from the dictionary as it was
    at the turn of the read; a port ends exactly if a request with an undefined operand comes,
    from when on its outputs stay, and that does not change what the other ports do. *)
Theorem C98_ports : forall width orders m ports cols, Forall2 (fresh width (length orders)) ports cols ->
  Forall (Permutation (seq 0 (length ports))) orders ->
  (forall a v, m a = Some v -> (0 <= v < 2 ^ Z.of_nat width)%Z) ->
  fst (run_ports orders m ports) = after m (accesses cols orders (length orders)) /\
  length (snd (run_ports orders m ports)) = length ports /\
  forall j p c l, nth_error ports j = Some p -> nth_error cols j = Some (c, l) ->
    exists q, nth_error (snd (run_ports orders m ports)) j = Some q /\
      (p_alive q = true <-> length l = length orders) /\
      map fst (on_bus q) = ins (p_world p) /\
      forall t i i' prev cur, nth_error (on_bus q) t = Some (i, prev) -> nth_error (on_bus q) (S t) = Some (i', cur) ->
        (t <= length l -> due c (answers_seen c 1 1 (fun t => after m (earlier cols orders j t)) (latency c (st (p_world p))) l) (S t) prev cur) /\
        (length l < t -> cur = prev).
Proof. exact ports_thm. Qed.
Print Assumptions C98_ports.

(** C98: [answers_seen] has one answer for each read of the port, in order, each at least the
    latency drawn later; if the last write to the address read, on whichever port, was access
    [(c', i')], the answer is what that access left there. *)
Theorem C98_latest : forall c l m cols orders j d,
  let ans := answers_seen c 1 1 (fun t => after m (earlier cols orders j t)) d l in
  length ans = length (filter (reads c) l) /\
  forall pre i post, l = pre ++ i :: post -> reads c i = true ->
    exists t v, nth_error ans (length (filter (reads c) pre)) = Some (t, v) /\
      1 + length pre + 1 + d (length (filter (reads c) pre)) <= t /\
      (forall before c' i' between, earlier cols orders j (length pre) = before ++ (c', i') :: between ->
         writes c' i' = true -> num (v_addr i') = num (v_addr i) ->
         Forall (fun x => writes (fst x) (snd x) = true -> num (v_addr (snd x)) <> num (v_addr i)) between ->
         v = zbits (m_width c)
               (if m_be c' then merged c' (num (v_be i')) (num (v_wdata i')) (opt (after m before (num (v_addr i))) 0%Z)
                else num (v_wdata i'))) /\
      (Forall (fun x => writes (fst x) (snd x) = true -> num (v_addr (snd x)) <> num (v_addr i)) (earlier cols orders j (length pre)) ->
         v = word c m (num (v_addr i))).
Proof.
  intros c l m cols orders j d ans. destruct (seen_schedule c l (fun t => after m (earlier cols orders j t)) 1 1 d) as [S1 S2].
  split; [exact S1|]. intros pre i post E R. destruct (S2 pre i post E R) as (t & E1 & E2).
  eexists t, _. split; [exact E1|]. split; [exact E2|]. split.
  - intros before c' i' between Ee Hw Ha F. unfold word. rewrite Ee, (last_write_thm _ _ _ _ _ _ Hw Ha F). reflexivity.
  - intro F. unfold word. rewrite (untouched _ _ _ F). reflexivity.
Qed.
Print Assumptions C98_latest.

(** Examples: two ports; in cycle 1 port 0 writes 7 to address 3 and port 1 reads it (it gets
    7); in cycle 2 port 1 writes 9 and port 0 reads (it gets 7: it has its turn first); in
    cycle 3 port 0 reads again (9). *)
Definition exp_cfg := AmCfg 8 true true true true false false 1 1 (AProps true 4 1).
Definition exp_rd := AmIn L1 L0 (zbits 8 3) (zbits 8 0) [] [].
Definition exp_wr d := AmIn L0 L1 (zbits 8 3) (zbits 8 d) [] [].
Definition exp_idle := AmIn L0 L0 (zbits 8 0) (zbits 8 0) [] [].
Definition exp_port l := Port exp_cfg true (World (AmState (fun _ => None) [] (fun _ => 0) 0) PActive (AmOut L0 (xs 8) L0) [] (exp_idle :: l)).
Definition exp_a := [exp_wr 7; exp_rd; exp_rd; exp_idle; exp_idle; exp_idle].
Definition exp_b := [exp_rd; exp_wr 9; exp_idle; exp_idle; exp_idle; exp_idle].
Definition exp_ports := [exp_port exp_a; exp_port exp_b].
Definition exp_orders := repeat [0; 1] 6.
Example exp_hypotheses : Forall2 (fresh 8 6) exp_ports [(exp_cfg, exp_a); (exp_cfg, exp_b)] /\
  Forall (Permutation (seq 0 2)) exp_orders.
Proof.
  split; [|repeat (apply Forall_cons; [reflexivity|]); apply Forall_nil].
  repeat apply Forall2_cons; try apply Forall2_nil; constructor; try reflexivity; try (cbn; lia);
    try (exists exp_idle, []; split; [reflexivity|left; reflexivity]);
    repeat (apply Forall_cons; [split; [intros _; reflexivity|vm_compute; intro H; try discriminate H; repeat split; discriminate]|]);
    try apply Forall_nil.
Qed.
Definition exp_seen (q : port) : list (option Z) :=
  map (fun x => bval (w_data (snd x))) (filter (fun x => logic_eqb (w_valid (snd x)) L1) (on_bus q)).
Example exp_run : let r := run_ports exp_orders (fun _ => None) exp_ports in
  fst r 3%Z = Some 9%Z /\ map exp_seen (snd r) = [[Some 7%Z; Some 9%Z]; [Some 7%Z]].
Proof. vm_compute. split; reflexivity. Qed.
(** the same with the turns of cycles 1 and 2 the other way round: port 1's read comes before
    port 0's write (it gets X's), and port 0's first read after port 1's write *)
Example exp_run_swapped : let orders := [1; 0] :: [1; 0] :: repeat [0; 1] 4 in
  let r := run_ports orders (fun _ => None) exp_ports in
  Forall (Permutation (seq 0 2)) orders /\
  fst r 3%Z = Some 9%Z /\ map exp_seen (snd r) = [[Some 9%Z; Some 9%Z]; [None]].
Proof.
  cbn zeta. split; [|vm_compute; split; reflexivity].
  repeat (apply Forall_cons; [first [reflexivity|apply perm_swap]|]); apply Forall_nil.
Qed.
(** port 1 gets a write with an undefined address in cycle 2: it ends before
    its read of cycle 1 is answered (the latency is 1); what port 0 wrote in cycle 1 stays, and
    port 0 goes on *)
Definition exp_bad := AmIn L0 L1 (xs 8) (zbits 8 9) [] [].
Definition exp_d := [exp_rd].
Definition exp_dying := [exp_port exp_a; exp_port (exp_d ++ exp_bad :: repeat exp_rd 4)].
Example exp_dying_hypotheses : Forall2 (fresh 8 6) exp_dying [(exp_cfg, exp_a); (exp_cfg, exp_d)].
Proof.
  repeat apply Forall2_cons; try apply Forall2_nil; constructor; try reflexivity; try (cbn; lia);
    try (exists exp_idle, []; split; [reflexivity|left; reflexivity]);
    try (exists exp_idle, (exp_bad :: repeat exp_rd 4); split; [reflexivity|right; exists exp_bad, (repeat exp_rd 4); split; [reflexivity|left; split; [right; reflexivity|reflexivity]]]);
    repeat (apply Forall_cons; [split; [intros _; reflexivity|vm_compute; intro H; try discriminate H; repeat split; discriminate]|]);
    try apply Forall_nil.
Qed.
Example exp_dying_run : let r := run_ports exp_orders (fun _ => None) exp_dying in
  fst r 3%Z = Some 7%Z /\ map p_alive (snd r) = [true; false] /\ map exp_seen (snd r) = [[Some 7%Z; Some 7%Z]; []].
Proof. vm_compute. repeat split; reflexivity. Qed.
