(** PkGenProp.v -- C121: set_valid_generator while packets are being sent.  A cycle is (ready, the
    last call of set_valid_generator in that cycle, if any). *)
From Verif Require Import Base Async CompatModel DrvUtilModel MonitorModel HandshakeSpec AvalonSTModel PktModel
  StGenModel StGenSpec PktSpec PkGenModel PkGenSpec PktProp PkGenProof.
Local Open Scope list_scope.

(** C121.  Whatever generators are set in whatever cycles while packets are sent, what happens on
    the bus, and whether the sends return, wait or raise, is what the driver does with the same
    packets and the same sink if one generator [g] is set beforehand (and one word was sent
    since) and none later. *)
Theorem C121_static :
  forall c fuel ps s p o l,
    let '(r, w) := gpk_send_all c fuel ps (World s p o [] l) in
    exists g s',
      pk_send_all c fuel ps (World (snd (throttle (set_valid_generator (Some g)))) p o [] (map fst l))
      = (r, World s' (ph w) (out w) (bus_only (trace w)) (map fst (ins w))).
Proof. intros c fuel ps. exact (sim_static _ _ (rel_send_all _ closed_sim c fuel ps)). Qed.
Print Assumptions C121_static.

(** the same for an iterable, *)
Theorem C121_iterable :
  forall c fuel ws sync s p o l,
    let '(r, w) := gpk_send_iterable c fuel ws sync (World s p o [] l) in
    exists g s',
      pk_send_iterable c fuel ws sync (World (snd (throttle (set_valid_generator (Some g)))) p o [] (map fst l))
      = (r, World s' (ph w) (out w) (bus_only (trace w)) (map fst (ins w))).
Proof. intros c fuel ws sync. exact (sim_static _ _ (rel_iterable _ closed_sim c fuel ws sync)). Qed.
Print Assumptions C121_iterable.

(** and for the driver without packets. *)
Theorem C121_plain :
  forall width has_ready fuel ws s p o l,
    let '(r, w) := gen_send_all width has_ready fuel ws (World s p o [] l) in
    exists g s',
      st_send_all width has_ready fuel ws (World (snd (throttle (set_valid_generator (Some g)))) p o [] (map fst l))
      = (r, World s' (ph w) (out w) (bus_only (trace w)) (map fst (ins w))).
Proof. intros width hr fuel ws. exact (sim_static _ _ (sim_plain width hr fuel ws)). Qed.
Print Assumptions C121_plain.

(** So the words transferred carry the packet, as in C34: all of them when the send has returned,
    and otherwise a prefix; a word offered and not accepted is repeated unchanged. *)
Theorem C121_framing :
  forall c k pkt sync ch s p o fuel l,
    word_bus c k -> channel_ok c ch -> pkt <> [] -> length l + length pkt < fuel -> p <> PReadOnly ->
    exists ws, framed (c_high c) (use_empty c) k (c_width c - 8 * k) pkt ws
    /\ (forall n, c_cw c = Some n ->
          Forall (fun w => bval (k_channel w) = Some (match ch with Some z => z | None => 0%Z end)) ws)
    /\ let '(r, w) := gpk_send c fuel pkt sync ch (World s p o [] l) in
       map fst (bus_only (trace w)) ++ map fst (ins w) = map fst l
       /\ (forall i, HandshakeSpec.stable k_offered (k_accepts (c_ready c)) (bus_only (trace w) ++ [(i, out w)]))
       /\ match r with
          | Done _ => HandshakeSpec.transfers k_offered (k_accepts (c_ready c)) (bus_only (trace w)) = ws /\ k_valid (out w) = L0
                      /\ exists before c0, bus_only (trace w) = before ++ [c0]
                         /\ HandshakeSpec.transferred k_offered (k_accepts (c_ready c)) c0 = true
          | Susp => ins w = []
                    /\ exists n, HandshakeSpec.transfers k_offered (k_accepts (c_ready c)) (bus_only (trace w)) = firstn n ws
          | _ => False
          end.
Proof.
  intros c k pkt sync ch s p o fuel l H1 H2 H3 H4 H5.
  pose proof (sim_static _ _ (rel_send _ closed_sim c fuel pkt sync ch) s p o l) as S.
  destruct (gpk_send c fuel pkt sync ch (World s p o [] l)) as [r w]. destruct S as (g & s' & E).
  destruct (C34_framing c k pkt sync ch (snd (throttle (set_valid_generator (Some g)))) p o fuel (map fst l))
    as (ws & F1 & F2 & F3); try assumption; [rewrite map_length; exact H4|].
  exists ws. split; [exact F1|]. split; [exact F2|]. rewrite E in F3. cbn [trace ins out] in F3.
  destruct F3 as (F3 & F4 & F5). split; [exact F3|]. split; [exact F4|]. destruct r; try contradiction; [exact F5|].
  destruct F5 as [F5 F6]. split; [|exact F6]. destruct (ins w); [reflexivity|discriminate].
Qed.
Print Assumptions C121_framing.

(** The monitor receives the packets sent, in order and each once, as in C35. *)
Theorem C121_end_to_end :
  forall c k ps s p o fuel l,
    byte_bus c k -> (0 <= c_timeout c)%Z ->
    Forall (fun p => p_data p <> [] /\ all_bytes (p_data p) /\ channel_ok c (p_channel p)) ps ->
    Forall (fun p => length l + length (p_data p) < fuel) ps -> p <> PReadOnly ->
    let want := map (fun p => as_reported (c_report c) (match c_cw c with Some _ => true | None => false end)
                                          (p_data p) (p_channel p)) ps in
    let '(r, w) := gpk_send_all c fuel ps (World s p o [] l) in
    exists (n : nat) (f : res pmstate), pm_run c pm_init (sampled (bus_only (trace w))) = (firstn n want, f)
      /\ match r with
         | Done _ => ps <> [] -> k_valid (out w) = L0
         | Susp => ins w = []
         | _ => False
         end
      /\ (~ stalled c (sampled (bus_only (trace w))) -> (exists m, f = Ok m) /\ (r = Done tt -> n = length ps))
      /\ (stalled c (sampled (bus_only (trace w))) -> f = Err EAvalonProtocol).
Proof.
  intros c k ps s p o fuel l H1 H2 H3 H4 H5 want.
  pose proof (sim_static _ _ (rel_send_all _ closed_sim c fuel ps) s p o l) as S.
  destruct (gpk_send_all c fuel ps (World s p o [] l)) as [r w]. destruct S as (g & s' & E).
  pose proof (C35_end_to_end c k ps (snd (throttle (set_valid_generator (Some g)))) p o fuel (map fst l) H1 H2 H3) as F.
  rewrite map_length in F. specialize (F H4 H5). cbv zeta in F. rewrite E in F. cbn [trace ins out] in F.
  destruct F as (n & f & F1 & F2 & F3 & F4). exists n, f. split; [exact F1|]. split; [|split; assumption].
  destruct r; try contradiction; [exact F2|]. destruct (ins w); [reflexivity|discriminate].
Qed.
Print Assumptions C121_end_to_end.

(** The sends return: if no generator asks for gaps of more than [B] cycles, [B] + 1 accepting
    cycles for each byte and one for each packet suffice, whenever the generators are changed. *)
Theorem C121_progress :
  forall c k ps B s p o fuel l,
    word_bus c k -> Forall (fun q => channel_ok c (p_channel q)) ps ->
    Forall (fun q => length l + length (p_data q) < fuel) ps -> p <> PReadOnly ->
    bounded B s -> calls_bounded B l ->
    list_sum (map (fun q => 1 + length (p_data q) * (B + 1)) ps)
    <= HandshakeSpec.ready_cycles (k_accepts (c_ready c)) (map fst l) ->
    exists w, gpk_send_all c fuel ps (World s p o [] l) = (Done tt, w).
Proof. exact pkgen_progress. Qed.
Print Assumptions C121_progress.

(** If nobody calls it, this is the driver of C34 and C74 with its generator. *)
Theorem C121_no_calls :
  forall c fuel s p o l, Forall no_call l ->
    (forall ps, let '(r, w) := gpk_send_all c fuel ps (World s p o [] l) in
       pk_send_all c fuel ps (World s p o [] (map fst l))
       = (r, World (st w) (ph w) (out w) (bus_only (trace w)) (map fst (ins w))))
    /\ (forall ws sync, let '(r, w) := gpk_send_iterable c fuel ws sync (World s p o [] l) in
       pk_send_iterable c fuel ws sync (World s p o [] (map fst l))
       = (r, World (st w) (ph w) (out w) (bus_only (trace w)) (map fst (ins w)))).
Proof.
  intros c fuel s p o l N. split.
  - intro ps. exact (same_plain _ _ (rel_send_all _ closed_same c fuel ps) s p o l N).
  - intros ws sync. exact (same_plain _ _ (rel_iterable _ closed_same c fuel ws sync) s p o l N).
Qed.
Print Assumptions C121_no_calls.

Definition g121 : option (list (Z * Z)) := Some [(1, 3); (1, 1); (4, 2)]%Z.
Example C121_nonvacuous :
  let ps := [Packet [1; 2; 3; 4; 5; 6]%Z true (Some 3%Z); Packet [9]%Z false None; Packet [7; 7; 7; 7]%Z true (Some 15%Z)] in
  let s := set_valid_generator (Some [(1, 2)]%Z) in
  let l := [(L1, None); (L1, None); (L0, None); (L1, Some g121); (L0, None); (L1, Some None); (L1, None); (LX, Some g121);
            (L1, None); (L1, None); (L0, None); (L1, None); (L1, None); (L1, None)] in
  let '(r, w) := gpk_send_all ex_cfg 40 ps (World s PActive (pk_init_out ex_cfg) [] l) in
  bounded 3 s /\ r = Done tt
  /\ map (fun c => k_valid (snd c)) (trace w) = [L0; L1; L0; L0; L1; L1; L1; L0; L1]
  /\ fst (pm_run ex_cfg pm_init (sampled (bus_only (trace w))))
     = [RChan [1; 2; 3; 4; 5; 6] (Some 3); RChan [9] (Some 0); RChan [7; 7; 7; 7] (Some 15)]%Z.
Proof.
  cbv zeta. vm_compute. split; [|auto]. split; [discriminate|]. intros g' p E. injection E as <-. intros [].
Qed.
