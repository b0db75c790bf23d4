(** XgProp.v -- the XGMII properties (C61-C65).

    The driver's word is built with a name, create_binary, that its module does
    not import: as shipped ([bound_as_shipped]) every use raises NameError.  The
    theorems named _partial are about the same code with the name bound to
    cocotb_bus._compat.create_binary, as every other driver module does. *)
From Verif Require Import Base CompatModel BitsLemmas Async XgModel XgSpec XgProof XgDrvProof XgMonProof XgTopProof.
Local Open Scope nat_scope.

(** C61: whatever lanes are assigned, once each and in any order, the word read from
    the encoder carries exactly them, in both layouts and for any number of lanes,
    and the encoder is clean again.  Missing: the shipped module cannot read the word. *)
Theorem C61_partial (n : nat) (interleaved : bool) (asg : list assignment) p o tr l :
  1 <= n ->
  Forall (fun a => fst a < n /\ is_byte (fst (snd a))) asg -> NoDup (map fst asg) ->
  exists w, carries interleaved w (map (assigned asg) (seq 0 n)) /\
    get_bytes n interleaved w = Ok (map (assigned asg) (seq 0 n)) /\
    bind (for_each (fun a => set_lane (9 * n) interleaved (fst a) (snd a)) asg)
         (fun _ => bus_value (9 * n) true) (World 0%Z p o tr l)
    = (Done w, World 0%Z p o tr l).
Proof.
  intros Hn H N. destruct (encode_decode n interleaved asg p o tr l Hn H N) as (w & C & E). exists w. split; [exact C|].
  split; [apply decode; [exact C|rewrite map_length, seq_length; reflexivity]|exact E].
Qed.
Print Assumptions C61_partial.

(** C61: the monitor decodes every word that carries lanes (no word is misread), and
    words with an undefined bit are a ValueError *)
Theorem C61_decode (n : nat) (interleaved : bool) (w : bits) :
  (forall ls, carries interleaved w ls -> length ls = n -> get_bytes n interleaved w = Ok ls) /\
  (resolvable w = false -> get_bytes n interleaved w = Err EValue).
Proof. split; [intros ls C L; apply decode; assumption|apply get_bytes_bad]. Qed.
Print Assumptions C61_decode.

(** C61: assigning a lane that does not exist is an IndexError and changes nothing *)
Theorem C61_index (n : nat) (interleaved : bool) i v (w : world Z unit bits) :
  1 <= n -> n <= i -> set_lane (9 * n) interleaved i v w = (Exn EIndex, w).
Proof. destruct w as [I p o tr l]. intros Hn H. apply index_error; assumption. Qed.
Print Assumptions C61_index.

(** C61 fails as shipped: reading the word always raises NameError *)
Theorem C61_refuted (width : nat) (w : world Z unit bits) :
  bus_value width bound_as_shipped w = (Exn EName, w).
Proof. exact (value_name_error width w). Qed.
Print Assumptions C61_refuted.

(** C62 fails as shipped: constructing the driver raises NameError for every width and
    layout, and nothing is driven *)
Theorem C62_refuted (width : nat) (interleaved : bool) (w : world Z unit bits) :
  exists w', construct width interleaved bound_as_shipped w = (Exn EName, w') /\
    out w' = out w /\ trace w' = trace w.
Proof. exact (construct_name_error width interleaved w). Qed.
Print Assumptions C62_refuted.

(** C62, with the name bound: on nine bits per lane the constructor drives idle lanes *)
Theorem C62_partial (n : nat) (interleaved : bool) I p o tr l : 1 <= n -> p <> PReadOnly ->
  exists o', carries interleaved o' (repeat (7%Z, true) n) /\
    construct (9 * n) interleaved true (World I p o tr l) = (Done tt, World 0%Z p o' tr l).
Proof. exact (construct_ok n interleaved I p o tr l). Qed.
Print Assumptions C62_partial.

(** C62: a signal that is not a multiple of nine bits wide is rejected *)
Theorem C62_width_partial (width : nat) (interleaved : bool) (w : world Z unit bits) :
  width mod 9 <> 0 -> 9 <= width ->
  exists w', construct width interleaved true w = (Exn EValue, w') /\ out w' = out w /\ trace w' = trace w.
Proof. exact (construct_width width interleaved w). Qed.
Print Assumptions C62_width_partial.

(** C63, with the name bound: from an idle bus, for every packet, the words on the bus
    carry the lanes start, preamble, padded packet, CRC, terminate, then idle up to the
    end of that word and for one more word; with [sync] an idle word comes first.
    If there are too few clock cycles the driver is still waiting and has driven
    exactly the first words.  ([fills_word]: on buses of up to 72 lanes every packet.) *)
Theorem C63_partial (n : nat) (interleaved : bool) (crc32 : bytes -> Z) (pkt : bytes) (sync : bool) :
  1 <= n -> fills_word n pkt -> all_bytes pkt ->
  exists words k, n <= k < 2 * n /\ concat words = frame crc32 pkt k /\
    Forall (fun w => length w = n) words /\
    let expected := (if sync then [repeat IDLE' n] else []) ++ words in
    forall o p tr l, p <> PReadOnly -> carries interleaved o (repeat IDLE' n) ->
    let '(r, w) := driver_send (9 * n) interleaved true crc32 pkt sync (World 0%Z p o tr l) in
    exists ws, map snd (trace w) = map snd tr ++ ws /\
      Forall2 (carries interleaved) ws (firstn (length l) expected) /\
      (length expected <= length l -> r = Done tt /\ carries interleaved (out w) (repeat IDLE' n)) /\
      (length l < length expected -> r = Susp).
Proof. intros Hn. exact (send_frame n interleaved crc32 Hn pkt sync). Qed.
Print Assumptions C63_partial.

(** C63 fails on wider buses for a packet that does not fill the first word: IndexError, and
    nothing of it is driven *)
Theorem C63_wide_bus_refuted (n : nat) (interleaved bound : bool) (crc32 : bytes -> Z) (pkt : bytes) (sync : bool)
        (w : world Z unit bits) :
  1 <= n -> ~ fills_word n pkt -> (sync = true -> ins w <> []) ->
  exists w', driver_send (9 * n) interleaved bound crc32 pkt sync w = (Exn EIndex, w') /\ out w' = out w.
Proof. intros Hn. exact (send_index_error n interleaved crc32 Hn bound pkt sync w). Qed.
Print Assumptions C63_wide_bus_refuted.

(** every packet fills a word of up to 72 lanes *)
Theorem C63_72_lanes_partial (n : nat) (pkt : bytes) : n <= 72 -> fills_word n pkt.
Proof. unfold fills_word, padded. rewrite app_length, repeat_length. lia. Qed.
Print Assumptions C63_72_lanes_partial.

Example exg_wide : ~ fills_word 80 [1%Z] /\ fills_word 80 (repeat 1%Z 70).
Proof. unfold fills_word. cbn. lia. Qed.

(** C63 fails as shipped: every send raises NameError *)
Theorem C63_refuted (n : nat) (interleaved : bool) (crc32 : bytes -> Z) (pkt : bytes) (sync : bool)
        (w : world Z unit bits) :
  1 <= n -> fills_word n pkt -> (sync = true -> ins w <> []) ->
  exists w', driver_send (9 * n) interleaved bound_as_shipped crc32 pkt sync w = (Exn EName, w').
Proof. intros Hn. exact (send_name_error n interleaved crc32 Hn pkt sync w). Qed.
Print Assumptions C63_refuted.

(** C64, with the name bound: whatever packets are sent and whenever, a monitor that
    samples the bus at every clock edge sees no error and delivers a prefix of the
    packets (padded to 60 bytes); all of them once the driver is done *)
Theorem C64_partial (n : nat) (interleaved : bool) (crc32 : bytes -> Z)
        (sends : list (nat * bool * bytes)) I p o l :
  1 <= n -> p <> PReadOnly -> Forall (fun s => fills_word n (snd s) /\ all_bytes (snd s)) sends ->
  let '(r, w) := bind (construct (9 * n) interleaved true)
                      (fun _ => send_all (9 * n) interleaved true crc32 sends) (World I p o [] l) in
  exists es later, observe n interleaved crc32 (map snd (trace w)) = (es, None) /\
    map (fun s => Deliver (padded (snd s))) sends = es ++ later /\
    (r = Done tt /\ later = [] \/ r = Susp /\ ins w = []).
Proof. intros Hn. exact (end_to_end n interleaved crc32 Hn sends I p o l). Qed.
Print Assumptions C64_partial.

(** and the driver is done once there were enough clock cycles *)
Theorem C64_done_partial (n : nat) (interleaved : bool) (crc32 : bytes -> Z)
        (sends : list (nat * bool * bytes)) :
  1 <= n -> Forall (fun s => fills_word n (snd s) /\ all_bytes (snd s)) sends ->
  exists cycles, forall I p o l, p <> PReadOnly -> cycles <= length l ->
  fst (bind (construct (9 * n) interleaved true)
            (fun _ => send_all (9 * n) interleaved true crc32 sends) (World I p o [] l)) = Done tt.
Proof.
  intros Hn B. exists (length (flat_map (send_stream n crc32) sends)). intros I p o l Hp G.
  exact (end_to_end_done n interleaved crc32 Hn sends I p o l Hp B G).
Qed.
Print Assumptions C64_done_partial.

(** C64 fails as shipped: no packet is ever sent or received *)
Theorem C64_refuted (n : nat) (interleaved : bool) (crc32 : bytes -> Z)
        (sends : list (nat * bool * bytes)) I p o l :
  exists w', bind (construct (9 * n) interleaved bound_as_shipped)
                  (fun _ => send_all (9 * n) interleaved bound_as_shipped crc32 sends) (World I p o [] l)
             = (Exn EName, w') /\ trace w' = [].
Proof.
  destruct (construct_name_error (9 * n) interleaved (World I p o [] l)) as (w' & E & _ & T). exists w'.
  split; [|exact T]. unfold bind. rewrite E. reflexivity.
Qed.
Print Assumptions C64_refuted.

(** C65: on every stream of resolvable words, what the monitor logs and delivers is
    determined frame by frame ([report]): interrupted, short and wrongly introduced
    frames are logged and not delivered; a CRC mismatch is logged.  Every stream has
    frames. *)
Theorem C65_partial (n : nat) (interleaved : bool) (crc32 : bytes -> Z) ws lss fs :
  1 <= n -> Forall2 (carries interleaved) ws lss -> Forall (fun w => length w = n) lss ->
  frames n lss fs ->
  exists evs, Forall2 (report crc32) fs evs /\ observe n interleaved crc32 ws = (concat evs, None).
Proof. exact (monitor_frames n interleaved crc32 ws lss fs). Qed.
Print Assumptions C65_partial.

Theorem C65_frames_partial (n : nat) lss : exists fs, frames n lss fs.
Proof. exact (frames_exist n lss). Qed.
Print Assumptions C65_frames_partial.

(** C65: the delivered packets are the payloads of the well-formed frames, in order *)
Theorem C65_delivered_partial (n : nat) (interleaved : bool) (crc32 : bytes -> Z) ws lss fs :
  1 <= n -> Forall2 (carries interleaved) ws lss -> Forall (fun w => length w = n) lss ->
  frames n lss fs ->
  deliverable fs (delivered (fst (observe n interleaved crc32 ws))) /\
  snd (observe n interleaved crc32 ws) = None.
Proof. exact (monitor_delivers n interleaved crc32 ws lss fs). Qed.
Print Assumptions C65_delivered_partial.

(** a word with an undefined bit ends the monitor with a ValueError: what was received
    before it stays delivered, nothing after it is looked at *)
Theorem C65_unresolvable_partial (n : nat) (interleaved : bool) (crc32 : bytes -> Z) ws lss w rest :
  1 <= n -> Forall2 (carries interleaved) ws lss -> Forall (fun v => length v = n) lss ->
  resolvable w = false ->
  observe n interleaved crc32 (ws ++ w :: rest) = (fst (observe n interleaved crc32 ws), Some EValue).
Proof.
  intros Hn F L R. unfold observe. rewrite (monitor_unresolvable n interleaved crc32 w rest R ws lss [] false Hn F L).
  rewrite (monitor_monl n interleaved crc32 Hn ws lss F L). reflexivity.
Qed.
Print Assumptions C65_unresolvable_partial.

(** C65 fails: a frame with a wrong CRC is delivered (it is only logged) *)
Theorem C65_refuted (n : nat) (interleaved : bool) (crc32 : bytes -> Z) payload crc :
  1 <= n <= 12 -> all_bytes payload -> payload <> [] ->
  all_bytes crc -> length crc = 4 -> crc <> le32 (crc32 payload) ->
  exists ws lss, Forall2 (carries interleaved) ws lss /\ Forall (fun w => length w = n) lss /\
    frames n lss [([85; 85; 85; 85; 85; 85; 213]%Z ++ payload ++ crc, 253%Z)] /\
    delivered (fst (observe n interleaved crc32 ws)) = [payload] /\
    In LogCrc (fst (observe n interleaved crc32 ws)).
Proof. exact (wrong_crc n interleaved crc32 payload crc). Qed.
Print Assumptions C65_refuted.

(** C65 fails: a frame that stops without a terminate swallows the good frame that
    starts in the next word *)
Theorem C65_next_refuted (n : nat) (interleaved : bool) (crc32 : bytes -> Z) pkt :
  1 <= n -> fills_word n pkt -> all_bytes pkt ->
  exists ws lss, Forall2 (carries interleaved) ws ((START :: map data (repeat 85%Z (n - 1))) :: lss) /\
    concat lss = frame crc32 pkt (length (concat lss) - length (layer1 crc32 pkt) - 2) /\
    Forall (fun w => length w = n) lss /\
    observe n interleaved crc32 ws = ([LogControl], None).
Proof. exact (swallowed n interleaved crc32 pkt). Qed.
Print Assumptions C65_next_refuted.

(** ** Non-vacuity *)
(** two packets on a four-lane and an eight-lane bus, any CRC function *)
Definition ex_crc (b : bytes) : Z := fold_left (fun a x => a * 31 + x)%Z b 7%Z.
Definition ex_run (n : nat) (inter : bool) : list event * option exn :=
  let '(_, w) := bind (construct (9 * n) inter true)
    (fun _ => send_all (9 * n) inter true ex_crc [(0, true, [1; 2; 3]%Z); (2, false, repeat 9%Z 64)])
    (World 5%Z PActive [] [] (repeat tt 60)) in
  observe n inter ex_crc (map snd (trace w)).
Example ex_two_packets : map (fun x => ex_run (fst x) (snd x)) [(4, true); (4, false); (8, true); (8, false); (5, true)] =
  repeat ([Deliver (padded [1; 2; 3]%Z); Deliver (repeat 9%Z 64)], None) 5.
Proof. vm_compute. reflexivity. Qed.
(** a frame that starts in lane 4 of an eight-lane bus is received *)
Definition ex_lane4 : list (list lane) :=
  let l1 := layer1 ex_crc [1; 2; 3]%Z in
  (repeat IDLE' 4 ++ START :: map data (firstn 3 l1)) ::
  map (fun k => map data (firstn 8 (skipn (3 + 8 * k) l1))) (seq 0 8) ++
  [map data (skipn 67 l1) ++ [TERMINATE; IDLE'; IDLE'; IDLE']].
Example ex_lane4_frame : frames 8 ex_lane4 [(layer1 ex_crc [1; 2; 3]%Z, 253%Z)].
Proof.
  assert (E : ex_lane4 = (repeat IDLE' 4 ++ START :: map data [85; 85; 85]%Z) :: tl ex_lane4 ++ []) by (vm_compute; reflexivity).
  rewrite E. apply frames_frame with (rest := map data [85; 85; 85]%Z) (junk := [IDLE'; IDLE'; IDLE'])
    (last := map data (skipn 67 (layer1 ex_crc [1; 2; 3]%Z)) ++ [TERMINATE; IDLE'; IDLE'; IDLE']).
  - right. split; [unfold is_start; cbn; discriminate|]. repeat split.
  - vm_compute. reflexivity.
  - right. exists (removelast (tl ex_lane4)). vm_compute. reflexivity.
  - vm_compute. repeat constructor.
  - constructor.
Qed.
Example ex_lane4_monl : monl 8 ex_crc [] false ex_lane4 = [Deliver (padded [1; 2; 3]%Z)].
Proof. vm_compute. reflexivity. Qed.
Example ex_encode : let asg := [(2, (170%Z, false)); (0, (251%Z, true))] in
  map (assigned asg) (seq 0 3) = [(251%Z, true); (0%Z, false); (170%Z, false)] /\
  exists w, carries false w (map (assigned asg) (seq 0 3)).
Proof. split; [reflexivity|]. apply carries_exists. repeat constructor; cbn; unfold is_byte; lia. Qed.
Example ex_wrong_crc : [0; 0; 0; 0]%Z <> le32 (ex_crc [1]%Z).
Proof. vm_compute. discriminate. Qed.
