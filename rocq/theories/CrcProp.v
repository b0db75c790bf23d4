(** CrcProp.v -- C126: corrupted XGMII frames are reported, with zlib's CRC-32. *)
From Verif Require Import Base CompatModel BitsLemmas Async XgModel XgSpec XgMonProof XgTopProof CrcModel CrcSpec CrcProof.
Local Open Scope list_scope.

Lemma corrupted n interleaved ws lss fs1 fs2 p f' :
  1 <= n -> Forall2 (carries interleaved) ws lss -> Forall (fun w => length w = n) lss ->
  frames n lss (fs1 ++ (f', 253%Z) :: fs2) ->
  let f := [85; 85; 85; 85; 85; 85; 213]%Z ++ p ++ le32 (zlib_crc32 p) in
  p <> [] -> all_bytes p -> all_bytes f' -> length f' = length f -> detectable f f' ->
  exists evs1 es evs2, observe n interleaved zlib_crc32 ws = (concat evs1 ++ es ++ concat evs2, None) /\
    Forall2 (report zlib_crc32) fs1 evs1 /\ report zlib_crc32 (f', 253%Z) es /\ Forall2 (report zlib_crc32) fs2 evs2 /\
    (In LogPreamble es \/ In LogCrc es).
Proof.
  intros Hn C Lw F f Np Hp Hf' E D. destruct (monitor_frames n interleaved zlib_crc32 ws lss _ Hn C Lw F) as (evs & R & O).
  apply Forall2_app_inv_l in R. destruct R as (evs1 & evs' & R1 & R & ->). inversion R as [|? es ? evs2 Re R2]. subst.
  exists evs1, es, evs2. rewrite O, concat_app. cbn [concat].
  split; [reflexivity|]. split; [exact R1|]. split; [exact Re|]. split; [exact R2|].
  exact (wrong_frame p f' es Np Hp Hf' E D Re).
Qed.

(** C126: the bytes of a frame (preamble, any payload, its CRC) arrive with wrong bits, all of
    them within 32 consecutive bits in the order of transmission, anywhere in the frame: the
    monitor logs an error for that frame, on any bus, among any other frames. *)
Theorem C126_burst :
  forall n interleaved ws lss fs1 fs2 p f',
  1 <= n -> Forall2 (carries interleaved) ws lss -> Forall (fun w => length w = n) lss ->
  frames n lss (fs1 ++ (f', 253%Z) :: fs2) ->
  let f := [85; 85; 85; 85; 85; 85; 213]%Z ++ p ++ le32 (zlib_crc32 p) in
  p <> [] -> all_bytes p -> all_bytes f' -> length f' = length f -> burst 32 f f' ->
  exists evs1 es evs2, observe n interleaved zlib_crc32 ws = (concat evs1 ++ es ++ concat evs2, None) /\
    Forall2 (report zlib_crc32) fs1 evs1 /\ report zlib_crc32 (f', 253%Z) es /\ Forall2 (report zlib_crc32) fs2 evs2 /\
    (In LogPreamble es \/ In LogCrc es).
Proof. intros. eapply corrupted; eauto. left. assumption. Qed.
Print Assumptions C126_burst.

(** C126: one or two wrong bits, however far apart, in a frame of less than 2^29 bytes. *)
Theorem C126_two_bits :
  forall n interleaved ws lss fs1 fs2 p f',
  1 <= n -> Forall2 (carries interleaved) ws lss -> Forall (fun w => length w = n) lss ->
  frames n lss (fs1 ++ (f', 253%Z) :: fs2) ->
  let f := [85; 85; 85; 85; 85; 85; 213]%Z ++ p ++ le32 (zlib_crc32 p) in
  p <> [] -> all_bytes p -> all_bytes f' -> length f' = length f -> (Z.of_nat (length f) < 2 ^ 29)%Z -> two_bits f f' ->
  exists evs1 es evs2, observe n interleaved zlib_crc32 ws = (concat evs1 ++ es ++ concat evs2, None) /\
    Forall2 (report zlib_crc32) fs1 evs1 /\ report zlib_crc32 (f', 253%Z) es /\ Forall2 (report zlib_crc32) fs2 evs2 /\
    (In LogPreamble es \/ In LogCrc es).
Proof. intros. eapply corrupted; eauto. right. split; assumption. Qed.
Print Assumptions C126_two_bits.

(** C126: which corruptions of payload and CRC the comparison notices does not depend on the
    packet, only on the wrong bits: the same pattern of wrong bits goes unnoticed in every
    frame of that length or in none. *)
Theorem C126_pattern_only :
  forall p q p' c' q' d', all_bytes p -> all_bytes q -> all_bytes p' -> all_bytes c' -> all_bytes q' -> all_bytes d' ->
  length p' = length p -> length q = length p -> length q' = length p -> length c' = 4 -> length d' = 4 ->
  (forall k, flips (p ++ le32 (zlib_crc32 p)) (p' ++ c') k <-> flips (q ++ le32 (zlib_crc32 q)) (q' ++ d') k) ->
  (c' = le32 (zlib_crc32 p') <-> d' = le32 (zlib_crc32 q')).
Proof. exact pattern_only. Qed.
Print Assumptions C126_pattern_only.

(** The bound of 32 bits is exact: in every payload of five bytes or more a burst of 33 bits
    goes unnoticed. *)
Theorem C126_33_bits :
  forall p, all_bytes p -> 5 <= length p ->
  exists p', length p' = length p /\ all_bytes p' /\ burst 33 p p' /\ zlib_crc32 p' = zlib_crc32 p.
Proof. exact missed. Qed.
Print Assumptions C126_33_bits.

(** ** Non-vacuity *)
(** a 60-byte payload with two wrong bits in byte 10, between payload and CRC, and 480 bits apart;
    seen by the monitor on a four-lane bus *)
Definition ex_p : bytes := map Z.of_nat (seq 1 60).
Definition ex_f : bytes := [85; 85; 85; 85; 85; 85; 213]%Z ++ ex_p ++ le32 (zlib_crc32 ex_p).
Definition flip (i : nat) (x : Z) (m : bytes) : bytes := firstn i m ++ map (Z.lxor x) (firstn 1 (skipn i m)) ++ skipn (S i) m.
Fixpoint words4 (k : nat) (ls : list lane) : list (list lane) :=
  match k with O => [] | S k' => firstn 4 ls :: words4 k' (skipn 4 ls) end.
Definition ex_lanes (f : bytes) : list (list lane) := words4 20 ((START :: map data f) ++ TERMINATE :: repeat IDLE' 7).
Definition ex_word (ls : list lane) : bits :=
  flat_map (fun l => bit_of_bool (snd l) :: zbits 8 (fst l)) (rev ls).
Definition ex_seen (f : bytes) : list event * option exn := observe 4 true zlib_crc32 (map ex_word (ex_lanes f)).
Example ex_crc_runs :
  ex_seen ex_f = ([Deliver ex_p], None)
  /\ fst (ex_seen (flip 17 3 ex_f)) = [LogCrc; Deliver (flip 10 3 ex_p)]
  /\ fst (ex_seen (flip 66 128 (flip 67 1 ex_f))) = [LogCrc; Deliver (flip 59 128 ex_p)]
  /\ fst (ex_seen (flip 7 1 (flip 67 1 ex_f))) = [LogCrc; Deliver (flip 0 1 ex_p)]
  /\ fst (ex_seen (flip 2 1 ex_f)) = [LogPreamble].
Proof. vm_compute. auto. Qed.
(** the hypotheses: [burst] and [two_bits] hold of such pairs *)
Example ex_burst : burst 32 [1; 2; 3]%Z [1; 130; 2]%Z /\ two_bits [1; 2; 3]%Z [0; 2; 131]%Z
  /\ burst 33 [0; 0; 0; 0; 0]%Z [65; 6; 113; 219; 1]%Z.
Proof.
  split; [|split]; (split; [discriminate|]); [exists 8|exists 0, 23|exists 0]; intros k F;
  (assert (k < 40) as G by (apply flips_inside in F; [cbn [length] in F; lia|reflexivity]));
  do 40 (destruct k as [|k]; [first [lia|exfalso; apply F; reflexivity]|]); lia.
Qed.
