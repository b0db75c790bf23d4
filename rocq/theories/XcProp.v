(** XcProp.v -- C133: one wrong control bit in an XGMII frame.

    [ws]: the words of one frame (any packet, [k] idle lanes at the end, any number of lanes in
    a word) with the control bit of lane [q] wrong; [more]: any words after them. *)
From Verif Require Import Base CompatModel Async XgModel XgSpec XgMonProof XgTopProof CrcModel XcSpec XcProof.
Local Open Scope list_scope.

(** C133, what holds: a wrong control bit in a preamble, packet, CRC or terminate lane is
    reported, unless the frame happens to contain a frame that ends in this lane; what comes
    after the frame is not affected. *)
Theorem C133_reported_partial : forall n interleaved crc32 packet k q ws more lss mls,
  1 <= n -> Forall2 (carries interleaved) ws lss -> Forall2 (carries interleaved) more mls ->
  Forall (fun w => length w = n) lss -> Forall (fun w => length w = n) mls ->
  concat lss = wrong_control q (frame crc32 packet k) ->
  0 < k -> 0 < q <= 1 + length (frame_bytes crc32 packet) -> (forall inner, ~ frame_inside crc32 packet q inner) ->
  exists es, reported es /\
    observe n interleaved crc32 (ws ++ more) = (es ++ fst (observe n interleaved crc32 more), None).
Proof.
  intros n il crc32 packet k q ws more lss mls Hn C C' L L' E K Q N.
  destruct (Nat.eq_dec q (S (length (frame_bytes crc32 packet)))) as [T|T].
  - exists [LogControl]. split; [exists LogControl; split; [left; reflexivity|exact I]|].
    exact (at_terminate n il crc32 packet k q ws more lss mls Hn C C' L L' E K T).
  - destruct (nth_error (frame_bytes crc32 packet) (q - 1)) as [b|] eqn:B; [|apply nth_error_None in B; lia].
    apply nth_error_split in B. destruct B as (a & r & B & La). assert (Qa : q = S (length a)) by lia.
    rewrite (at_data n il crc32 packet k q ws more lss mls Hn C C' L L' E a b r B Qa).
    eexists. split; [|reflexivity]. destruct (Z.eq_dec b 253) as [->|Nb].
    + apply (cut_reported crc32 packet a r B). rewrite <- Qa. exact N.
    + rewrite control_reported by exact Nb. exists LogControl. split; [left; reflexivity|exact I].
Qed.
Print Assumptions C133_reported_partial.

(** C133: a wrong control bit in an idle lane after the frame (or none: [q] beyond the end)
    makes no difference, and neither do words without a start before the frame. *)
Theorem C133_idle_partial : forall n interleaved crc32 packet k q ws more lss mls,
  1 <= n -> Forall2 (carries interleaved) ws lss -> Forall2 (carries interleaved) more mls ->
  Forall (fun w => length w = n) lss -> Forall (fun w => length w = n) mls ->
  (concat lss = wrong_control q (frame crc32 packet k) -> 1 + length (frame_bytes crc32 packet) < q ->
     observe n interleaved crc32 (ws ++ more) = (Deliver (padded packet) :: fst (observe n interleaved crc32 more), None)) /\
  (Forall (fun x => x <> START) (concat lss) ->
     observe n interleaved crc32 (ws ++ more) = observe n interleaved crc32 more).
Proof.
  intros n il crc32 packet k q ws more lss mls Hn C C' L L'. split.
  - intros E Q. rewrite (beyond n il crc32 packet k q ws more lss mls Hn C C' L L' E Q), good_frame. reflexivity.
  - intro P. destruct (whole n il crc32 ws more lss mls Hn C C' L L') as [-> ->]. rewrite (monl_plain n crc32 lss mls P). reflexivity.
Qed.
Print Assumptions C133_idle_partial.

(** C133 is false for the start lane: the frame is lost without any message, whatever the
    packet. *)
Theorem C133_start_refuted : forall n interleaved crc32 packet k ws more lss mls,
  1 <= n -> Forall2 (carries interleaved) ws lss -> Forall2 (carries interleaved) more mls ->
  Forall (fun w => length w = n) lss -> Forall (fun w => length w = n) mls ->
  concat lss = wrong_control 0 (frame crc32 packet k) ->
  observe n interleaved crc32 (ws ++ more) = observe n interleaved crc32 more.
Proof.
  intros n il crc32 packet k ws more lss mls Hn C C' L L' E.
  exact (lost n il crc32 packet k 0 ws more lss mls Hn C C' L L' E eq_refl).
Qed.
Print Assumptions C133_start_refuted.

(** C133 is false for packets with a frame inside: another packet than the one sent is
    delivered, without any message. *)
Theorem C133_inside_refuted : forall n interleaved crc32 packet k q ws more lss mls inner,
  1 <= n -> Forall2 (carries interleaved) ws lss -> Forall2 (carries interleaved) more mls ->
  Forall (fun w => length w = n) lss -> Forall (fun w => length w = n) mls ->
  concat lss = wrong_control q (frame crc32 packet k) -> frame_inside crc32 packet q inner ->
  inner <> padded packet /\
  observe n interleaved crc32 (ws ++ more) = (Deliver inner :: fst (observe n interleaved crc32 more), None).
Proof.
  intros n il crc32 packet k q ws more lss mls inner Hn C C' L L' E (Li & Q & rest & B). split.
  - intros ->. apply (f_equal (@length Z)) in B. rewrite !app_length in B. cbn [length] in B. change (length (le32 _)) with 4 in B. lia.
  - assert (F : frame_bytes crc32 packet = ([85; 85; 85; 85; 85; 85; 213]%Z ++ inner ++ le32 (crc32 inner)) ++ 253%Z :: rest).
    { unfold frame_bytes. rewrite B, <- !app_assoc. reflexivity. }
    rewrite (at_data n il crc32 packet k q ws more lss mls Hn C C' L L' E _ _ _ F).
    + rewrite right_frame by exact Li. reflexivity.
    + rewrite Q, !app_length. change (length (le32 _)) with 4. cbn [length]. lia.
Qed.
Print Assumptions C133_inside_refuted.

(** Examples, on a four-lane bus with zlib's CRC-32: words that carry the lanes exist for every
    [q]; a packet with a frame inside. *)
Fixpoint exc_words (fuel : nat) (ls : list lane) : list (list lane) :=
  match fuel, ls with
  | S f, _ :: _ => firstn 4 ls :: exc_words f (skipn 4 ls)
  | _, _ => []
  end.
Definition exc_inner : bytes := repeat 17%Z 60.
Definition exc_packet : bytes := exc_inner ++ le32 (zlib_crc32 exc_inner) ++ [253; 1; 2]%Z.
Definition exc_lss (q : nat) := exc_words 40 (wrong_control q (frame zlib_crc32 exc_packet 4)).
Example exc_hypotheses : Forall (fun q => concat (exc_lss q) = wrong_control q (frame zlib_crc32 exc_packet 4) /\
  Forall (fun w => length w = 4) (exc_lss q) /\ Forall (Forall (fun v => is_byte (fst v))) (exc_lss q)) [0; 5; 72; 79; 82; 99].
Proof.
  assert (H : forallb (fun q => forallb (fun w => (length w =? 4) && forallb (fun v : lane => (0 <=? fst v) && (fst v <? 256))%Z w) (exc_lss q)) [0; 5; 72; 79; 82; 99] = true) by (vm_compute; reflexivity).
  rewrite forallb_forall in H. apply Forall_forall. intros q I. specialize (H q I). rewrite forallb_forall in H. split; [|split].
  - repeat (destruct I as [<-|I]; [vm_compute; reflexivity|]). destruct I.
  - apply Forall_forall. intros w Hw. specialize (H w Hw). apply andb_prop in H. apply Nat.eqb_eq, H.
  - apply Forall_forall. intros w Hw. specialize (H w Hw). apply andb_prop in H. destruct H as [_ H]. rewrite forallb_forall in H.
    apply Forall_forall. intros v Hv. specialize (H v Hv). apply andb_prop in H. unfold is_byte. lia.
Qed.
Example exc_carried : exists ws, Forall2 (carries true) ws (exc_lss 72).
Proof.
  apply carries_exist_all. pose proof exc_hypotheses as H. rewrite Forall_forall in H. apply (H 72). cbn. auto.
Qed.
Example exc_inside : frame_inside zlib_crc32 exc_packet 72 exc_inner.
Proof. split; [vm_compute; repeat constructor|]. split; [reflexivity|]. eexists. unfold padded. change (60 - length exc_packet) with 0. rewrite app_nil_r. unfold exc_packet. rewrite <- !app_assoc. cbn [app]. reflexivity. Qed.
Example exc_results : map (fun q => monl 4 zlib_crc32 [] false (exc_lss q)) [0; 5; 72; 79; 99] =
  [[]; [LogControl]; [Deliver exc_inner]; [LogControl]; [Deliver exc_packet]].
Proof. vm_compute. reflexivity. Qed.
