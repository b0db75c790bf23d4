(** XcProof.v -- proofs for C133. *)
From Verif Require Import Base Async XgModel XgSpec XgMonProof XcSpec.
Local Open Scope list_scope.

Section Mon.
Variables (n : nat) (crc32 : bytes -> Z).
Notation monl := (monl n crc32).
Notation pay := (pay n crc32).
Notation closing := (closing crc32).

Definition plain (ls : list lane) : Prop := Forall (fun x => x <> START) ls.
Lemma plain_starts ls i : plain ls -> starts ls i = false.
Proof.
  intro P. apply starts_false. intro H. unfold is_start in H. apply nth_error_In in H. unfold plain in P. rewrite Forall_forall in P. exact (P _ H eq_refl).
Qed.
Lemma plain_data p : plain (map data p).
Proof. induction p; constructor; [discriminate|assumption]. Qed.
Lemma plain_app a b : plain (a ++ b) <-> plain a /\ plain b.
Proof. apply Forall_app. Qed.
Lemma monl_plain lss more : plain (concat lss) -> monl [] false (lss ++ more) = monl [] false more.
Proof.
  induction lss as [|w lss IH]; intro P; [reflexivity|]. cbn [concat app] in *. apply plain_app in P. destruct P as [P1 P2].
  rewrite monl_skip; [exact (IH P2)|apply plain_starts, P1|intros _; apply plain_starts, P1].
Qed.
Lemma pay_stream mids more : forall first pkt p c junk,
  first ++ concat mids = map data p ++ (c, true) :: junk -> plain junk ->
  pay pkt first (mids ++ more) = closing (pkt ++ p) c ++ monl [] false more.
Proof.
  induction mids as [|m mids IH]; intros first pkt p c junk E P.
  - cbn [concat app] in *. rewrite app_nil_r in E. subst first. apply pay_end.
  - destruct (Nat.le_gt_cases (length first) (length p)) as [L|L].
    + destruct (app_split data first (concat (m :: mids)) p _ E L) as (p1 & p2 & -> & -> & E2). cbn [app]. rewrite pay_data.
      cbn [concat] in E2. rewrite (IH m (pkt ++ p1) p2 c junk E2 P), <- app_assoc. reflexivity.
    + assert (E1 : exists j1, first = map data p ++ (c, true) :: j1 /\ junk = j1 ++ concat (m :: mids)).
      { revert E L. clear. revert first. induction p as [|b p IHp]; intros first E L.
        - destruct first as [|x first]; [cbn in L; lia|]. cbn [map app] in E. inversion E; subst. exists first. split; reflexivity.
        - destruct first as [|x first]; [cbn in L; lia|]. cbn [map app] in E. inversion E; subst.
          destruct (IHp first H1) as (j1 & -> & ->); [cbn in L; lia|]. exists j1. split; reflexivity. }
      destruct E1 as (j1 & -> & ->). apply plain_app in P. destruct P as [_ P].
      rewrite pay_end. rewrite (monl_plain (m :: mids) more P). reflexivity.
Qed.
(** a stream that begins with START *)
Lemma stream lss more p c junk : 1 <= n -> Forall (fun w => length w = n) lss ->
  concat lss = START :: map data p ++ (c, true) :: junk -> plain junk ->
  monl [] false (lss ++ more) = closing p c ++ monl [] false more.
Proof.
  intros Hn L E P. destruct lss as [|w lss]; [discriminate|]. pose proof (Forall_inv L) as Lw. cbn beta in Lw.
  destruct w as [|x w]; [cbn in Lw; lia|]. cbn [concat app] in E. injection E as -> E.
  cbn [app]. rewrite monl_start by (apply starts_iff; reflexivity). cbn [skipn]. apply (pay_stream lss more w [] p c junk); assumption.
Qed.
End Mon.

(** ** the lanes of a frame with one wrong control bit *)
Section F.
Variables (crc32 : bytes -> Z) (packet : bytes) (k : nat).
Let body := frame_bytes crc32 packet.
Lemma frame_body : frame crc32 packet k = START :: map data body ++ TERMINATE :: repeat IDLE' k.
Proof. reflexivity. Qed.
Lemma plain_idle j : plain (repeat IDLE' j).
Proof. induction j; constructor; [discriminate|assumption]. Qed.
Lemma plain_tail : plain (TERMINATE :: repeat IDLE' k).
Proof. constructor; [discriminate|apply plain_idle]. Qed.
Lemma wrong_start : wrong_control 0 (frame crc32 packet k) = (251%Z, false) :: map data body ++ TERMINATE :: repeat IDLE' k.
Proof. reflexivity. Qed.
Lemma wrong_data a b r : body = a ++ b :: r ->
  wrong_control (S (length a)) (frame crc32 packet k) = START :: map data a ++ (b, true) :: map data r ++ TERMINATE :: repeat IDLE' k.
Proof.
  intro E. rewrite frame_body, E, map_app. unfold wrong_control. cbn [firstn skipn app]. rewrite <- app_assoc.
  rewrite <- (map_length data a). rewrite firstn_app, skipn_app, Nat.sub_diag, firstn_all, skipn_all. cbn [firstn app skipn map]. rewrite app_nil_r. reflexivity.
Qed.
Lemma wrong_terminate : wrong_control (S (length body)) (frame crc32 packet k) = START :: map data (body ++ [253%Z]) ++ repeat IDLE' k.
Proof.
  rewrite frame_body. unfold wrong_control. cbn [firstn skipn app]. rewrite <- (map_length data body).
  rewrite firstn_app, skipn_app, Nat.sub_diag, firstn_all, skipn_all. cbn [firstn app skipn]. rewrite app_nil_r, map_app, <- app_assoc. reflexivity.
Qed.
Lemma wrong_after q : S (length body) < q -> exists junk, plain junk /\
  wrong_control q (frame crc32 packet k) = START :: map data body ++ TERMINATE :: junk.
Proof.
  intro H. exists (wrong_control (q - S (S (length body))) (repeat IDLE' k)). split.
  - unfold wrong_control. set (j := q - _). assert (P : plain (skipn j (repeat IDLE' k))).
    { unfold plain. rewrite Forall_forall. intros x Hx. assert (In x (repeat IDLE' k)) by (rewrite <- (firstn_skipn j); apply in_or_app; right; exact Hx).
      apply repeat_spec in H0. subst. discriminate. }
    apply plain_app. split.
    + unfold plain. rewrite Forall_forall. intros x Hx. assert (In x (repeat IDLE' k)) by (rewrite <- (firstn_skipn j); apply in_or_app; left; exact Hx).
      apply repeat_spec in H0. subst. discriminate.
    + destruct (skipn j (repeat IDLE' k)) as [|[b c] r] eqn:E; [constructor|]. inversion P; subst. constructor; [|assumption].
      assert (I0 : In (b, c) (skipn j (repeat IDLE' k))) by (rewrite E; left; reflexivity).
      assert (I : In (b, c) (repeat IDLE' k)) by (rewrite <- (firstn_skipn j); apply in_or_app; right; exact I0).
      apply repeat_spec in I. inversion I. discriminate.
  - rewrite frame_body. replace q with (S (length body + S (q - S (S (length body))))) at 1 by lia.
    set (j := q - _). unfold wrong_control. cbn [firstn skipn app]. rewrite <- (map_length data body).
    rewrite firstn_app_2, skipn_app. rewrite (skipn_all2 (map data body)) by lia. replace (length (map data body) + S j - length (map data body)) with (S j) by lia.
    cbn [firstn skipn app]. rewrite <- app_assoc. reflexivity.
Qed.
End F.

Section Top.
Variables (n : nat) (inter : bool) (crc32 : bytes -> Z) (packet : bytes) (k q : nat).
Variables (ws more : list bits) (lss mls : list (list lane)).
Hypothesis (Hn : 1 <= n) (C : Forall2 (carries inter) ws lss) (C' : Forall2 (carries inter) more mls)
  (L : Forall (fun w => length w = n) lss) (L' : Forall (fun w => length w = n) mls)
  (E : concat lss = wrong_control q (frame crc32 packet k)).
Lemma whole : observe n inter crc32 (ws ++ more) = (monl n crc32 [] false (lss ++ mls), None) /\
  observe n inter crc32 more = (monl n crc32 [] false mls, None).
Proof.
  split; unfold observe; apply (monitor_monl n inter crc32 Hn); try assumption; [apply Forall2_app|apply Forall_app]; auto.
Qed.
Lemma lost : q = 0 -> observe n inter crc32 (ws ++ more) = observe n inter crc32 more.
Proof.
  intro Q. destruct whole as [-> ->]. rewrite monl_plain; [reflexivity|]. rewrite E, Q, wrong_start.
  constructor; [discriminate|]. apply plain_app. split; [apply plain_data|apply plain_tail].
Qed.
Lemma at_data a b r : frame_bytes crc32 packet = a ++ b :: r -> q = S (length a) ->
  observe n inter crc32 (ws ++ more) = (closing crc32 a b ++ fst (observe n inter crc32 more), None).
Proof.
  intros B Q. destruct whole as [-> ->]. cbn [fst]. rewrite Q, (wrong_data crc32 packet k a b r B) in E.
  rewrite (stream n crc32 lss mls a b _ Hn L E); [reflexivity|]. apply plain_app. split; [apply plain_data|apply plain_tail].
Qed.
Lemma at_terminate : 0 < k -> q = S (length (frame_bytes crc32 packet)) ->
  observe n inter crc32 (ws ++ more) = (LogControl :: fst (observe n inter crc32 more), None).
Proof.
  intros K Q. destruct whole as [-> ->]. cbn [fst]. rewrite Q, wrong_terminate in E. destruct k as [|j]; [lia|]. cbn [repeat] in E.
  rewrite (stream n crc32 lss mls _ 7%Z _ Hn L E); [reflexivity|apply plain_idle].
Qed.
Lemma beyond : S (length (frame_bytes crc32 packet)) < q ->
  observe n inter crc32 (ws ++ more) = (closing crc32 (frame_bytes crc32 packet) 253 ++ fst (observe n inter crc32 more), None).
Proof.
  intros Q. destruct whole as [-> ->]. cbn [fst]. destruct (wrong_after crc32 packet k q Q) as (junk & P & W). rewrite W in E.
  rewrite (stream n crc32 lss mls _ 253%Z _ Hn L E P). reflexivity.
Qed.
End Top.
Lemma app_inv_tail_length {A} (a b c d : list A) : length b = length d -> a ++ b = c ++ d -> a = c /\ b = d.
Proof.
  revert c. induction a as [|x a IH]; intros [|y c] L E; cbn [app] in E.
  - split; [reflexivity|exact E].
  - exfalso. subst b. cbn [length] in L. rewrite app_length in L. lia.
  - exfalso. subst d. cbn [length] in L. rewrite app_length in L. lia.
  - inversion E; subst. destruct (IH c L H1) as [-> ->]. split; reflexivity.
Qed.
Lemma right_frame crc32 p : 60 <= length p -> closing crc32 ([85; 85; 85; 85; 85; 85; 213]%Z ++ p ++ le32 (crc32 p)) 253 = [Deliver p].
Proof.
  intro Lp. set (c := le32 (crc32 p)). assert (Lc : length c = 4) by reflexivity. generalize (closing_report crc32 ([85; 85; 85; 85; 85; 85; 213]%Z ++ p ++ c) 253).
  set (f := [85; 85; 85; 85; 85; 85; 213]%Z ++ p ++ c). assert (Lf : 71 <= length f) by (unfold f; rewrite !app_length; cbn [length]; lia).
  intro R. inversion R as [H|H H1|H H1|e H H1 H2 H3 H4|e e' pl cr W H1 H2 H3 H4]; cbn [fst snd] in *.
  - congruence.
  - rewrite H1 in Lf. cbn in Lf. lia.
  - lia.
  - exfalso. apply (H2 (p ++ c)). reflexivity.
  - destruct W as (_ & W & Lcr & _). cbn [fst] in W. unfold f in W. apply app_inv_head in W.
    assert (EE : p = pl /\ c = cr).
    { apply app_inv_tail_length; [lia|exact W]. }
    destruct EE as [<- <-]. rewrite (H2 Lf), (H3 eq_refl). reflexivity.
Qed.
Lemma good_frame crc32 packet : closing crc32 (frame_bytes crc32 packet) 253 = [Deliver (padded packet)].
Proof. apply right_frame. unfold padded. rewrite app_length, repeat_length. lia. Qed.
Lemma cut_reported crc32 packet a r : frame_bytes crc32 packet = a ++ 253%Z :: r ->
  (forall inner, ~ frame_inside crc32 packet (S (length a)) inner) -> reported (closing crc32 a 253).
Proof.
  intros B N. pose proof (closing_report crc32 a 253) as R. inversion R as [H|H H1|H H1|e H H1 H2 H3 H4|e e' pl cr W H1 H2 H3 H4]; cbn [fst snd] in *.
  - congruence.
  - subst a. discriminate B.
  - exists LogRunt. split; [left; reflexivity|exact I].
  - exists LogPreamble. split; [apply in_or_app; right; left; reflexivity|exact I].
  - destruct (Nat.lt_ge_cases (length a) 71) as [S|S].
    + rewrite (H1 S). exists LogRunt. split; [left; reflexivity|exact I].
    + destruct W as (_ & W & Lc & _). cbn [fst] in W. destruct (list_eq_dec Z.eq_dec cr (le32 (crc32 pl))) as [->|D].
      * exfalso. apply (N pl). rewrite W in S, B. rewrite !app_length in S. cbn [length] in S.
        split; [lia|]. split; [rewrite W, !app_length; cbn [length]; lia|]. exists r. unfold frame_bytes in B. rewrite <- !app_assoc in B.
        apply app_inv_head in B. exact B.
      * rewrite (H4 D). exists LogCrc. split; [apply in_or_app; right; left; reflexivity|exact I].
Qed.
Lemma control_reported crc32 a b : b <> 253%Z -> closing crc32 a b = [LogControl].
Proof. intro N. unfold closing. destruct (Z.eqb_spec b 253); [contradiction|reflexivity]. Qed.
