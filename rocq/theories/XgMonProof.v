(** XgMonProof.v -- the XGMII monitor, and driver and monitor together *)
From Verif Require Import Base CompatModel BitsLemmas Async XgModel XgSpec XgProof XgDrvProof.
Local Open Scope nat_scope.

Lemma bytes_eqb_spec a : forall b, bytes_eqb a b = true <-> a = b.
Proof.
  induction a as [|x a IH]; intros [|y b]; cbn; split; try congruence.
  - intro H. apply andb_prop in H. destruct H as [H1 H2]. apply Z.eqb_eq in H1. apply IH in H2. congruence.
  - intro H. inversion H; subst. rewrite Z.eqb_refl. apply IH. reflexivity.
Qed.
Lemma bytes_eqb_false a b : bytes_eqb a b = false <-> a <> b.
Proof. destruct (bytes_eqb a b) eqn:E; split; intro H; try congruence; [apply bytes_eqb_spec in E; contradiction|]. intro C. apply bytes_eqb_spec in C. congruence. Qed.

Section Mon.
Variables (n : nat) (inter : bool) (crc32 : bytes -> Z).
Hypothesis (Hn : 1 <= n).

(** ** The monitor on decoded lanes *)
Definition starts (ls : list lane) (i : nat) : bool := match start_at ls i with Ok b => b | Err _ => false end.
Fixpoint monl (pkt : bytes) (inner : bool) (lss : list (list lane)) : list event :=
  match lss with
  | [] => []
  | ls :: r =>
      let payload ls :=
        let '(more, pkt', log) := add_payload pkt ls in
        if more then monl pkt' true r else log ++ finish crc32 pkt' ++ monl [] false r in
      if inner then payload ls
      else if starts ls 0 then payload (skipn 1 ls)
      else if Nat.eqb n 8 && starts ls 4 then payload (skipn 5 ls)
      else finish crc32 pkt ++ monl [] false r
  end.
Definition pay (pkt : bytes) (ls : list lane) (r : list (list lane)) : list event :=
  let '(more, pkt', log) := add_payload pkt ls in
  if more then monl pkt' true r else log ++ finish crc32 pkt' ++ monl [] false r.
Lemma monl_inner pkt ls r : monl pkt true (ls :: r) = pay pkt ls r.
Proof. reflexivity. Qed.
Lemma monl_start pkt ls r : starts ls 0 = true -> monl pkt false (ls :: r) = pay pkt (skipn 1 ls) r.
Proof using. try clear Hn; try clear crc32. intro H. cbn [monl]. rewrite H. reflexivity. Qed.
Lemma monl_start4 pkt ls r : starts ls 0 = false -> n = 8 -> starts ls 4 = true -> monl pkt false (ls :: r) = pay pkt (skipn 5 ls) r.
Proof using. try clear Hn; try clear crc32. intros H E8 H4. cbn [monl]. rewrite H, H4. destruct (Nat.eqb_spec n 8); [reflexivity|contradiction]. Qed.
Lemma monl_skip ls r : starts ls 0 = false -> (n = 8 -> starts ls 4 = false) -> monl [] false (ls :: r) = monl [] false r.
Proof using. try clear Hn; try clear crc32. intros H H4. cbn [monl]. rewrite H. destruct (Nat.eqb_spec n 8) as [E|E]; [rewrite (H4 E)|]; reflexivity. Qed.

Lemma start_at_ok (ls : list lane) i : i < length ls -> start_at ls i = Ok (starts ls i).
Proof using. try clear Hn; try clear crc32.
  intro H. unfold starts, start_at. destruct (nth_error ls i) as [[b c]|] eqn:E; [reflexivity|].
  apply nth_error_None in E. change (length ls <= i) in E. lia.
Qed.
Lemma monitor_monl : forall ws lss, Forall2 (carries inter) ws lss -> Forall (fun w => length w = n) lss ->
  forall pkt inner, monitor n inter crc32 pkt inner ws = (monl pkt inner lss, None).
Proof.
  induction 1 as [|w ls ws lss C _ IH]; intros L pkt inner; [reflexivity|].
  inversion L as [|? ? L1 L2]; subst. specialize (IH L2). cbn [monitor monl].
  pose proof (get_bytes_ok _ _ _ C) as G. change (length ls) with (@length lane ls) in G. rewrite L1 in G. rewrite G.
  assert (P : forall ls', (let '(more, pkt', log) := add_payload pkt ls' in
             if more then monitor n inter crc32 pkt' true ws
             else let '(d, e) := monitor n inter crc32 [] false ws in (log ++ finish crc32 pkt' ++ d, e)) =
            (let '(more, pkt', log) := add_payload pkt ls' in
             if more then monl pkt' true lss else log ++ finish crc32 pkt' ++ monl [] false lss, None)).
  { intro ls'. destruct (add_payload pkt ls') as [[more pkt'] log]. destruct more; [apply IH|]. rewrite IH. reflexivity. }
  cbn zeta. destruct inner; [apply P|]. rewrite start_at_ok by lia. destruct (starts ls 0); [apply P|].
  destruct (Nat.eqb_spec n 8) as [E8|E8].
  - rewrite start_at_ok by lia. cbn [andb]. destruct (starts ls 4); [apply P|]. rewrite IH. reflexivity.
  - cbn [andb]. rewrite IH. reflexivity.
Qed.
Lemma starts_iff (ls : list lane) i : starts ls i = true <-> is_start (nth_error ls i).
Proof using. try clear Hn; try clear crc32.
  unfold starts, start_at, is_start, START. destruct (nth_error ls i) as [[b c]|]; [|split; discriminate].
  unfold XGMII_START. split; intro H.
  - apply andb_prop in H. destruct H as [-> H]. apply Z.eqb_eq in H. subst. reflexivity.
  - inversion H; subst. reflexivity.
Qed.
Lemma starts_false (ls : list lane) i : ~ is_start (nth_error ls i) -> starts ls i = false.
Proof using. try clear Hn; try clear crc32. intro H. destruct (starts ls i) eqn:E; [apply starts_iff in E; contradiction|reflexivity]. Qed.
Lemma begins_pay w rest r pkt : begins n w rest -> monl pkt false (w :: r) = pay pkt rest r.
Proof using. try clear Hn; try clear crc32. try clear Hn.
  intros [[H ->]|(H0 & E8 & H & ->)].
  - apply monl_start. apply starts_iff. exact H.
  - apply monl_start4; [apply starts_false; exact H0|exact E8|apply starts_iff; exact H].
Qed.

(** ** Collecting a frame *)
Lemma add_data pkt p r : add_payload pkt (map data p ++ r) = add_payload (pkt ++ p) r.
Proof using. try clear Hn; try clear crc32.
  revert pkt. induction p as [|b p IH]; intro pkt; [rewrite app_nil_r; reflexivity|]. cbn [map app add_payload data].
  rewrite IH, <- app_assoc. reflexivity.
Qed.
Definition closing (pkt : bytes) (c : Z) : list event :=
  if (c =? 253)%Z then finish crc32 pkt else [LogControl].
Lemma pay_end pkt p c junk r : pay pkt (map data p ++ (c, true) :: junk) r = closing (pkt ++ p) c ++ monl [] false r.
Proof using. try clear Hn; try clear crc32.
  unfold pay. rewrite add_data. cbn [add_payload]. unfold closing, XGMII_TERMINATE. destruct (Z.eqb c 253); reflexivity.
Qed.
Lemma pay_data pkt p ls r : pay pkt (map data p) (ls :: r) = pay (pkt ++ p) ls r.
Proof using. try clear Hn; try clear crc32. unfold pay at 1. rewrite <- (app_nil_r (map data p)), add_data. cbn [add_payload]. apply monl_inner. Qed.
Lemma pay_data_end pkt p : pay pkt (map data p) [] = [].
Proof. unfold pay. rewrite <- (app_nil_r (map data p)), add_data. reflexivity. Qed.
(** splitting data across words *)
Lemma app_split {A B} (f : A -> B) (a : list B) b p (r : list B) : a ++ b = map f p ++ r -> length a <= length p ->
  exists p1 p2, p = p1 ++ p2 /\ a = map f p1 /\ b = map f p2 ++ r.
Proof using. try clear Hn; try clear crc32.
  intros E L. exists (firstn (length a) p), (skipn (length a) p). split; [rewrite firstn_skipn; reflexivity|].
  assert (E1 : firstn (length a) (a ++ b) = firstn (length a) (map f p ++ r)) by (rewrite E; reflexivity).
  rewrite firstn_app, firstn_all, Nat.sub_diag, firstn_O, app_nil_r in E1.
  rewrite firstn_app, map_length in E1. replace (length a - length p) with 0 in E1 by lia. rewrite firstn_O, app_nil_r in E1.
  split; [rewrite E1 at 1; rewrite firstn_map; reflexivity|].
  rewrite <- (firstn_skipn (length a) p), map_app, <- app_assoc, <- firstn_map, <- E1 in E. apply app_inv_head in E. exact E.
Qed.
Lemma pay_frame mid : forall first pkt p c junk last ws,
  first ++ concat mid = map data p ++ (c, true) :: junk ->
  (mid = [] /\ last = first \/ exists mid', mid = mid' ++ [last]) -> length junk < length last ->
  pay pkt first (mid ++ ws) = closing (pkt ++ p) c ++ monl [] false ws.
Proof using. try clear Hn; try clear crc32. try clear Hn.
  induction mid as [|m mid IH]; intros first pkt p c junk last ws E La J.
  - cbn [concat app] in *. rewrite app_nil_r in E. rewrite E. apply pay_end.
  - assert (Lc : length last <= length (concat (m :: mid))).
    { destruct La as [[La _]|[mid' La]]; [discriminate|]. rewrite La, concat_app, app_length. cbn [concat]. rewrite app_nil_r. lia. }
    assert (Lf : length first <= length p).
    { clear - E Lc J. unfold lane in *. apply (f_equal (@length (Z * bool))) in E. rewrite !app_length, map_length in E. cbn [length] in E. lia. }
    destruct (app_split data first _ p _ E Lf) as (p1 & p2 & -> & -> & E2).
    cbn [app]. rewrite pay_data. rewrite (IH m (pkt ++ p1) p2 c junk last ws); [rewrite <- app_assoc; reflexivity|exact E2| |exact J].
    destruct La as [[La _]|[mid' La]]; [discriminate|]. destruct mid' as [|m' mid'].
    + cbn [app] in La. inversion La. left. split; reflexivity.
    + cbn [app] in La. inversion La. right. exists mid'. reflexivity.
Qed.
Lemma pay_open mid : forall first pkt p, first ++ concat mid = map data p -> pay pkt first mid = [].
Proof using. try clear Hn; try clear crc32. try clear Hn.
  induction mid as [|m mid IH]; intros first pkt p E.
  - cbn [concat] in E. rewrite app_nil_r in E. rewrite E. apply pay_data_end.
  - rewrite <- (app_nil_r (map data p)) in E.
    assert (Lf : length first <= length p).
    { clear - E. unfold lane in *. apply (f_equal (@length (Z * bool))) in E. rewrite !app_length, map_length in E. cbn [length] in E. lia. }
    destruct (app_split data first _ p _ E Lf) as (p1 & p2 & -> & -> & E2). rewrite app_nil_r in E2.
    rewrite pay_data. apply IH with (p := p2). exact E2.
Qed.

(** ** What a frame causes *)
Lemma closing_report p c : report crc32 (p, c) (closing p c).
Proof using. try clear Hn; try clear crc32. try clear Hn.
  unfold closing. destruct (Z.eqb_spec c 253) as [->|N]; [|apply report_control; exact N].
  unfold finish. destruct p as [|b p']; [apply report_empty; reflexivity|]. set (p := b :: p') in *.
  assert (NE : 0 < length p) by (unfold p; cbn; lia).
  change (64 + 7) with 71.
  set (e := if length p <? 71 then [LogRunt] else []).
  assert (E1 : length p < 71 -> e = [LogRunt]) by (intro; unfold e; destruct (Nat.ltb_spec (length p) 71); [reflexivity|lia]).
  assert (E2 : 71 <= length p -> e = []) by (intro; unfold e; destruct (Nat.ltb_spec (length p) 71); [lia|reflexivity]).
  clearbody e. destruct (Nat.ltb_spec (length p) 12) as [G|G].
  - rewrite E1 by lia. apply report_short; cbn [fst snd]; [reflexivity|lia].
  - cbn zeta. destruct (bytes_eqb (firstn 7 p) PREAMBLE_SFD) eqn:P; cbn [negb].
    + apply bytes_eqb_spec in P. set (payload := firstn (length p - 4 - 7) (skipn 7 p)). set (crc := skipn (length p - 4) p).
      apply report_packet with (crc := crc); cbn [fst snd]; try assumption.
      * split; [reflexivity|]. cbn [fst]. assert (Ep : p = PREAMBLE_SFD ++ payload ++ crc).
        { rewrite <- P. unfold crc, payload. replace (length p - 4) with (7 + (length p - 4 - 7)) at 2 by lia.
          rewrite <- skipn_skipn, firstn_skipn, firstn_skipn. reflexivity. }
        split; [exact Ep|]. split; [unfold crc; rewrite skipn_length; lia|].
        intro C. assert (X : length payload = 0) by (rewrite C; reflexivity). unfold payload in X. rewrite firstn_length, skipn_length in X. lia.
      * intro Ec. rewrite <- le32_z_to_le in Ec. replace (bytes_eqb crc (z_to_le 4 (crc32 payload))) with true by (symmetry; apply bytes_eqb_spec; exact Ec). reflexivity.
      * intro Ec. rewrite <- le32_z_to_le in Ec. replace (bytes_eqb crc (z_to_le 4 (crc32 payload))) with false by (symmetry; apply bytes_eqb_false; exact Ec). reflexivity.
    + apply bytes_eqb_false in P. apply report_preamble; cbn [fst snd]; try assumption; [reflexivity|].
      intros r C. apply P. rewrite C. reflexivity.
Qed.
Lemma frames_monl lss fs : frames n lss fs ->
  monl [] false lss = concat (map (fun f => closing (fst f) (snd f)) fs).
Proof using. try clear Hn; try clear crc32. try clear Hn.
  induction 1 as [|w ws fs [H0 H4] _ E|w rest mid last ws p c junk fs Hb Hc La J _ E|w rest mid p Hb Hc].
  - reflexivity.
  - rewrite monl_skip; [exact E|apply starts_false; exact H0|intro E8; apply starts_false; auto].
  - rewrite (begins_pay _ _ _ _ Hb). rewrite (pay_frame mid rest [] p c junk last ws Hc La J). cbn [app concat map fst snd]. rewrite E. reflexivity.
  - rewrite (begins_pay _ _ _ _ Hb). apply pay_open with (p := p). exact Hc.
Qed.
Lemma closing_reports fs : Forall2 (report crc32) fs (map (fun f => closing (fst f) (snd f)) fs).
Proof using. try clear Hn; try clear crc32. induction fs as [|[p c] fs IH]; constructor; [apply closing_report|exact IH]. Qed.

(** every stream has frames *)
Lemma data_or_control (ls : list lane) : (exists p, ls = map data p) \/ (exists p c junk, ls = map data p ++ (c, true) :: junk).
Proof using. try clear Hn; try clear crc32.
  induction ls as [|[b c] ls IH]; [left; exists []; reflexivity|]. destruct c.
  - right. exists [], b, ls. reflexivity.
  - destruct IH as [[p ->]|(p & c & junk & ->)]; [left; exists (b :: p); reflexivity|right; exists (b :: p), c, junk; reflexivity].
Qed.
Lemma scan_frame mids : forall first, (exists p, first ++ concat mids = map data p) \/
  (exists mid ws p c junk last, mids = mid ++ ws /\ first ++ concat mid = map data p ++ (c, true) :: junk /\
     (mid = [] /\ last = first \/ exists mid', mid = mid' ++ [last]) /\ length junk < length last).
Proof using. try clear Hn; try clear crc32.
  induction mids as [|m mids IH]; intro first; destruct (data_or_control first) as [[p ->]|(p & c & junk & ->)].
  - left. exists p. apply app_nil_r.
  - right. exists [], [], p, c, junk, (map data p ++ (c, true) :: junk). cbn. rewrite app_nil_r. split; [reflexivity|]. split; [reflexivity|].
    split; [left; split; reflexivity|]. unfold lane in *. rewrite app_length. cbn [length]. lia.
  - destruct (IH m) as [[p2 E]|(mid & ws & p2 & c & junk & last & E & Ec & La & J)].
    + left. exists (p ++ p2). cbn [concat]. rewrite E, map_app. reflexivity.
    + right. exists (m :: mid), ws, (p ++ p2), c, junk, last. split; [rewrite E; reflexivity|]. split; [cbn [concat]; rewrite Ec, map_app, <- app_assoc; reflexivity|].
      split; [|exact J]. right. destruct La as [[-> ->]|[mid' ->]]; [exists []|exists (m :: mid')]; reflexivity.
  - right. exists [], (m :: mids), p, c, junk, (map data p ++ (c, true) :: junk). cbn [concat]. rewrite app_nil_r. split; [reflexivity|]. split; [reflexivity|].
    split; [left; split; reflexivity|]. unfold lane in *. rewrite app_length. cbn [length]. lia.
Qed.
Lemma frames_exist lss : exists fs, frames n lss fs.
Proof using. try clear Hn; try clear crc32. try clear Hn.
  assert (H : forall k lss, length lss <= k -> exists fs, frames n lss fs).
  { induction k as [|k IH]; intros [|w r] L; cbn [length] in L; [exists []; constructor|lia|exists []; constructor|].
    assert (B : (exists rest, begins n w rest) \/ no_start n w).
    { destruct (starts w 0) eqn:S0.
      - left. exists (skipn 1 w). left. split; [apply starts_iff; exact S0|reflexivity].
      - assert (N0 : ~ is_start (nth_error w 0)) by (intro C; apply starts_iff in C; congruence).
        destruct (Nat.eq_dec n 8) as [E8|E8]; [|right; split; [exact N0|contradiction]].
        destruct (starts w 4) eqn:S4.
        + left. exists (skipn 5 w). right. split; [exact N0|]. split; [exact E8|]. split; [apply starts_iff; exact S4|reflexivity].
        + right. split; [exact N0|]. intros _ C. apply starts_iff in C. congruence. }
    destruct B as [[rest B]|B].
    - destruct (scan_frame r rest) as [[p E]|(mid & ws & p & c & junk & last & -> & E & La & J)].
      + exists []. apply frames_open with (rest := rest) (p := p); assumption.
      + destruct (IH ws) as [fs F]; [rewrite app_length in L; lia|]. exists ((p, c) :: fs).
        apply frames_frame with (rest := rest) (last := last) (junk := junk); assumption.
    - destruct (IH r) as [fs F]; [lia|]. exists fs. apply frames_skip; assumption. }
  apply (H (length lss)). lia.
Qed.

(** ** Delivered packets *)
Lemma delivered_app a b : delivered (a ++ b) = delivered a ++ delivered b.
Proof. apply flat_map_app. Qed.
Lemma report_delivered f es : report crc32 f es ->
  (exists payload crc, well_formed f payload crc /\ delivered es = [payload]) \/
  ((forall payload crc, ~ well_formed f payload crc) /\ delivered es = []).
Proof using. try clear Hn; try clear crc32. try clear Hn.
  intros [H|H E|H L|e H L P E1 E2|e e' payload crc W E1 E2 E3 E4].
  - right. split; [|reflexivity]. intros payload crc (C & _). contradiction.
  - right. split; [|reflexivity]. intros payload crc (_ & C & _). rewrite E in C. discriminate.
  - right. split; [|reflexivity]. intros payload crc (_ & C & Lc & Np). rewrite C, !app_length in L. cbn [length] in L. destruct payload; [congruence|cbn in L; lia].
  - right. split; [intros payload crc (_ & C & _); apply (P (payload ++ crc)); exact C|].
    destruct (le_lt_dec 71 (length (fst f))) as [G|G]; [rewrite (E2 G)|rewrite (E1 G)]; reflexivity.
  - left. exists payload, crc. split; [exact W|]. rewrite !delivered_app.
    assert (D1 : delivered e = []) by (destruct (le_lt_dec 71 (length (fst f))) as [G|G]; [rewrite (E2 G)|rewrite (E1 G)]; reflexivity).
    assert (D2 : delivered e' = []) by (destruct (list_eq_dec Z.eq_dec crc (le32 (crc32 payload))) as [G|G]; [rewrite (E3 G)|rewrite (E4 G)]; reflexivity).
    rewrite D1, D2. reflexivity.
Qed.
Lemma reports_deliverable fs evs : Forall2 (report crc32) fs evs -> deliverable fs (delivered (concat evs)).
Proof using. try clear Hn; try clear crc32. try clear Hn.
  induction 1 as [|f es fs evs R _ IH]; [constructor|]. cbn [concat]. rewrite delivered_app.
  destruct (report_delivered _ _ R) as [(payload & crc & W & E)|[W E]]; rewrite E; cbn [app];
    [apply del_good with (crc := crc); assumption|apply del_bad; assumption].
Qed.
End Mon.
