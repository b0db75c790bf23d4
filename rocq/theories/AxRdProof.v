(** AxRdProof.v -- AXI4 reads end. *)
From Verif Require Import Base Async BitsLemmas CompatModel PktModel HandshakeSpec AxiModel AxiSpec AxiTopProof TmSpec TmProof AxTmProof AxiProp AxRdSpec.
Local Open Scope list_scope.

(** ** every cycle is accounted for *)
Notation World' := (@World unit axi_in ax_out).
Definition eats {A} (m : M unit axi_in ax_out A) : Prop := forall w,
  map fst (trace (snd (m w))) ++ ins (snd (m w)) = map fst (trace w) ++ ins w /\ (fst (m w) = Susp -> ins (snd (m w)) = []).
Lemma eats_ret {A} (a : A) : eats (ret a). Proof. intro w. split; [reflexivity|discriminate]. Qed.
Lemma eats_raise {A} e : eats (raise (A := A) e). Proof. intro w. split; [reflexivity|discriminate]. Qed.
Lemma eats_of_res {A} (r : res A) : eats (of_res r). Proof. destruct r; [apply eats_ret|apply eats_raise]. Qed.
Lemma eats_bind {A B} (m : M unit axi_in ax_out A) (f : A -> M unit axi_in ax_out B) : eats m -> (forall a, eats (f a)) -> eats (bind m f).
Proof.
  intros H1 H2 w. unfold bind. destruct (H1 w) as [E1 S1]. destruct (m w) as [[a|e| |] w1]; cbn [fst snd] in *; try (split; [exact E1|discriminate || (intros _; apply S1; reflexivity)]).
  destruct (H2 a w1) as [E2 S2]. split; [rewrite E2; exact E1|exact S2].
Qed.
Lemma eats_edge : eats edge.
Proof.
  intro w. unfold edge. destruct (ins w) as [|i l] eqn:E; cbn [fst snd trace ins]; [rewrite E; auto|]. split; [|discriminate].
  rewrite map_app, <- app_assoc. reflexivity.
Qed.
Lemma eats_readonly : eats readonly.
Proof. intro w. unfold readonly. destruct (ph w), (ins w) eqn:E; cbn [fst snd trace ins]; rewrite ?E; split; auto; discriminate. Qed.
Lemma eats_input : eats input.
Proof. intro w. unfold input. destruct (ins w) eqn:E; cbn [fst snd]; rewrite ?E; split; auto; discriminate. Qed.
Lemma eats_drive f : eats (drive f).
Proof. intro w. unfold drive. destruct (ph w); cbn [fst snd trace ins]; split; auto; discriminate. Qed.
Lemma eats_loop {L A} fuel (body : L -> M unit axi_in ax_out (L + A)) : (forall l, eats (body l)) -> forall l, eats (loop fuel body l).
Proof.
  intro H. induction fuel as [|f IH]; intro l; [intro w; split; [reflexivity|discriminate]|]. cbn [loop]. apply eats_bind; [apply H|]. intros [l'|a]; [apply IH|apply eats_ret].
Qed.
Lemma eats_when b m : eats m -> eats (x_when b m).
Proof. intro H. unfold x_when. destruct b; [exact H|apply eats_ret]. Qed.
Lemma eats_assign n v f : eats (assign n v f).
Proof. unfold assign. apply eats_bind; [apply eats_of_res|]. intro. apply eats_drive. Qed.
Lemma read_eats c fuel a : eats (axi_read c fuel a).
Proof.
  assert (R : eats (axi_read_raw c fuel a)).
  { unfold axi_read_raw. apply eats_bind; [apply eats_of_res|]. intro.
    repeat (apply eats_bind; [first [apply eats_when; first [apply eats_edge|apply eats_assign]|apply eats_assign|apply eats_drive|apply eats_edge|idtac]|intro]).
    - unfold until1. apply eats_loop. intro. apply eats_bind; [apply eats_readonly|]. intro. apply eats_bind; [apply eats_input|]. intro.
      destruct (is1 _); [apply eats_ret|]. apply eats_bind; [apply eats_edge|]. intro. apply eats_ret.
    - unfold read_beats. apply eats_loop. intros [[d rr] o]. apply eats_bind.
      + unfold read_beat. apply eats_loop. intro. apply eats_bind; [apply eats_readonly|]. intro. apply eats_bind; [apply eats_input|]. intro i.
        destruct (is1 (g_rvalid i)).
        * apply eats_bind; [apply eats_of_res|]. intro. destruct (bval (g_rresp i)); [apply eats_ret|apply eats_raise].
        * apply eats_bind; [apply eats_edge|]. intro. apply eats_ret.
      + intros [[w r] rl]. destruct (negb _ || _); [apply eats_ret|]. apply eats_bind; [apply eats_edge|]. intro. apply eats_ret.
    - match goal with x : _ * _ |- _ => destruct x as [d rr] end.
      apply eats_bind; [destruct (_ =? _)%Z; [apply eats_ret|apply eats_raise]|]. intro. apply eats_bind; [apply eats_of_res|]. intro. apply eats_ret. }
  unfold axi_read. apply eats_bind; [exact R|]. intro. destruct (find _ _); [apply eats_raise|apply eats_ret].
Qed.

(** ** counting *)
Lemma app_eq_app_len {A} (a b a' b' : list A) : a ++ b = a' ++ b' -> length a = length a' -> a = a' /\ b = b'.
Proof.
  revert a'. induction a as [|x a IH]; intros [|x' a'] E L; try discriminate; [auto|]. injection E as -> E. injection L as L.
  destruct (IH _ E L) as [-> ->]. auto.
Qed.
Lemma windows_count {A} (P : A -> bool) D n : forall l,
  (forall b w f, l = b ++ w ++ f -> length w = D -> existsb P w = true) -> n * D <= length l -> n <= length (filter P l).
Proof.
  induction n as [|n IH]; intros l H L; [lia|]. cbn [Nat.mul] in L.
  rewrite <- (firstn_skipn D l). rewrite filter_app, app_length.
  assert (E : existsb P (firstn D l) = true) by (apply (H [] (firstn D l) (skipn D l)); [cbn [app]; rewrite firstn_skipn; reflexivity|rewrite firstn_length; lia]).
  assert (1 <= length (filter P (firstn D l))).
  { apply existsb_exists in E. destruct E as (x & Hx & Px). destruct (filter P (firstn D l)) as [|y r] eqn:F; [|cbn; lia].
    assert (In x (filter P (firstn D l))) by (apply filter_In; auto). rewrite F in H0. destruct H0. }
  assert (n <= length (filter P (skipn D l))); [|lia].
  apply IH; [|rewrite skipn_length; lia]. intros b w f E' Lw. apply (H (firstn D l ++ b) w f); [|exact Lw].
  rewrite <- app_assoc, <- E', firstn_skipn. reflexivity.
Qed.
Lemma exists_map {A B} (g : A -> B) (P : B -> bool) l : existsb P (map g l) = existsb (fun x => P (g x)) l.
Proof. induction l as [|x l IH]; cbn; [reflexivity|]. rewrite IH. reflexivity. Qed.
Lemma none_exists {A} (P : A -> bool) l : Forall (fun x => P x = false) l -> existsb P l = false.
Proof. induction 1 as [|x l H _ IH]; cbn; [reflexivity|]. rewrite H. exact IH. Qed.
Lemma exists_none {A} (P : A -> bool) l : existsb P l = false -> Forall (fun x => P x = false) l.
Proof. induction l as [|x l IH]; cbn; intro H; [constructor|]. apply orb_false_iff in H. constructor; [apply H|apply IH, H]. Qed.

Section Live.
Context (c : axi_cfg) (D n : nat).

(** the part after the address: no final beat in [seg] means fewer than n * D cycles *)
Lemma seg_short t1 seg after : reads_within D (t1 ++ seg ++ after) -> ends_burst c n (t1 ++ seg ++ after) ->
  existsb arvalid t1 = true -> existsb arvalid seg = false -> Forall (fun y => r_final c (fst y) = false) seg -> length seg < n * D.
Proof.
  intros R E H1 H2 F. destruct (Nat.lt_ge_cases (length seg) (n * D)) as [L|L]; [exact L|]. exfalso.
  assert (C : n <= length (filter r_given seg)).
  { apply (windows_count r_given D n); [|exact L]. intros b w f -> Lw. apply (R (t1 ++ b) w (f ++ after)).
    - rewrite <- !app_assoc. reflexivity.
    - exact Lw.
    - rewrite existsb_app, H1. reflexivity.
    - rewrite !existsb_app in H2. apply orb_false_iff in H2. destruct H2 as [_ H2]. apply orb_false_iff in H2. apply H2. }
  pose proof (E t1 seg after eq_refl H1 H2 C) as X. rewrite (none_exists _ _ F) in X. discriminate.
Qed.
(** the part with the address: *)
Lemma wait_short t0 w after : reads_within D (t0 ++ w ++ after) ->
  Forall (fun y => arvalid y = true) w -> Forall (fun y => ar_taken y = false) w -> length w < D.
Proof.
  intros R V F. destruct (Nat.lt_ge_cases (length w) D) as [L|L]; [exact L|]. exfalso.
  assert (X : existsb ar_taken (firstn D w) = true).
  { apply (R t0 (firstn D w) (skipn D w ++ after)); [rewrite (app_assoc (firstn D w)), firstn_skipn; reflexivity|rewrite firstn_length; lia|].
    apply forallb_forall. intros y Hy. rewrite Forall_forall in V. apply V. rewrite <- (firstn_skipn D w). apply in_or_app. auto. }
  apply existsb_exists in X. destruct X as (y & Hy & Ty). rewrite Forall_forall in F.
  assert (In y w) by (rewrite <- (firstn_skipn D w); apply in_or_app; auto). rewrite (F y H) in Ty. discriminate.
Qed.
Lemma map_split {A B} (f : A -> B) l : forall a b, map f l = a ++ b -> exists x y, l = x ++ y /\ map f x = a /\ map f y = b.
Proof.
  intros a b E. exists (firstn (length a) l), (skipn (length a) l). split; [symmetry; apply firstn_skipn|].
  rewrite <- firstn_map, <- skipn_map, E, firstn_app, skipn_app, firstn_all, skipn_all, Nat.sub_diag. cbn. rewrite app_nil_r. auto.
Qed.
Lemma on_all y k : map (fun y : axi_in * ax_out => is1 (x_valid (snd y))) y = repeat true k -> Forall (fun y => arvalid y = true) y.
Proof. revert k. induction y as [|z y IH]; intros [|k]; cbn; intro H; try discriminate; constructor; injection H as H1 H2; [exact H1|exact (IH _ H2)]. Qed.
Lemma on_none y k : map (fun y : axi_in * ax_out => is1 (x_valid (snd y))) y = repeat false k -> existsb arvalid y = false.
Proof. revert k. induction y as [|z y IH]; intros [|k]; cbn; intro H; try discriminate; [reflexivity|]. injection H as H1 H2. unfold arvalid, aw_offered. rewrite H1. exact (IH _ H2). Qed.
Lemma fst_Forall {Q : axi_in -> Prop} : forall (t : list (axi_in * ax_out)), Forall Q (map fst t) -> Forall (fun y => Q (fst y)) t.
Proof. intros t H. rewrite Forall_map in H. exact H. Qed.

Lemma read_live fuel a s p o l : read_ok c fuel a p l -> aw_offered o = false -> Forall (fun i => r_beat i = true -> r_beat_ok c i) l ->
  n = Z.to_nat (ra_length a) ->
  let '(r, w) := axi_read c fuel a (World s p o [] l) in
  reads_within D (trace w) -> ends_burst c n (trace w) ->
  let bound := (if ra_sync a then 1 else 0) + D + n * D in
  length (trace w) <= bound /\ (bound < length l -> r <> Susp).
Proof.
  intros Ho Hq Bk En. pose proof (read_time c fuel a s p o l Ho Hq) as T. pose proof (read_eats c fuel a (World s p o [] l)) as Et.
  destruct (axi_read c fuel a (World s p o [] l)) as [r w] eqn:Er. cbn [fst snd trace ins map app] in Et. destruct Et as [Ei Es].
  destruct T as (va & rest & O & Mt & Rn). intros R E bound.
  assert (Fin : r = Susp -> map fst (trace w) = l) by (intro H; rewrite (Es H), app_nil_r in Ei; exact Ei).
  assert (Cut : length (trace w) <= bound -> length (trace w) <= bound /\ (bound < length l -> r <> Susp)).
  { intro L. split; [exact L|]. intros Lb H. specialize (Fin H). rewrite <- Fin, map_length in Lb. lia. }
  apply Cut. clear Cut.
  set (x := if ra_sync a then 1 else 0) in *. change (b2n (ra_sync a)) with x in O.
  remember [x] as gs eqn:Eg. destruct O as [l|g gs idle waits i l v rest Li F A O|g gs idle waits Li F|g gs l Li]; try discriminate; injection Eg as -> ->.
  - (* taken *) inversion O; subst v rest. clear O H0. rewrite app_nil_r in Mt.
    rewrite <- app_assoc in Mt. destruct (map_split _ _ _ _ Mt) as (t0 & t' & Et & M0 & M').
    destruct (map_split _ _ _ _ M') as (t1 & t2 & Et2 & M1 & M2).
    assert (L0 : length t0 = x) by (rewrite <- (repeat_length false x), <- M0, map_length; reflexivity).
    assert (L1 : length t1 = length waits + 1) by (rewrite <- (repeat_length true (length waits + 1)), <- M1, map_length; reflexivity).
    assert (Ef : map fst t0 ++ map fst t1 ++ map fst t2 ++ ins w = idle ++ waits ++ i :: l).
    { rewrite <- Ei, Et, Et2, !map_app, <- !app_assoc. reflexivity. }
    apply app_eq_app_len in Ef; [|rewrite map_length; lia]. destruct Ef as [F0 Ef].
    replace (waits ++ i :: l) with ((waits ++ [i]) ++ l) in Ef by (rewrite <- app_assoc; reflexivity).
    apply app_eq_app_len in Ef; [|rewrite map_length, app_length; cbn; lia]. destruct Ef as [F1 Ef].
    destruct (map_split _ _ _ _ F1) as (t1a & t1b & Et1 & F1a & F1b).
    assert (Va : Forall (fun y => arvalid y = true) t1a) by (apply on_all in M1; rewrite Et1 in M1; apply Forall_app in M1; apply M1).
    assert (Lw : length waits < D).
    { rewrite <- F1a, map_length. apply (wait_short t0 t1a (t1b ++ t2)); [|exact Va|].
      - rewrite Et, Et2, Et1, <- app_assoc in R. exact R.
      - apply (@fst_Forall (fun i => ar_accepts i = false)). rewrite F1a. exact F. }
    assert (V1 : existsb arvalid (t0 ++ t1) = true).
    { rewrite existsb_app. apply orb_true_iff. right. pose proof (on_all _ _ M1) as V. destruct t1 as [|y t1']; [cbn in L1; lia|]. inversion V as [|? ? Vy _]. cbn. rewrite Vy. reflexivity. }
    assert (Short : forall seg after, t2 = seg ++ after -> Forall (fun y => r_final c (fst y) = false) seg -> length seg < n * D).
    { intros seg after -> Fs. apply (seg_short (t0 ++ t1) seg after); [| |exact V1| |exact Fs].
      - rewrite Et, Et2 in R. rewrite <- app_assoc. exact R.
      - rewrite Et, Et2 in E. rewrite <- app_assoc. exact E.
      - apply on_none in M2. rewrite existsb_app in M2. apply orb_false_iff in M2. apply M2. }
    assert (Lt : length (trace w) = x + (length waits + 1) + length t2) by (rewrite Et, Et2, !app_length; lia).
    assert (Hs : (exists seg f tl, l = seg ++ f :: tl /\ Forall (fun i => r_final c i = false) seg /\ r_final c f = true) \/ Forall (fun i => r_final c i = false) l).
    { clear. induction l as [|i l IH]; [right; constructor|]. destruct (r_final c i) eqn:Fi; [left; exists [], i, l; repeat split; [constructor|exact Fi]|].
      destruct IH as [(seg & f & tl & -> & Fs & Ff)|IH]; [left; exists (i :: seg), f, tl; repeat split; [constructor; assumption|exact Ff]|right; constructor; assumption]. }
    destruct Hs as [(seg & f & tl & El & Fs & Ff)|Fs].
    + assert (RC : read_cycles c (ra_sync a) (idle ++ waits ++ i :: l) idle waits i seg f tl).
      { constructor; [rewrite El; reflexivity|exact Li|exact F|exact A|exact Fs|exact Ff|].
        rewrite !Forall_app in Bk. destruct Bk as (_ & _ & Bk). inversion Bk as [|? ? _ Bl]; subst. rewrite El in Bl. apply Forall_app in Bl. destruct Bl as [B1 B2].
        apply Forall_app. split; [exact B1|]. inversion B2; constructor; [assumption|constructor]. }
      pose proof (C58_read_beats c fuel a s p o [] _ _ _ _ _ _ _ Ho RC) as X. cbn zeta in X. destruct X as (words & _ & X1 & X2).
      assert (Tw : map fst (trace w) = idle ++ (waits ++ [i]) ++ seg ++ [f]).
      { destruct (Z.eq_dec (Z.of_nat (length (filter r_beat (seg ++ [f])))) (ra_length a)) as [Q|Q]; [destruct (X2 Q) as [_ X]|destruct (X1 Q) as [_ X]];
          rewrite Er in X; injection X as _ ->; cbn [trace app]; rewrite !map_app, !held_fst; reflexivity. }
      assert (L2 : length t2 = length seg + 1).
      { apply (f_equal (@length axi_in)) in Tw. rewrite map_length, !app_length in Tw. cbn [length] in Tw. lia. }
      assert (F2 : map fst t2 ++ ins w = seg ++ f :: tl) by (rewrite Ef, El; reflexivity).
      replace (seg ++ f :: tl) with ((seg ++ [f]) ++ tl) in F2 by (rewrite <- app_assoc; reflexivity).
      apply app_eq_app_len in F2; [|rewrite map_length, app_length; cbn; lia]. destruct F2 as [F2 _].
      destruct (map_split _ _ _ _ F2) as (ta & tb & Eta & Fa & _).
      assert (length ta < n * D) by (apply (Short ta tb Eta); apply (@fst_Forall (fun i => r_final c i = false)); rewrite Fa; exact Fs).
      assert (length ta = length seg) by (rewrite <- Fa, map_length; reflexivity). unfold bound. lia.
    + assert (F2 : Forall (fun i => r_final c i = false) (map fst t2)).
      { assert (Fs' : Forall (fun i => r_final c i = false) (map fst t2 ++ ins w)) by (rewrite Ef; exact Fs). apply Forall_app in Fs'. apply Fs'. }
      assert (length t2 < n * D) by (apply (Short t2 []); [rewrite app_nil_r; reflexivity|apply (@fst_Forall (fun i => r_final c i = false)), F2]). unfold bound. lia.
  - (* waiting *) specialize (Fin (Rn eq_refl)).
    rewrite <- app_assoc in Mt. destruct (map_split _ _ _ _ Mt) as (t0 & t' & Et & M0 & M').
    destruct (map_split _ _ _ _ M') as (t1 & t2 & Et2 & M1 & M2).
    assert (L0 : length t0 = x) by (rewrite <- (repeat_length false x), <- M0, map_length; reflexivity).
    assert (L1 : length t1 = length waits) by (rewrite <- (repeat_length true (length waits)), <- M1, map_length; reflexivity).
    assert (Lt : length (trace w) = x + length waits) by (rewrite <- (map_length fst), Fin, app_length; lia).
    assert (t2 = []) as ->. { rewrite Et, Et2, !app_length in Lt. destruct t2; [reflexivity|cbn in Lt; lia]. }
    rewrite app_nil_r in Et2. subst t'.
    assert (F1 : map fst t1 = waits). { rewrite Et, map_app in Fin. apply app_eq_app_len in Fin; [apply Fin|rewrite map_length; lia]. }
    assert (length t1 < D).
    { apply (wait_short t0 t1 []); [rewrite app_nil_r, <- Et; exact R|exact (on_all _ _ M1)|]. apply (@fst_Forall (fun i => ar_accepts i = false)). rewrite F1. exact F. }
    unfold bound. lia.
  - (* gap *) specialize (Fin (Rn eq_refl)). rewrite <- (map_length fst), Fin. unfold bound. lia.
Qed.
End Live.
