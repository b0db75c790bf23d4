(** PktProof.v *)
From Verif Require Import Base Async BitsLemmas CompatSpec CompatModel CompatProof DrvUtilModel
  HandshakeSpec Handshake PktModel PktSpec.
From Verif Require AvalonSTSpec AvalonSTProof.
Local Open Scope list_scope.

(** ** The gap code, for any outputs *)
Lemma tx_gap {TO} off acc (set0 : TO -> TO) s p o (tr : list (logic * TO)) l (Q : unit -> world valid logic TO -> Prop) :
  p <> PReadOnly -> free off acc tr -> off (set0 o) = false ->
  (forall p' tr' l' o', p' <> PReadOnly -> free off acc tr' -> (o' = o \/ o' = set0 o) ->
     Q tt (World (snd (throttle s)) p' o' tr' l')) ->
  tx off acc (gap_code set0) (World s p o tr l) [] (fst (throttle s)) Q.
Proof.
  intros Hp Hf Ho HQ. unfold gap_code.
  apply (tx_step _ _ _ _ _ s (World s p o tr l)); try reflexivity.
  destruct (truthy (v_on s)) eqn:E.
  - apply (tx_step _ _ _ _ _ tt (World s p o tr l)); try reflexivity.
    assert (G : fst (throttle s) = 0) by (unfold throttle; rewrite E; reflexivity).
    rewrite G. cbn [edges]. apply (tx_step _ _ _ _ _ tt (World s p o tr l)); try reflexivity.
    intro S. exists []. cbn. rewrite app_nil_r. repeat split; auto.
  - apply tx_drive; [assumption|].
    change (@nil TO) with (@nil TO ++ []). rewrite <- (Nat.add_0_r (fst (throttle s))).
    apply tx_bind. rewrite Nat.add_0_r. apply tx_edges; auto.
    intros p' tr' l' Hp' Hf' _ S. exists []. cbn. rewrite app_nil_r. repeat split; auto.
Qed.

Lemma byte_word c k : byte_bus c k -> word_bus c k.
Proof.
  intros [W P S E C]. constructor; try assumption; [lia|]. intro U. apply E. unfold use_empty in U.
  apply Nat.ltb_lt in U. lia.
Qed.

Section Driver.
Context (c : pcfg) (k : nat) (base : pk_out) (ch : option Z).
Hypothesis BB : word_bus c k.
Hypothesis CH : channel_ok c ch.

Notation acc := (k_accepts (c_ready c)).
Notation off := k_offered.
Notation tx := (tx off acc).
Notation free := (free off acc).
Notation world := (world valid logic pk_out).

Lemma bw_k : bus_width c = k.
Proof.
  unfold bus_width. pose proof (wb_width _ _ BB) as W. symmetry. apply (Nat.div_unique _ 8 k (c_width c - 8 * k)); lia.
Qed.
Definition pad : nat := c_width c - 8 * k.

(** the signals the driver never drives keep the value they have in [base] *)
Definition inv_base (o : pk_out) : Prop :=
  (use_empty c = false -> k_empty o = k_empty base)
  /\ (c_cw c = None -> k_channel o = k_channel base)
  /\ (c_error c = false -> k_error o = k_error base).
Definition dflt (o : pk_out) : Prop :=
  inv_base o /\ k_eop o = L0
  /\ (use_empty c = true -> k_empty o = zeros (ew c))
  /\ (c_error c = true -> k_error o = L0).

Definition chan_bits : bits :=
  match c_cw c with
  | None => k_channel base
  | Some n => match ch with None => zeros n | Some z => zbits n z end
  end.

(** the word offered for the head of [str] *)
Definition wd (first : bool) (str : bytes) : pk_out :=
  let last := length str <=? k in
  PkOut L1 (if first then L1 else L0) (if last then L1 else L0)
        (if use_empty c then (if last then zbits (ew c) (Z.of_nat k - Z.of_nat (length str)) else zeros (ew c))
         else k_empty base)
        (padded (c_high c) pad (word_bits (c_high c) (firstn k str ++ repeat 0%Z (k - length str))))
        chan_bits
        (if c_error c then L0 else k_error base).

Fixpoint pwords_ (f : nat) (first : bool) (str : bytes) : list pk_out :=
  match f with
  | O => []
  | S f' => match str with
            | [] => []
            | _ => wd first str :: pwords_ f' false (skipn k str)
            end
  end.
Definition pwords (first : bool) (str : bytes) : list pk_out := pwords_ (length str) first str.

Lemma pwords_fuel f : forall g first str, length str <= f -> length str <= g ->
  pwords_ f first str = pwords_ g first str.
Proof.
  pose proof (wb_pos _ _ BB) as K.
  induction f as [|f IH]; intros [|g] first str Hf Hg; try reflexivity.
  - destruct str; [reflexivity|cbn in *; lia].
  - destruct str; [reflexivity|cbn in *; lia].
  - cbn [pwords_]. destruct str as [|b str]; [reflexivity|]. f_equal.
    assert (L : length (skipn k (b :: str)) <= length str).
    { rewrite skipn_length. cbn [length]. lia. }
    cbn [length] in Hf, Hg. apply IH; lia.
Qed.
Lemma pwords_nil first : pwords first [] = [].
Proof. reflexivity. Qed.
Lemma pwords_step first str : str <> [] -> pwords first str = wd first str :: pwords false (skipn k str).
Proof.
  pose proof (wb_pos _ _ BB) as K.
  intro H. destruct str as [|b str]; [contradiction|]. unfold pwords at 1. cbn [length pwords_]. f_equal.
  apply pwords_fuel; rewrite skipn_length; cbn [length]; lia.
Qed.

Lemma chan_fits z n : c_cw c = Some n -> ch = Some z -> assign_int n z = Ok (zbits n z).
Proof.
  intros Hn Hz. pose proof CH as H. unfold channel_ok in H. rewrite Hn, Hz in H.
  pose proof (wb_check _ _ BB) as Ck. unfold pk_check in Ck.
  destruct (use_empty c && _); [discriminate|]. rewrite Hn in Ck.
  destruct (128 <? n); [discriminate|].
  destruct (Z.ltb_spec (2 ^ Z.of_nat n - 1) (max_channel c)); [discriminate|].
  unfold assign_int.
  pose proof (Z.pow_nonneg 2 (Z.of_nat n - 1) ltac:(lia)).
  replace _ with true by lia. reflexivity.
Qed.

Lemma tx_channel {B} (kk : unit -> M valid logic pk_out B) s p o tr l ds n (Q : B -> world -> Prop) : p <> PReadOnly ->
  tx (kk tt) (World s p (match c_cw c with None => o | Some _ => k_set_channel chan_bits o end) tr l) ds n Q ->
  tx (bind (pk_channel c ch) kk) (World s p o tr l) ds n Q.
Proof.
  intros Hp H. unfold pk_channel, chan_bits in *. destruct (c_cw c) as [m|] eqn:Hm; [|exact H].
  revert H. case_eq ch; [intros z Hz H|intros Hz H].
  - pose proof CH as K. unfold channel_ok in K. rewrite Hm, Hz in K.
    replace (_ || _) with false by lia.
    rewrite (chan_fits z m Hm Hz). cbn [of_res].
    apply (tx_step _ _ _ _ _ tt (World s p (k_set_channel (zbits m z) o) tr l)); try reflexivity; [|exact H].
    unfold bind, ret. apply drive_ok, Hp.
  - apply tx_drive; assumption.
Qed.

Lemma word_create str : create_binary (BBytes (firstn k str)) (c_width c) (c_high c)
  = Ok (padded (c_high c) pad (word_bits (c_high c) (firstn k str ++ repeat 0%Z (k - length str)))).
Proof.
  pose proof (wb_width _ _ BB) as W. pose proof (wb_pos _ _ BB) as K. unfold create_binary.
  destruct (Nat.eqb_spec (c_width c) 1); [lia|].
  assert (L : length (firstn k str) = Nat.min k (length str)) by apply firstn_length.
  assert (Z8 : zeros (c_width c - 8 * length (firstn k str)) = zeros (8 * (k - length str)) ++ zeros pad).
  { unfold zeros, pad. rewrite <- repeat_app. f_equal. lia. }
  assert (Z9 : zeros (8 * (k - length str)) ++ zeros pad = zeros pad ++ zeros (8 * (k - length str))).
  { unfold zeros. rewrite <- !repeat_app. f_equal. lia. }
  unfold word_bits, padded, logicarray_of_str. destruct (c_high c).
  - fold (bytes_bits (firstn k str)). fold (bytes_bits (firstn k str ++ repeat 0%Z (k - length str))).
    rewrite app_length, zeros_length, bytes_bits_length.
    replace (8 * length (firstn k str) + (c_width c - 8 * length (firstn k str)) =? c_width c) with true by (symmetry; apply Nat.eqb_eq; lia).
    rewrite Z8, bytes_bits_app, bytes_bits_zeros, <- app_assoc. reflexivity.
  - fold (bytes_bits (rev (firstn k str))). fold (bytes_bits (rev (firstn k str ++ repeat 0%Z (k - length str)))).
    rewrite app_length, zeros_length, bytes_bits_length, rev_length.
    replace (c_width c - 8 * length (firstn k str) + 8 * length (firstn k str) =? c_width c) with true by (symmetry; apply Nat.eqb_eq; lia).
    rewrite Z8, Z9, rev_app_distr, rev_repeat, bytes_bits_app, bytes_bits_zeros, <- app_assoc. reflexivity.
Qed.

Lemma tx_word first str s p o tr l (Q : bytes -> world -> Prop) :
  str <> [] -> p <> PReadOnly -> free tr -> dflt o ->
  (forall p' tr' l', p' <> PReadOnly -> free tr' ->
     Q (skipn k str) (World (snd (throttle s)) p' (wd first str) tr' l')) ->
  tx (pk_word c str first ch) (World s p o tr l) [] (fst (throttle s)) Q.
Proof.
  intros Hs Hp Hf Hd HQ. unfold pk_word.
  change (@nil pk_out) with (@nil pk_out ++ []). rewrite <- (Nat.add_0_r (fst (throttle s))).
  apply tx_bind. apply tx_gap; [assumption|assumption|reflexivity|].
  intros p' tr' l' o' Hp' Hf' Ho' _.
  assert (Hd' : dflt o').
  { destruct Ho' as [->| ->]; [exact Hd|]. destruct Hd as [[A [B C]] [D [E F]]]. repeat split; assumption. }
  clear Ho' Hd o Hp Hf. rewrite bw_k.
  apply tx_drive; [assumption|]. apply tx_channel; [assumption|]. apply tx_drive; [assumption|].
  set (o1 := k_set_sop _ _).
  assert (Lpos : 0 < length str) by (destruct str; [contradiction|cbn; lia]).
  destruct Hd' as [[A [B C]] [D [E F]]].
  destruct (length str <=? k) eqn:L.
  - apply Nat.leb_le in L.
    assert (Ee : use_empty c = true -> assign_int (ew c) (Z.of_nat k - Z.of_nat (length str))
                 = Ok (zbits (ew c) (Z.of_nat k - Z.of_nat (length str)))).
    { intro U. destruct (wb_empty _ _ BB U) as [n [En Hn]]. unfold ew. rewrite En. unfold assign_int.
      pose proof (Z.pow_nonneg 2 (Z.of_nat n - 1) ltac:(lia)). replace _ with true by lia. reflexivity. }
    set (o2 := if use_empty c then k_set_empty (zbits (ew c) (Z.of_nat k - Z.of_nat (length str))) (k_set_eop L1 o1)
               else k_set_eop L1 o1).
    apply (tx_step _ _ _ _ _ [] (World (snd (throttle s)) p' o2 tr' l')); try reflexivity.
    { rewrite (bind_done _ _ _ _ _ (drive_ok _ _ _ _ _ _ Hp')). unfold when, o2.
      destruct (use_empty c) eqn:U; [|reflexivity]. rewrite Ee by reflexivity. cbn [of_res].
      unfold bind, ret. rewrite (drive_ok _ _ _ _ _ _ Hp'). reflexivity. }
    apply (tx_ok _ _ _ _ _ _ _ _ _ (word_create str)).
    apply tx_drive; [assumption|].
    apply tx_ret. replace (@nil Z) with (skipn k str) by (apply skipn_all2; exact L).
    match goal with |- Q _ (World _ _ ?x _ _) => assert (X : x = wd first str) end.
    { unfold wd. replace (length str <=? k) with true by (symmetry; apply Nat.leb_le; exact L).
      unfold o2, o1, chan_bits in *. destruct (use_empty c), (c_cw c), (c_error c); unfold k_set_data, k_set_empty, k_set_eop, k_set_sop, k_set_channel, k_set_valid; cbn;
      rewrite ?A, ?B, ?C, ?F by reflexivity; reflexivity. }
    rewrite X. apply HQ; assumption.
  - apply (tx_step _ _ _ _ _ (skipn k str) (World (snd (throttle s)) p' o1 tr' l')); try reflexivity.
    apply (tx_ok _ _ _ _ _ _ _ _ _ (word_create str)).
    apply tx_drive; [assumption|]. apply tx_ret.
    match goal with |- Q _ (World _ _ ?x _ _) => assert (X : x = wd first str) end.
    { unfold wd. rewrite L.
      unfold o1, chan_bits in *. destruct (use_empty c), (c_cw c), (c_error c); unfold k_set_data, k_set_empty, k_set_eop, k_set_sop, k_set_channel, k_set_valid; cbn;
      rewrite ?A, ?B, ?C, ?D, ?E, ?F by reflexivity; reflexivity. }
    rewrite X. apply HQ; assumption.
Qed.

Lemma dflt_wd first str : k < length str -> dflt (wd first str).
Proof.
  intro H. unfold dflt, inv_base, wd, chan_bits. replace (length str <=? k) with false by (symmetry; apply Nat.leb_gt; exact H).
  cbn [k_eop k_empty k_channel k_error].
  destruct (use_empty c), (c_cw c), (c_error c); repeat split; intros; congruence.
Qed.
Lemma base_wd first str : inv_base (wd first str).
Proof. unfold inv_base, wd, chan_bits. cbn [k_eop k_empty k_channel k_error]. destruct (use_empty c), (c_cw c), (c_error c); repeat split; intros; congruence. Qed.

(** ** The loop *)
Lemma bind_ext {A B} (m : M valid logic pk_out A) (f g : A -> M valid logic pk_out B) w :
  (forall a w, f a w = g a w) -> bind m f w = bind m g w.
Proof. intro H. unfold bind. destruct (m w) as [[a|e| |] w']; auto. Qed.

Definition rest_of (fuel f : nat) (sync : bool) (str : bytes) : M valid logic pk_out unit :=
  bind (bind (pk_wait c fuel) (fun _ => loop f (pk_body c fuel sync ch) (str, false))) (fun _ => edge).

Lemma rest_unfold fuel f sync str w :
  rest_of fuel (S f) sync str w =
  bind (bind (pk_wait c fuel) (fun _ => edge))
    (fun _ => match str with
              | [] => ret tt
              | _ => bind (pk_word c str false ch) (fun r => rest_of fuel f sync r)
              end) w.
Proof.
  unfold rest_of. rewrite !bind_assoc. apply bind_ext. intros [] w1. cbn [loop].
  destruct str as [|b str].
  - cbn [pk_body]. unfold bind, ret. destruct (edge w1) as [[[]|e| |] w2]; reflexivity.
  - cbn [pk_body negb orb]. rewrite !bind_assoc. apply bind_ext. intros [] w2.
    rewrite !bind_assoc. apply bind_ext. intros r w3. rewrite !bind_assoc. apply bind_ext.
    intros [] w4. reflexivity.
Qed.

Fixpoint thr_iter (n : nat) (s : valid) : valid :=
  match n with O => s | S n' => thr_iter n' (snd (throttle s)) end.
Definition cost (n : nat) (s : valid) : nat := n + list_sum (gaps n s).
Lemma cost_S n s : cost (S n) s = 1 + fst (throttle s) + cost n (snd (throttle s)).
Proof. unfold cost. cbn [gaps]. destruct (throttle s) as [g s']. unfold list_sum. cbn [fold_right fst snd]. lia. Qed.

Lemma tx_rest fuel sync : forall f str s p o tr l (Q : unit -> world -> Prop),
  length str < f -> length l < fuel -> p <> PReadOnly -> free tr -> off o = true -> inv_base o ->
  (str = [] \/ dflt o) ->
  (forall o' tr' i l', acc i = true -> off o' = true -> inv_base o' ->
     Q tt (World (thr_iter (length (pwords false str)) s) PActive o' (tr' ++ [(i, o')]) l')) ->
  tx (rest_of fuel f sync str) (World s p o tr l) (o :: pwords false str)
     (1 + cost (length (pwords false str)) s) Q.
Proof.
  pose proof (wb_pos _ _ BB) as K.
  induction f as [|f IH]; intros str s p o tr l Q Hf Hl Hp Hfree Ho Hb Hd HQ; [lia|].
  intro S. rewrite rest_unfold. revert S.
  change (tx (bind (bind (pk_wait c fuel) (fun _ => edge))
    (fun _ => match str with
              | [] => ret tt
              | _ => bind (pk_word c str false ch) (fun r => rest_of fuel f sync r)
              end)) (World s p o tr l) ([o] ++ pwords false str) (1 + cost (length (pwords false str)) s) Q).
  apply tx_bind. apply tx_offer; cbn [ins st out trace]; [|exact Ho|apply Hfree|].
  { destruct (AvalonSTProof.wait_spec (c_ready c) fuel s p o tr l Hl Hp) as [p' E]. exists p'. exact E. }
  intros tr1 i l1 Hi Hl1.
  destruct str as [|b str].
  - apply tx_ret. apply HQ; assumption.
  - set (str0 := b :: str) in *.
    assert (N : str0 <> []) by discriminate.
    rewrite pwords_step in * by exact N. cbn [length]. rewrite cost_S.
    replace (1 + fst (throttle s) + _) with (fst (throttle s) + (1 + cost (length (pwords false (skipn k str0))) (snd (throttle s)))) by lia.
    change (wd false str0 :: pwords false (skipn k str0)) with ([] ++ (wd false str0 :: pwords false (skipn k str0))).
    apply tx_bind. apply tx_word; [exact N|discriminate|apply free_accept; exact Hi| |].
    { destruct Hd as [Hd|Hd]; [contradiction|exact Hd]. }
    intros p2 tr2 l2 Hp2 Hf2 Hl2. cbn [ins] in Hl1, Hl2. apply IH; try assumption.
    + rewrite skipn_length. unfold str0 in *. cbn [length] in *. lia.
    + lia.
    + reflexivity.
    + apply base_wd.
    + destruct (le_lt_dec (length str0) k) as [L|L]; [left; apply skipn_all2; exact L|right; apply dflt_wd; exact L].
Qed.

(** ** One packet *)
Lemma tx_defaults {B} (kk : unit -> M valid logic pk_out B) s p o tr l ds n (Q : B -> world -> Prop) :
  p <> PReadOnly -> inv_base o ->
  (forall o', dflt o' -> k_valid o' = L0 -> tx (kk tt) (World s p o' tr l) ds n Q) ->
  tx (bind (pk_defaults c ch) kk) (World s p o tr l) ds n Q.
Proof.
  intros Hp [A [B1 C]] H. unfold pk_defaults, when.
  set (o1 := k_set_valid L0 (k_set_eop L0 (k_set_sop L0 (if use_empty c then k_set_empty (zeros (ew c)) o else o)))).
  set (o2 := if c_error c then k_set_error L0 o1 else o1).
  set (o3 := match c_cw c with Some n => k_set_channel (zeros n) o2 | None => o2 end).
  assert (E : pk_defaults c ch (World s p o tr l) = (Done tt, World s p o3 tr l)).
  { unfold pk_defaults, when.
    assert (W : forall (b : bool) f (m : M valid logic pk_out unit) x,
      bind (if b then drive f else ret tt) (fun _ => m) (World s p x tr l)
      = m (World s p (if b then f x else x) tr l)).
    { intros [] f m x; [rewrite (bind_done _ _ _ _ _ (drive_ok _ _ _ _ _ _ Hp))|]; reflexivity. }
    rewrite W. rewrite !(bind_done _ _ _ _ _ (drive_ok _ _ _ _ _ _ Hp)). rewrite W. fold o1 o2.
    unfold o3. pose proof CH as K. unfold channel_ok in K. destruct (c_cw c); [apply drive_ok, Hp|].
    destruct ch; [contradiction|reflexivity]. }
  apply (tx_step _ _ _ _ _ _ _ _ _ _ E); try reflexivity.
  apply H.
  - unfold dflt, inv_base, o3, o2, o1. destruct (use_empty c), (c_cw c), (c_error c); cbn; repeat split; intros; try discriminate; auto.
  - unfold o3, o2, o1. destruct (c_error c), (c_cw c); reflexivity.
Qed.

Lemma tx_finish s p o tr l n (Q : unit -> world -> Prop) : p <> PReadOnly -> inv_base o ->
  (forall o', inv_base o' -> k_valid o' = L0 -> Q tt (World s p o' tr l)) ->
  tx (pk_finish c) (World s p o tr l) [] n Q.
Proof.
  intros Hp [A [B C]] H. unfold pk_finish.
  repeat (apply tx_drive; [assumption|]). unfold when. apply tx_when; [assumption|].
  destruct (c_cw c) eqn:E.
  - apply tx_drive_last; [assumption|]. apply H; [|destruct (use_empty c); reflexivity].
    unfold inv_base. split; [|split].
    + intro U. rewrite U. exact (A U).
    + congruence.
    + destruct (use_empty c); exact C.
  - apply tx_ret. apply H; [|destruct (use_empty c); reflexivity].
    unfold inv_base. split; [|split].
    + intro U. rewrite U. exact (A U).
    + intros _. destruct (use_empty c); exact (B eq_refl).
    + destruct (use_empty c); exact C.
Qed.

Lemma send_unfold fuel f str sync w : str <> [] ->
  (bind (loop (S f) (pk_body c fuel sync ch) (str, true)) (fun _ => bind edge (fun _ => pk_finish c))) w =
  bind (if sync then edge else ret tt)
    (fun _ => bind (pk_word c str true ch) (fun r => bind (rest_of fuel f sync r) (fun _ => pk_finish c))) w.
Proof.
  intro N. destruct str as [|b str]; [contradiction|]. cbn [loop pk_body negb orb].
  unfold rest_of. rewrite !bind_assoc. apply bind_ext. intros [] w1. rewrite !bind_assoc.
  apply bind_ext. intros r w2. rewrite !bind_assoc. apply bind_ext. intros [] w3.
  reflexivity.
Qed.

(** budget of accepting cycles for one packet *)
Definition pk_budget (str : bytes) (sync : bool) (s : valid) : nat :=
  1 + cost (length (pwords true str)) s.

Lemma pwords_false_length str : length (pwords false str) = length (pwords true str).
Proof. destruct str; [reflexivity|]. rewrite (pwords_step false), (pwords_step true) by discriminate. reflexivity. Qed.

Lemma tx_send fuel str sync s p o tr l (Q : unit -> world -> Prop) :
  length l + length str < fuel -> p <> PReadOnly -> free tr -> inv_base o ->
  (forall o' o'' p' tr' i l', (str <> [] -> acc i = true /\ off o'' = true) -> p' <> PReadOnly ->
     (str = [] -> off o'' = false) ->
     inv_base o' -> k_valid o' = L0 ->
     Q tt (World (thr_iter (length (pwords true str)) s) p' o' (tr' ++ [(i, o'')]) l')) ->
  tx (pk_send c fuel str sync ch) (World s p o tr l) (pwords true str) (pk_budget str sync s) Q.
Proof.
  pose proof (wb_pos _ _ BB) as K.
  intros Hfu Hp Hf Hb HQ. unfold pk_send. apply tx_defaults; [assumption|assumption|].
  intros o1 Hd Hv.
  destruct fuel as [|f]; [lia|].
  destruct str as [|b str].
  - (* nothing to send: one idle cycle *)
    cbn [loop pk_body]. 
    apply (tx_step _ _ _ _ _ tt (World s p o1 tr l)); try reflexivity.
    change (pk_budget [] sync s) with (1 + 0). change (pwords true []) with (@nil pk_out ++ []).
    apply tx_bind.
    intro S. unfold edge. cbn [ins]. destruct l as [|i l].
    + exists []. cbn. rewrite app_nil_r. repeat split; auto. exists 0. split; [reflexivity|]. unfold k_offered. rewrite Hv. discriminate.
    + exists [(i, o1)]. cbn [trace ins map fst app st ph out].
      split; [reflexivity|]. split; [reflexivity|]. split; [apply stable_snoc; [exact S|apply Hf]|].
      assert (Ho : off o1 = false) by (unfold k_offered; rewrite Hv; reflexivity).
      split; [unfold transfers, transferred; cbn; rewrite Ho; reflexivity|].
      split; [apply (rc_le acc [i])|]. intros _. apply tx_finish; [discriminate|destruct Hd; assumption|].
      intros o' Hb' Hv'. apply (HQ o' o1 PActive tr i l); auto; try discriminate; try contradiction.
  - set (str0 := b :: str) in *. assert (N : str0 <> []) by discriminate.
    intro S. rewrite send_unfold by exact N. revert S.
    change (tx (bind (if sync then edge else ret tt)
      (fun _ => bind (pk_word c str0 true ch) (fun r => bind (rest_of (S f) f sync r) (fun _ => pk_finish c))))
      (World s p o1 tr l) (pwords true str0) (pk_budget str0 sync s) Q).
    unfold pk_budget. rewrite pwords_step in * by exact N. cbn [length]. rewrite cost_S.
    set (m := length (pwords false (skipn k str0))) in *.
    change (wd true str0 :: pwords false (skipn k str0)) with ([] ++ [] ++ (wd true str0 :: pwords false (skipn k str0))).
    replace (1 + (1 + fst (throttle s) + cost m (snd (throttle s))))
      with (1 + (fst (throttle s) + (1 + cost m (snd (throttle s))))) by lia.
    assert (Ho : off o1 = false) by (unfold k_offered; rewrite Hv; reflexivity).
    apply tx_bind.
    assert (G : forall p1 tr1 l1, p1 <> PReadOnly -> free tr1 -> length l1 <= length l ->
      tx (bind (pk_word c str0 true ch) (fun r => bind (rest_of (S f) f sync r) (fun _ => pk_finish c)))
         (World s p1 o1 tr1 l1) ([] ++ wd true str0 :: pwords false (skipn k str0))
         (fst (throttle s) + (1 + cost m (snd (throttle s)))) Q).
    { intros p1 tr1 l1 Hp1 Hf1 Hl1. apply tx_bind. apply tx_word; try assumption.
      intros p2 tr2 l2 Hp2 Hf2 Hl2. cbn [ins] in Hl2.
      rewrite <- (app_nil_r (wd true str0 :: pwords false (skipn k str0))).
      rewrite <- (Nat.add_0_r (1 + cost m (snd (throttle s)))). apply tx_bind.
      apply tx_rest; try assumption.
      + rewrite skipn_length. unfold str0 in *. cbn [length] in *. lia.
      + unfold str0 in *. cbn [length] in *. lia.
      + reflexivity.
      + apply base_wd.
      + destruct (le_lt_dec (length str0) k) as [L|L]; [left; apply skipn_all2; exact L|right; apply dflt_wd; exact L].
      + intros o' tr' i l' Hi Ho' Hb' Hl'. apply tx_finish; [discriminate|assumption|].
        intros o2 Hb2 Hv2. fold m. apply (HQ o2 o' PActive tr' i l'); auto; try discriminate. }
    destruct sync.
    + apply tx_edge; cbn [out trace ph st]; auto.
    + apply tx_ret. intros _. apply G; auto.
Qed.
End Driver.

(** ** The words carry the packet *)
Section Frame.
Context (c : pcfg) (k : nat) (base : pk_out) (ch : option Z).
Hypothesis BB : word_bus c k.
Notation pw := (pwords c k base ch).

Lemma div_up n : 0 < n -> 0 < k -> Nat.div (n + k - 1) k = if n <=? k then 1 else S (Nat.div (n - k + k - 1) k).
Proof.
  intros Hn Hk. destruct (Nat.leb_spec n k).
  - replace (n + k - 1) with (1 * k + (n - 1)) by lia. rewrite Nat.div_add_l, Nat.div_small by lia. lia.
  - replace (n + k - 1) with (1 * k + (n - k + k - 1)) by lia. rewrite Nat.div_add_l by lia. lia.
Qed.

Lemma pw_frame f : forall first str, length str <= f -> str <> [] ->
  let ws := pw first str in
  0 < length ws /\ length str <= k * length ws
  /\ length ws = Nat.div (length str + k - 1) k
  /\ map k_sop ws = (if first then L1 else L0) :: repeat L0 (length ws - 1)
  /\ map k_eop ws = repeat L0 (length ws - 1) ++ [L1]
  /\ (use_empty c = true -> exists before w, ws = before ++ [w]
        /\ bval (k_empty w) = Some (Z.of_nat k * Z.of_nat (length ws) - Z.of_nat (length str))%Z)
  /\ (exists chunks, Forall (fun b => length b = k) chunks
        /\ concat chunks = str ++ repeat 0%Z (k * length ws - length str)
        /\ map k_data ws = map (fun b => padded (c_high c) (pad c k) (word_bits (c_high c) b)) chunks).
Proof.
  pose proof (wb_pos _ _ BB) as K.
  induction f as [|f IH]; intros first str Hf N ws; [destruct str; [contradiction|cbn in Hf; lia]|].
  assert (L0' : 0 < length str) by (destruct str; [contradiction|cbn; lia]).
  unfold ws. rewrite (pwords_step _ _ _ _ BB) by exact N.
  rewrite (div_up (length str) L0' K).
  destruct (Nat.leb_spec (length str) k) as [L|L].
  - rewrite skipn_all2 by exact L. rewrite pwords_nil. cbn [length map].
    assert (E : (length str <=? k) = true) by (apply Nat.leb_le; exact L).
    split; [lia|]. split; [lia|]. split; [reflexivity|]. split; [reflexivity|].
    split; [unfold wd; rewrite E; reflexivity|]. split.
    + intro U. exists [], (wd c k base ch first str). split; [reflexivity|].
      unfold wd. rewrite U, E. cbn [k_empty].
      destruct (wb_empty _ _ BB U) as [n [En Hn]].
      unfold ew. rewrite En. rewrite bval_zbits, Z.mod_small by lia. f_equal. lia.
    + exists [firstn k str ++ repeat 0%Z (k - length str)].
      split; [constructor; [|constructor]; rewrite app_length, firstn_length, repeat_length; lia|].
      split; [|reflexivity]. cbn [concat]. rewrite app_nil_r, firstn_all2 by exact L.
      replace (k * 1 - length str) with (k - length str) by lia. reflexivity.
  - assert (Ls : length (skipn k str) = length str - k) by apply skipn_length.
    assert (Ns : skipn k str <> []) by (intro Z; rewrite Z in Ls; cbn in Ls; lia).
    destruct (IH false (skipn k str) ltac:(lia) Ns) as (A1 & A2 & A3 & A4 & A5 & A6 & A7).
    set (wr := pw false (skipn k str)) in *. rewrite Ls in A2, A3.
    cbn [length map]. rewrite A3 at 1. rewrite A4, A5.
    assert (E : (length str <=? k) = false) by (apply Nat.leb_gt; exact L).
    split; [lia|]. split; [lia|]. split; [rewrite A3; reflexivity|].
    replace (S (length wr) - 1) with (S (length wr - 1)) by lia. cbn [repeat app].
    split; [reflexivity|]. split; [unfold wd; rewrite E; reflexivity|]. split.
    + intro U. destruct (A6 U) as (b & w & B1 & B2). exists (wd c k base ch first str :: b), w.
      split; [rewrite B1; reflexivity|]. rewrite B2. f_equal. lia.
    + destruct A7 as (cs & C1 & C2 & C3). exists (firstn k str :: cs).
      split; [constructor; [rewrite firstn_length; lia|exact C1]|].
      cbn [concat map]. split.
      * rewrite C2, Ls, app_assoc, firstn_skipn. f_equal. f_equal. lia.
      * rewrite C3. f_equal. unfold wd. cbn [k_data]. replace (k - length str) with 0 by lia.
        cbn [repeat]. rewrite app_nil_r. reflexivity.
Qed.

Lemma pw_framed pkt : pkt <> [] -> framed (c_high c) (use_empty c) k (pad c k) pkt (pw true pkt).
Proof.
  intro N. destruct (pw_frame (length pkt) true pkt (le_n _) N) as (A1 & A2 & A3 & A4 & A5 & A6 & A7).
  constructor; assumption.
Qed.
End Frame.

Lemma pk_packet c k pkt sync ch s p o fuel l :
  word_bus c k -> channel_ok c ch -> pkt <> [] -> length l + length pkt < fuel -> p <> PReadOnly ->
  exists ws, framed (c_high c) (use_empty c) k (c_width c - 8 * k) pkt ws
  /\ (forall n, c_cw c = Some n -> Forall (fun w => bval (k_channel w) = Some (match ch with Some z => z | None => 0%Z end)) ws)
  /\ let '(r, w) := pk_send c fuel pkt sync ch (World s p o [] l) in
     map fst (trace w) ++ ins w = l
     /\ (forall i, stable k_offered (k_accepts (c_ready c)) (trace w ++ [(i, out w)]))
     /\ match r with
        | Done _ => transfers k_offered (k_accepts (c_ready c)) (trace w) = ws /\ k_valid (out w) = L0
                    /\ exists before c0, trace w = before ++ [c0] /\ transferred k_offered (k_accepts (c_ready c)) c0 = true
        | Susp => ins w = [] /\ exists n, transfers k_offered (k_accepts (c_ready c)) (trace w) = firstn n ws
        | _ => False
        end.
Proof.
  intros BB CH N Hf Hp. exists (pwords c k o ch true pkt). split; [apply pw_framed; assumption|]. split.
  { intros n Hn.
    assert (G : forall f first str, Forall (fun w => bval (k_channel w) = Some (match ch with Some z => z | None => 0%Z end)) (pwords_ c k o ch f first str)).
    { induction f as [|f IH]; intros first str; [constructor|]. cbn. destruct str as [|b0 str]; constructor; [|apply IH].
      unfold wd, chan_bits. cbn [k_channel]. rewrite Hn. destruct ch as [z|]; [|apply bval_zeros].
      unfold channel_ok in CH. rewrite Hn in CH.
      pose proof (wb_check _ _ BB) as Ck. unfold pk_check in Ck.
      destruct (use_empty c && _); [discriminate|]. rewrite Hn in Ck. destruct (128 <? n); [discriminate|].
      destruct (Z.ltb_spec (2 ^ Z.of_nat n - 1) (max_channel c)); [discriminate|].
      rewrite bval_zbits, Z.mod_small by lia. reflexivity. }
    apply G. }
  pose (Q := fun (_ : unit) (w : world valid logic pk_out) =>
    k_valid (out w) = L0 /\ exists before c0, trace w = before ++ [c0] /\ transferred k_offered (k_accepts (c_ready c)) c0 = true).
  assert (T : tx k_offered (k_accepts (c_ready c)) (pk_send c fuel pkt sync ch) (World s p o [] l)
                (pwords c k o ch true pkt) (pk_budget c k o ch pkt sync s) Q).
  { apply tx_send; try assumption.
    - apply free_nil.
    - repeat split; reflexivity.
    - intros o' o'' p' tr' i l' H _ _ _ Hv. destruct (H N) as [H1 H2]. split; [exact Hv|].
      exists tr', (i, o''). split; [reflexivity|]. unfold transferred. cbn [fst snd]. rewrite H1, H2. reflexivity. }
  apply tx_result in T.
  2:{ intros a w (_ & b & c0 & E & H). rewrite E. destruct c0 as [i o0]. apply free_accept.
      unfold transferred in H. apply andb_true_iff in H. apply H. }
  destruct (pk_send c fuel pkt sync ch (World s p o [] l)) as [r w].
  destruct T as (T1 & T2 & T3). split; [exact T1|]. split; [exact T2|].
  destruct r; try contradiction; [exact T3|]. destruct T3 as (A & _ & B). auto.
Qed.

(** ** The bus between packets *)
Lemma pk_send_last c fuel pkt sync ch w w' :
  pk_send c fuel pkt sync ch w = (Done tt, w') ->
  exists w0, ph w0 = PActive /\ pk_finish c w0 = (Done tt, w').
Proof.
  unfold pk_send, bind. destruct (pk_defaults c ch w) as [[?|?| |] w1]; try discriminate.
  destruct (loop fuel _ _ w1) as [[?|?| |] w2]; try discriminate.
  unfold edge. destruct w2 as [s p o tr [|i l]]; cbn [ins]; [discriminate|].
  intro H. eexists. split; [|exact H]. reflexivity.
Qed.
Lemma pk_send_idle c fuel pkt sync ch w w' :
  pk_send c fuel pkt sync ch w = (Done tt, w') -> idle_bus c (out w').
Proof.
  intro H. apply pk_send_last in H. destruct H as [w0 [P H]]. destruct w0 as [s p o tr l]. cbn in P. subst p.
  unfold pk_finish, idle_bus in *. destruct o as [v sp ep em d ch0 er].
  unfold ew in H.
  destruct (use_empty c) eqn:U, (c_cw c) as [n|] eqn:E; cbn in H; injection H as <-; cbn;
    repeat split; try reflexivity; try discriminate; intros; repeat match goal with H : c_ew c = _ |- _ => rewrite H end; congruence.
Qed.

Lemma pk_constructed c k pkt sync ch s n fuel l :
  word_bus c k -> channel_ok c ch -> pkt <> [] -> length l + length pkt < fuel ->
  exists ws, framed (c_high c) (use_empty c) k (c_width c - 8 * k) pkt ws
  /\ let '(r, w) := (edges n ;; pk_send c fuel pkt sync ch) (World s PActive (pk_init_out c) [] l) in
     match r with
     | Done _ => transfers k_offered (k_accepts (c_ready c)) (trace w) = ws
     | Susp => ins w = [] /\ (length l < n -> transfers k_offered (k_accepts (c_ready c)) (trace w) = [])
     | _ => False
     end.
Proof.
  intros BB CH N Hf.
  pose proof (edges_spec n (World s PActive (pk_init_out c) [] l)) as E. cbn [ins trace out st ph] in E.
  exists (pwords c k (pk_init_out c) ch true pkt). split; [apply pw_framed; assumption|].
  unfold bind. rewrite E. clear E.
  assert (Io : k_offered (pk_init_out c) = false) by reflexivity.
  destruct (Nat.leb_spec n (length l)) as [L|L].
  - pose (h := held (pk_init_out c) (firstn n l)). change ([] ++ held (pk_init_out c) (firstn n l)) with h.
    assert (T : tx k_offered (k_accepts (c_ready c)) (pk_send c fuel pkt sync ch)
                  (World s PActive (pk_init_out c) h (skipn n l))
                  (pwords c k (pk_init_out c) ch true pkt) (pk_budget c k (pk_init_out c) ch pkt sync s) (fun _ _ => True)).
    { apply tx_send; try assumption; try discriminate; auto.
      - rewrite skipn_length. lia.
      - change h with ([] ++ h). apply free_held_idle; [exact Io|apply free_nil].
      - repeat split; reflexivity. }
    replace (match n with O => PActive | S _ => PActive end) with PActive by (destruct n; reflexivity).
    unfold tx in T. cbn [trace ins] in T.
    destruct (pk_send c fuel pkt sync ch (World s PActive (pk_init_out c) h (skipn n l))) as [r w].
    destruct T as (new & T1 & T2 & T3 & T4).
    { change h with ([] ++ h). apply stable_held; [exact I|apply free_nil]. }
    destruct r; try contradiction.
    + destruct T4 as (T4 & _). rewrite T1, transfers_app, T4. unfold h. rewrite transfers_idle by exact Io. reflexivity.
    + destruct T4 as (T4 & _). split; [exact T4|lia].
  - split; [reflexivity|]. intros _. apply transfers_idle, Io.
Qed.

(** ** Termination *)
Lemma pk_terminates c k pkt sync ch s :
  word_bus c k -> channel_ok c ch -> exists N, forall p o fuel l,
  length l + length pkt < fuel -> p <> PReadOnly -> N <= ready_cycles (k_accepts (c_ready c)) l ->
  exists w, pk_send c fuel pkt sync ch (World s p o [] l) = (Done tt, w).
Proof.
  intros BB CH.
  assert (Bud : forall o o', pk_budget c k o ch pkt sync s = pk_budget c k o' ch pkt sync s).
  { intros o o'. unfold pk_budget. f_equal.
    assert (G : forall f b str, length (pwords_ c k o ch f b str) = length (pwords_ c k o' ch f b str)).
    { induction f as [|f IH]; intros b str; [reflexivity|]. cbn [pwords_]. destruct str; [reflexivity|].
      cbn [length]. f_equal. apply IH. }
    unfold pwords. rewrite G. reflexivity. }
  exists (pk_budget c k (pk_init_out c) ch pkt sync s). intros p o fuel l Hf Hp Hr.
  assert (T : tx k_offered (k_accepts (c_ready c)) (pk_send c fuel pkt sync ch) (World s p o [] l)
                (pwords c k o ch true pkt) (pk_budget c k o ch pkt sync s) (fun _ _ => True)).
  { apply tx_send; try assumption; auto; [apply free_nil|repeat split; reflexivity]. }
  specialize (T I). destruct (pk_send c fuel pkt sync ch (World s p o [] l)) as [[[]|e| |] w];
    destruct T as (new & T1 & T2 & T3 & T4); try contradiction.
  - exists w. reflexivity.
  - destruct T4 as (_ & _ & T4 & _). cbn [ins] in T4. rewrite (Bud o (pk_init_out c)) in T4. lia.
Qed.

(** a bus narrower than a byte: the loop never ends *)
Lemma body_never c fuel sync ch (str : bytes) first w r w' :
  c_width c < 8 -> str <> [] -> pk_body c fuel sync ch (str, first) w = (Done r, w') -> r = inl (str, false).
Proof.
  intros Hw N. destruct str as [|b str]; [contradiction|]. cbn [pk_body].
  assert (K : bus_width c = 0) by (apply Nat.div_small; exact Hw).
  unfold pk_word. rewrite K. cbn [length Nat.leb skipn].
  unfold bind at 1. destruct ((if negb first || sync then edge else ret tt) w) as [[[]|e| |] w1]; try discriminate.
  unfold bind at 1.
  match goal with |- context [match ?m w1 with _ => _ end] =>
    assert (G : forall x y, m w1 = (Done x, y) -> x = b :: str) end.
  { intros x y. unfold bind at 1. destruct (gap_code _ w1) as [[[]|e| |] w2]; try discriminate.
    unfold bind at 1. destruct (drive _ w2) as [[[]|e| |] w3]; try discriminate.
    unfold bind at 1. destruct (pk_channel _ _ w3) as [[[]|e| |] w4]; try discriminate.
    unfold bind at 1. destruct (drive _ w4) as [[[]|e| |] w5]; try discriminate.
    unfold bind at 1, ret at 1. unfold bind at 1.
    destruct (of_res _ w5) as [[d|e| |] w6]; try discriminate.
    unfold bind at 1. destruct (drive _ w6) as [[[]|e| |] w7]; try discriminate.
    unfold ret. congruence. }
  match goal with |- context [match ?m w1 with _ => _ end] => destruct (m w1) as [[x|e| |] w2] eqn:E end; try discriminate.
  rewrite (G x w2 eq_refl). clear G E x. unfold bind. destruct (pk_wait c fuel w2) as [[[]|e| |] w3]; try discriminate.
  unfold ret. intro H. injection H as H _. symmetry. exact H.
Qed.
Lemma loop_never c fuel sync ch (str : bytes) f : forall first w u w',
  c_width c < 8 -> str <> [] -> loop f (pk_body c fuel sync ch) (str, first) w <> (Done u, w').
Proof.
  induction f as [|f IH]; intros first w u w' Hw N; [discriminate|]. cbn [loop]. unfold bind.
  destruct (pk_body c fuel sync ch (str, first) w) as [[r|e| |] w1] eqn:E; try discriminate.
  apply (body_never _ _ _ _ _ _ _ _ _ Hw N) in E. subst r. apply IH; assumption.
Qed.
Lemma pk_never c fuel sync ch (str : bytes) w w' :
  c_width c < 8 -> str <> [] -> pk_send c fuel str sync ch w <> (Done tt, w').
Proof.
  intros Hw N. unfold pk_send, bind at 1. destruct (pk_defaults c ch w) as [[[]|e| |] w1]; try discriminate.
  pose proof (loop_never c fuel sync ch str fuel true w1) as G.
  unfold bind at 1. intro H.
  destruct (loop fuel (pk_body c fuel sync ch) (str, true) w1) as [[[]|e| |] w2]; try discriminate.
  exact (G tt w2 Hw N eq_refl).
Qed.

(** ** Several packets *)
Definition all_words c k base (ps : list packet) : list pk_out :=
  flat_map (fun p => pwords c k base (p_channel p) true (p_data p)) ps.

Fixpoint all_budget c k base (ps : list packet) (s : valid) : nat :=
  match ps with
  | [] => 0
  | q :: r => pk_budget c k base (p_channel q) (p_data q) (p_sync q) s
              + all_budget c k base r (thr_iter (length (pwords c k base (p_channel q) true (p_data q))) s)
  end.

Lemma tx_send_all c k base fuel : word_bus c k -> forall ps s p o tr l,
  Forall (fun p => channel_ok c (p_channel p)) ps ->
  Forall (fun p => length l + length (p_data p) < fuel) ps -> p <> PReadOnly ->
  free k_offered (k_accepts (c_ready c)) tr -> inv_base c base o ->
  tx k_offered (k_accepts (c_ready c)) (pk_send_all c fuel ps) (World s p o tr l)
    (all_words c k base ps) (all_budget c k base ps s)
    (fun _ w => free k_offered (k_accepts (c_ready c)) (trace w) /\ (ps <> [] -> k_valid (out w) = L0)
                /\ (ps = [] -> out w = o)).
Proof.
  intros BB. induction ps as [|q ps IH]; intros s p o tr l H Hf Hp Hfree Hb.
  - apply tx_ret. split; [exact Hfree|]. split; [congruence|reflexivity].
  - inversion H as [|? ? H1 H3]; subst. inversion Hf as [|? ? Hf1 Hf2]; subst.
    unfold pk_send_all, all_words. cbn [for_each flat_map all_budget]. apply tx_bind.
    apply tx_send; try assumption.
    intros o' o'' p' tr' i l' A1 A2 A3 A4 A5 A6. cbn [ins] in A6.
    eapply tx_conseq; [apply IH; try assumption|apply le_n|].
    + eapply Forall_impl; [|exact Hf2]. cbn. intros. lia.
    + destruct (p_data q) as [|b d].
      * specialize (A3 eq_refl). intro o0. apply settled_snoc. congruence.
      * apply free_accept. apply A1. discriminate.
    + intros u w (B1 & B2 & B3). split; [exact B1|]. split; [|discriminate]. intros _.
      destruct ps; [rewrite B3 by reflexivity; exact A5|apply B2; discriminate].
Qed.
