(** TmProof.v *)
From Verif Require Import Base Async CompatModel DrvUtilModel DrvUtilProof HandshakeSpec AvalonSTModel AvalonSTSpec AvalonSTProof PktModel PktSpec PktProof TmSpec.
Local Open Scope list_scope.

Section Timing.
Context {TI : Type} (acc : TI -> bool).
Notation on_time := (on_time acc).

Lemma time_app gs gs2 l v rest : on_time gs l v rest ->
  match rest with
  | None => on_time (gs ++ gs2) l v None
  | Some l1 => forall v2 r2, on_time gs2 l1 v2 r2 -> on_time (gs ++ gs2) l (v ++ v2) r2
  end.
Proof.
  induction 1 as [l|g gs idle waits i l v rest L F A _ IH|g gs idle waits L F|g gs l L].
  - intros v2 r2 H. exact H.
  - cbn [app]. destruct rest as [l1|].
    + intros v2 r2 H. rewrite <- !app_assoc. apply ot_word; auto.
    + apply ot_word; auto.
  - cbn [app]. apply ot_waiting; assumption.
  - cbn [app]. apply ot_gap; assumption.
Qed.

(** one word *)
Lemma time_one n l :
  on_time [n] l
    (if n <=? length l then repeat false n ++ repeat true (length (fst (span acc (skipn n l)))) ++ (match snd (span acc (skipn n l)) with [] => [] | _ => [true] end)
     else repeat false (length l))
    (if n <=? length l then match snd (span acc (skipn n l)) with [] => None | _ :: r => Some r end else None).
Proof.
  destruct (Nat.leb_spec n (length l)) as [L|L]; [|apply ot_gap; exact L].
  pose proof (span_app acc (skipn n l)) as A. pose proof (span_fst acc (skipn n l)) as F.
  destruct (span acc (skipn n l)) as [nr [|i r]] eqn:E; cbn [fst snd] in *.
  - rewrite app_nil_r in *. rewrite <- (firstn_skipn n l) at 1. rewrite <- A. apply ot_waiting; [apply firstn_length_le; exact L|exact F].
  - rewrite <- (firstn_skipn n l) at 1. rewrite <- A.
    replace (repeat true (length nr) ++ [true]) with (repeat true (length nr + 1) ++ []) by (rewrite app_nil_r, repeat_app; reflexivity).
    apply ot_word; [apply firstn_length_le; exact L|exact F|apply (span_snd acc (skipn n l) i r); rewrite E; reflexivity|constructor].
Qed.

Lemma time_cons n gs l v rest : on_time [n] l v rest ->
  match rest with
  | None => on_time (n :: gs) l v None
  | Some l1 => forall v2 r2, on_time gs l1 v2 r2 -> on_time (n :: gs) l (v ++ v2) r2
  end.
Proof. apply (time_app [n] gs). Qed.

Lemma idle_more g n gs l v rest : on_time (n :: gs) (skipn g l) v rest -> g <= length l ->
  on_time (g + n :: gs) l (repeat false g ++ v) rest.
Proof.
  intros H L. remember (n :: gs) as G eqn:EG. remember (skipn g l) as l' eqn:El.
  rewrite <- (firstn_skipn g l), <- El. pose proof (firstn_length_le l L) as F.
  destruct H as [|m gs' idle waits i l1 v rest Li Fw A H|m gs' idle waits Li Fw|m gs' l1 Li]; [discriminate|injection EG as -> ->..].
  - rewrite (app_assoc (repeat false g)), <- repeat_app, (app_assoc (firstn g l)). apply ot_word; auto. rewrite app_length. lia.
  - rewrite !app_assoc, <- repeat_app. apply ot_waiting; auto. rewrite app_length. lia.
  - rewrite <- repeat_app. replace (g + length l1) with (length (firstn g l ++ l1)) by (rewrite app_length; lia). apply ot_gap. rewrite app_length. lia.
Qed.

(** it is a function of the cycles *)
Lemma span_unique a b i1 i2 (l1 l2 : list TI) : Forall (fun j => acc j = false) a -> Forall (fun j => acc j = false) b -> acc i1 = true -> acc i2 = true ->
  a ++ i1 :: l1 = b ++ i2 :: l2 -> a = b /\ i1 = i2 /\ l1 = l2.
Proof.
  intros Fa. revert b. induction Fa as [|x a X _ IH]; intros [|y b] Fb A1 A2 E; cbn [app] in E; injection E as E1 E2.
  - auto.
  - subst. pose proof (Forall_inv Fb) as Y. cbv beta in Y. congruence.
  - subst. congruence.
  - subst. destruct (IH b (Forall_inv_tail Fb) A1 A2 E2) as (-> & -> & ->). auto.
Qed.
Lemma app_eq_len (a b c d : list TI) : a ++ b = c ++ d -> length a = length c -> a = c /\ b = d.
Proof.
  revert c. induction a as [|x a IH]; intros [|y c] E L; try discriminate; [auto|]. injection E as -> E. injection L as L.
  destruct (IH c E L) as [-> ->]. auto.
Qed.
Lemma time_fun gs l v rest : on_time gs l v rest -> forall v' rest', on_time gs l v' rest' -> v' = v /\ rest' = rest.
Proof.
  induction 1 as [l|g gs idle waits i l v rest L F A H IH|g gs idle waits L F|g gs l L]; intros v' rest' H'.
  - inversion H'; auto.
  - inversion H' as [|g' gs' idle' waits' i' l' v2 r2 L' F' A' H2 E1 E2 E3 E4|g' gs' idle' waits' L' F' E1 E2 E3 E4|g' gs' l' L' E1 E2 E3 E4]; clear H'; subst g' gs'.
    + destruct (app_eq_len _ _ _ _ E2) as [-> E5]; [congruence|]. destruct (span_unique _ _ _ _ _ _ F' F A' A E5) as (-> & -> & ->).
      subst r2. destruct (IH _ _ H2) as [-> ->]. auto.
    + exfalso. destruct (app_eq_len _ _ _ _ E2) as [_ E5]; [congruence|]. subst waits'. apply Forall_app in F'. destruct F' as [_ F'].
      pose proof (Forall_inv F') as X. cbv beta in X. congruence.
    + exfalso. subst l'. rewrite app_length in L'. lia.
  - inversion H' as [|g' gs' idle' waits' i' l' v2 r2 L' F' A' H2 E1 E2 E3 E4|g' gs' idle' waits' L' F' E1 E2 E3 E4|g' gs' l' L' E1 E2 E3 E4]; clear H'; subst g' gs'.
    + exfalso. destruct (app_eq_len _ _ _ _ E2) as [_ E5]; [congruence|]. subst waits. apply Forall_app in F. destruct F as [_ F].
      pose proof (Forall_inv F) as X. cbv beta in X. congruence.
    + destruct (app_eq_len _ _ _ _ E2) as [-> ->]; [congruence|]. auto.
    + exfalso. subst l'. rewrite app_length in L'. lia.
  - inversion H' as [|g' gs' idle' waits' i' l' v2 r2 L' F' A' H2 E1 E2 E3 E4|g' gs' idle' waits' L' F' E1 E2 E3 E4|g' gs' l' L' E1 E2 E3 E4]; clear H'; subst g' gs'.
    + exfalso. subst l. rewrite app_length in L. lia.
    + exfalso. subst l. rewrite app_length in L. lia.
    + auto.
Qed.

Lemma idle_less x gs l v rest : on_time (x :: gs) l v rest ->
  (x <= length l /\ exists v', v = repeat false x ++ v' /\ on_time (0 :: gs) (skipn x l) v' rest)
  \/ (length l < x /\ v = repeat false (length l) /\ rest = None).
Proof.
  intro H; inversion H as [|g' gs' idle' waits' i' l' v2 r2 L' F' A' H2 E1 E2 E3 E4|g' gs' idle' waits' L' F' E1 E2 E3 E4|g' gs' l' L' E1 E2 E3 E4]; clear H; subst g' gs'.
  - left. subst l. rewrite app_length. split; [lia|]. eexists. split; [reflexivity|]. rewrite skipn_app, (skipn_all2 idle') by lia.
    replace (x - length idle') with 0 by lia. apply (ot_word acc 0 gs []); auto.
  - left. subst l. rewrite app_length. split; [lia|]. eexists. split; [reflexivity|]. rewrite skipn_app, (skipn_all2 idle') by lia.
    replace (x - length idle') with 0 by lia. apply (ot_waiting acc 0 gs []); auto.
  - right. auto.
Qed.

(** without gaps every accepting cycle takes a word *)
Lemma time_dense n : forall l v rest, on_time (repeat 0 n) l v rest ->
  Forall (eq true) v /\
  match rest with
  | Some r => exists pre, l = pre ++ r /\ length pre = length v /\ HandshakeSpec.ready_cycles acc pre = n
  | None => length v = length l /\ HandshakeSpec.ready_cycles acc l < n
  end.
Proof.
  assert (T : forall m, Forall (eq true) (repeat true m)) by (induction m; constructor; auto).
  assert (W : forall waits, Forall (fun j => acc j = false) waits -> filter acc waits = []).
  { induction 1 as [|x w X _ IH]; [reflexivity|]. cbn. rewrite X. exact IH. }
  induction n as [|n IH]; intros l v rest H; inversion H as [|g' gs' idle' waits' i' l' v2 r2 L' F' A' H2 E1 E2 E3 E4|g' gs' idle' waits' L' F' E1 E2 E3 E4|g' gs' l' L' E1 E2 E3 E4]; subst.
  - split; [constructor|]. exists []. auto.
  - destruct idle'; [|discriminate]. cbn [repeat app length] in *. destruct (IH _ _ _ H2) as [A B]. split.
    + apply Forall_app. auto.
    + destruct rest as [r|].
      * destruct B as (pre & -> & B1 & B2). exists (waits' ++ i' :: pre). split; [rewrite <- app_assoc; reflexivity|].
        rewrite !app_length, repeat_length. cbn [length]. split; [lia|]. unfold HandshakeSpec.ready_cycles in *. rewrite filter_app, W by exact F'. cbn. rewrite A'. cbn. lia.
      * destruct B as (B1 & B2). rewrite !app_length, repeat_length. cbn [length]. split; [lia|]. unfold HandshakeSpec.ready_cycles in *. rewrite filter_app, W by exact F'. cbn. rewrite A'. cbn. lia.
  - destruct idle'; [|discriminate]. cbn [repeat app length] in *. split; [apply T|]. rewrite repeat_length. split; [reflexivity|].
    unfold HandshakeSpec.ready_cycles. rewrite W by exact F'. cbn. lia.
  - lia.
Qed.

Lemma all_true v : Forall (eq true) v -> v = repeat true (length v).
Proof. induction 1 as [|b v <- _ IH]; [reflexivity|]. cbn [length repeat]. f_equal. exact IH. Qed.

Lemma time_first x n l v rest : on_time (x :: repeat 0 n) l v rest ->
  match rest with
  | Some r => exists m, v = repeat false x ++ repeat true m /\ r = skipn (x + m) l /\ HandshakeSpec.ready_cycles acc (firstn m (skipn x l)) = S n
  | None => v = repeat false (Nat.min x (length l)) ++ repeat true (length l - x) /\ HandshakeSpec.ready_cycles acc (skipn x l) < S n
  end.
Proof.
  intro H. destruct (idle_less _ _ _ _ _ H) as [[L (v' & -> & T)]|(L & -> & ->)].
  - destruct (time_dense (S n) _ _ _ T) as [F D]. rewrite (all_true v' F). destruct rest as [r|].
    + destruct D as (pre & E & Lp & R). exists (length v'). split; [reflexivity|]. rewrite E, <- Lp.
      split.
      * rewrite <- (firstn_skipn x l), E, Nat.add_comm. pose proof (firstn_length_le l L) as Lx.
        rewrite skipn_app, (skipn_all2 (firstn x l)) by lia. rewrite Lx. replace (length pre + x - x) with (length pre) by lia.
        rewrite skipn_app, skipn_all, Nat.sub_diag. reflexivity.
      * rewrite firstn_app, firstn_all, Nat.sub_diag, firstn_O, app_nil_r. exact R.
    + destruct D as [E R]. rewrite skipn_length in E. rewrite E, Nat.min_l by exact L. auto.
  - rewrite Nat.min_r by lia. replace (length l - x) with 0 by lia. rewrite app_nil_r. split; [reflexivity|].
    rewrite skipn_all2 by lia. unfold HandshakeSpec.ready_cycles. cbn. lia.
Qed.
End Timing.

Lemma held_map {TI TO} (f : TO -> bool) (o : TO) (l : list TI) : map (fun c => f (snd c)) (held o l) = repeat (f o) (length l).
Proof. unfold held. rewrite map_map. cbn [snd]. induction l as [|i l IH]; [reflexivity|]. cbn [map length repeat]. f_equal. exact IH. Qed.

(** ** the driver of single words *)
Section Plain.
Context (width : nat) (hr : bool).
Notation acc := (accepts hr).
Definition st_on (c : logic * st_out) : bool := is1 (o_valid (snd c)).

Lemma st_one fuel value d sync s p o tr l : create_binary value width false = Ok d -> length l < fuel -> p <> PReadOnly ->
  exists r w new, st_send width hr fuel value sync (World s p o tr l) = (r, w) /\ trace w = tr ++ new /\
  ((exists l1, on_time acc [lead sync s] l (map st_on new) (Some l1) /\ r = Done tt /\ ins w = l1 /\ ph w = PActive /\ st w = snd (throttle s) /\ length l1 <= length l)
   \/ on_time acc [lead sync s] l (map st_on new) None /\ r = Susp /\ ins w = []).
Proof.
  intros Ed Hf Hp. destruct (st_send_spec width hr fuel value sync s p o tr l Hf Hp) as (p' & p2 & Hp' & E). rewrite Ed in E.
  pose proof (time_one acc (lead sync s) l) as T. set (n := lead sync s) in *.
  destruct (Nat.leb_spec n (length l)) as [L|L].
  - pose proof (span_app acc (skipn n l)) as A. destruct (span acc (skipn n l)) as [nr [|i r]]; cbn [fst snd] in *.
    + do 3 eexists. split; [exact E|]. split; [reflexivity|]. right. split; [|auto]. unfold st_on. rewrite map_app, !(held_map (fun o => is1 (o_valid o))), firstn_length_le by exact L.
      rewrite app_nil_r in *. rewrite <- A. exact T.
    + do 3 eexists. split; [exact E|]. split; [reflexivity|]. left. exists r. split; [|repeat split; auto].
      * unfold st_on. rewrite map_app, !(held_map (fun o => is1 (o_valid o))), firstn_length_le by exact L. rewrite app_length, repeat_app. exact T.
      * apply (f_equal (@length _)) in A. rewrite app_length, skipn_length in A. cbn [length] in A. lia.
  - do 3 eexists. split; [exact E|]. split; [reflexivity|]. right. split; [|auto]. unfold st_on. rewrite (held_map (fun o => is1 (o_valid o))). exact T.
Qed.

Lemma st_timing fuel ws ds : Forall2 (fun w d => create_binary (fst w) width false = Ok d) ws ds ->
  forall s p o tr l, length l < fuel -> p <> PReadOnly ->
  exists r w new rest, st_send_all width hr fuel ws (World s p o tr l) = (r, w) /\ trace w = tr ++ new /\
    on_time acc (idles (map snd ws) (gaps (length ws) s)) l (map st_on new) rest /\
    match rest with Some l1 => r = Done tt /\ ins w = l1 | None => r = Susp /\ ins w = [] end.
Proof.
  induction 1 as [|[value sync] d ws ds Ed _ IH]; intros s p o tr l Hf Hp.
  - exists (Done tt), (World s p o tr l), [], (Some l). rewrite app_nil_r. repeat split; constructor.
  - cbn [fst] in Ed. unfold st_send_all. cbn [for_each fst snd map length gaps].
    destruct (st_one fuel value d sync s p o tr l Ed Hf Hp) as (r & w & new & E & Tr & C). unfold bind. rewrite E.
    destruct (throttle s) as [g s'] eqn:Th.
    replace (idles (sync :: map snd ws) (g :: gaps (length ws) s')) with (lead sync s :: idles (map snd ws) (gaps (length ws) s')).
    2:{ unfold idles, lead. cbn [combine map fst snd]. rewrite Th. reflexivity. }
    destruct C as [(l1 & T & -> & I1 & Pa & S1 & Ll)|(T & -> & I1)].
    + destruct w as [s1 p1 o1 tr1 l1']. cbn [ins ph st trace snd] in *. subst.
      destruct (IH s' PActive o1 (tr ++ new) l1 ltac:(lia) ltac:(discriminate)) as (r2 & w2 & new2 & rest & E2 & Tr2 & T2 & C2).
      unfold st_send_all in E2. exists r2, w2, (new ++ new2), rest. split; [exact E2|]. split; [rewrite Tr2, app_assoc; reflexivity|].
      split; [|exact C2]. rewrite map_app. exact (time_cons acc _ _ _ _ _ T _ _ T2).
    + exists Susp, w, new, None. repeat split; auto. exact (time_cons acc _ _ _ _ _ T).
Qed.
End Plain.

(** ** the packetized driver *)
Lemma gaps_app n m s : gaps (n + m) s = gaps n s ++ gaps m (thr_iter n s).
Proof.
  revert s. induction n as [|n IH]; intro s; [reflexivity|]. cbn [Nat.add gaps thr_iter]. destruct (throttle s) as [g s']. cbn [snd app]. f_equal. apply IH.
Qed.
Lemma gaps_len n s : length (gaps n s) = n.
Proof. revert s. induction n as [|n IH]; intro s; [reflexivity|]. cbn [gaps]. destruct (throttle s). cbn [length]. f_equal. apply IH. Qed.
Lemma idles_app a b c d : length a = length c -> idles (a ++ b) (c ++ d) = idles a c ++ idles b d.
Proof.
  revert c. induction a as [|x a IH]; intros [|y c] L; try discriminate; [reflexivity|]. injection L as L. unfold idles in *. cbn [app combine map]. f_equal. apply IH. exact L.
Qed.
Lemma idles_no_sync n gs : length gs = n -> idles (repeat false n) gs = gs.
Proof. revert gs. induction n as [|n IH]; intros [|g gs] L; try discriminate; [reflexivity|]. injection L as L. unfold idles in *. cbn [repeat combine map fst snd]. rewrite IH by exact L. reflexivity. Qed.

Definition pk_on (c : logic * pk_out) : bool := k_offered (snd c).

Section Packets.
Context (c : pcfg) (k : nat) (BB : word_bus c k).
Notation acc := (accepts (c_ready c)).

Definition nwords (n : nat) : nat := Nat.div (n + k - 1) k.
Lemma nwords_0 : nwords 0 = 0.
Proof. pose proof (wb_pos _ _ BB). apply Nat.div_small. lia. Qed.
Lemma nwords_S (str : bytes) : str <> [] -> nwords (length str) = S (nwords (length (skipn k str))).
Proof.
  pose proof (wb_pos _ _ BB) as K. intro N. assert (0 < length str) by (destruct str; [contradiction|cbn; lia]).
  unfold nwords. rewrite skipn_length, (div_up k (length str)) by lia. destruct (Nat.leb_spec (length str) k); [|reflexivity].
  replace (length str - k) with 0 by lia. rewrite Nat.div_small by lia. reflexivity.
Qed.

Definition tail_word (ch : option Z) (str : bytes) (first : bool) : M valid logic pk_out bytes :=
  drive (k_set_valid L1) ;;
  pk_channel c ch ;;
  drive (k_set_sop (if first then L1 else L0)) ;;
  rest <- (if length str <=? bus_width c then
             drive (k_set_eop L1) ;;
             when (use_empty c)
               (e <- of_res (assign_int (ew c) (Z.of_nat (bus_width c) - Z.of_nat (length str))) ;;
                drive (k_set_empty e)) ;;
             ret []
           else ret (skipn (bus_width c) str)) ;;
  d <- of_res (create_binary (BBytes (firstn (bus_width c) str)) (c_width c) (c_high c)) ;;
  drive (k_set_data d) ;;
  ret rest.
Lemma word_tail str first ch : pk_word c str first ch = bind (gap_code (k_set_valid L0)) (fun _ => tail_word ch str first).
Proof. reflexivity. Qed.

Lemma tail_ok ch str first s p o tr l : channel_ok c ch -> p <> PReadOnly -> str <> [] ->
  exists o', tail_word ch str first (World s p o tr l) = (Done (skipn k str), World s p o' tr l) /\ k_valid o' = L1.
Proof.
  intros CH Hp N. assert (Lpos : 0 < length str) by (destruct str; [contradiction|cbn; lia]). unfold tail_word. rewrite (bw_k c k BB).
  rewrite (bind_done _ _ _ _ _ (drive_ok _ _ _ _ _ _ Hp)).
  assert (C1 : exists o1, pk_channel c ch (World s p (k_set_valid L1 o) tr l) = (Done tt, World s p o1 tr l) /\ k_valid o1 = L1).
  { unfold pk_channel. destruct (c_cw c) as [n|] eqn:En; [|eexists; split; reflexivity].
    destruct ch as [z|].
    - pose proof CH as K. unfold channel_ok in K. rewrite En in K.
      replace ((max_channel c <? z) || (z <? 0))%Z with false by lia.
      rewrite (chan_fits c k (Some z) BB CH z n En eq_refl). unfold bind. cbn [of_res ret]. rewrite drive_ok by exact Hp. eexists; split; reflexivity.
    - rewrite drive_ok by exact Hp. eexists; split; reflexivity. }
  destruct C1 as (o1 & C1 & V1). rewrite (bind_done _ _ _ _ _ C1).
  rewrite (bind_done _ _ _ _ _ (drive_ok _ _ _ _ _ _ Hp)).
  set (o2 := k_set_sop _ o1). assert (V2 : k_valid o2 = L1) by exact V1.
  assert (C2 : exists o3, (if length str <=? k then
             drive (k_set_eop L1) ;;
             when (use_empty c)
               (e <- of_res (assign_int (ew c) (Z.of_nat k - Z.of_nat (length str))) ;;
                drive (k_set_empty e)) ;;
             ret []
           else ret (skipn k str)) (World s p o2 tr l) = (Done (skipn k str), World s p o3 tr l) /\ k_valid o3 = L1).
  { destruct (Nat.leb_spec (length str) k) as [L|L]; [|eexists; split; [reflexivity|exact V2]].
    rewrite (bind_done _ _ _ _ _ (drive_ok _ _ _ _ _ _ Hp)). replace (skipn k str) with (@nil Z) by (symmetry; apply skipn_all2; exact L).
    unfold when. destruct (use_empty c) eqn:U; [|eexists; split; [reflexivity|exact V2]].
    destruct (wb_empty _ _ BB U) as [n [En Hn]]. unfold ew. rewrite En. unfold assign_int.
    pose proof (Z.pow_nonneg 2 (Z.of_nat n - 1) ltac:(lia)).
    replace ((- 2 ^ (Z.of_nat n - 1) <=? Z.of_nat k - Z.of_nat (length str)) && (Z.of_nat k - Z.of_nat (length str) <? 2 ^ Z.of_nat n))%Z with true by lia.
    cbn [of_res]. unfold bind, ret. rewrite drive_ok by exact Hp. eexists; split; [reflexivity|exact V2]. }
  destruct C2 as (o3 & C2 & V3). rewrite (bind_done _ _ _ _ _ C2). rewrite (word_create c k BB str). cbn [of_res].
  unfold bind, ret. rewrite drive_ok by exact Hp. eexists; split; [reflexivity|exact V3].
Qed.

(** the gap *)
Lemma gap_ok s p o (tr : list (logic * pk_out)) l : p <> PReadOnly ->
  exists p' o', p' <> PReadOnly /\ (fst (throttle s) = 0 \/ k_valid o' = L0) /\
  gap_code (k_set_valid L0) (World s p o tr l) =
  if fst (throttle s) <=? length l
  then (Done tt, World (snd (throttle s)) p' o' (tr ++ held o' (firstn (fst (throttle s)) l)) (skipn (fst (throttle s)) l))
  else (Susp, World s p' o' (tr ++ held o' l) []).
Proof.
  intro Hp. unfold gap_code.
  destruct (truthy (v_on s)) eqn:E.
  - assert (G : fst (throttle s) = 0) by (unfold throttle; rewrite E; reflexivity). exists p, o. split; [exact Hp|]. split; [left; exact G|].
    rewrite G. unfold bind, get, ret, put. cbn. rewrite E, G. cbn. rewrite app_nil_r. reflexivity.
  - exists (match (if fst (throttle s) <=? length l then fst (throttle s) else length l) with O => p | _ => PActive end), (k_set_valid L0 o).
    split; [destruct (if _ <=? _ then _ else _); [exact Hp|discriminate]|]. split; [right; reflexivity|].
    unfold bind at 1. unfold get. cbn [st]. rewrite E.
    rewrite (bind_done _ _ _ _ _ (drive_ok _ _ _ _ _ _ Hp)). unfold bind. rewrite edges_spec. cbn [ins st ph out trace].
    destruct (fst (throttle s) <=? length l).
    + unfold put. cbn. reflexivity.
    + destruct l; reflexivity.
Qed.

Lemma held_on (o : pk_out) (l : list logic) : map pk_on (held o l) = repeat (k_offered o) (length l).
Proof. apply (held_map k_offered). Qed.
Lemma off_1 o : k_valid o = L1 -> k_offered o = true.
Proof. intro H. unfold k_offered. rewrite H. reflexivity. Qed.
Lemma off_0 o : k_valid o = L0 -> k_offered o = false.
Proof. intro H. unfold k_offered. rewrite H. reflexivity. Qed.

Lemma idle_map g (o : pk_out) (l : list logic) : (g = 0 \/ k_valid o = L0) -> g <= length l -> map pk_on (held o (firstn g l)) = repeat false g.
Proof. intros H L. rewrite held_on, firstn_length_le by exact L. destruct H as [->|H]; [reflexivity|]. rewrite off_0 by exact H. reflexivity. Qed.
Lemma idle_short g (o : pk_out) (l : list logic) : (g = 0 \/ k_valid o = L0) -> length l < g -> map pk_on (held o l) = repeat false (length l).
Proof. intros H L. rewrite held_on. destruct H as [->|H]; [lia|]. rewrite off_0 by exact H. reflexivity. Qed.

Definition ends (r : outcome unit) (w : world valid logic pk_out) (s' : valid) (l : list logic) (rest : option (list logic)) : Prop :=
  match rest with
  | Some l1 => r = Done tt /\ ins w = l1 /\ ph w <> PReadOnly /\ st w = s' /\ length l1 <= length l
  | None => r = Susp /\ ins w = []
  end.

Lemma rest_time fuel sync ch : channel_ok c ch -> forall f str s p o tr l,
  length str < f -> length l < fuel -> p <> PReadOnly -> k_valid o = L1 ->
  exists r w new rest, rest_of c ch fuel f sync str (World s p o tr l) = (r, w) /\ trace w = tr ++ new /\
    on_time acc (0 :: gaps (nwords (length str)) s) l (map pk_on new) rest /\
    ends r w (thr_iter (nwords (length str)) s) l rest.
Proof.
  intro CH. induction f as [|f IH]; intros str s p o tr l Lf Hf Hp V; [lia|].
  rewrite rest_unfold. destruct (wait_spec (c_ready c) fuel s p o tr l Hf Hp) as [p' W]. 
  change (if c_ready c then wait_ready fuel else ret tt) with (pk_wait c fuel) in W. unfold bind at 1. rewrite W. clear W.
  pose proof (time_one acc 0 l) as T. cbn [Nat.leb skipn repeat app] in T. 
  pose proof (span_app acc l) as A. destruct (span acc l) as [nr [|i r]]; cbn [fst snd] in *.
  { exists Susp, (World s p' o (tr ++ held o l) []), (held o l), None. split; [reflexivity|]. split; [reflexivity|].
    split; [|split; reflexivity]. rewrite app_nil_r in *. subst nr. rewrite held_on, off_1 by exact V. rewrite ?app_nil_r in T. exact (time_cons acc 0 _ _ _ _ T). }
  assert (Lr : length r < length l) by (rewrite <- A, app_length; cbn [length]; lia).
  assert (Tn : map pk_on (held o (nr ++ [i])) = repeat true (length nr) ++ [true]).
  { rewrite held_on, off_1, app_length, repeat_app by exact V. reflexivity. }
  rewrite <- Tn in T.
  destruct str as [|b str].
  { change (length (@nil Z)) with 0. rewrite nwords_0. exists (Done tt), (World s PActive o (tr ++ held o (nr ++ [i])) r), (held o (nr ++ [i])), (Some r).
    split; [reflexivity|]. split; [reflexivity|]. split; [exact T|]. repeat split; try discriminate. lia. }
  set (str0 := b :: str) in *. assert (N0 : str0 <> []) by discriminate. rewrite (nwords_S str0) by exact N0. cbn [gaps thr_iter].
  assert (Ls : length (skipn k str0) < f). { pose proof (wb_pos _ _ BB). rewrite skipn_length. unfold str0 in *. cbn [length] in *. lia. }
  clearbody str0. clear str b.
  rewrite word_tail. destruct (gap_ok s PActive o (tr ++ held o (nr ++ [i])) r ltac:(discriminate)) as (p2 & o2 & P2 & G0 & G).
  destruct (throttle s) as [g s'] eqn:Th. cbn [fst snd] in *.
  unfold bind at 1. unfold bind at 1. rewrite G. clear G.
  destruct (Nat.leb_spec g (length r)) as [Lg|Lg].
  2:{ exists Susp, (World s p2 o2 ((tr ++ held o (nr ++ [i])) ++ held o2 r) []), (held o (nr ++ [i]) ++ held o2 r), None.
      split; [reflexivity|]. split; [cbn [trace]; rewrite app_assoc; reflexivity|]. split; [|split; reflexivity].
      rewrite map_app. apply (time_cons acc 0 _ _ _ _ T). rewrite (idle_short g) by assumption. apply ot_gap. exact Lg. }
  destruct (tail_ok ch str0 false s' p2 o2 ((tr ++ held o (nr ++ [i])) ++ held o2 (firstn g r)) (skipn g r) CH P2 N0) as (o3 & Ta & V3).
  rewrite Ta.
  destruct (IH (skipn k str0) s' p2 o3 ((tr ++ held o (nr ++ [i])) ++ held o2 (firstn g r)) (skipn g r) Ls ltac:(rewrite skipn_length; lia) P2 V3)
    as (r4 & w4 & new & rest & E4 & Tr4 & T4 & C4).
  exists r4, w4, (held o (nr ++ [i]) ++ held o2 (firstn g r) ++ new), rest. split; [exact E4|]. split; [rewrite Tr4, <- !app_assoc; reflexivity|].
  split.
  - rewrite !map_app. apply (time_cons acc 0 _ _ _ _ T). rewrite (idle_map g) by assumption.
    rewrite <- (Nat.add_0_r g) at 1. apply idle_more; assumption.
  - unfold ends in *. destruct rest; [|exact C4]. destruct C4 as (A1 & A2 & A3 & A4 & A5). rewrite (skipn_length g r) in A5. repeat split; try assumption. lia.
Qed.

Lemma defaults_ok ch s p o (tr : list (logic * pk_out)) (l : list logic) : channel_ok c ch -> p <> PReadOnly ->
  exists o', pk_defaults c ch (World s p o tr l) = (Done tt, World s p o' tr l) /\ k_valid o' = L0.
Proof.
  intros CH Hp. unfold pk_defaults, when.
  assert (X : exists o1, (if use_empty c then drive (k_set_empty (zeros (ew c))) else ret tt) (World s p o tr l) = (Done tt, World s p o1 tr l)).
  { destruct (use_empty c); [rewrite drive_ok by exact Hp|]; eexists; reflexivity. }
  destruct X as [o1 X]. rewrite (bind_done _ _ _ _ _ X). clear X.
  do 3 rewrite (bind_done _ _ _ _ _ (drive_ok _ _ _ _ _ _ Hp)).
  set (o2 := k_set_valid L0 _). assert (V : k_valid o2 = L0) by reflexivity. clearbody o2.
  assert (X : exists o3, (if c_error c then drive (k_set_error L0) else ret tt) (World s p o2 tr l) = (Done tt, World s p o3 tr l) /\ k_valid o3 = L0).
  { destruct (c_error c); [rewrite drive_ok by exact Hp|]; eexists; split; try reflexivity; exact V. }
  destruct X as (o3 & X & V3). rewrite (bind_done _ _ _ _ _ X).
  destruct (c_cw c) as [n|] eqn:En.
  - rewrite drive_ok by exact Hp. eexists; split; [reflexivity|exact V3].
  - unfold channel_ok in CH. rewrite En in CH. destruct ch as [z|]; [contradiction|]. eexists; split; [reflexivity|exact V3].
Qed.
Lemma finish_ok s p o (tr : list (logic * pk_out)) (l : list logic) : p <> PReadOnly ->
  exists o', pk_finish c (World s p o tr l) = (Done tt, World s p o' tr l).
Proof.
  intro Hp. unfold pk_finish, when. do 5 rewrite (bind_done _ _ _ _ _ (drive_ok _ _ _ _ _ _ Hp)).
  destruct (use_empty c); [rewrite (bind_done _ _ _ _ _ (drive_ok _ _ _ _ _ _ Hp))|unfold bind at 1; cbn [ret]].
  all: destruct (c_cw c); [rewrite drive_ok by exact Hp|]; eexists; reflexivity.
Qed.

Definition psyncs (q : packet) : list bool := p_sync q :: repeat false (nwords (length (p_data q)) - 1).

Lemma psyncs_idles q s : p_data q <> [] ->
  idles (psyncs q) (gaps (nwords (length (p_data q))) s) = lead (p_sync q) s :: gaps (nwords (length (skipn k (p_data q)))) (snd (throttle s)).
Proof.
  intro N. unfold psyncs. rewrite (nwords_S _ N). cbn [gaps]. destruct (throttle s) as [g s'] eqn:Th. cbn [snd].
  unfold idles at 1. cbn [combine map fst snd]. unfold lead. rewrite Th. cbn [fst]. f_equal.
  replace (S _ - 1) with (nwords (length (skipn k (p_data q)))) by lia. apply (idles_no_sync _ _ (gaps_len _ _)).
Qed.

Lemma send_time fuel q s p o tr l :
  channel_ok c (p_channel q) -> p_data q <> [] -> length l + length (p_data q) < fuel -> p <> PReadOnly ->
  exists r w new rest, pk_send c fuel (p_data q) (p_sync q) (p_channel q) (World s p o tr l) = (r, w) /\ trace w = tr ++ new /\
    on_time acc (idles (psyncs q) (gaps (nwords (length (p_data q))) s)) l (map pk_on new) rest /\
    ends r w (thr_iter (nwords (length (p_data q))) s) l rest.
Proof.
  intros CH N Hf Hp. rewrite psyncs_idles by exact N. destruct q as [str sync ch]. cbn [p_data p_sync p_channel] in *.
  unfold pk_send. destruct (defaults_ok ch s p o tr l CH Hp) as (o1 & D & V1). rewrite (bind_done _ _ _ _ _ D). clear D o.
  destruct fuel as [|f]; [lia|]. rewrite send_unfold by exact N.
  rewrite (nwords_S str) by exact N. cbn [thr_iter].
  destruct (lead_spec (k_set_valid L0) sync s p o1 tr l Hp) as (p2 & P2 & Le).
  { destruct o1. cbn in V1. subst. reflexivity. }
  rewrite word_tail.
  assert (As : forall w, bind (if sync then edge else ret tt) (fun _ => bind (bind (gap_code (k_set_valid L0)) (fun _ => tail_word ch str true))
       (fun r => bind (rest_of c ch (S f) f sync r) (fun _ => pk_finish c))) w
     = bind (bind (if sync then edge else ret tt) (fun _ => gap_code (k_set_valid L0))) (fun _ => bind (tail_word ch str true) (fun r => bind (rest_of c ch (S f) f sync r) (fun _ => pk_finish c))) w).
  { intro w. rewrite bind_assoc. apply bind_ext. intros [] w1. rewrite bind_assoc. reflexivity. }
  rewrite As. clear As. unfold bind at 1. rewrite Le. clear Le. set (n := lead sync s) in *.
  destruct (Nat.leb_spec n (length l)) as [L|L].
  2:{ do 4 eexists. split; [reflexivity|]. split; [reflexivity|]. split; [|instantiate (1 := None); split; reflexivity].
      rewrite held_on, off_0 by exact V1. apply ot_gap. exact L. }
  destruct (tail_ok ch str true (snd (throttle s)) p2 o1 (tr ++ held o1 (firstn n l)) (skipn n l) CH P2 N) as (o3 & Ta & V3).
  rewrite (bind_done _ _ _ _ _ Ta).
  assert (Ls : length (skipn k str) < f).
  { pose proof (wb_pos _ _ BB). rewrite skipn_length. destruct str; [contradiction|]. cbn [length] in *. lia. }
  destruct (rest_time (S f) sync ch CH f (skipn k str) (snd (throttle s)) p2 o3 (tr ++ held o1 (firstn n l)) (skipn n l) Ls ltac:(rewrite skipn_length; lia) P2 V3)
    as (r4 & w4 & new & rest & E4 & Tr4 & T4 & C4).
  assert (T5 : on_time acc (n :: gaps (nwords (length (skipn k str))) (snd (throttle s))) l (map pk_on (held o1 (firstn n l) ++ new)) rest).
  { rewrite map_app, (idle_map n) by auto. rewrite <- (Nat.add_0_r n) at 1. apply idle_more; assumption. }
  unfold bind. rewrite E4. unfold ends in *. destruct rest as [l1|].
  - destruct C4 as (-> & I4 & P4 & S4 & L4). destruct w4 as [s4 p4 o4 tr4 l4]. cbn [ins ph st trace] in *.
    destruct (finish_ok s4 p4 o4 tr4 l4 P4) as [o5 F]. rewrite F.
    do 4 eexists. split; [reflexivity|]. split; [cbn [trace]; rewrite Tr4, <- app_assoc; reflexivity|]. split; [exact T5|].
    cbn [ins ph st]. rewrite skipn_length in L4. repeat split; try assumption. lia.
  - destruct C4 as [-> I4]. do 4 eexists. split; [reflexivity|]. split; [rewrite Tr4, <- app_assoc; reflexivity|]. split; [exact T5|]. split; [reflexivity|exact I4].
Qed.

Definition total (ps : list packet) : nat := list_sum (map (fun q => nwords (length (p_data q))) ps).

Lemma pk_timing fuel ps : Forall (fun q => channel_ok c (p_channel q) /\ p_data q <> []) ps ->
  forall s p o tr l, (forall q, In q ps -> length l + length (p_data q) < fuel) -> p <> PReadOnly ->
  exists r w new rest, pk_send_all c fuel ps (World s p o tr l) = (r, w) /\ trace w = tr ++ new /\
    on_time acc (idles (concat (map psyncs ps)) (gaps (total ps) s)) l (map pk_on new) rest /\
    match rest with Some l1 => r = Done tt /\ ins w = l1 | None => r = Susp /\ ins w = [] end.
Proof.
  induction 1 as [|q ps [CH N] _ IH]; intros s p o tr l Hf Hp.
  - exists (Done tt), (World s p o tr l), [], (Some l). rewrite app_nil_r. repeat split; constructor.
  - unfold pk_send_all. cbn [for_each].
    destruct (send_time fuel q s p o tr l CH N (Hf q (or_introl eq_refl)) Hp) as (r & w & new & rest & E & Tr & T & C).
    unfold bind at 1. rewrite E.
    replace (idles (concat (map psyncs (q :: ps))) (gaps (total (q :: ps)) s))
      with (idles (psyncs q) (gaps (nwords (length (p_data q))) s) ++ idles (concat (map psyncs ps)) (gaps (total ps) (thr_iter (nwords (length (p_data q))) s))).
    2:{ change (total (q :: ps)) with (nwords (length (p_data q)) + total ps). rewrite gaps_app. cbn [map concat]. rewrite idles_app; [reflexivity|].
        rewrite gaps_len. unfold psyncs. cbn [length]. rewrite repeat_length, (nwords_S _ N). lia. }
    unfold ends in C. pose proof (time_app acc _ (idles (concat (map psyncs ps)) (gaps (total ps) (thr_iter (nwords (length (p_data q))) s))) _ _ _ T) as TA.
    destruct rest as [l1|].
    + destruct C as (-> & I1 & P1 & S1 & L1'). destruct w as [s1 p1 o1 tr1 l1']. cbn [ins ph st trace] in *. subst l1' s1 tr1.
      destruct (IH (thr_iter (nwords (length (p_data q))) s) p1 o1 (tr ++ new) l1) as (r2 & w2 & new2 & rest2 & E2 & Tr2 & T2 & C2).
      { intros q' I. specialize (Hf q' (or_intror I)). lia. }
      { exact P1. }
      unfold pk_send_all in E2. exists r2, w2, (new ++ new2), rest2. split; [exact E2|]. split; [rewrite Tr2, app_assoc; reflexivity|].
      split; [|exact C2]. rewrite map_app. exact (TA _ _ T2).
    + destruct C as [-> I1]. exists Susp, w, new, None. repeat split; auto.
Qed.
End Packets.
