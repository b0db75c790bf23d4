(** AxfProof.v -- accesses that raise before they use their channel only delay the others. *)
From Coq Require Import Permutation.
From Verif Require Import Base Async BitsLemmas CompatModel PktModel HandshakeSpec Handshake AxiModel AxiSpec AxiDataProof AxiReadProof AxiChanProof AxiRunProof AxiTopProof AxcModel AxcSpec AxcProof AxcTopProof AxcWriteProof AxcReadProof AxfSpec.
Local Open Scope list_scope.

Lemma NoDup_app_intro {A} (x y : list A) : NoDup x -> NoDup y -> (forall a, In a x -> In a y -> False) -> NoDup (x ++ y).
Proof.
  induction 1 as [|a x Ha _ IH]; intros Hy D; [exact Hy|]. cbn [app]. constructor.
  - rewrite in_app_iff. intros [H|H]; [exact (Ha H)|]. apply (D a); [left; reflexivity|exact H].
  - apply IH; [exact Hy|]. intros b H1 H2. apply (D b); [right; exact H1|exact H2].
Qed.
Lemma NoDup_app_l {A} (x y : list A) : NoDup (x ++ y) -> NoDup x.
Proof.
  induction x as [|a x IH]; intro H; [constructor|]. cbn [app] in H. inversion H as [|? ? H1 H2]; subst. constructor; [|apply IH; exact H2].
  intro Hi. apply H1. apply in_or_app. left. exact Hi.
Qed.
Section Drop.
Context {TO A R : Type}.
Notation M := (M unit axi_in TO).
Notation world := (world unit axi_in TO).
Definition past (w : world) : list (axi_in * TO) := trace w ++ held (out w) (ins w).

(** waiting some cycles, at most [b], and then raising *)
Definition only_waits (b : nat) (e : exn) (m : M R) : Prop := exists n, n <= b /\ forall w,
  m w = match edges n w with (Done _, w') => (Exn e, w') | (_, w') => (Susp, w') end.

Lemma edges_add n m (w : world) : edges (n + m) w = (edges n ;; edges m) w.
Proof.
  revert w. induction n as [|n IH]; intro w; [reflexivity|]. cbn [Nat.add edges]. unfold bind in *.
  destruct (edge w) as [[] w']; try reflexivity. apply IH.
Qed.
Lemma edges_bind {B} n m (k : M B) (w : world) : (edges (n + m) ;; k) w = (edges n ;; edges m ;; k) w.
Proof.
  unfold bind at 1. rewrite edges_add. unfold bind. destruct (edges n w) as [[] w']; reflexivity.
Qed.
Lemma edges_cases n (w : world) :
  (exists w', edges n w = (Done tt, w') /\ length (trace w') = length (trace w) + n /\ past w' = past w) \/
  (exists w', edges n w = (Susp, w') /\ past w' = past w).
Proof.
  rewrite edges_spec. destruct (Nat.leb_spec n (length (ins w))) as [H|H].
  - left. eexists. split; [reflexivity|]. unfold past. cbn [trace out ins]. split.
    + rewrite app_length. unfold held. rewrite map_length, firstn_length. lia.
    + rewrite <- app_assoc, <- held_app, firstn_skipn. reflexivity.
  - right. eexists. split; [reflexivity|]. unfold past. cbn [trace out ins]. unfold held at 2. cbn [map]. rewrite app_nil_r. reflexivity.
Qed.
Lemma edges_long n (w : world) : length (ins w) < n -> exists w', edges n w = (Susp, w') /\ past w' = past w.
Proof.
  intro H. rewrite edges_spec. destruct (Nat.leb_spec n (length (ins w))); [lia|].
  eexists. split; [reflexivity|]. unfold past. cbn [trace out ins]. unfold held at 2. cbn [map]. rewrite app_nil_r. reflexivity.
Qed.

Context (body : A -> M R) (good : A -> bool) (ex : exn).
Hypothesis Hbad : forall a, good a = false -> exists b, only_waits b ex (body a).

Lemma serve_shift t a r k w w0 : edges k w = (Done tt, w0) -> length (trace w0) = length (trace w) + k ->
  serve body ((Nat.max t (length (trace w0)), a) :: r) w = serve body ((t, a) :: r) w0.
Proof.
  intros E L. cbn [serve]. replace (Nat.max t (length (trace w0)) - length (trace w)) with (k + (t - length (trace w0))) by lia.
  rewrite edges_bind. unfold bind at 1. rewrite E. reflexivity.
Qed.
Lemma later_refl {B} (x : list (nat * B)) : later x x.
Proof. induction x; constructor; auto. Qed.

Lemma serve_drop jobs : forall w, exists jobs', later (filter (fun x => good (snd x)) jobs) jobs' /\
  let '(rs, v) := serve body jobs w in let '(rs', v') := serve body jobs' w in
  rs' = filter (fun x => good (fst (fst x))) rs /\ past v' = past v /\
  Forall (fun x => good (fst (fst x)) = false -> snd x = Exn ex) rs.
Proof.
  induction jobs as [|[t a] r IH]; intro w; [exists []; repeat split; constructor|].
  cbn [filter snd]. destruct (good a) eqn:G.
  - cbn [serve]. destruct ((edges (t - length (trace w)) ;; body a) w) as [x w1] eqn:E. 
    assert (D : x = Susp \/ x <> Susp) by (destruct x; [right|right|left|right]; congruence). destruct D as [->|D].
    + exists ((t, a) :: filter (fun x => good (snd x)) r). split; [apply later_refl|]. cbn [serve]. rewrite E. repeat split; constructor.
    + destruct (IH w1) as (jobs' & L & H). exists ((t, a) :: jobs'). split; [constructor; [split; [reflexivity|apply le_n]|exact L]|].
      cbn [serve]. rewrite E. destruct (serve body r w1) as [rs v], (serve body jobs' w1) as [rs' v']. destruct H as (H1 & H2 & H3).
      destruct x; try (contradiction D; reflexivity); (split; [cbn [filter fst]; rewrite G, H1; reflexivity|split; [exact H2|]]);
        (constructor; [cbn [fst]; congruence|exact H3]).
  - cbn [serve]. destruct (Hbad a G) as (_ & n & _ & Hb).
    assert (E : (edges (t - length (trace w)) ;; body a) w = match edges (t - length (trace w) + n) w with (Done _, w') => (Exn ex, w') | (_, w') => (Susp, w') end).
    { rewrite edges_add. unfold bind. destruct (edges_cases (t - length (trace w)) w) as [(w1 & -> & _)|(w1 & -> & _)]; [apply Hb|reflexivity]. }
    rewrite E. clear E. destruct (edges_cases (t - length (trace w) + n) w) as [(w0 & E & L & P)|(w0 & E & P)]; rewrite E.
    + destruct (IH w0) as (jobs' & Lt & H). exists (match jobs' with [] => [] | (u, b) :: q => (Nat.max u (length (trace w0)), b) :: q end). split.
      { destruct Lt as [|x [u b] xs q [L1 L2] Lt]; [constructor|]. constructor; [cbn [snd fst] in *; split; [exact L1|lia]|exact Lt]. }
      destruct (serve body r w0) as [rs v]. 
      assert (S : exists v', serve body (match jobs' with [] => [] | (u, b) :: q => (Nat.max u (length (trace w0)), b) :: q end) w = (fst (serve body jobs' w0), v') /\
                             past v' = past (snd (serve body jobs' w0))).
      { destruct jobs' as [|[u b] q]; [exists w; cbn [serve fst snd]; auto|]. rewrite (serve_shift u b q _ w w0 E L). eexists. split; [apply surjective_pairing|reflexivity]. }
      destruct S as (v' & -> & Pv). destruct (serve body jobs' w0) as [rs' v'']. cbn [fst snd] in *. destruct H as (H1 & H2 & H3).
      split; [cbn [filter fst]; rewrite G; exact H1|]. split; [congruence|]. constructor; [intros _; reflexivity|exact H3].
    + set (f := fun x : nat * A => (Nat.max (fst x) (length (trace w) + length (ins w) + 1), snd x)).
      exists (map f (filter (fun x => good (snd x)) r)). split.
      { generalize (filter (fun x => good (snd x)) r). clear. intro x0. induction x0 as [|x y IHy]; constructor; [subst f; cbn [snd fst]; split; [reflexivity|lia]|exact IHy]. }
      destruct (filter (fun x => good (snd x)) r) as [|x y]; cbn [map]; [cbn [serve]; repeat split; [congruence|constructor]|].
      subst f. cbn [serve fst snd]. unfold bind. 
      destruct (edges_long (Nat.max (fst x) (length (trace w) + length (ins w) + 1) - length (trace w)) w ltac:(lia)) as (w1 & -> & P1).
      repeat split; [congruence|constructor].
Qed.
End Drop.

(** ** the failing tasks *)
Lemma sync_edges {TO B} (s : bool) (n : nat) (k : M unit axi_in TO B) w :
  (x_when s edge ;; edges n ;; k) w = (edges ((if s then 1 else 0) + n) ;; k) w.
Proof. rewrite edges_bind. destruct s; [|reflexivity]. cbn [x_when edges]. unfold bind. destruct (edge w) as [[] w']; reflexivity. Qed.
Lemma waits_then_raises {TO A B} n e (m : M unit axi_in TO A) (k : A -> M unit axi_in TO B) : (forall w, m w = (Exn e, w)) ->
  forall w, (edges n ;; (x <- m ;; k x)) w = match edges n w with (Done _, w') => (Exn e, w') | (_, w') => (Susp, w') end.
Proof.
  intros H w. unfold bind. destruct (edges_cases n w) as [(w' & -> & _)|(w' & -> & _)]; [rewrite H|]; reflexivity.
Qed.
Lemma assign_wide {TO} n z (set : bits -> TO -> TO) (w : world unit axi_in TO) : (2 ^ Z.of_nat n <= z)%Z -> assign n z set w = (Exn EValue, w).
Proof.
  intro H. unfold assign, assign_int. destruct (Z.ltb_spec z (2 ^ Z.of_nat n)); [lia|]. rewrite andb_false_r. reflexivity.
Qed.
Lemma aw_waits c fuel (x : waccess * Z) : address_fits c (wa_address (fst x)) = false -> only_waits (2 + wa_alat (fst x)) EValue (aw_job c fuel x).
Proof.
  destruct x as [a s]. cbn [fst]. unfold address_fits. intro H. apply Z.ltb_ge in H.
  exists ((if wa_sync a then 1 else 0) + wa_alat a). split; [destruct (wa_sync a); lia|]. intro w. unfold aw_job, send_write_address. rewrite sync_edges.
  apply waits_then_raises. intro w'. apply assign_wide. exact H.
Qed.
Lemma ar_waits c fuel (x : raccess * Z) : address_fits c (ra_address (fst x)) = false -> only_waits 2 EValue (ar_job c fuel x).
Proof.
  destruct x as [a s]. cbn [fst]. unfold address_fits. intro H. apply Z.ltb_ge in H.
  exists ((if ra_sync a then 1 else 0) + 0). split; [destruct (ra_sync a); lia|]. intro w. unfold ar_job.
  transitivity ((edges ((if ra_sync a then 1 else 0) + 0) ;; (_ <- assign (x_awidth c) (ra_address a) ax_set_addr ;; (raise EValue : M unit axi_in ax_out unit))) w).
  - assert (G : forall w' k, (_ <- assign (x_awidth c) (ra_address a) ax_set_addr ;; k) w' = (@Exn unit EValue, w')).
    { intros w' k. unfold bind. rewrite assign_wide by exact H. reflexivity. }
    rewrite <- (sync_edges (ra_sync a) 0). unfold bind at 1. symmetry. unfold bind at 1. destruct (x_when (ra_sync a) edge w) as [[] w']; try reflexivity.
    cbn [edges]. unfold bind at 1. cbn [ret]. rewrite !G. reflexivity.
  - apply waits_then_raises. intro w'. apply assign_wide. exact H.
Qed.
Lemma w_waits c fuel (x : waccess * Z) : wa_value (fst x) <> [] -> has_enable (fst x) = false -> only_waits 0 EIndex (w_job c fuel x).
Proof.
  destruct x as [a s]. cbn [fst]. unfold has_enable. intros H1 H2. destruct (wa_be a) eqn:E; [|discriminate].
  exists 0. split; [apply le_n|]. intro w. unfold w_job, send_write_data. rewrite E. unfold write_beats, strobes. destruct (wa_value a); [contradiction H1; reflexivity|]. reflexivity.
Qed.
(** ** writes *)
Lemma serve_ext {TO A B R} (body : A -> M unit axi_in TO R) (body' : B -> M unit axi_in TO R) (g : A -> B) : (forall a, body' (g a) = body a) ->
  forall jobs w, snd (serve body' (map (fun x => (fst x, g (snd x))) jobs) w) = snd (serve body jobs w) /\
    map snd (fst (serve body' (map (fun x => (fst x, g (snd x))) jobs) w)) = map snd (fst (serve body jobs w)).
Proof.
  intro H. induction jobs as [|[t a] r IH]; intro w; [split; reflexivity|]. cbn [map serve fst snd]. rewrite H.
  destruct ((edges (t - length (trace w)) ;; body a) w) as [x w1]. specialize (IH w1).
  destruct (serve body' (map (fun x => (fst x, g (snd x))) r) w1) as [rs v], (serve body r w1) as [rs' v']. cbn [snd fst] in IH. destruct IH as [-> IH].
  destruct x; cbn [fst snd map]; rewrite ?IH; split; reflexivity.
Qed.
Lemma serve_prefix {TO A R} (body : A -> M unit axi_in TO R) jobs : forall w,
  map (fun x => fst (fst x)) (fst (serve body jobs w)) = firstn (length (fst (serve body jobs w))) (map snd jobs).
Proof.
  induction jobs as [|[t a] r IH]; intro w; [reflexivity|]. cbn [serve]. destruct ((edges (t - length (trace w)) ;; body a) w) as [x w1].
  specialize (IH w1). destruct (serve body r w1) as [rs v]. cbn [fst] in IH. destruct x; cbn [fst map length firstn snd]; rewrite ?IH; reflexivity.
Qed.
Lemma later_in {A} (x y : list (nat * A)) : later x y -> map snd x = map snd y.
Proof. induction 1 as [|a b x y [E _] _ IH]; [reflexivity|]. cbn [map]. rewrite E, IH. reflexivity. Qed.

Section Writes.
Context (c : axi_cfg) (fuel : nat) (calls : list (nat * waccess)) (p : phase) (oa : ax_out) (ow : w_out) (l : list axi_in).
Hypothesis Hb : axi_bus c.
Hypothesis F : Forall (fun x => write_call_any c (snd x)) calls.
Hypothesis Hp : p <> PReadOnly.
Hypothesis Ho1 : aw_offered oa = false.
Hypothesis Ho2 : w_offered ow = false.
Hypothesis Hl : length l < fuel.
Notation accesses := (map snd calls).

Lemma admitted_any : admitted (write_check c) calls = map (sized c) calls.
Proof using Hb F.
  clear - Hb F. induction F as [|[t a] cs (Hl & _) _ IH]; [reflexivity|].
  cbn [admitted flat_map map fst snd]. unfold write_check at 1. cbn [snd] in Hl. destruct (legal_facts c _ _ _ _ Hb Hl) as (-> & _). cbn [app]. f_equal. apply IH. inversion F; assumption.
Qed.
(** the jobs left by [serve_drop], as calls *)
Definition as_calls (jobs : list (nat * (waccess * Z))) : list (nat * waccess) := map (fun j => (fst j, fst (snd j))) jobs.
Lemma as_calls_ok (f : waccess -> bool) jobs' : later (filter (fun x => f (fst (snd x))) (map (sized c) calls)) jobs' ->
  map (sized c) (as_calls jobs') = jobs' /\ map snd (as_calls jobs') = filter f accesses /\
  Forall (fun x => write_call_any c (snd x) /\ f (snd x) = true) (as_calls jobs').
Proof using F.
  intro L. apply later_in in L.
  assert (E : map snd (filter (fun x => f (fst (snd x))) (map (sized c) calls)) = map (fun a => (a, size_or (x_bytes c) (wa_size a))) (filter f accesses)).
  { clear. induction calls as [|[t a] cs IH]; [reflexivity|]. cbn [map filter sized fst snd]. destruct (f a); cbn [map snd]; rewrite IH; reflexivity. }
  rewrite E in L. clear E.
  assert (G : Forall (fun a => write_call_any c a /\ f a = true) (filter f accesses)).
  { apply Forall_forall. intros a Ha. apply filter_In in Ha. destruct Ha as [Ha E]. split; [|exact E]. rewrite Forall_forall in F.
    apply in_map_iff in Ha. destruct Ha as (x & <- & Hi). apply F. exact Hi. }
  revert L G. clear. generalize (filter f accesses) as q. induction jobs' as [|[t [a s]] r IH]; intros [|b q] L G; try discriminate; [repeat split; constructor|].
  cbn [map snd] in L. inversion L; subst. inversion G; subst. destruct (IH q) as (I1 & I2 & I3); [assumption|assumption|].
  cbn [as_calls map sized fst snd]. unfold as_calls in *. rewrite I1, I2. repeat split. constructor; assumption.
Qed.

Lemma outcomes {A} (rs : list (A * nat * outcome unit)) (f : A -> bool) e :
  Forall (fun x => snd x = Done tt) (filter (fun x => f (fst (fst x))) rs) ->
  Forall (fun x => f (fst (fst x)) = false -> snd x = Exn e) rs ->
  Forall (fun x => snd x = if f (fst (fst x)) then Done tt else Exn e) rs.
Proof using.
  intros H1 H2. rewrite Forall_forall in *. intros x Hin. destruct (f (fst (fst x))) eqn:E; [|apply H2; assumption].
  apply H1. apply filter_In. split; assumption.
Qed.

(** a byte enable for the calls that have none: the address channel does not use them *)
Definition enabled (a : waccess) : waccess :=
  WAccess (wa_address a) (wa_value a) (wa_size a) (wa_burst a) [None] (wa_alat a) (wa_dlat a) (wa_sync a).

Lemma aw_any : 
  let full := past (snd (serve (aw_job c fuel) (map (sized c) calls) (World tt p oa [] l))) in
  map fst full = l /\ stable aw_offered aw_accepts full /\
  (exists k, map (decode c) (transfers aw_offered aw_accepts full) = firstn k (map (write_request c) (filter (fun a => address_fits c (wa_address a)) accesses))) /\
  Forall (fun x => snd x = if address_fits c (wa_address (fst (fst (fst x)))) then Done tt else Exn EValue)
    (fst (serve (aw_job c fuel) (map (sized c) calls) (World tt p oa [] l))).
Proof using All.
  set (f := fun a => address_fits c (wa_address a)).
  destruct (serve_drop (aw_job c fuel) (fun x => f (fst x)) EValue (fun x H => ex_intro (fun b => only_waits b EValue (aw_job c fuel x)) _ (aw_waits c fuel x H)) (map (sized c) calls) (World tt p oa [] l)) as (jobs' & L & D).
  destruct (as_calls_ok f jobs' L) as (E1 & E2 & E3).
  destruct (serve (aw_job c fuel) (map (sized c) calls) (World tt p oa [] l)) as [rs v].
  set (calls' := map (fun x => (fst x, enabled (snd x))) (as_calls jobs')).
  assert (O : writes_ok c fuel calls' p oa ow l).
  { repeat (split; [assumption|]). split; [|auto]. subst calls'. apply Forall_map. eapply Forall_impl; [|exact E3]. intros x ((H1 & H2 & H3) & H4).
    subst f. cbn beta in H4. apply Z.ltb_lt in H4. split; [exact H1|split; [split; [exact H2|exact H4]|split; [discriminate|exact H3]]]. }
  pose proof (aw_channel c fuel calls' p oa ow l O) as C.
  assert (S : snd (serve (aw_job c fuel) (map (sized c) calls') (World tt p oa [] l)) = snd (serve (aw_job c fuel) jobs' (World tt p oa [] l)) /\
              map snd (fst (serve (aw_job c fuel) (map (sized c) calls') (World tt p oa [] l))) = map snd (fst (serve (aw_job c fuel) jobs' (World tt p oa [] l)))).
  { pose proof (serve_ext (aw_job c fuel) (aw_job c fuel) (fun x => (enabled (fst x), snd x)) (fun '(a, s) => eq_refl) (map (sized c) (as_calls jobs')) (World tt p oa [] l)) as X.
    rewrite E1 in X at 2 4. destruct X as [X1 X2]. rewrite <- X1, <- X2. subst calls'. rewrite !map_map. split; reflexivity. }
  destruct (serve (aw_job c fuel) (map (sized c) calls') (World tt p oa [] l)) as [rs1 v1].
  destruct (serve (aw_job c fuel) jobs' (World tt p oa [] l)) as [rs' v']. cbn [fst snd] in *. destruct S as [-> S].
  destruct D as (D1 & D & D3). destruct C as (C1 & C2 & C4 & _ & C3 & _). fold (past v') in C1, C2, C3. rewrite D in *.
  split; [exact C1|]. split; [exact C2|]. split.
  - destruct C3 as (k & C3). exists k. rewrite C3. f_equal. rewrite <- E2. subst calls'. rewrite !map_map. reflexivity.
  - apply (outcomes rs (fun x => f (fst x)) EValue); [|exact D3]. rewrite <- D1.
    apply (proj1 (Forall_map snd (fun y => y = Done tt) rs')). rewrite <- S. apply Forall_map. exact C4.
Qed.

(** an address signal wide enough for all calls: the data channel does not use it *)
Definition widened (n : nat) : axi_cfg := AxiCfg (x_width c) n (x_full c) (x_wlast c).
Lemma wide_enough : exists n, Forall (fun x => (wa_address (snd x) < 2 ^ Z.of_nat n)%Z) calls.
Proof using Hb F.
  clear - F. assert (G : exists z, (0 <= z)%Z /\ Forall (fun x => (wa_address (snd x) < 2 ^ z)%Z) calls).
  { induction F as [|[t a] cs (_ & H & _) _ IH0]; [exists 0%Z; split; [lia|constructor]|].
    destruct IH0 as (z & Hz & IH); [inversion F; assumption|].
    cbn [snd] in H. exists (Z.max z (wa_address a))%Z. split; [lia|]. constructor.
    - cbn [snd]. assert (wa_address a < 2 ^ wa_address a)%Z by (apply Z.pow_gt_lin_r; lia).
      assert (2 ^ wa_address a <= 2 ^ Z.max z (wa_address a))%Z by (apply Z.pow_le_mono_r; lia). lia.
    - eapply Forall_impl; [|exact IH]. cbn beta. intros x Hlt. assert (2 ^ z <= 2 ^ Z.max z (wa_address a))%Z by (apply Z.pow_le_mono_r; lia). lia. }
  destruct G as (z & Hz & G). exists (Z.to_nat z). rewrite Z2Nat.id by exact Hz. exact G.
Qed.
Lemma w_any : 
  let full := past (snd (serve (w_job c fuel) (map (sized c) calls) (World tt p ow [] l))) in
  let sent := filter has_enable accesses in
  map fst full = l /\ stable w_offered w_accepts full /\
  (exists bs k, Forall2 (beats_of_write c) sent bs /\ map beat_of (transfers w_offered w_accepts full) = firstn k (concat bs) /\
     (x_wlast c = true -> map x_last (transfers w_offered w_accepts full) = firstn k (flat_map (fun a => lasts (length (wa_value a))) sent))) /\
  Forall (fun x => snd x = if has_enable (fst (fst (fst x))) then Done tt else Exn EIndex)
    (fst (serve (w_job c fuel) (map (sized c) calls) (World tt p ow [] l))).
Proof using All.
  assert (P : Forall (fun x => wa_value (snd x) <> []) calls).
  { eapply Forall_impl; [|exact F]. intros x (H & _) E. destruct (legal_facts c _ _ _ _ Hb H) as (_ & _ & _ & N & _). rewrite E in N. cbn [length] in N. lia. }
  set (f := fun x : waccess * Z => match wa_value (fst x) with [] => true | _ => has_enable (fst x) end).
  destruct (serve_drop (w_job c fuel) f EIndex) with (jobs := map (sized c) calls) (w := World tt p ow [] l) as (jobs' & L & D).
  { intros x H. subst f. cbn beta in H. eexists. apply w_waits; destruct (wa_value (fst x)); try discriminate; exact H. }
  assert (Ef : filter (fun x => f (snd x)) (map (sized c) calls) = filter (fun x => has_enable (fst (snd x))) (map (sized c) calls)).
  { clear - P. induction P as [|x cs H _ IH]; [reflexivity|]. cbn [map filter]. rewrite IH. subst f. cbn [sized snd fst]. destruct (wa_value (snd x)); [contradiction H; reflexivity|reflexivity]. }
  rewrite Ef in L. destruct (as_calls_ok has_enable jobs' L) as (E1 & E2 & E3). destruct wide_enough as (n & W).
  assert (O : writes_ok (widened n) fuel (as_calls jobs') p oa ow l).
  { split; [exact Hb|]. split; [|auto]. 
    assert (W' : Forall (fun x => (wa_address (snd x) < 2 ^ Z.of_nat n)%Z) (as_calls jobs')).
    { apply (proj2 (Forall_map snd (fun a => (wa_address a < 2 ^ Z.of_nat n)%Z) calls)) in W. apply (Forall_map snd (fun a => (wa_address a < 2 ^ Z.of_nat n)%Z)). rewrite E2. apply Forall_forall. intros a Ha. apply filter_In in Ha. rewrite Forall_forall in W. apply W. apply Ha. }
    apply Forall_forall. intros x Hi. rewrite Forall_forall in E3, W'. destruct (E3 x Hi) as ((H1 & H2 & H3) & H4).
    split; [exact H1|]. split; [split; [exact H2|exact (W' x Hi)]|]. split; [|exact H3]. intro E. unfold has_enable in H4. rewrite E in H4. discriminate. }
  destruct (w_channel (widened n) fuel (as_calls jobs') p oa ow l O) as (bs & B & C).
  change (w_job (widened n) fuel) with (w_job c fuel) in C. change (map (sized (widened n)) (as_calls jobs')) with (map (sized c) (as_calls jobs')) in C.
  rewrite E1 in C.
  pose proof (serve_prefix (w_job c fuel) (map (sized c) calls) (World tt p ow [] l)) as Px.
  destruct (serve (w_job c fuel) (map (sized c) calls) (World tt p ow [] l)) as [rs v].
  destruct (serve (w_job c fuel) jobs' (World tt p ow [] l)) as [rs' v']. cbn [fst snd] in *. destruct D as (D1 & D & D3).
  destruct C as (C1 & C2 & C5 & _ & (k & C3 & C4) & _). fold (past v') in C1, C2, C3, C4. rewrite D in *. 
  cbn zeta. split; [exact C1|]. split; [exact C2|]. split; [rewrite E2 in B, C4; exists bs, k; split; [exact B|]; split; [exact C3|exact C4]|].
  rewrite D1 in C5. pose proof (outcomes rs f EIndex C5 D3) as O'. rewrite Forall_forall in O' |- *. intros x Hi. rewrite (O' x Hi).
  assert (Hv : wa_value (fst (fst (fst x))) <> []).
  { assert (Hj : In (fst (fst x)) (map snd (map (sized c) calls))).
    { rewrite <- (firstn_skipn (length rs)), <- Px. apply in_or_app. left. apply (in_map (fun x => fst (fst x))). exact Hi. }
    rewrite map_map in Hj. apply in_map_iff in Hj. destruct Hj as (y & <- & Hy). rewrite Forall_forall in P. apply P. exact Hy. }
  subst f. cbn beta. destruct (wa_value (fst (fst (fst x)))); [contradiction Hv; reflexivity|reflexivity].
Qed.

Lemma writes_any :
  let r := concurrent_writes c fuel calls p oa ow l in
  let addressed := filter (fun a => address_fits c (wa_address a)) accesses in
  let sent := filter has_enable accesses in
  map fst (ws_aw r) = l /\ map fst (ws_w r) = l /\
  stable aw_offered aw_accepts (ws_aw r) /\ stable w_offered w_accepts (ws_w r) /\
  (exists k, map (decode c) (transfers aw_offered aw_accepts (ws_aw r)) = firstn k (map (write_request c) addressed)) /\
  (exists bs k, Forall2 (beats_of_write c) sent bs /\ map beat_of (transfers w_offered w_accepts (ws_w r)) = firstn k (concat bs) /\
     (x_wlast c = true -> map x_last (transfers w_offered w_accepts (ws_w r)) = firstn k (flat_map (fun a => lasts (length (wa_value a))) sent))).
Proof using All.
  pose proof aw_any as A. pose proof w_any as W. cbn zeta in *. unfold concurrent_writes. rewrite admitted_any.
  destruct (serve (aw_job c fuel) (map (sized c) calls) (World tt p oa [] l)) as [ra va]. destruct (serve (w_job c fuel) (map (sized c) calls) (World tt p ow [] l)) as [rw vw].
  destruct (serve _ (by_time (joined 0 ra rw)) _) as [rb vb]. cbn [ws_aw ws_w snd] in *. unfold past in A, W.
  destruct A as (A1 & A2 & A3 & _). destruct W as (W1 & W2 & W3 & _). repeat (split; [assumption|]). exact W3.
Qed.

(** the results *)
Lemma joined_in {A} (ra rw : list (A * nat * outcome unit)) : forall i,
  NoDup (map snd (joined i ra rw)) /\
  forall t k, In (t, k) (joined i ra rw) -> i <= k /\ exists x y, nth_error ra (k - i) = Some x /\ nth_error rw (k - i) = Some y /\ snd x = Done tt /\ snd y = Done tt.
Proof using.
  clear. revert rw. induction ra as [|[[a na] xa] ra IH]; intros rw i; [split; [constructor|intros ? ? []]|].
  destruct rw as [|[[b nw] xw] rw]; [destruct xa; (split; [constructor|intros ? ? []])|].
  destruct (IH rw (S i)) as [N H].
  assert (H' : forall t k, In (t, k) (joined (S i) ra rw) -> i <= k /\ exists x y, nth_error ((a, na, xa) :: ra) (k - i) = Some x /\ nth_error ((b, nw, xw) :: rw) (k - i) = Some y /\ snd x = Done tt /\ snd y = Done tt).
  { intros t k Hi. destruct (H t k Hi) as [L E]. split; [lia|]. replace (k - i) with (S (k - S i)) by lia. exact E. }
  destruct xa as [[]| | |]; try (split; [exact N|exact H']). destruct xw as [[]| | |]; try (split; [exact N|exact H']).
  cbn [joined]. split.
  - cbn [map snd]. constructor; [|exact N]. intro Hi. apply in_map_iff in Hi. destruct Hi as ([t k] & <- & Hi). destruct (H t k Hi). cbn [snd] in *. lia.
  - intros t k [[= <- <-]|Hi]; [|apply (H' t), Hi]. split; [lia|]. rewrite Nat.sub_diag. eexists _, _. repeat split.
Qed.
Lemma insert_perm x y : Permutation (insert_time x y) (x :: y).
Proof using. clear. induction y as [|z y IH]; [reflexivity|]. cbn [insert_time]. destruct (fst x <? fst z); [reflexivity|]. rewrite IH. apply perm_swap. Qed.
Lemma by_time_perm x : Permutation (by_time x) x.
Proof using.
  clear. unfold by_time. assert (G : forall x acc, Permutation (fold_left (fun acc x => insert_time x acc) x acc) (x ++ acc)).
  { clear. induction x as [|a x IH]; intro acc; [reflexivity|]. cbn [fold_left app]. rewrite IH, insert_perm. symmetry. apply Permutation_middle. }
  rewrite G, app_nil_r. reflexivity.
Qed.
Lemma raised_in {A} (ra rw : list (A * nat * outcome unit)) :
  NoDup (map fst (raised ra rw)) /\
  forall k x, In (k, x) (raised ra rw) -> (exists y e, nth_error ra k = Some y /\ snd y = Exn e /\ x = Exn e) \/ (exists y e, nth_error rw k = Some y /\ snd y = Exn e /\ x = Exn e).
Proof using.
  clear. unfold raised. generalize (Nat.max (length ra) (length rw)). intro n. generalize 0. 
  induction n as [|n IH]; intro s; [split; [constructor|intros ? ? []]|].
  destruct (IH (S s)) as [N H]. cbn [seq flat_map].
  assert (L : forall k (x : outcome unit), In (k, x) (flat_map (fun i =>
      match nth_error ra i, nth_error rw i with
      | Some (_, na, Exn e), Some (_, nw, Exn f) => [(i, Exn (if nw <? na then f else e))]
      | Some (_, _, Exn e), _ | _, Some (_, _, Exn e) => [(i, Exn e)]
      | _, _ => []
      end) (seq (S s) n)) -> s < k).
  { intros k x Hi. apply in_flat_map in Hi. destruct Hi as (i & Hs & Hi). apply in_seq in Hs.
    destruct (nth_error ra i) as [[[a na] [| | |]]|], (nth_error rw i) as [[[b nw] [| | |]]|]; cbn [In] in Hi;
      repeat (destruct Hi as [Hi|Hi]; [injection Hi as <- _; lia|]); contradiction. }
  set (q := flat_map _ (seq (S s) n)) in *.
  assert (G : forall h, (h = [] \/ exists x, h = [(s, x)] /\ ((exists y e, nth_error ra s = Some y /\ snd y = Exn e /\ x = Exn e) \/ (exists y e, nth_error rw s = Some y /\ snd y = Exn e /\ x = Exn e))) ->
    NoDup (map fst (h ++ q)) /\ forall k x, In (k, x) (h ++ q) -> (exists y e, nth_error ra k = Some y /\ snd y = Exn e /\ x = Exn e) \/ (exists y e, nth_error rw k = Some y /\ snd y = Exn e /\ x = Exn e)).
  { intros h [->|(x & -> & Hx)]; [split; assumption|]. cbn [app map fst]. split.
    - constructor; [|exact N]. intro Hi. apply in_map_iff in Hi. destruct Hi as ([k y] & <- & Hi). apply L in Hi. cbn [fst] in Hi. lia.
    - intros k y [[= <- <-]|Hi]; [exact Hx|exact (H k y Hi)]. }
  apply G. destruct (nth_error ra s) as [[[a na] xa]|] eqn:Ea, (nth_error rw s) as [[[b nw] xw]|] eqn:Ew;
    try destruct xa; try destruct xw; try (left; reflexivity); right;
    try (destruct (nw <? na)); eexists; (split; [reflexivity|]); first [left; eexists _, _; split; [reflexivity|]; split; reflexivity | right; eexists _, _; split; [reflexivity|]; split; reflexivity].
Qed.
Lemma resp_in jobs : Forall (fun i => b_valid i = true -> bval (g_bresp i) <> None) l ->
  forall (w : world unit axi_in unit), (exists pre, l = pre ++ ins w) -> ph w <> PReadOnly ->
  Forall (fun x => exists b, In b (b_responses l) /\ snd x = response_outcome b)
    (fst (serve (fun _ : nat => write_response (TO := unit) fuel) jobs w)).
Proof using Hl.
  clear - Hl.
  intro R. induction jobs as [|[t a] jobs IH]; intros [s q [] tr L] [pre E] Hq; [constructor|]. cbn [ins ph] in *. cbn [serve].
  unfold bind at 1. rewrite edges_spec. cbn [ins st ph out trace]. set (d := t - length tr). destruct (d <=? length L) eqn:Ed; [|constructor].
  set (q1 := match d with 0 => q | _ => PActive end).
  assert (Hq1 : q1 <> PReadOnly) by (unfold q1; destruct d; [exact Hq|discriminate]).
  assert (Hy : length (skipn d L) < fuel) by (rewrite skipn_length, E, app_length in *; lia).
  destruct (response_spec fuel (skipn d L) s q1 tt (tr ++ held tt (firstn d L)) Hq1 Hy) as [q' Er]. rewrite Er. clear Er.
  pose proof (span_app b_valid (skipn d L)) as Sp. pose proof (fun i r => span_snd b_valid (skipn d L) i r) as Ss.
  destruct (span b_valid (skipn d L)) as [nr [|i r]]; cbn [fst snd] in *; [constructor|]. specialize (Ss i r eq_refl).
  assert (E' : l = (pre ++ firstn d L ++ nr ++ [i]) ++ r).
  { rewrite E, <- (firstn_skipn d L) at 1. rewrite <- Sp, <- !app_assoc. reflexivity. }
  assert (Hi : In i l) by (rewrite E'; apply in_or_app; left; apply in_or_app; right; apply in_or_app; right; apply in_or_app; right; left; reflexivity).
  rewrite Forall_forall in R. specialize (R i Hi Ss). destruct (bval (g_bresp i)) as [v|] eqn:V; [|contradiction R; reflexivity].
  assert (G : exists b, In b (b_responses l) /\ (if (v =? 0)%Z then Done tt else Exn (EAXIProtocol v)) = response_outcome b).
  { exists (g_bresp i). split; [apply in_map, filter_In; split; assumption|]. unfold response_outcome. rewrite V. reflexivity. }
  specialize (IH (World s PActive tt ((tr ++ held tt (firstn d L)) ++ held tt (nr ++ [i])) r) (ex_intro _ _ E') ltac:(discriminate)).
  destruct (serve _ jobs _) as [rs v']. cbn [fst] in IH. destruct (v =? 0)%Z; constructor; assumption.
Qed.

Lemma writes_any_results : Forall (fun i => b_valid i = true -> bval (g_bresp i) <> None) l ->
  let r := concurrent_writes c fuel calls p oa ow l in
  NoDup (map fst (ws_results r)) /\
  forall k x, In (k, x) (ws_results r) -> exists a, nth_error accesses k = Some a /\
    (x = Exn EValue /\ address_fits c (wa_address a) = false \/ x = Exn EIndex /\ has_enable a = false \/
     ~ fails c a /\ exists b, In b (b_responses l) /\ x = response_outcome b).
Proof using All.
  intro R. pose proof aw_any as (_ & _ & _ & A). pose proof w_any as (_ & _ & _ & W). cbn zeta. unfold concurrent_writes. rewrite admitted_any.
  pose proof (serve_prefix (aw_job c fuel) (map (sized c) calls) (World tt p oa [] l)) as Pa.
  pose proof (serve_prefix (w_job c fuel) (map (sized c) calls) (World tt p ow [] l)) as Pw.
  destruct (serve (aw_job c fuel) (map (sized c) calls) (World tt p oa [] l)) as [ra va]. destruct (serve (w_job c fuel) (map (sized c) calls) (World tt p ow [] l)) as [rw vw].
  cbn [fst] in *.
  assert (N : forall (q : list (waccess * Z * nat * outcome unit)) k y, map (fun x => fst (fst x)) q = firstn (length q) (map snd (map (sized c) calls)) -> nth_error q k = Some y ->
              nth_error accesses k = Some (fst (fst (fst y)))).
  { intros q k y E Hk. apply (map_nth_error (fun x => fst (fst x))) in Hk. rewrite E in Hk.
    assert (Hk' : nth_error (map snd (map (sized c) calls)) k = Some (fst (fst y))).
    { clear - Hk. revert k Hk. generalize (length q). generalize (map snd (map (sized c) calls)). intros z n. revert z. induction n as [|n IH]; intros [|b z] [|k] Hk; try discriminate; [exact Hk|]. apply (IH z k Hk). }
    rewrite map_map in Hk'. clear - Hk'. revert k Hk'. induction calls as [|b cs IH]; intros [|k] Hk'; try discriminate; cbn [map nth_error sized snd fst] in *; [injection Hk' as <-; reflexivity|]. apply IH. exact Hk'. }
  pose proof (serve_prefix (fun _ : nat => write_response (TO := unit) fuel) (by_time (joined 0 ra rw)) (World tt p tt [] l)) as Pb.
  pose proof (resp_in (by_time (joined 0 ra rw)) R (World tt p tt [] l) (ex_intro _ [] eq_refl) Hp) as Hr.
  destruct (serve _ (by_time (joined 0 ra rw)) _) as [rb vb]. cbn [ws_results fst] in *.
  destruct (raised_in ra rw) as [R1 R2]. destruct (joined_in ra rw 0) as [J1 J2].
  assert (Jn : NoDup (map (fun x => fst (fst x)) rb)).
  { rewrite Pb. apply (NoDup_app_l _ (skipn (length rb) (map snd (by_time (joined 0 ra rw))))). rewrite firstn_skipn.
    apply (Permutation_NoDup (l := map snd (joined 0 ra rw))); [apply Permutation_map; symmetry; apply by_time_perm|exact J1]. }
  assert (Ji : forall k, In k (map (fun x => fst (fst x)) rb) -> exists x y, nth_error ra k = Some x /\ nth_error rw k = Some y /\ snd x = Done tt /\ snd y = Done tt).
  { intros k Hk. rewrite Pb in Hk. assert (Hk' : In k (map snd (joined 0 ra rw))).
    { apply (Permutation_in k (Permutation_map snd (by_time_perm (joined 0 ra rw)))). rewrite <- (firstn_skipn (length rb)). apply in_or_app. left. exact Hk. }
    apply in_map_iff in Hk'. destruct Hk' as ([t k'] & <- & Hi). destruct (J2 t k' Hi) as [_ H]. rewrite Nat.sub_0_r in H. exact H. }
  rewrite Forall_forall in A, W, Hr. rewrite map_app, map_map. cbn [fst]. split.
  - apply NoDup_app_intro; [exact R1|exact Jn|]. intros k H1 H2. apply in_map_iff in H1. destruct H1 as ([k' x] & <- & H1). cbn [fst] in H2.
    destruct (Ji _ H2) as (xa & xw & E1 & E2 & E3 & E4). destruct (R2 _ _ H1) as [(y & e & F1 & F2 & _)|(y & e & F1 & F2 & _)]; congruence.
  - intros k x Hi. apply in_app_or in Hi. destruct Hi as [Hi|Hi].
    + destruct (R2 _ _ Hi) as [(y & e & F1 & F2 & ->)|(y & e & F1 & F2 & ->)].
      * exists (fst (fst (fst y))). split; [apply (N ra); assumption|]. left. rewrite (A y (nth_error_In _ _ F1)) in F2.
        destruct (address_fits c (wa_address (fst (fst (fst y))))); [discriminate|]. injection F2 as <-. split; reflexivity.
      * exists (fst (fst (fst y))). split; [apply (N rw); assumption|]. right. left. rewrite (W y (nth_error_In _ _ F1)) in F2.
        destruct (has_enable (fst (fst (fst y)))); [discriminate|]. injection F2 as <-. split; reflexivity.
    + apply in_map_iff in Hi. destruct Hi as (z & [= <- <-] & Hz). destruct (Ji (fst (fst z)) (in_map (fun x => fst (fst x)) _ _ Hz)) as (xa & xw & E1 & E2 & E3 & E4).
      pose proof (N ra _ _ Pa E1) as N1. pose proof (N rw _ _ Pw E2) as N2. exists (fst (fst (fst xa))). split; [exact N1|]. right. right. split; [|exact (Hr z Hz)].
      rewrite N1 in N2. injection N2 as N2. rewrite (A xa (nth_error_In _ _ E1)) in E3. rewrite (W xw (nth_error_In _ _ E2)), <- N2 in E4.
      intros [H|H]; [rewrite H in E3|rewrite H in E4]; discriminate.
Qed.
End Writes.
(** ** reads *)
Section Reads.
Context (c : axi_cfg) (fuel : nat) (calls : list (nat * raccess)) (p : phase) (o : ax_out) (l : list axi_in).
Lemma radmitted_snd : forall x, In x (admitted (read_check c) calls) -> read_check c (fst (snd x)) = Ok (snd (snd x)).
Proof.
  intros x H. unfold admitted in H. apply in_flat_map in H. destruct H as (y & _ & H). destruct (read_check c (snd y)) eqn:E; [|contradiction].
  destruct H as [<-|[]]. exact E.
Qed.
Definition as_reads (jobs : list (nat * (raccess * Z))) : list (nat * raccess) := map (fun j => (fst j, fst (snd j))) jobs.
Lemma admitted_back jobs : Forall (fun x => read_check c (fst (snd x)) = Ok (snd (snd x))) jobs -> admitted (read_check c) (as_reads jobs) = jobs.
Proof.
  induction 1 as [|[t [a s]] r E _ IH]; [reflexivity|]. cbn [fst snd] in E. unfold admitted, as_reads in *. cbn [map flat_map fst snd]. rewrite E. cbn [app]. f_equal. exact IH.
Qed.
Lemma addressed_good (f : raccess * Z -> bool) rs : Forall (fun x : raccess * Z * nat * outcome unit => f (fst (fst x)) = false -> snd x = Exn EValue) rs ->
  addressed (filter (fun x => f (fst (fst x))) rs) = addressed rs.
Proof.
  induction 1 as [|[[a n] x] r H _ IH]; [reflexivity|]. cbn [filter fst snd] in *. destruct (f a).
  - cbn [addressed flat_map]. f_equal. exact IH.
  - rewrite (H eq_refl). cbn [addressed flat_map app]. exact IH.
Qed.

Lemma reads_any : exists calls', later (filter (fun x => address_fits c (ra_address (snd x))) (filter (fun x => match read_check c (snd x) with Ok _ => true | Err _ => false end) calls)) calls' /\
  concurrent_reads c fuel calls p o l = concurrent_reads c fuel calls' p o l.
Proof.
  set (f := fun x : raccess * Z => address_fits c (ra_address (fst x))).
  destruct (serve_drop (ar_job c fuel) f EValue (fun x H => ex_intro (fun b => only_waits b EValue (ar_job c fuel x)) _ (ar_waits c fuel x H)) (admitted (read_check c) calls) (World tt p o [] l)) as (jobs' & L & D).
  exists (as_reads jobs'). 
  assert (C : Forall (fun x => read_check c (fst (snd x)) = Ok (snd (snd x))) jobs').
  { apply Forall_forall. intros x Hx. apply (in_map snd) in Hx. rewrite <- (later_in _ _ L) in Hx. apply in_map_iff in Hx. destruct Hx as (y & Ey & Hy).
    rewrite <- Ey. apply radmitted_snd. apply filter_In in Hy. apply Hy. }
  split.
  - assert (G : filter (fun x => address_fits c (ra_address (snd x))) (filter (fun x => match read_check c (snd x) with Ok _ => true | Err _ => false end) calls)
                = as_reads (filter (fun x => f (snd x)) (admitted (read_check c) calls))).
    { clear. induction calls as [|[t a] cs IH]; [reflexivity|]. cbn [filter admitted flat_map snd fst]. destruct (read_check c a); [|exact IH].
      cbn [filter app snd]. subst f. cbn beta in *. cbn [fst]. destruct (address_fits c (ra_address a)); [cbn [as_reads map fst snd]; f_equal|]; exact IH. }
    rewrite G. clear - L. unfold later in *. induction L as [|x y xs ys [E1 E2] _ IH]; constructor; [cbn [fst snd]; rewrite E1; auto|exact IH].
  - unfold concurrent_reads. rewrite (admitted_back jobs' C).
    destruct (serve (ar_job c fuel) (admitted (read_check c) calls) (World tt p o [] l)) as [rs v], (serve (ar_job c fuel) jobs' (World tt p o [] l)) as [rs' v'].
    destruct D as (-> & D & H). unfold past in D. rewrite D, (addressed_good f rs H). reflexivity.
Qed.
End Reads.

Lemma reads_good c fuel calls p o l : axi_bus c -> Forall (fun x => read_call_any c (snd x)) calls -> p <> PReadOnly -> aw_offered o = false -> length l < fuel ->
  exists calls', later (filter (fun x => address_fits c (ra_address (snd x))) calls) calls' /\ reads_ok c fuel calls' p o l /\
    concurrent_reads c fuel calls p o l = concurrent_reads c fuel calls' p o l.
Proof.
  intros Hb F Hp Ho Hl. destruct (reads_any c fuel calls p o l) as (calls' & L & E). exists calls'.
  assert (G : filter (fun x => match read_check c (snd x) with Ok _ => true | Err _ => false end) calls = calls).
  { clear - F Hb. induction F as [|[t a] cs (H & _) _ IH]; [reflexivity|]. cbn [filter snd]. cbn [snd] in H. unfold read_check at 1. destruct (legal_facts c _ _ _ _ Hb H) as (-> & _). f_equal. exact IH. }
  rewrite G in L. split; [exact L|]. split; [|exact E]. split; [exact Hb|]. split; [|auto].
  apply later_in in L. apply (Forall_map snd (read_call_ok c)). rewrite <- L. apply Forall_forall. intros a Ha. apply in_map_iff in Ha. destruct Ha as (x & <- & Hi).
  apply filter_In in Hi. destruct Hi as [Hi Hf]. rewrite Forall_forall in F. destruct (F x Hi) as (H1 & H2 & H3). unfold address_fits in Hf. apply Z.ltb_lt in Hf.
  split; [exact H1|]. split; [split; [exact H2|exact Hf]|exact H3].
Qed.

(** ** illegal parameters *)
Lemma without_illegal_same c calls calls' : axi_bus c -> without_illegal c calls calls' ->
  forall fuel p oa ow l, concurrent_writes c fuel calls p oa ow l = concurrent_writes c fuel calls' p oa ow l.
Proof.
  intros Hb W fuel p oa ow l. 
  assert (E : admitted (write_check c) calls = admitted (write_check c) calls').
  { induction W as [|t a calls calls' H W IH|x calls calls' W IH]; [reflexivity| |].
    - unfold admitted in *. cbn [flat_map fst snd]. unfold write_check at 1. destruct Hb as (P & L & E). destruct (check_params_spec (x_bytes c) (wa_address a) (Z.of_nat (length (wa_value a))) (wa_size a) (wa_burst a) P ltac:(lia)) as [_ K].
      rewrite K by exact H. exact IH.
    - unfold admitted in *. cbn [flat_map]. rewrite IH. reflexivity. }
  unfold concurrent_writes. rewrite E. reflexivity.
Qed.
(** ** the wrong data *)
Lemma write_beats_mod bus a1 a2 b size data be : (size | bus)%Z -> (0 < size)%Z -> (a1 mod bus = a2 mod bus)%Z ->
  write_beats bus a1 b size data be = write_beats bus a2 b size data be.
Proof.
  intros (q & Q) Hs E. assert (E' : (a1 mod size = a2 mod size)%Z).
  { destruct (Z.eq_dec bus 0) as [->|N]; [rewrite !Zmod_0_r in E; congruence|].
    pose proof (Z.div_mod a1 bus N). pose proof (Z.div_mod a2 bus N).
    replace a1 with (a1 mod bus + (bus * (a1 / bus)))%Z by lia. replace a2 with (a2 mod bus + (bus * (a2 / bus)))%Z by lia. rewrite E, Q.
    replace (q * size * (a1 / (q * size)))%Z with (q * (a1 / (q * size)) * size)%Z by ring. replace (q * size * (a2 / (q * size)))%Z with (q * (a2 / (q * size)) * size)%Z by ring.
    rewrite !Z.mod_add by lia. reflexivity. }
  unfold write_beats, unaligned. rewrite E, E'. reflexivity.
Qed.
Lemma beats_len c a bs : axi_bus c -> write_call_any c a -> wa_be a <> [] -> beats_of_write c a bs -> length bs = length (wa_value a).
Proof.
  intros Hb (Hl & _) Hbe E. destruct (beats_exist c _ _ _ _ (wa_value a) (wa_be a) Hb Hl eq_refl Hbe) as (b' & E' & L & _).
  unfold beats_of_write in E. rewrite E in E'. inversion E'; subst. exact L.
Qed.
Lemma firstn_nonempty {A} k (x : A) r : firstn k (x :: r) <> [] -> exists k', k = S k'.
Proof. destruct k; [intro H; contradiction H; reflexivity|]. eauto. Qed.
Lemma store_empty bus b size n a m x : store_burst bus b size n a m 0 [] x = m x.
Proof. reflexivity. Qed.

(** the data of [d] at the address of [a] *)
Definition mixed (a d : waccess) : waccess :=
  WAccess (wa_address a) (wa_value d) (wa_size a) (wa_burst a) (wa_be d) 0 0 false.
Lemma mixed_beats c a d bs : axi_bus c -> write_call_ok c a -> wa_size d = wa_size a -> wa_burst d = wa_burst a ->
  (wa_address d mod x_bytes c = wa_address a mod x_bytes c)%Z -> beats_of_write c d bs -> beats_of_write c (mixed a d) bs.
Proof.
  intros Hb (Hl & _) Es Eb Ea H. destruct (legal_facts c _ _ _ _ Hb Hl) as (_ & P & _ & _ & q & Q1 & Q2).
  unfold beats_of_write in *. cbn [mixed wa_address wa_value wa_size wa_burst wa_be]. rewrite <- H, <- Es, <- Eb.
  rewrite Es. symmetry. apply write_beats_mod; [exists q; exact Q2| |exact Ea]. destruct P as (k & Hk & ->). apply Z.pow_pos_nonneg; lia.
Qed.
Lemma mixed_stored c a d bs m x : axi_bus c -> write_call_ok c a -> wa_size d = wa_size a -> wa_burst d = wa_burst a -> wa_burst a <> WRAP ->
  length (wa_value d) = length (wa_value a) -> wa_be d <> [] ->
  (wa_address d mod x_bytes c = wa_address a mod x_bytes c)%Z -> beats_of_write c d bs ->
  store_burst (x_bytes c) (wa_burst a) (size_or (x_bytes c) (wa_size a)) (Z.of_nat (length (wa_value a))) (wa_address a) m 0 bs x =
  written (wa_burst a) (wa_address a) (size_or (x_bytes c) (wa_size a)) (wa_value d) (wa_be d) m x.
Proof.
  intros Hb Ha Es Eb Hw El Hbe Ea H. pose proof (mixed_beats c a d bs Hb Ha Es Eb Ea H) as Hm.
  assert (Ok : write_call_ok c (mixed a d)).
  { destruct Ha as (H1 & H2 & _ & _ & H5). unfold write_call_ok. cbn [mixed wa_address wa_value wa_size wa_burst wa_be wa_dlat]. rewrite El. split; [exact H1|split; [exact H2|split; [exact Hbe|split; [left; reflexivity|exact H5]]]]. }
  pose proof (stores_all c [mixed a d] [bs] Hb (Forall_cons _ Ok (Forall_nil _)) ltac:(constructor; [intro E; exfalso; exact (Hw E)|constructor]) (Forall2_cons _ _ Hm (Forall2_nil _)) m x) as S.
  cbn [map concat slave_stores write_request q_beats q_burst q_size q_address mixed wa_address wa_value wa_size wa_burst wa_be all_written fold_left] in S.
  rewrite app_nil_r, Nat2Z.id in S.
  assert (L : length bs = length (wa_value d)).
  { destruct Ok as (O1 & [O2 _] & O3 & O4). apply (beats_len c (mixed a d) bs Hb); [split; [exact O1|split; [exact O2|exact O4]]|exact O3|exact Hm]. }
  rewrite firstn_all2, El in S by lia. exact S.
Qed.

Lemma wide_address_wrong c fuel t1 bad t2 good p oa ow l m :
  axi_bus c -> p <> PReadOnly -> aw_offered oa = false -> w_offered ow = false -> length l < fuel ->
  write_call_any c bad -> address_fits c (wa_address bad) = false -> wa_be bad <> [] -> write_call_ok c good ->
  wa_size bad = wa_size good -> wa_burst bad = wa_burst good -> wa_burst good <> WRAP -> length (wa_value bad) = length (wa_value good) ->
  (wa_address bad mod x_bytes c = wa_address good mod x_bytes c)%Z ->
  let r := concurrent_writes c fuel [(t1, bad); (t2, good)] p oa ow l in
  let addresses := map (decode c) (transfers aw_offered aw_accepts (ws_aw r)) in
  let beats := map beat_of (transfers w_offered w_accepts (ws_w r)) in
  addresses <> [] -> length (wa_value good) <= length beats ->
  addresses = [write_request c good] /\
  forall x, slave_stores c addresses beats m x =
            written (wa_burst good) (wa_address good) (size_or (x_bytes c) (wa_size good)) (wa_value bad) (wa_be bad) m x.
Proof.
  intros Hb Hp Ho1 Ho2 Hl Hbad Hwide Hbe Hgood Es Eb Hw El Ea r addresses beats HA HB.
  assert (Ga : write_call_any c good /\ address_fits c (wa_address good) = true /\ has_enable good = true).
  { destruct Hgood as (G1 & G2 & G3 & G4). split; [split; [exact G1|split; [apply G2|exact G4]]|]. split; [apply Z.ltb_lt; apply G2|].
    unfold has_enable. destruct (wa_be good); [contradiction G3; reflexivity|reflexivity]. }
  destruct Ga as (Ga & Gf & Ge). assert (Be : has_enable bad = true) by (unfold has_enable; destruct (wa_be bad); [contradiction Hbe; reflexivity|reflexivity]).
  destruct (writes_any c fuel [(t1, bad); (t2, good)] p oa ow l Hb ltac:(constructor; [exact Hbad|constructor; [exact Ga|constructor]]) Hp Ho1 Ho2 Hl)
    as (_ & _ & _ & _ & (k & A) & bs & kw & B & W & _).
  fold r in A, W. fold addresses in A. fold beats in W. cbn [map snd filter] in A, B. rewrite Hwide, Gf in A. rewrite Be, Ge in B.
  cbn [map] in A. rewrite A in HA. destruct (firstn_nonempty _ _ _ HA) as (k' & ->). rewrite firstn_cons, firstn_nil in A. split; [exact A|].
  inversion B as [|? b1 ? ? B1 B2]; subst. inversion B2 as [|? b2 ? ? B3 B4]; subst. inversion B4; subst. clear B B2 B4.
  cbn [concat] in W. rewrite app_nil_r in W. intro x. rewrite A. cbn [slave_stores write_request q_beats q_burst q_size q_address]. rewrite Nat2Z.id.
  assert (L : length b1 = length (wa_value good)) by (rewrite <- El; exact (beats_len c bad b1 Hb Hbad Hbe B1)).
  assert (F1 : firstn (length (wa_value good)) beats = b1).
  { rewrite W in HB |- *. rewrite firstn_length in HB. rewrite firstn_firstn. replace (Nat.min (length (wa_value good)) kw) with (length (wa_value good)) by lia.
    rewrite <- L, firstn_app, Nat.sub_diag, firstn_all, firstn_O, app_nil_r. reflexivity. }
  rewrite F1. apply mixed_stored; assumption.
Qed.

Lemma no_enable_wrong c fuel t1 bad t2 good p oa ow l m :
  axi_bus c -> p <> PReadOnly -> aw_offered oa = false -> w_offered ow = false -> length l < fuel ->
  write_call_any c bad -> address_fits c (wa_address bad) = true -> wa_be bad = [] -> write_call_ok c good ->
  wa_size bad = wa_size good -> wa_burst bad = wa_burst good -> wa_burst good <> WRAP -> length (wa_value bad) = length (wa_value good) ->
  (wa_address bad mod x_bytes c = wa_address good mod x_bytes c)%Z ->
  let r := concurrent_writes c fuel [(t1, bad); (t2, good)] p oa ow l in
  let addresses := map (decode c) (transfers aw_offered aw_accepts (ws_aw r)) in
  let beats := map beat_of (transfers w_offered w_accepts (ws_w r)) in
  addresses <> [] -> length (wa_value good) <= length beats ->
  length beats = length (wa_value good) /\
  forall x, slave_stores c addresses beats m x =
            written (wa_burst good) (wa_address bad) (size_or (x_bytes c) (wa_size good)) (wa_value good) (wa_be good) m x.
Proof.
  intros Hb Hp Ho1 Ho2 Hl Hbad Hf Hbe Hgood Es Eb Hw El Ea r addresses beats HA HB.
  assert (Ga : write_call_any c good /\ address_fits c (wa_address good) = true /\ has_enable good = true).
  { destruct Hgood as (G1 & G2 & G3 & G4). split; [split; [exact G1|split; [apply G2|exact G4]]|]. split; [apply Z.ltb_lt; apply G2|].
    unfold has_enable. destruct (wa_be good); [contradiction G3; reflexivity|reflexivity]. }
  destruct Ga as (Ga & Gf & Ge). assert (Be : has_enable bad = false) by (unfold has_enable; rewrite Hbe; reflexivity).
  destruct (writes_any c fuel [(t1, bad); (t2, good)] p oa ow l Hb ltac:(constructor; [exact Hbad|constructor; [exact Ga|constructor]]) Hp Ho1 Ho2 Hl)
    as (_ & _ & _ & _ & (k & A) & bs & kw & B & W & _).
  fold r in A, W. fold addresses in A. fold beats in W. cbn [map snd filter] in A, B. rewrite Hf, Gf in A. rewrite Be, Ge in B.
  cbn [map] in A. rewrite A in HA. destruct (firstn_nonempty _ _ _ HA) as (k' & ->). rewrite firstn_cons in A.
  inversion B as [|? b1 ? ? B1 B2]; subst. inversion B2; subst. clear B B2.
  cbn [concat] in W. rewrite app_nil_r in W.
  assert (Gbe : wa_be good <> []) by apply Hgood.
  assert (L : length b1 = length (wa_value good)) by exact (beats_len c good b1 Hb Ga Gbe B1).
  assert (F1 : beats = b1).
  { rewrite W in HB |- *. rewrite firstn_length in HB. apply firstn_all2. lia. }
  rewrite F1. split; [exact L|]. intro x. rewrite A. cbn [slave_stores write_request q_beats q_burst q_size q_address]. rewrite Nat2Z.id.
  rewrite El, <- L, firstn_all, skipn_all.
  assert (Ob : write_call_ok c (mixed bad good)).
  { destruct Hbad as (H1 & H2 & H3). unfold write_call_ok. cbn [mixed wa_address wa_value wa_size wa_burst wa_be wa_dlat]. rewrite <- El.
    split; [exact H1|]. split; [split; [exact H2|apply Z.ltb_lt; exact Hf]|]. split; [exact Gbe|split; [left; reflexivity|apply H3]]. }
  pose proof (mixed_stored c (mixed bad good) good b1 m x Hb Ob) as S. cbn [mixed wa_address wa_value wa_size wa_burst wa_be] in S.
  rewrite L, Es, Eb in *. rewrite <- S; auto.
  destruct k' as [|k']; [reflexivity|]. rewrite firstn_cons. cbn [slave_stores]. rewrite !firstn_nil. reflexivity.
Qed.
