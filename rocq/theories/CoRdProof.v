(** CoRdProof.v -- tasks that all wait for one read of an AvalonMaster. *)
From Verif Require Import Base Async CompatModel MMModel MMSpec MMProof CoModel CoAvModel AvSysSpec CoAvSpec CoProof CoAvProof MMProp CoAvProp CoRefProof.
Local Open Scope list_scope.

(** all of [ks] run, one after the other *)
Lemma sweep_map {TI TO A K : Type} (ks : list K) (I : bool -> bool -> Prop) St Ev wk p tr l (f : K -> co bool TI TO A) (g : K -> task bool TI TO A) (h : TO -> K -> TO) x s ev o :
  (forall s ev, I s ev -> I (St s) (Ev ev)) -> I s ev -> still x = true -> (wk = true -> unwaiting x) ->
  (forall y, In y ks -> still (g y) = true /\ (wk = true -> unwaiting (g y)) /\
     forall s ev o, I s ev -> seg (f y) s ev false p o (hd_error l) = (St s, Ev ev, wk, h o y, g y)) ->
  leads (Mach s ev p o tr l (x :: map (fun y => TReady (f y)) ks))
        (Mach (Nat.iter (length ks) St s) (Nat.iter (length ks) Ev ev) p (fold_left h ks o) tr l (x :: map g ks)).
Proof.
  intros HI Hi X1 X2 H.
  pose proof (sweep I St Ev wk p tr l HI (map (fun y => (f y, g y, fun o => h o y)) ks) [x] s ev o Hi) as W.
  rewrite !map_map, map_length in W. cbn [fst snd app] in W.
  assert (Ef : fold_left (fun o x => snd x o) (map (fun y => (f y, g y, fun o => h o y)) ks) o = fold_left h ks o).
  { generalize o. generalize ks. clear. intro ks. induction ks as [|y r IH]; intro o1; [reflexivity|]. cbn [map fold_left snd]. apply IH. }
  rewrite Ef in W. apply W.
  - repeat constructor. exact X1.
  - intro E. repeat constructor. auto.
  - apply Forall_map, Forall_forall. intros y Hy. exact (H y Hy).
Qed.

(** all wait for the read-only phase or the lock, or have ended: the read-only phase *)
Definition calm_ro {TI TO A} (x : task bool TI TO A) : bool := match x with TReadOnly _ | TWait _ | TEnd _ => true | _ => false end.
Lemma ro_next {TI TO A} s ev p o tr i l (ts : list (task bool TI TO A)) : Forall (fun x => calm_ro x = true) ts -> existsb wants_readonly ts = true -> p <> PReadOnly ->
  leads (Mach s ev p o tr (i :: l) ts) (Mach s ev PReadOnly o tr (i :: l) (map on_readonly ts)).
Proof.
  intros F W P. apply leads_step. unfold step. cbn [m_tasks]. rewrite first_none.
  2: { revert F. apply Forall_impl. intros [| | | | | |]; cbn; congruence. }
  unfold advance. cbn [m_ins m_ph m_tasks m_obj m_event m_out m_trace].
  assert (E : existsb (fires i) ts = false).
  { clear W. induction F as [|x r X _ IH]; [reflexivity|]. cbn [existsb]. destruct x; try discriminate; exact IH. }
  rewrite E, andb_false_r, W. destruct p; [|congruence|]; reflexivity.
Qed.

Section Reads.
Context (c : mm_cfg) (fuel : nat).
Notation co := (co bool mm_in mm_out (list (option bits))).
Notation task := (task bool mm_in mm_out (list (option bits))).
Definition rjob (a : Z) : co := ccalls c fuel [MMRead a].

(** the parts of a read *)
Definition rparts_of (a : Z) (k0 k1 k2 k3 : co) : Prop :=
    (forall ev p o i, seg (rjob a) false ev false p o i = (true, false, false, o, TEdge k1)) /\
    (forall p o i, seg (rjob a) true false false p o i = (true, false, false, o, TWait k0)) /\
    (forall s ev p o i, seg k0 s ev false p o i = (true, false, false, o, TEdge k1)) /\
    (forall s ev o i, seg k1 s ev false PActive o i = (s, ev, false, read_request c o a, TEdge k2)) /\
    (forall s ev o i, seg k2 s ev false PActive o i = (s, ev, false, after_read c o, TReadOnly k3)) /\
    (forall s ev o i, seg k3 s ev false PReadOnly o (Some i) = (false, true, true, o, TEnd (Done [Some (i_rdata i)]))).
Lemma rparts a : a_read c = true -> a_wait c = false -> a_rdv c = false -> fits (a_width c) a -> exists k0 k1 k2 k3, rparts_of a k0 k1 k2 k3.
Proof.
  intros Wr Wa Rv A. unfold rparts_of, rjob, ccalls, ccall, cread, cread_body. rewrite Wr, Wa, Rv.
  rewrite (assign_fits _ _ A).
  destruct c as [aw dw be cs wa rv rd wr]. cbn in *. subst. unfold after_read, read_request; cbn [a_be a_cs a_width d_width].
  destruct be, cs; do 4 eexists; (split; [intros; cbn; reflexivity|split; [intros; cbn; reflexivity|split; [intros; cbn; reflexivity|split; [intros; cbn; reflexivity|split; intros; cbn; reflexivity]]]]).
Qed.
Lemma rparts_all xs : a_read c = true -> a_wait c = false -> a_rdv c = false -> Forall (fits (a_width c)) xs ->
  exists ks : list (Z * (co * co * co * co)), map fst ks = xs /\ Forall (fun y => let '(x, (k0, k1, k2, k3)) := y in rparts_of x k0 k1 k2 k3) ks.
Proof.
  intros Wr Wa Rv F. induction F as [|x xs A _ (ks & E & G)]; [exists []; split; [reflexivity|constructor]|].
  destruct (rparts x Wr Wa Rv A) as (k0 & k1 & k2 & k3 & P). exists ((x, (k0, k1, k2, k3)) :: ks). split; [cbn [map fst]; now rewrite E|constructor; [exact P|exact G]].
Qed.

Lemma last_read o xs x : fold_left (read_request c) (xs ++ [x]) o = read_request c o x.
Proof.
  rewrite fold_left_app. cbn [fold_left].
  assert (G : forall xs o', q_write o' = q_write o -> q_wdata o' = q_wdata o -> (a_be c = None -> q_be o' = q_be o) -> (a_cs c = false -> q_cs o' = q_cs o) ->
    read_request c (fold_left (read_request c) xs o') x = read_request c o x).
  { clear xs. induction xs as [|y xs IH]; intros o' R D B C.
    - cbn [fold_left]. unfold read_request. rewrite R, D. destruct (a_be c); [|rewrite B by reflexivity]; (destruct (a_cs c); [|rewrite C by reflexivity]); reflexivity.
    - cbn [fold_left]. apply IH; unfold read_request; cbn; [exact R|exact D| |]; intro E; rewrite E; auto. }
  apply G; auto.
Qed.
Lemma after_read_twice o : after_read c (after_read c o) = after_read c o.
Proof. unfold after_read. cbn. f_equal; [destruct (a_be c)|destruct (a_cs c)]; reflexivity. Qed.
Lemma after_read_request o a : after_read c (read_request c o a) = after_read c o.
Proof. unfold after_read, read_request. cbn. f_equal; [destruct (a_be c)|destruct (a_cs c)]; reflexivity. Qed.
Lemma after_read_fold {X} (xs : list X) o : xs <> [] -> fold_left (fun o _ => after_read c o) xs o = after_read c o.
Proof.
  revert o. induction xs as [|x xs IH]; intros o N; [congruence|]. cbn [fold_left].
  destruct xs; [reflexivity|]. rewrite IH by discriminate. apply after_read_twice.
Qed.

Definition got (i : mm_in) : outcome (list (option bits)) := Done [Some (i_rdata i)].
Lemma reads_together x0 xs xn p o i0 i1 i2 i3 i4 l :
  a_read c = true -> a_wait c = false -> a_rdv c = false -> Forall (fits (a_width c)) (x0 :: xs ++ [xn]) ->
  let o' := after_read c o in
  leads (test_start c fuel ((0, [MMRead x0]) :: map (fun x => (1, [MMRead x])) (xs ++ [xn])) p o (i0 :: i1 :: i2 :: i3 :: i4 :: l))
    (mk (World (false, true) PReadOnly o'
          (held o [i0] ++ [(i1, read_request c o x0)] ++ held o' [i2] ++ [(i3, read_request c o' xn)]) (i4 :: l))
        (TEnd (got i2) :: map (fun _ => TEnd (got i4)) (xs ++ [xn]))).
Proof.
  intros Wr Wa Rv F o'. pose proof (Forall_inv F) as A0. apply Forall_inv_tail in F.
  destruct (rparts x0 Wr Wa Rv A0) as (k0 & k1 & k2 & k3 & J0 & _ & _ & S1 & S2 & S3). destruct (rparts_all _ Wr Wa Rv F) as (ks & Ek & G).
  assert (Nk : ks <> []) by (intros ->; destruct xs; discriminate). assert (Nl : length ks <> 0) by (destruct ks; [congruence|discriminate]).
  assert (D : forall o1, fold_left (fun o y => read_request c o (fst y)) ks o1 = read_request c o1 xn).
  { intro o1. rewrite <- (last_read o1 xs xn), <- Ek. generalize o1. generalize ks. clear. intro ks. induction ks as [|y r IH]; intro o1; [reflexivity|]. cbn [map fold_left]. apply IH. }
  assert (E1 : map (fun x : Z => (1, [MMRead x])) (xs ++ [xn]) = map (fun y => (1, [MMRead (fst y)])) ks)
    by (rewrite <- Ek, map_map; reflexivity).
  assert (E2 : map (fun _ : Z => @TEnd bool mm_in mm_out _ (got i4)) (xs ++ [xn]) = map (fun _ => TEnd (got i4)) ks)
    by (rewrite <- Ek, map_map; reflexivity).
  rewrite E1, E2. clear E1 E2 Ek. rewrite Forall_forall in G.
  assert (FK : forall f : Z * (co * co * co * co) -> task, (forall y, simple (f y) = true) -> Forall (fun x => simple x = true) (map f ks)).
  { intros f H. apply Forall_map, Forall_forall. intros y _. apply H. }
  assert (FR : forall f : Z * (co * co * co * co) -> task, (forall y, calm_ro (f y) = true) -> Forall (fun x => calm_ro x = true) (map f ks)).
  { intros f H. apply Forall_map, Forall_forall. intros y _. apply H. }
  unfold test_start. cbn [map fst snd]. rewrite map_map. cbn [fst snd after].
  match goal with |- leads _ ?R => change (leads (Mach false false p o [] (i0 :: i1 :: i2 :: i3 :: i4 :: l)
    (TReady (rjob x0) :: map (fun x : Z * (co * co * co * co) => TReady (CEdge (rjob (fst x)))) ks)) R) end.
  (* the call of the first task; the others wait for the edge *)
  eapply leads_trans; [apply leads_step; unfold step; cbn [m_tasks first_ready m_obj m_event m_ph m_out m_ins hd_error m_trace]; rewrite J0; cbn [app]; reflexivity|].
  eapply leads_trans; [apply (sweep_map ks (fun _ _ => True) (fun s => s) (fun e => e) false p [] _ (fun y => CEdge (rjob (fst y))) (fun y => TEdge (rjob (fst y))) (fun o _ => o));
    [auto|auto|reflexivity|discriminate|intros y _; split; [reflexivity|split; [discriminate|reflexivity]]]|].
  rewrite !iter_id by reflexivity.
  assert (K : forall o1 : mm_out, fold_left (fun o _ => o) ks o1 = o1) by (generalize ks; clear; intros ks o1; induction ks; [reflexivity|assumption]).
  rewrite K.
  eapply leads_trans; [apply edge_next; constructor; [reflexivity|apply FK; reflexivity]|].
  cbn [map on_edge app]. rewrite map_map. cbn [on_edge].
  (* the request of the first task; the others wait for the lock *)
  eapply leads_trans; [apply leads_step; unfold step; cbn [m_tasks first_ready m_obj m_event m_ph m_out m_ins hd_error m_trace]; rewrite S1; cbn [app]; reflexivity|].
  eapply leads_trans; [apply (sweep_map ks (fun s e => s = true /\ e = false) (fun s => s) (fun e => e) false PActive _ _ (fun y => rjob (fst y)) (fun y => TWait (fst (fst (fst (snd y))))) (fun o _ => o));
    [auto|auto|reflexivity|discriminate|]|].
  { intros [x [[[a0 a1] a2] a3]] Hy. destruct (G _ Hy) as (_ & H & _). cbn [fst snd]. split; [reflexivity|]. split; [discriminate|]. intros s ev o1 [-> ->]. apply H. }
  rewrite !iter_id by reflexivity. rewrite K.
  eapply leads_trans; [apply edge_next; constructor; [reflexivity|apply FK; reflexivity]|].
  cbn [map on_edge app]. rewrite map_map. cbn [on_edge].
  (* the first task takes its request back and waits for the data; the others still wait *)
  eapply leads_trans; [apply leads_step; unfold step; cbn [m_tasks first_ready m_obj m_event m_ph m_out m_ins hd_error m_trace]; rewrite S2; cbn [app]; reflexivity|].
  eapply leads_trans; [apply ro_next; [constructor; [reflexivity|apply FR; reflexivity]|reflexivity|discriminate]|].
  cbn [map on_readonly]. rewrite map_map. cbn [on_readonly].
  (* the end of the first read; the others have the lock *)
  eapply leads_trans; [apply leads_step; unfold step; cbn [m_tasks first_ready m_obj m_event m_ph m_out m_ins hd_error m_trace]; rewrite S3; cbn [map app]; rewrite map_map; cbn [on_wake]; reflexivity|].
  eapply leads_trans; [apply (sweep_map ks (fun _ _ => True) (fun _ => true) (fun _ => false) false PReadOnly _ _ (fun y => fst (fst (fst (snd y)))) (fun y => TEdge (snd (fst (fst (snd y))))) (fun o _ => o));
    [auto|auto|reflexivity|discriminate|]|].
  { intros [x [[[a0 a1] a2] a3]] Hy. destruct (G _ Hy) as (_ & _ & H & _). cbn [fst snd]. split; [reflexivity|]. split; [discriminate|]. intros s ev o1 _. apply H. }
  rewrite (iter_const _ _ true), (iter_const _ _ false) by (auto || exact Nl). rewrite K.
  eapply leads_trans; [apply edge_next; constructor; [reflexivity|apply FK; reflexivity]|].
  cbn [map on_edge app]. rewrite map_map. cbn [on_edge].
  (* all requests; the last one stays *)
  eapply leads_trans; [apply (sweep_map ks (fun _ _ => True) (fun s => s) (fun e => e) false PActive _ _ (fun y => snd (fst (fst (snd y)))) (fun y => TEdge (snd (fst (snd y)))) (fun o y => read_request c o (fst y)));
    [auto|auto|reflexivity|discriminate|]|].
  { intros [x [[[a0 a1] a2] a3]] Hy. destruct (G _ Hy) as (_ & _ & _ & H & _). cbn [fst snd]. split; [reflexivity|]. split; [discriminate|]. intros s ev o1 _. apply H. }
  rewrite !iter_id by reflexivity. rewrite D.
  eapply leads_trans; [apply edge_next; constructor; [reflexivity|apply FK; reflexivity]|].
  cbn [map on_edge app]. rewrite map_map. cbn [on_edge].
  (* all take their request back and wait for the data *)
  eapply leads_trans; [apply (sweep_map ks (fun _ _ => True) (fun s => s) (fun e => e) false PActive _ _ (fun y => snd (fst (snd y))) (fun y => TReadOnly (snd (snd y))) (fun o y => after_read c o));
    [auto|auto|reflexivity|discriminate|]|].
  { intros [x [[[a0 a1] a2] a3]] Hy. destruct (G _ Hy) as (_ & _ & _ & _ & H & _). cbn [fst snd]. split; [reflexivity|]. split; [discriminate|]. intros s ev o1 _. apply H. }
  rewrite !iter_id by reflexivity. rewrite after_read_fold by exact Nk.
  eapply leads_trans; [apply ro_next; [constructor; [reflexivity|apply FR; reflexivity]| |discriminate]|].
  { clear - Nk. destruct ks; [congruence|reflexivity]. }
  cbn [map on_readonly]. rewrite map_map. cbn [on_readonly].
  (* all end *)
  eapply leads_trans; [apply (sweep_map ks (fun _ _ => True) (fun _ => false) (fun _ => true) true PReadOnly _ _ (fun y => snd (snd y)) (fun y => TEnd (got i4)) (fun o y => o));
    [auto|auto|reflexivity|reflexivity|]|].
  { intros [x [[[a0 a1] a2] a3]] Hy. destruct (G _ Hy) as (_ & _ & _ & _ & _ & H). cbn [fst snd]. split; [reflexivity|]. split; [reflexivity|]. intros s ev o1 _. apply H. }
  rewrite (iter_const _ _ false), (iter_const _ _ true) by (auto || exact Nl). rewrite K.
  rewrite !after_read_request, after_read_twice. unfold mk. cbn [st fst snd ph out trace ins]. fold o'. apply leads_refl.
Qed.
End Reads.
