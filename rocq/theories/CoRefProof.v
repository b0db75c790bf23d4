(** CoRefProof.v -- tasks that all wait for one write of an AvalonMaster. *)
From Verif Require Import Base Async CompatModel MMModel MMSpec MMProof CoModel CoAvModel AvSysSpec CoAvSpec CoProof CoAvProof MMProp CoAvProp.
Local Open Scope list_scope.

Section Sweep.
Context {TI TO A : Type}.
Notation task := (task bool TI TO A).
Notation co := (co bool TI TO A).
Definition still (x : task) : bool := match x with TReady _ => false | _ => true end.
Definition unwaiting (x : task) : Prop := on_wake x = x.
Lemma first_at (a : list task) t b : Forall (fun x => still x = true) a -> first_ready (a ++ TReady t :: b) = Some (a, t, b).
Proof.
  induction 1 as [|x a Hx _ IH]; [reflexivity|]. destruct x; try discriminate; cbn [app first_ready]; now rewrite IH.
Qed.
Lemma first_none (a : list task) : Forall (fun x => still x = true) a -> first_ready a = None.
Proof. induction 1 as [|x a Hx _ IH]; [reflexivity|]. destruct x; try discriminate; cbn [first_ready]; now rewrite IH. Qed.

(** [ts]: the tasks that can run, each with what it waits for afterwards and what it does to the outputs *)
Lemma sweep (I : bool -> bool -> Prop) (St Ev : bool -> bool) wk p tr l : (forall s ev, I s ev -> I (St s) (Ev ev)) -> forall (ts : list (co * task * (TO -> TO))) pre s ev o, I s ev ->
  Forall (fun x => still x = true) pre -> (wk = true -> Forall unwaiting pre) ->
  Forall (fun x => still (snd (fst x)) = true /\ (wk = true -> unwaiting (snd (fst x))) /\
    forall s ev o, I s ev -> seg (fst (fst x)) s ev false p o (hd_error l) = (St s, Ev ev, wk, snd x o, snd (fst x))) ts ->
  leads (Mach s ev p o tr l (pre ++ map (fun x => TReady (fst (fst x))) ts))
        (Mach (Nat.iter (length ts) St s) (Nat.iter (length ts) Ev ev) p (fold_left (fun o x => snd x o) ts o) tr l (pre ++ map (fun x => snd (fst x)) ts)).
Proof.
  intro HI. induction ts as [|[[t y] h] ts IH]; intros pre s ev o Hi Hp Hw F; [apply leads_refl|].
  pose proof (Forall_inv F) as (Y1 & Y2 & Y3). apply Forall_inv_tail in F. cbn [fst snd] in Y1, Y2, Y3. cbn [map fst snd length fold_left].
  eapply leads_trans.
  - apply leads_step. unfold step. cbn [m_tasks m_obj m_event m_ph m_out m_ins m_trace]. rewrite first_at by exact Hp. rewrite Y3 by exact Hi.
    instantiate (1 := Mach (St s) (Ev ev) p (h o) tr l ((pre ++ [y]) ++ map (fun x => TReady (fst (fst x))) ts)).
    do 2 f_equal. rewrite <- app_assoc. cbn [app]. destruct wk; [|reflexivity].
    f_equal; [|f_equal].
    + rewrite <- (map_id pre) at 2. apply map_ext_Forall. exact (Hw eq_refl).
    + rewrite map_map. reflexivity.
  - eapply leads_trans; [apply IH|].
    + exact (HI _ _ Hi).
    + apply Forall_app. auto.
    + intro E. apply Forall_app. auto.
    + exact F.
    + rewrite <- app_assoc. cbn [app Nat.iter nat_rect].
      assert (J : forall (X : Type) (f : X -> X) n x, Nat.iter n f (f x) = f (Nat.iter n f x)).
      { intros X f n x. induction n as [|n IHn]; [reflexivity|]. cbn [Nat.iter nat_rect]. f_equal. exact IHn. }
      rewrite !J. apply leads_refl.
Qed.

(** all wait for the clock edge or the lock, or have ended: the next edge *)
Definition simple (x : task) : bool := match x with TEdge _ | TWait _ | TEnd _ => true | _ => false end.
Lemma edge_next s ev p o tr i l (ts : list task) : Forall (fun x => simple x = true) ts ->
  leads (Mach s ev p o tr (i :: l) ts) (Mach s ev PActive o (tr ++ [(i, o)]) l (map on_edge ts)).
Proof.
  intro F. apply leads_step. unfold step. cbn [m_tasks]. rewrite first_none.
  2: { revert F. apply Forall_impl. intros [| | | | | |]; cbn; congruence. }
  unfold advance. cbn [m_ins m_ph m_tasks m_obj m_event m_out m_trace].
  assert (E : forall f : task -> bool, (forall x, simple x = true -> f x = false) -> existsb f ts = false).
  { intros f H. induction F as [|x r X _ IH]; [reflexivity|]. cbn [existsb]. rewrite (H x X). exact IH. }
  rewrite !E by (intros [| | | | | |]; cbn; congruence). rewrite !andb_false_r. reflexivity.
Qed.
End Sweep.

Section Writes.
Context (c : mm_cfg) (fuel : nat).
Notation co := (co bool mm_in mm_out (list (option bits))).
Notation task := (task bool mm_in mm_out (list (option bits))).
Definition job (x : Z * Z) : co := ccalls c fuel [MMWrite (fst x) (snd x)].

(** the parts of a write *)
Lemma parts x : a_write c = true -> a_wait c = false -> fits (a_width c) (fst x) -> fits (d_width c) (snd x) ->
  exists k0 k1 k2 : co,
    (forall ev p o i, seg (job x) false ev false p o i = (true, false, false, o, TEdge k1)) /\
    (forall p o i, seg (job x) true false false p o i = (true, false, false, o, TWait k0)) /\
    (forall s ev p o i, seg k0 s ev false p o i = (true, false, false, o, TEdge k1)) /\
    (forall s ev o i, seg k1 s ev false PActive o i = (s, ev, false, write_request c o (fst x) (snd x), TEdge k2)) /\
    (forall s ev o i, seg k2 s ev false PActive o i = (false, true, true, released c o, TEnd (Done [None]))).
Proof.
  intros Wr Wa A V. unfold job, ccalls, ccall, cwrite, cwrite_body. rewrite Wr, Wa.
  rewrite (assign_fits _ _ A), (assign_fits _ _ V).
  destruct c as [aw dw be cs wa rv rd wr]. cbn in *. subst. unfold released, write_request; cbn [a_be a_cs a_width d_width].
  destruct be, cs; do 3 eexists; (split; [intros; cbn; reflexivity|split; [intros; cbn; reflexivity|split; [intros; cbn; reflexivity|split; intros; cbn; reflexivity]]]).
Qed.

Lemma parts_all xs : a_write c = true -> a_wait c = false -> Forall (fun x => fits (a_width c) (fst x) /\ fits (d_width c) (snd x)) xs ->
  exists ks : list ((Z * Z) * (co * co * co)), map fst ks = xs /\ Forall (fun y => let '(x, (k0, k1, k2)) := y in
    (forall ev p o i, seg (job x) false ev false p o i = (true, false, false, o, TEdge k1)) /\
    (forall p o i, seg (job x) true false false p o i = (true, false, false, o, TWait k0)) /\
    (forall s ev p o i, seg k0 s ev false p o i = (true, false, false, o, TEdge k1)) /\
    (forall s ev o i, seg k1 s ev false PActive o i = (s, ev, false, write_request c o (fst x) (snd x), TEdge k2)) /\
    (forall s ev o i, seg k2 s ev false PActive o i = (false, true, true, released c o, TEnd (Done [None])))) ks.
Proof.
  intros Wr Wa F. induction F as [|x xs [A V] _ (ks & E & G)]; [exists []; split; [reflexivity|constructor]|].
  destruct (parts x Wr Wa A V) as (k0 & k1 & k2 & P). exists ((x, (k0, k1, k2)) :: ks). split; [cbn [map fst]; now rewrite E|constructor; [exact P|exact G]].
Qed.

Lemma last_drive o xs x : fold_left (fun o x => write_request c o (fst x) (snd x)) (xs ++ [x]) o = write_request c o (fst x) (snd x).
Proof.
  rewrite fold_left_app. cbn [fold_left]. assert (G : forall xs o', q_read o' = q_read o -> (a_be c = None -> q_be o' = q_be o) -> (a_cs c = false -> q_cs o' = q_cs o) ->
    write_request c (fold_left (fun o x => write_request c o (fst x) (snd x)) xs o') (fst x) (snd x) = write_request c o (fst x) (snd x)).
  { clear xs. induction xs as [|y xs IH]; intros o' R B C.
    - cbn [fold_left]. unfold write_request. rewrite R. destruct (a_be c); [|rewrite B by reflexivity]; (destruct (a_cs c); [|rewrite C by reflexivity]); reflexivity.
    - cbn [fold_left]. apply IH; unfold write_request; cbn; [exact R| |]; intro E; rewrite E; auto. }
  apply G; auto.
Qed.
Lemma released_twice o : released c (released c o) = released c o.
Proof. unfold released. cbn. f_equal; [destruct (a_be c)|destruct (a_cs c)]; reflexivity. Qed.
Lemma released_request o a v : released c (write_request c o a v) = released c o.
Proof. unfold released, write_request. cbn. f_equal; [destruct (a_be c)|destruct (a_cs c)]; reflexivity. Qed.
Lemma released_fold {X} (f : mm_out -> X -> mm_out) (xs : list X) o : (forall o x, f o x = released c o) -> xs <> [] -> fold_left f xs o = released c o.
Proof.
  intro H. revert o. induction xs as [|x xs IH]; intros o N; [congruence|]. cbn [fold_left]. rewrite H.
  destruct xs; [reflexivity|]. rewrite IH by discriminate. apply released_twice.
Qed.
Lemma iter_const {X} n (f : X -> X) y x : (forall x, f x = y) -> n <> 0 -> Nat.iter n f x = y.
Proof. intros H N. destruct n; [congruence|]. cbn. apply H. Qed.
Lemma iter_id {X} n (f : X -> X) x : (forall x, f x = x) -> Nat.iter n f x = x.
Proof. intros H. induction n; [reflexivity|]. cbn. rewrite H. exact IHn. Qed.

Definition ended_none : outcome (list (option bits)) := Done [None].
Lemma all_together x0 xs xn p o i0 i1 i2 i3 i4 l :
  a_write c = true -> a_wait c = false ->
  Forall (fun x => fits (a_width c) (fst x) /\ fits (d_width c) (snd x)) (x0 :: xs ++ [xn]) ->
  let o' := released c o in
  leads (test_start c fuel ((0, [MMWrite (fst x0) (snd x0)]) :: map (fun x => (1, [MMWrite (fst x) (snd x)])) (xs ++ [xn])) p o (i0 :: i1 :: i2 :: i3 :: i4 :: l))
    (mk (World (false, true) PActive o'
          (held o [i0] ++ [(i1, write_request c o (fst x0) (snd x0))] ++ held o' [i2] ++ [(i3, write_request c o' (fst xn) (snd xn))]) (i4 :: l))
        (TEnd ended_none :: map (fun _ => TEnd ended_none) (xs ++ [xn]))).
Proof.
  intros Wr Wa F o'. pose proof (Forall_inv F) as [A0 V0]. apply Forall_inv_tail in F.
  destruct (parts x0 Wr Wa A0 V0) as (k0 & k1 & k2 & J0 & _ & _ & S1 & S2). destruct (parts_all _ Wr Wa F) as (ks & Ek & G).
  assert (Nk : ks <> []) by (intros ->; destruct xs; discriminate). assert (Nl : length ks <> 0) by (destruct ks; [congruence|discriminate]).
  assert (D : forall o1, fold_left (fun o y => write_request c o (fst (fst y)) (snd (fst y))) ks o1 = write_request c o1 (fst xn) (snd xn)).
  { intro o1. rewrite <- (last_drive o1 xs xn), <- Ek. generalize o1. generalize ks. clear. intro ks. induction ks as [|y r IH]; intro o1; [reflexivity|]. cbn [map fold_left]. apply IH. }
  assert (E1 : map (fun x : Z * Z => (1, [MMWrite (fst x) (snd x)])) (xs ++ [xn]) = map (fun y => (1, [MMWrite (fst (fst y)) (snd (fst y))])) ks)
    by (rewrite <- Ek, map_map; reflexivity).
  assert (E2 : map (fun _ : Z * Z => @TEnd bool mm_in mm_out _ ended_none) (xs ++ [xn]) = map (fun _ => TEnd ended_none) ks)
    by (rewrite <- Ek, map_map; reflexivity).
  rewrite E1, E2. clear E1 E2 Ek.
  (* all of [ks] run, one after the other *)
  assert (SW : forall (I : bool -> bool -> Prop) St Ev wk p tr l (f : (Z * Z) * (co * co * co) -> co) (g : (Z * Z) * (co * co * co) -> task)
      (h : mm_out -> (Z * Z) * (co * co * co) -> mm_out) x s ev o,
    (forall s ev, I s ev -> I (St s) (Ev ev)) -> I s ev -> still x = true -> (wk = true -> unwaiting x) ->
    (forall y, In y ks -> still (g y) = true /\ (wk = true -> unwaiting (g y)) /\
       forall s ev o, I s ev -> seg (f y) s ev false p o (hd_error l) = (St s, Ev ev, wk, h o y, g y)) ->
    leads (Mach s ev p o tr l (x :: map (fun y => TReady (f y)) ks))
          (Mach (Nat.iter (length ks) St s) (Nat.iter (length ks) Ev ev) p (fold_left h ks o) tr l (x :: map g ks))).
  { intros I St Ev wk p1 tr l1 f g h x s ev o1 HI Hi X1 X2 H.
    pose proof (sweep I St Ev wk p1 tr l1 HI (map (fun y => (f y, g y, fun o => h o y)) ks) [x] s ev o1 Hi) as W.
    rewrite !map_map, map_length in W. cbn [fst snd app] in W.
    assert (Ef : fold_left (fun o x => snd x o) (map (fun y => (f y, g y, fun o => h o y)) ks) o1 = fold_left h ks o1).
    { generalize o1. generalize ks. clear. intro ks. induction ks as [|y r IH]; intro o1; [reflexivity|]. cbn [map fold_left snd]. apply IH. }
    rewrite Ef in W. apply W.
    - repeat constructor. exact X1.
    - intro E. repeat constructor. auto.
    - apply Forall_map, Forall_forall. intros y Hy. exact (H y Hy). }
  rewrite Forall_forall in G.
  assert (FK : forall f : (Z * Z) * (co * co * co) -> task, (forall y, simple (f y) = true) -> Forall (fun x => simple x = true) (map f ks)).
  { intros f H. apply Forall_map, Forall_forall. intros y _. apply H. }
  unfold test_start. cbn [map fst snd]. rewrite map_map. cbn [fst snd after].
  match goal with |- leads _ ?R => change (leads (Mach false false p o [] (i0 :: i1 :: i2 :: i3 :: i4 :: l)
    (TReady (job x0) :: map (fun x : (Z * Z) * (co * co * co) => TReady (CEdge (job (fst x)))) ks)) R) end.
  (* the call of the first task; the others wait for the edge *)
  eapply leads_trans; [apply leads_step; unfold step; cbn [m_tasks first_ready m_obj m_event m_ph m_out m_ins hd_error m_trace]; rewrite J0; cbn [app]; reflexivity|].
  eapply leads_trans; [apply (SW (fun _ _ => True) (fun s => s) (fun e => e) false p [] _ (fun y => CEdge (job (fst y))) (fun y => TEdge (job (fst y))) (fun o _ => o));
    [auto|auto|reflexivity|discriminate|intros y _; split; [reflexivity|split; [discriminate|reflexivity]]]|].
  rewrite !iter_id by reflexivity.
  assert (K : forall o1 : mm_out, fold_left (fun o _ => o) ks o1 = o1) by (generalize ks; clear; intros ks o1; induction ks; [reflexivity|assumption]).
  rewrite K.
  eapply leads_trans; [apply edge_next; constructor; [reflexivity|apply FK; reflexivity]|].
  cbn [map on_edge app]. rewrite map_map. cbn [on_edge].
  (* the request of the first task; the others wait for the lock *)
  eapply leads_trans; [apply leads_step; unfold step; cbn [m_tasks first_ready m_obj m_event m_ph m_out m_ins hd_error m_trace]; rewrite S1; cbn [app]; reflexivity|].
  eapply leads_trans; [apply (SW (fun s e => s = true /\ e = false) (fun s => s) (fun e => e) false PActive _ _ (fun y => job (fst y)) (fun y => TWait (fst (fst (snd y)))) (fun o _ => o));
    [auto|auto|reflexivity|discriminate|]|].
  { intros [x [[a0 a1] a2]] Hy. destruct (G _ Hy) as (_ & H & _). cbn [fst snd]. split; [reflexivity|]. split; [discriminate|]. intros s ev o1 [-> ->]. apply H. }
  rewrite !iter_id by reflexivity. rewrite K.
  eapply leads_trans; [apply edge_next; constructor; [reflexivity|apply FK; reflexivity]|].
  cbn [map on_edge app]. rewrite map_map. cbn [on_edge].
  (* the end of the first write; the others have the lock *)
  eapply leads_trans; [apply leads_step; unfold step; cbn [m_tasks first_ready m_obj m_event m_ph m_out m_ins hd_error m_trace]; rewrite S2; cbn [map app]; rewrite map_map; cbn [on_wake]; reflexivity|].
  eapply leads_trans; [apply (SW (fun _ _ => True) (fun _ => true) (fun _ => false) false PActive _ _ (fun y => fst (fst (snd y))) (fun y => TEdge (snd (fst (snd y)))) (fun o _ => o));
    [auto|auto|reflexivity|discriminate|]|].
  { intros [x [[a0 a1] a2]] Hy. destruct (G _ Hy) as (_ & _ & H & _). cbn [fst snd]. split; [reflexivity|]. split; [discriminate|]. intros s ev o1 _. apply H. }
  rewrite (iter_const _ _ true), (iter_const _ _ false) by (auto || exact Nl). rewrite K.
  eapply leads_trans; [apply edge_next; constructor; [reflexivity|apply FK; reflexivity]|].
  cbn [map on_edge app]. rewrite map_map. cbn [on_edge].
  (* all requests; the last one stays *)
  eapply leads_trans; [apply (SW (fun _ _ => True) (fun s => s) (fun e => e) false PActive _ _ (fun y => snd (fst (snd y))) (fun y => TEdge (snd (snd y))) (fun o y => write_request c o (fst (fst y)) (snd (fst y))));
    [auto|auto|reflexivity|discriminate|]|].
  { intros [x [[a0 a1] a2]] Hy. destruct (G _ Hy) as (_ & _ & _ & H & _). cbn [fst snd]. split; [reflexivity|]. split; [discriminate|]. intros s ev o1 _. apply H. }
  rewrite !iter_id by reflexivity. rewrite D.
  eapply leads_trans; [apply edge_next; constructor; [reflexivity|apply FK; reflexivity]|].
  cbn [map on_edge app]. rewrite map_map. cbn [on_edge].
  (* all end *)
  eapply leads_trans; [apply (SW (fun _ _ => True) (fun _ => false) (fun _ => true) true PActive _ _ (fun y => snd (snd y)) (fun y => TEnd ended_none) (fun o y => released c o));
    [auto|auto|reflexivity|reflexivity|]|].
  { intros [x [[a0 a1] a2]] Hy. destruct (G _ Hy) as (_ & _ & _ & _ & H). cbn [fst snd]. split; [reflexivity|]. split; [reflexivity|]. intros s ev o1 _. apply H. }
  rewrite (iter_const _ _ false), (iter_const _ _ true) by (auto || exact Nl). rewrite (released_fold (fun o _ => released c o)) by auto.
  rewrite !released_request, released_twice. unfold mk. cbn [st fst snd ph out trace ins]. fold o'. unfold ended_none. apply leads_refl.
Qed.
End Writes.
