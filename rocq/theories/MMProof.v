(** MMProof.v *)
From Verif Require Import Base Async BitsLemmas CompatModel PktModel MMModel MMSpec.
Local Open Scope list_scope.

(** ** waiting for a signal to be low *)
Section Wait.
Context {X I O : Type} (key : I -> logic).
Notation M := (M X I O).
Definition low_or_bad (i : I) : bool := negb (logic_eqb (key i) L1).

Lemma edge_of_rest_spec (o : O) l : forall tr,
  edge_of_rest logic_eqb key L1 o tr l =
  match span low_or_bad l with
  | (_, []) => None
  | (nr, rest) => Some (tr ++ held o nr, rest)
  end.
Proof.
  induction l as [|i l IH]; intro tr; [reflexivity|]. cbn [edge_of_rest span]. unfold low_or_bad at 1.
  destruct (logic_eqb (key i) L1); cbn [negb].
  - rewrite IH. destruct (span low_or_bad l) as [nr [|j r]]; [reflexivity|].
    cbn [held map]. rewrite <- app_assoc. reflexivity.
  - rewrite app_nil_r. reflexivity.
Qed.

Lemma nsignal_spec fuel (s : X) p (o : O) tr l : 2 <= fuel -> p <> PReadOnly -> exists p',
  (wait_for_nsignal key fuel ;; edge) (World s p o tr l) =
  match span low_or_bad l with
  | (_, []) => (Susp, World s p' o (tr ++ held o l) [])
  | (nr, i :: r) =>
      match key i with
      | L0 => (Done tt, World s PActive o (tr ++ held o (nr ++ [i])) r)
      | _ => (Exn EValue, World s PReadOnly o (tr ++ held o nr) (i :: r))
      end
  end.
Proof.
  intros Hf Hp. unfold wait_for_nsignal. destruct fuel as [|[|f]]; try lia.
  destruct l as [|i l].
  { exists p. unfold bind, readonly. cbn. rewrite app_nil_r. destruct p; try contradiction; reflexivity. }
  assert (R : forall p, p <> PReadOnly -> readonly (World s p o tr (i :: l)) = (Done tt, World s PReadOnly o tr (i :: l))).
  { intros [] H; try contradiction; reflexivity. }
  assert (E0 : forall tr' i' l', key i' = L0 ->
    (loop (S (S f)) (nsignal_body key) tt ;; midstep ;; edge) (World s PReadOnly o tr' (i' :: l'))
    = (Done tt, World s PActive o (tr' ++ [(i', o)]) l')).
  { intros tr' i' l' Hk. unfold bind. cbn [loop]. unfold bind, nsignal_body, bind, input. cbn [ins]. rewrite Hk. reflexivity. }
  exists PActive. rewrite bind_assoc, (bind_done _ _ _ _ _ (R p Hp)), bind_assoc.
  cbn [span]. unfold low_or_bad at 1. destruct (key i) eqn:K; cbn [logic_eqb negb].
  - rewrite K. cbn [app held map]. exact (E0 tr i l K).
  - assert (B : nsignal_body key tt (World s PReadOnly o tr (i :: l)) =
       match span low_or_bad l with
       | (_, []) => (Susp, World s PActive o (tr ++ held o (i :: l)) [])
       | (nr, rest) => (Done (inl tt), World s PReadOnly o (tr ++ held o (i :: nr)) rest)
       end).
    { unfold nsignal_body, bind at 1, input. cbn [ins]. rewrite K. unfold bind at 1, edge_of. cbn [ins out trace].
      rewrite K, edge_of_rest_spec. destruct (span low_or_bad l) as [nr [|j r]]; [reflexivity|].
      unfold bind, readonly, ret. cbn. rewrite <- app_assoc. reflexivity. }
    destruct (span low_or_bad l) as [nr [|j r]] eqn:Sp.
    + rewrite (bind_susp _ _ _ _ (loop_susp _ _ _ _ _ B)). reflexivity.
    + unfold bind at 1. rewrite (loop_step _ _ _ _ _ _ B). cbn [loop]. unfold nsignal_body, bind, input. cbn [ins].
      assert (Kj : key j <> L1).
      { pose proof (span_snd low_or_bad l j r) as G. rewrite Sp in G. specialize (G eq_refl). unfold low_or_bad in G.
        intro E. rewrite E in G. discriminate. }
      cbn [held map app]. destruct (key j) eqn:Kj'; try (exfalso; congruence); try reflexivity.
      unfold ret, midstep, edge. cbn. rewrite <- app_assoc. do 4 f_equal. cbn. rewrite map_app. reflexivity.
  - rewrite K. rewrite app_nil_r. cbn [loop]. unfold nsignal_body, bind, input. cbn [ins]. rewrite K. reflexivity.
  - rewrite K. rewrite app_nil_r. cbn [loop]. unfold nsignal_body, bind, input. cbn [ins]. rewrite K. reflexivity.
Qed.
End Wait.

Lemma assign_fits n z : fits n z -> assign_int n z = Ok (zbits n z).
Proof.
  intros [A B]. unfold assign_int.
  assert (- 2 ^ (Z.of_nat n - 1) <= 0)%Z by (pose proof (Z.pow_nonneg 2 (Z.of_nat n - 1)); lia).
  replace ((- 2 ^ (Z.of_nat n - 1) <=? z) && (z <? 2 ^ Z.of_nat n))%Z with true; [reflexivity|].
  symmetry. rewrite andb_true_iff. split; [apply Z.leb_le|apply Z.ltb_lt]; lia.
Qed.

(** ** accesses *)
Section Access.
Context (c : mm_cfg).
Notation world := (world bool mm_in mm_out).
Notation M := (M bool mm_in mm_out).

Definition go (i : mm_in) : bool := if a_wait c then low_or_bad i_wait i else true.
Definition bad_wait (i : mm_in) : Prop := a_wait c = true /\ i_wait i <> L0 /\ i_wait i <> L1.

Lemma stalls_go l : Forall (stalls c) l -> Forall (fun i => go i = false) l.
Proof.
  induction 1 as [|i l [H1 H2] _ IH]; constructor; [|exact IH].
  unfold go, low_or_bad. rewrite H1, H2. reflexivity.
Qed.
Lemma go_stalls l : Forall (fun i => go i = false) l -> Forall (stalls c) l.
Proof.
  induction 1 as [|i l H _ IH]; constructor; [|exact IH]. unfold go, low_or_bad in H.
  destruct (a_wait c) eqn:E; [|discriminate]. split; [exact E|]. destruct (i_wait i); try discriminate; reflexivity.
Qed.
Lemma grants_go i : grants c i -> go i = true.
Proof. unfold grants, go, low_or_bad. destruct (a_wait c); [|reflexivity]. intro H. rewrite (H eq_refl). reflexivity. Qed.
Lemma bad_go i : bad_wait i -> go i = true.
Proof. intros (A & B & C). unfold go, low_or_bad. rewrite A. destruct (i_wait i); try contradiction; reflexivity. Qed.

(** any input is waits only, or waits then a grant, or waits then an unresolved waitrequest *)
Lemma shape l : Forall (stalls c) l \/
  exists waits i r, l = waits ++ i :: r /\ Forall (stalls c) waits /\ (grants c i \/ bad_wait i).
Proof.
  induction l as [|i l IH]; [left; constructor|].
  destruct (a_wait c) eqn:W.
  - destruct (i_wait i) eqn:K.
    + right. exists [], i, l. split; [reflexivity|split; [constructor|left; intro; assumption]].
    + destruct IH as [H|(waits & j & r & -> & H & G)].
      * left. constructor; [split; assumption|exact H].
      * right. exists (i :: waits), j, r. repeat split; try assumption. constructor; [split; assumption|exact H].
    + right. exists [], i, l. split; [reflexivity|split; [constructor|right; repeat split; congruence]].
    + right. exists [], i, l. split; [reflexivity|split; [constructor|right; repeat split; congruence]].
  - right. exists [], i, l. split; [reflexivity|split; [constructor|left; intro; congruence]].
Qed.

Lemma request_spec fuel s p o tr l : 2 <= fuel -> p <> PReadOnly -> exists p',
  (mm_when (a_wait c) (wait_for_nsignal i_wait fuel) ;; edge) (World s p o tr l : world) =
  match span go l with
  | (_, []) => (Susp, World s p' o (tr ++ held o l) [])
  | (nr, i :: r) =>
      match (if a_wait c then i_wait i else L0) with
      | L0 => (Done tt, World s PActive o (tr ++ held o (nr ++ [i])) r)
      | _ => (Exn EValue, World s PReadOnly o (tr ++ held o nr) (i :: r))
      end
  end.
Proof.
  intros Hf Hp. destruct (a_wait c) eqn:W.
  - destruct (nsignal_spec i_wait fuel s p o tr l Hf Hp) as [p' E]. exists p'.
    replace (span go l) with (span (low_or_bad i_wait) l); [exact E|].
    clear E. induction l as [|i l IH]; [reflexivity|]. cbn [span]. unfold go at 1. rewrite W, IH. reflexivity.
  - rewrite span_true by (intro i; unfold go; rewrite W; reflexivity).
    exists p. destruct l as [|i l]; [|reflexivity]. cbn [held map]. rewrite app_nil_r. reflexivity.
Qed.

Lemma request_done fuel s p o tr waits i r : 2 <= fuel -> p <> PReadOnly -> Forall (stalls c) waits -> grants c i ->
  (mm_when (a_wait c) (wait_for_nsignal i_wait fuel) ;; edge) (World s p o tr (waits ++ i :: r) : world) =
  (Done tt, World s PActive o (tr ++ held o (waits ++ [i])) r).
Proof.
  intros Hf Hp Hw Hi. destruct (request_spec fuel s p o tr (waits ++ i :: r) Hf Hp) as [p' E]. rewrite E.
  rewrite (span_split go waits i r (stalls_go _ Hw) (grants_go _ Hi)).
  unfold grants in Hi. destruct (a_wait c); [rewrite (Hi eq_refl)|]; reflexivity.
Qed.
Lemma request_bad fuel s p o tr waits i r : 2 <= fuel -> p <> PReadOnly -> Forall (stalls c) waits -> bad_wait i ->
  (mm_when (a_wait c) (wait_for_nsignal i_wait fuel) ;; edge) (World s p o tr (waits ++ i :: r) : world) =
  (Exn EValue, World s PReadOnly o (tr ++ held o waits) (i :: r)).
Proof.
  intros Hf Hp Hw Hi. destruct (request_spec fuel s p o tr (waits ++ i :: r) Hf Hp) as [p' E]. rewrite E.
  rewrite (span_split go waits i r (stalls_go _ Hw) (bad_go _ Hi)).
  destruct Hi as (A & B & C). rewrite A. destruct (i_wait i); try contradiction; reflexivity.
Qed.
Lemma span_none {A} (ok : A -> bool) l : Forall (fun i => ok i = false) l -> span ok l = (l, []).
Proof. induction 1 as [|i l H _ IH]; [reflexivity|]. cbn [span]. rewrite H, IH. reflexivity. Qed.
Lemma request_susp fuel s p o tr waits : 2 <= fuel -> p <> PReadOnly -> Forall (stalls c) waits -> exists p',
  (mm_when (a_wait c) (wait_for_nsignal i_wait fuel) ;; edge) (World s p o tr waits : world) =
  (Susp, World s p' o (tr ++ held o waits) []).
Proof.
  intros Hf Hp Hw. destruct (request_spec fuel s p o tr waits Hf Hp) as [p' E]. exists p'. rewrite E.
  rewrite (span_none go waits (stalls_go _ Hw)). reflexivity.
Qed.

(** values after an access *)
Definition after_write (o : mm_out) : mm_out :=
  MMOut (xs (a_width c)) (q_read o) L0 (xs (d_width c))
        (match a_be c with Some n => zeros n | None => q_be o end) (if a_cs c then L0 else q_cs o).
Definition after_read (o : mm_out) : mm_out :=
  MMOut (xs (a_width c)) L0 (q_write o) (q_wdata o)
        (match a_be c with Some n => zeros n | None => q_be o end) (if a_cs c then L0 else q_cs o).

Lemma regroup {A B C} (m : M A) (n : M B) (k : M C) w : (m ;; n ;; k) w = ((m ;; n) ;; k) w.
Proof. symmetry. apply bind_assoc. Qed.

Lemma write_start fuel a v o p tr i0 l :
  a_write c = true -> fits (a_width c) a -> fits (d_width c) v ->
  mm_write c fuel a v (World false p o tr (i0 :: l)) =
  ((mm_when (a_wait c) (wait_for_nsignal i_wait fuel) ;; edge) ;;
   drive (q_set_write L0) ;; set_be_none c ;; mm_when (a_cs c) (drive (q_set_cs L0)) ;;
   drive (q_set_addr (xs (a_width c))) ;; drive (q_set_wdata (xs (d_width c))) ;; release_lock)
  (World true PActive (write_request c o a v) (tr ++ [(i0, o)]) l).
Proof.
  intros Hw Ha Hv. rewrite <- regroup. unfold mm_write. rewrite Hw, (assign_fits _ _ Ha), (assign_fits _ _ Hv).
  unfold set_be_all, mm_when. destruct (a_be c) eqn:B, (a_cs c) eqn:C; unfold write_request; rewrite B, C; destruct o; reflexivity.
Qed.

Lemma write_done fuel a v o p tr i0 waits ia l : 2 <= fuel ->
  a_write c = true -> fits (a_width c) a -> fits (d_width c) v ->
  Forall (stalls c) waits -> grants c ia ->
  mm_write c fuel a v (World false p o tr (i0 :: waits ++ ia :: l)) =
  (Done tt, World false PActive (after_write o)
                  (tr ++ (i0, o) :: held (write_request c o a v) (waits ++ [ia])) l).
Proof.
  intros Hf Hw Ha Hv HW Hg. rewrite write_start by assumption.
  erewrite bind_done by (apply request_done; [exact Hf|discriminate|exact HW|exact Hg]).
  unfold set_be_none, mm_when, after_write, write_request. rewrite <- app_assoc. cbn [app].
  destruct (a_be c), (a_cs c), o; reflexivity.
Qed.
Lemma write_susp fuel a v o p tr i0 waits : 2 <= fuel ->
  a_write c = true -> fits (a_width c) a -> fits (d_width c) v -> Forall (stalls c) waits -> exists p',
  mm_write c fuel a v (World false p o tr (i0 :: waits)) =
  (Susp, World true p' (write_request c o a v) (tr ++ (i0, o) :: held (write_request c o a v) waits) []).
Proof.
  intros Hf Hw Ha Hv HW. rewrite write_start by assumption.
  destruct (request_susp fuel true PActive (write_request c o a v) (tr ++ [(i0, o)]) waits Hf ltac:(discriminate) HW) as [p' E].
  exists p'. rewrite (bind_susp _ _ _ _ E), <- app_assoc. reflexivity.
Qed.
Lemma write_bad fuel a v o p tr i0 waits ia l : 2 <= fuel ->
  a_write c = true -> fits (a_width c) a -> fits (d_width c) v ->
  Forall (stalls c) waits -> bad_wait ia ->
  mm_write c fuel a v (World false p o tr (i0 :: waits ++ ia :: l)) =
  (Exn EValue, World true PReadOnly (write_request c o a v)
                  (tr ++ (i0, o) :: held (write_request c o a v) waits) (ia :: l)).
Proof.
  intros Hf Hw Ha Hv HW Hg. rewrite write_start by assumption.
  erewrite bind_exn by (apply request_bad; [exact Hf|discriminate|exact HW|exact Hg]).
  rewrite <- app_assoc. reflexivity.
Qed.

(** reads: the synchronising cycle is there only with sync *)
Definition sync_cycle (sync : bool) (pre : list mm_in) : Prop :=
  if sync then length pre = 1 else pre = [].
Lemma read_start fuel a sync o p tr pre l :
  a_read c = true -> fits (a_width c) a -> sync_cycle sync pre -> (sync = false -> p <> PReadOnly) -> exists p',
  p' <> PReadOnly /\
  mm_read c fuel a sync (World false p o tr (pre ++ l)) =
  ((mm_when (a_wait c) (wait_for_nsignal i_wait fuel) ;; edge) ;;
   drive (q_set_read L0) ;; set_be_none c ;; mm_when (a_cs c) (drive (q_set_cs L0)) ;;
   drive (q_set_addr (xs (a_width c))) ;;
   (if a_rdv c then loop fuel rdv_body tt else readonly) ;;
   i <- input ;; release_lock ;; ret (i_rdata i))
  (World true p' (read_request c o a) (tr ++ held o pre) l).
Proof.
  intros Hr Ha Hs Hp. exists (if sync then PActive else p). split; [destruct sync; [discriminate|auto]|].
  rewrite <- regroup. unfold mm_read. rewrite Hr, (assign_fits _ _ Ha).
  unfold sync_cycle in Hs. destruct sync.
  - destruct pre as [|i0 [|]]; try discriminate. unfold set_be_all, mm_when, read_request.
    destruct (a_be c), (a_cs c), o; reflexivity.
  - subst pre. specialize (Hp eq_refl). cbn [held map app]. rewrite app_nil_r. unfold set_be_all, mm_when, read_request.
    destruct p; try contradiction; destruct (a_be c), (a_cs c), o; reflexivity.
Qed.
Definition data_phase (fuel : nat) : M bits :=
  (if a_rdv c then loop fuel rdv_body tt else readonly) ;; i <- input ;; release_lock ;; ret (i_rdata i).
Definition has_data (lat : list mm_in) (iv : mm_in) : Prop :=
  (a_rdv c = true -> Forall (fun i => i_rdv i = L0) lat /\ i_rdv iv = L1) /\ (a_rdv c = false -> lat = []).
Definition bad_data (lat : list mm_in) (iv : mm_in) : Prop :=
  a_rdv c = true /\ Forall (fun i => i_rdv i = L0) lat /\ i_rdv iv <> L0 /\ i_rdv iv <> L1.

Lemma rdv_loop lat : forall fuel s o tr (r : list mm_in), length lat < fuel -> Forall (fun i => i_rdv i = L0) lat ->
  loop fuel rdv_body tt (World s PActive o tr (lat ++ r) : world) =
  loop (fuel - length lat) rdv_body tt (World s PActive o (tr ++ held o lat) r).
Proof.
  induction lat as [|i lat IH]; intros fuel s o tr r Hf F.
  - cbn [held map app length]. rewrite app_nil_r, Nat.sub_0_r. reflexivity.
  - cbn [length] in *. destruct fuel as [|fuel]; [lia|]. inversion_clear F.
    assert (B : rdv_body tt (World s PActive o tr ((i :: lat) ++ r) : world) = (Done (inl tt), World s PActive o (tr ++ [(i, o)]) (lat ++ r))).
    { unfold rdv_body, bind, readonly, input. cbn. rewrite H. reflexivity. }
    rewrite (loop_step _ _ _ _ _ _ B), IH by (assumption || lia). cbn [Nat.sub held map]. rewrite <- app_assoc. reflexivity.
Qed.
Lemma data_done fuel s o tr lat iv r : length lat < fuel -> has_data lat iv ->
  data_phase fuel (World s PActive o tr (lat ++ iv :: r) : world) =
  (Done (i_rdata iv), World false PReadOnly o (tr ++ held o lat) (iv :: r)).
Proof.
  intros Hf [H1 H2]. unfold data_phase. destruct (a_rdv c).
  - destruct (H1 eq_refl) as [F V]. unfold bind at 1. rewrite rdv_loop by assumption.
    destruct (fuel - length lat) as [|f] eqn:E; [lia|]. cbn [loop]. unfold rdv_body, bind, readonly, input. cbn. rewrite V. reflexivity.
  - rewrite (H2 eq_refl). cbn [app held map]. rewrite app_nil_r. reflexivity.
Qed.
Lemma data_susp fuel s o tr lat : length lat < fuel -> (a_rdv c = true -> Forall (fun i => i_rdv i = L0) lat) ->
  (a_rdv c = false -> lat = []) ->
  data_phase fuel (World s PActive o tr lat : world) = (Susp, World s PActive o (tr ++ held o lat) []).
Proof.
  intros Hf H1 H2. unfold data_phase. destruct (a_rdv c).
  - specialize (H1 eq_refl). unfold bind at 1. rewrite <- (app_nil_r lat) at 1. rewrite rdv_loop by assumption.
    destruct (fuel - length lat) as [|f] eqn:E; [lia|]. reflexivity.
  - rewrite (H2 eq_refl). cbn. rewrite app_nil_r. reflexivity.
Qed.
Lemma data_bad fuel s o tr lat iv r : length lat < fuel -> bad_data lat iv ->
  data_phase fuel (World s PActive o tr (lat ++ iv :: r) : world) =
  (Exn EValue, World s PReadOnly o (tr ++ held o lat) (iv :: r)).
Proof.
  intros Hf (H1 & F & N0 & N1). unfold data_phase. rewrite H1. unfold bind at 1. rewrite rdv_loop by assumption.
  destruct (fuel - length lat) as [|f] eqn:E; [lia|]. cbn [loop]. unfold rdv_body, bind, readonly, input. cbn.
  destruct (i_rdv iv); try contradiction; reflexivity.
Qed.
Lemma data_shape l :
  (a_rdv c = true -> Forall (fun i => i_rdv i = L0) l) /\ (a_rdv c = false -> l = [])
  \/ exists lat iv r, l = lat ++ iv :: r /\ (has_data lat iv \/ bad_data lat iv).
Proof.
  unfold has_data, bad_data. destruct (a_rdv c).
  - induction l as [|i l IH]; [left; split; [constructor|discriminate]|].
    destruct (i_rdv i) eqn:K.
    + destruct IH as [[H _]|(lat & iv & r & -> & H)].
      * left. split; [|discriminate]. intros _. constructor; auto.
      * right. exists (i :: lat), iv, r. split; [reflexivity|]. destruct H as [[H1 H2]|(H1 & H2 & H3)].
        -- left. split; [|discriminate]. intros _. destruct (H1 eq_refl). split; [constructor|]; assumption.
        -- right. split; [reflexivity|]. split; [constructor; assumption|exact H3].
    + right. exists [], i, l. split; [reflexivity|]. left. split; [|discriminate]. intros _. split; [constructor|exact K].
    + right. exists [], i, l. split; [reflexivity|]. right. repeat split; [constructor|congruence|congruence].
    + right. exists [], i, l. split; [reflexivity|]. right. repeat split; [constructor|congruence|congruence].
  - destruct l as [|i l]; [left; split; [discriminate|reflexivity]|].
    right. exists [], i, l. split; [reflexivity|]. left. split; [discriminate|reflexivity].
Qed.

Lemma after_request fuel o a (s : bool) tr l :
  (drive (q_set_read L0) ;; set_be_none c ;; mm_when (a_cs c) (drive (q_set_cs L0)) ;;
   drive (q_set_addr (xs (a_width c))) ;; data_phase fuel)
  (World s PActive (read_request c o a) tr l : world) =
  data_phase fuel (World s PActive (after_read o) tr l).
Proof. unfold set_be_none, mm_when, after_read, read_request. destruct (a_be c), (a_cs c), o; reflexivity. Qed.

Lemma read_done fuel a sync o p tr pre waits ia lat iv l : 2 <= fuel -> length lat < fuel ->
  a_read c = true -> fits (a_width c) a -> sync_cycle sync pre -> (sync = false -> p <> PReadOnly) ->
  Forall (stalls c) waits -> grants c ia -> has_data lat iv ->
  mm_read c fuel a sync (World false p o tr (pre ++ waits ++ ia :: lat ++ iv :: l)) =
  (Done (i_rdata iv), World false PReadOnly (after_read o)
     (tr ++ held o pre ++ held (read_request c o a) (waits ++ [ia]) ++ held (after_read o) lat) (iv :: l)).
Proof.
  intros Hf Hl Hr Ha Hs Hp HW Hg Hd.
  destruct (read_start fuel a sync o p tr pre (waits ++ ia :: lat ++ iv :: l) Hr Ha Hs Hp) as (p' & Hp' & E). rewrite E.
  erewrite bind_done by (apply request_done; [exact Hf|exact Hp'|exact HW|exact Hg]).
  change (_ ;; _ ;; _ ;; _ ;; _) with (drive (q_set_read L0) ;; set_be_none c ;; mm_when (a_cs c) (drive (q_set_cs L0)) ;;
   drive (q_set_addr (xs (a_width c))) ;; data_phase fuel). rewrite after_request.
  rewrite data_done by assumption. rewrite <- !app_assoc. reflexivity.
Qed.
Lemma read_susp_req fuel a sync o p tr pre waits : 2 <= fuel ->
  a_read c = true -> fits (a_width c) a -> sync_cycle sync pre -> (sync = false -> p <> PReadOnly) ->
  Forall (stalls c) waits -> exists p',
  mm_read c fuel a sync (World false p o tr (pre ++ waits)) =
  (Susp, World true p' (read_request c o a)
     (tr ++ held o pre ++ held (read_request c o a) waits) []).
Proof.
  intros Hf Hr Ha Hs Hp HW.
  destruct (read_start fuel a sync o p tr pre waits Hr Ha Hs Hp) as (p' & Hp' & E).
  destruct (request_susp fuel true p' (read_request c o a) (tr ++ held o pre) waits Hf Hp' HW) as [q Eq].
  exists q. rewrite E, (bind_susp _ _ _ _ Eq), <- app_assoc. reflexivity.
Qed.
Lemma read_susp_data fuel a sync o p tr pre waits ia lat : 2 <= fuel -> length lat < fuel ->
  a_read c = true -> fits (a_width c) a -> sync_cycle sync pre -> (sync = false -> p <> PReadOnly) ->
  Forall (stalls c) waits -> grants c ia -> 
  (a_rdv c = true -> Forall (fun i => i_rdv i = L0) lat) -> (a_rdv c = false -> lat = []) ->
  mm_read c fuel a sync (World false p o tr (pre ++ waits ++ ia :: lat)) =
  (Susp, World true PActive (after_read o)
     (tr ++ held o pre ++ held (read_request c o a) (waits ++ [ia]) ++ held (after_read o) lat) []).
Proof.
  intros Hf Hl Hr Ha Hs Hp HW Hg H1 H2.
  destruct (read_start fuel a sync o p tr pre (waits ++ ia :: lat) Hr Ha Hs Hp) as (p' & Hp' & E). rewrite E.
  erewrite bind_done by (apply request_done; [exact Hf|exact Hp'|exact HW|exact Hg]).
  change (_ ;; _ ;; _ ;; _ ;; _) with (drive (q_set_read L0) ;; set_be_none c ;; mm_when (a_cs c) (drive (q_set_cs L0)) ;;
   drive (q_set_addr (xs (a_width c))) ;; data_phase fuel). rewrite after_request.
  rewrite data_susp by assumption. rewrite <- !app_assoc. reflexivity.
Qed.
End Access.

(** ** what the slave accepts *)
Section Accepted.
Context (c : mm_cfg).
Lemma accepted_app t t' : accepted_in c (t ++ t') = accepted_in c t ++ accepted_in c t'.
Proof. unfold accepted_in. apply flat_map_app. Qed.
Lemma accepted_none o l : q_read o <> L1 -> q_write o <> L1 -> accepted_in c (held o l) = [].
Proof.
  intros R W. unfold accepted_in. induction l as [|i l IH]; [reflexivity|].
  cbn [held map flat_map]. unfold held in IH. rewrite IH, app_nil_r. unfold accepts_now.
  destruct (q_read o); try contradiction; destruct (q_write o); try contradiction;
    destruct (if a_wait c then _ else _); reflexivity.
Qed.
Lemma accepted_stalls o l : Forall (stalls c) l -> accepted_in c (held o l) = [].
Proof.
  unfold accepted_in. induction 1 as [|i l [H1 H2] _ IH]; [reflexivity|].
  cbn [held map flat_map]. unfold held in IH. rewrite IH, app_nil_r. unfold accepts_now. rewrite H1, H2. reflexivity.
Qed.
Lemma accepted_grant o i : grants c i -> accepted_in c [(i, o)] =
  (match q_read o with L1 => [AcRead (bval (q_addr o))] | _ => [] end)
   ++ (match q_write o with L1 => [AcWrite (bval (q_addr o)) (bval (q_wdata o))] | _ => [] end).
Proof.
  intro G. unfold accepted_in. cbn [flat_map]. rewrite app_nil_r. unfold accepts_now, grants in *.
  destruct (a_wait c); [rewrite (G eq_refl)|]; reflexivity.
Qed.
Lemma bval_fits n z : fits n z -> bval (zbits n z) = Some z.
Proof. intro H. rewrite bval_zbits. f_equal. apply Z.mod_small, H. Qed.
Lemma accepted_write o a v waits ia : fits (a_width c) a -> fits (d_width c) v -> q_read o <> L1 ->
  Forall (stalls c) waits -> grants c ia ->
  accepted_in c (held (write_request c o a v) (waits ++ [ia])) = [AcWrite (Some a) (Some v)].
Proof.
  intros Ha Hv R W G. rewrite held_app, accepted_app, accepted_stalls by exact W. cbn [held map app].
  rewrite accepted_grant by exact G. cbn [write_request q_read q_write q_addr q_wdata].
  rewrite !bval_fits by assumption. destruct (q_read o); try contradiction; reflexivity.
Qed.
Lemma accepted_read o a waits ia : fits (a_width c) a -> q_write o <> L1 ->
  Forall (stalls c) waits -> grants c ia ->
  accepted_in c (held (read_request c o a) (waits ++ [ia])) = [AcRead (Some a)].
Proof.
  intros Ha R W G. rewrite held_app, accepted_app, accepted_stalls by exact W. cbn [held map app].
  rewrite accepted_grant by exact G. cbn [read_request q_read q_write q_addr q_wdata].
  rewrite !bval_fits by assumption. destruct (q_write o); try contradiction; reflexivity.
Qed.

Lemma after_write_quiet o : quiet c o -> quiet c (after_write c o).
Proof.
  intros [R W B C]. split; cbn [after_write q_read q_write q_be q_cs]; try assumption; try reflexivity.
  - intros n E. rewrite E. reflexivity.
  - intro E. rewrite E. reflexivity.
Qed.
Lemma after_read_quiet o : quiet c o -> quiet c (after_read c o).
Proof.
  intros [R W B C]. split; cbn [after_read q_read q_write q_be q_cs]; try assumption; try reflexivity.
  - intros n E. rewrite E. reflexivity.
  - intro E. rewrite E. reflexivity.
Qed.

Lemma all_timed fuel ops l ds l' : timing c ops l ds l' -> 2 <= fuel -> Forall (op_fits c) ops ->
  forall o p tr, length l < fuel -> quiet c o -> exists p' o' tr',
  mm_all c fuel ops (World false p o tr l) = (Done ds, World false p' o' (tr ++ tr') l')
  /\ accepted_in c tr' = map op_accepted ops /\ l = map fst tr' ++ l' /\ quiet c o'.
Proof.
  intros T Hf. induction T as [l|a v r i0 waits ia l ds l' W G T IH|a r i0 waits ia lat iv l ds l' W G D1 D2 T IH];
    intros F o p tr Hl Q.
  - exists p, o, []. rewrite app_nil_r. repeat split; apply Q.
  - inversion_clear F as [|? ? F0 F']. cbn [op_fits] in F0. destruct F0 as (F1 & F2 & F3). cbn [length] in Hl. rewrite app_length in Hl. cbn [length] in Hl.
    destruct (IH F' (after_write c o) PActive (tr ++ (i0, o) :: held (write_request c o a v) (waits ++ [ia])) ltac:(lia)
                 (after_write_quiet o Q)) as (p' & o' & tr' & E & A & L & Q').
    exists p', o', (((i0, o) :: held (write_request c o a v) (waits ++ [ia])) ++ tr'). repeat split; try apply Q'.
    + cbn [mm_all]. erewrite bind_done by (apply write_done; assumption). rewrite E, <- app_assoc. reflexivity.
    + rewrite accepted_app, A. change ((i0, o) :: ?x) with (held o [i0] ++ x).
      rewrite accepted_app, accepted_none, accepted_write; try assumption; try reflexivity;
        destruct Q as [QR QW _ _]; congruence.
    + rewrite map_app. cbn [map fst]. rewrite held_fst, L. cbn [app]. rewrite <- !app_assoc. reflexivity.
  - inversion_clear F as [|? ? F0 F']. cbn [op_fits] in F0. destruct F0 as (F1 & F2).
    assert (length (iv :: l) < fuel /\ length lat < fuel) as [Hl1 Hl2].
    { cbn [length] in *. rewrite app_length in Hl. cbn [length] in Hl. rewrite app_length in Hl. cbn [length] in Hl. lia. }
    pose (tr0 := held o [i0] ++ held (read_request c o a) (waits ++ [ia]) ++ held (after_read c o) lat).
    destruct (IH F' (after_read c o) PReadOnly (tr ++ tr0) Hl1 (after_read_quiet o Q)) as (p' & o' & tr' & E & A & L & Q').
    exists p', o', (tr0 ++ tr'). repeat split; try apply Q'.
    + cbn [mm_all]. erewrite bind_done.
      2:{ apply (read_done c fuel a true o p tr [i0] waits ia lat iv l); try assumption; try reflexivity.
          - discriminate.
          - split; assumption. }
      fold tr0. erewrite bind_done by exact E. rewrite <- app_assoc. reflexivity.
    + rewrite accepted_app, A. unfold tr0. destruct Q as [QR QW _ _].
      rewrite !accepted_app, accepted_none, accepted_read, accepted_none; try assumption; try reflexivity;
        cbn [after_read q_read q_write]; congruence.
    + unfold tr0. rewrite !map_app, !held_fst, <- !app_assoc, <- L. reflexivity.
Qed.
End Accepted.

(** ** the property proofs *)
Definition wait_def (c : mm_cfg) (l : list mm_in) : Prop :=
  forall i, In i l -> a_wait c = true -> i_wait i = L0 \/ i_wait i = L1.
Definition rdv_def (c : mm_cfg) (l : list mm_in) : Prop :=
  forall i, In i l -> a_rdv c = true -> i_rdv i = L0 \/ i_rdv i = L1.

Lemma defined_not_bad c l i : wait_def c l -> In i l -> bad_wait c i -> False.
Proof. intros D H (A & B & C). destruct (D i H A); contradiction. Qed.

Lemma mm_write_thm c fuel address value o p tr l :
  2 <= fuel -> a_write c = true -> fits (a_width c) address -> fits (d_width c) value ->
  quiet c o -> wait_def c l ->
  let run := mm_write c fuel address value (World false p o tr l) in
  (exists i0 waits ia r o', l = i0 :: waits ++ ia :: r /\ Forall (stalls c) waits /\ grants c ia /\
     run = (Done tt, World false PActive o'
              (tr ++ held o [i0] ++ held (write_request c o address value) (waits ++ [ia])) r)
     /\ quiet c o' /\
     accepted_in c (held o [i0] ++ held (write_request c o address value) (waits ++ [ia]))
       = [AcWrite (Some address) (Some value)])
  \/ (exists i0 waits p', l = i0 :: waits /\ Forall (stalls c) waits /\
        run = (Susp, World true p' (write_request c o address value)
                 (tr ++ held o [i0] ++ held (write_request c o address value) waits) []))
  \/ l = [] /\ run = (Susp, World true p o tr []).
Proof.
  intros Hf Hw Ha Hv Q D run. subst run. destruct l as [|i0 l].
  { right. right. split; [reflexivity|]. unfold mm_write. rewrite Hw. reflexivity. }
  destruct (shape c l) as [S|(waits & ia & r & -> & S & [G|B])].
  - right. left. destruct (write_susp c fuel address value o p tr i0 l Hf Hw Ha Hv S) as [p' E].
    exists i0, l, p'. repeat split; assumption.
  - left. exists i0, waits, ia, r, (after_write c o). repeat (split; [solve [assumption|reflexivity]|]).
    split; [apply write_done; assumption|]. split; [apply after_write_quiet; exact Q|].
    destruct Q as [QR QW _ _]. rewrite accepted_app, accepted_none, accepted_write; try assumption; try reflexivity; congruence.
  - exfalso. apply (defined_not_bad c _ ia D); [|exact B]. right. apply in_or_app. right. left. reflexivity.
Qed.

Lemma mm_read_thm c fuel address (sync : bool) o p tr l :
  2 <= fuel -> length l < fuel -> a_read c = true -> fits (a_width c) address -> quiet c o ->
  wait_def c l -> rdv_def c l -> (sync = false -> p <> PReadOnly) ->
  let run := mm_read c fuel address sync (World false p o tr l) in
  let req := read_request c o address in
  (exists pre waits ia lat iv r o',
     l = pre ++ waits ++ ia :: lat ++ iv :: r
     /\ length pre = (if sync then 1 else 0) /\ Forall (stalls c) waits /\ grants c ia
     /\ (a_rdv c = true -> Forall (fun i => i_rdv i = L0) lat /\ i_rdv iv = L1)
     /\ (a_rdv c = false -> lat = [])
     /\ run = (Done (i_rdata iv), World false PReadOnly o'
                 (tr ++ held o pre ++ held req (waits ++ [ia]) ++ held o' lat) (iv :: r))
     /\ quiet c o'
     /\ accepted_in c (held o pre ++ held req (waits ++ [ia]) ++ held o' lat) = [AcRead (Some address)])
  \/ (exists pre waits p',
        l = pre ++ waits /\ length pre = (if sync then 1 else 0) /\ Forall (stalls c) waits
        /\ run = (Susp, World true p' req (tr ++ held o pre ++ held req waits) []))
  \/ (exists pre waits ia lat o',
        l = pre ++ waits ++ ia :: lat /\ length pre = (if sync then 1 else 0)
        /\ Forall (stalls c) waits /\ grants c ia
        /\ (a_rdv c = true -> Forall (fun i => i_rdv i = L0) lat) /\ (a_rdv c = false -> lat = [])
        /\ quiet c o'
        /\ run = (Susp, World true PActive o' (tr ++ held o pre ++ held req (waits ++ [ia]) ++ held o' lat) []))
  \/ l = [] /\ sync = true /\ run = (Susp, World true p o tr []).
Proof.
  intros Hf Hl Hr Ha Q D R Hp run req. subst run req.
  assert (exists pre l', l = pre ++ l' /\ sync_cycle sync pre \/ l = [] /\ sync = true) as (pre & l' & [[-> Hs]|[-> ->]]).
  { destruct sync; [|exists [], l; left; split; reflexivity]. destruct l as [|i0 l].
    - exists [], []. right. split; reflexivity.
    - exists [i0], l. left. split; reflexivity. }
  2:{ do 3 right. split; [reflexivity|]. split; [reflexivity|]. unfold mm_read. rewrite Hr. reflexivity. }
  assert (Hpre : length pre = if sync then 1 else 0).
  { destruct sync; [exact Hs|]. rewrite Hs. reflexivity. }
  destruct (shape c l') as [S|(waits & ia & r & -> & S & [G|B])].
  - right. left. destruct (read_susp_req c fuel address sync o p tr pre l' Hf Hr Ha Hs Hp S) as [p' E].
    exists pre, l', p'. repeat (split; [solve [assumption|reflexivity]|]). exact E.
  - assert (length r < fuel) by (rewrite !app_length in Hl; cbn [length] in Hl; lia).
    destruct (data_shape c r) as [[H1 H2]|(lat & iv & r' & -> & [[H1 H2]|B])].
    + do 2 right. left. exists pre, waits, ia, r, (after_read c o). repeat (split; [solve [assumption|reflexivity]|]).
      split; [apply after_read_quiet; exact Q|]. apply read_susp_data; assumption.
    + left. exists pre, waits, ia, lat, iv, r', (after_read c o). repeat (split; [solve [assumption|reflexivity]|]).
      rewrite app_length in H. cbn [length] in H.
      split; [apply read_done; try assumption; [lia|split; assumption]|].
      split; [apply after_read_quiet; exact Q|]. destruct Q as [QR QW _ _].
      rewrite !accepted_app, accepted_none, accepted_read, accepted_none; try assumption; try reflexivity;
        cbn [after_read q_read q_write]; congruence.
    + exfalso. destruct B as (B1 & _ & B2 & B3). destruct (R iv) as [E|E]; try contradiction; [|exact B1].
      apply in_or_app. right. apply in_or_app. right. right. apply in_or_app. right. left. reflexivity.
  - exfalso. apply (defined_not_bad c _ ia D); [|exact B]. apply in_or_app. right. apply in_or_app. right. left. reflexivity.
Qed.

Lemma mm_all_thm c fuel ops l ds l' o p :
  timing c ops l ds l' -> 2 <= fuel -> length l < fuel -> Forall (op_fits c) ops -> quiet c o ->
  exists p' o' tr, mm_all c fuel ops (World false p o [] l) = (Done ds, World false p' o' tr l')
    /\ accepted_in c tr = map op_accepted ops /\ l = map fst tr ++ l' /\ quiet c o'.
Proof. intros T Hf Hl F Q. exact (all_timed c fuel ops l ds l' T Hf F o p [] Hl Q). Qed.

(** the lock is held: nothing starts *)
Lemma locked c fuel ops p o tr l : ops <> [] -> Forall (op_fits c) ops ->
  mm_all c fuel ops (World true p o tr l) = (Susp, World true p o tr l).
Proof.
  intros N F. destruct F as [|x r Fx F]; [contradiction|]. destruct x as [a|a v]; cbn [op_fits] in Fx; cbn [mm_all].
  - destruct Fx as [Fr _]. unfold mm_read. rewrite Fr. reflexivity.
  - destruct Fx as [Fr _]. unfold mm_write. rewrite Fr. reflexivity.
Qed.

Lemma mm_bad_address c fuel address value o p tr i0 l :
  a_write c = true -> (2 ^ Z.of_nat (a_width c) <= address)%Z ->
  exists w, mm_write c fuel address value (World false p o tr (i0 :: l)) = (Exn EValue, w)
    /\ out w = o /\ forall fuel' ops, ops <> [] -> Forall (op_fits c) ops ->
       mm_all c fuel' ops w = (Susp, w).
Proof.
  intros Hw Ha. exists (World true PActive o (tr ++ [(i0, o)]) l). split; [|split; [reflexivity|intros; apply locked; assumption]].
  unfold mm_write. rewrite Hw. unfold assign_int.
  replace (address <? 2 ^ Z.of_nat (a_width c))%Z with false by (symmetry; apply Z.ltb_ge; exact Ha).
  rewrite andb_false_r. reflexivity.
Qed.
Lemma mm_bad_wait c fuel address value o p tr i0 ia l :
  2 <= fuel -> a_write c = true -> fits (a_width c) address -> fits (d_width c) value ->
  a_wait c = true -> i_wait ia = LX ->
  exists w, mm_write c fuel address value (World false p o tr (i0 :: ia :: l)) = (Exn EValue, w)
    /\ out w = write_request c o address value /\ forall fuel' ops, ops <> [] -> Forall (op_fits c) ops ->
       mm_all c fuel' ops w = (Susp, w).
Proof.
  intros Hf Hw Ha Hv W X. eexists. split.
  - apply (write_bad c fuel address value o p tr i0 [] ia l); try assumption; [constructor|].
    split; [exact W|]. rewrite X. split; discriminate.
  - split; [reflexivity|]. intros. apply locked; assumption.
Qed.
Lemma mm_back_to_back c fuel address o tr l :
  a_read c = true -> fits (a_width c) address ->
  exists w, mm_read c fuel address false (World false PReadOnly o tr l) = (Exn ERuntime, w)
    /\ out w = o /\ forall fuel' ops, ops <> [] -> Forall (op_fits c) ops ->
       mm_all c fuel' ops w = (Susp, w).
Proof.
  intros Hr Ha. exists (World true PReadOnly o tr l). split; [|split; [reflexivity|intros; apply locked; assumption]].
  unfold mm_read. rewrite Hr, (assign_fits _ _ Ha). reflexivity.
Qed.
Lemma mm_refused c fuel address value sync w :
  (a_write c = false -> mm_write c fuel address value w = (Exn EAssertion, w)) /\
  (a_read c = false -> mm_read c fuel address sync w = (Exn EAssertion, w)).
Proof. split; intro H; [unfold mm_write|unfold mm_read]; rewrite H; reflexivity. Qed.
