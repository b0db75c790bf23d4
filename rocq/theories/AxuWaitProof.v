(** AxuWaitProof.v -- the tasks that wait for a channel when an access on it raises. *)
From Verif Require Import Base Async BitsLemmas CompatModel HandshakeSpec Handshake AxiModel AxiSpec AxiDataProof AxiReadProof AxiChanProof AxiRunProof AxiTopProof AxcModel AxuSpec AxuProof.
Local Open Scope list_scope.

Lemma serve_stuck {TO A R : Type} (body : A -> M unit axi_in TO R) (w : world unit axi_in TO) :
  (forall a, body a w = (Exn ERuntime, w)) -> forall jobs, Forall (fun j => fst j <= length (trace w)) jobs ->
  serve body jobs w = (map (fun j => (snd j, length (trace w), Exn ERuntime)) jobs, w).
Proof.
  intros H jobs F. induction F as [|[t a] jobs Ht F IH]; [reflexivity|]. cbn [serve fst] in *.
  replace (t - length (trace w)) with 0 by lia. cbn [edges].
  rewrite (bind_done _ _ _ tt w) by reflexivity. rewrite H, IH. reflexivity.
Qed.

Lemma skip_edges {TO B} (k : M unit axi_in TO B) s p (o : TO) (skip l : list axi_in) t : length skip = t -> p <> PReadOnly ->
  exists p', p' <> PReadOnly /\ (edges (t - 0) ;; k) (World s p o [] (skip ++ l)) = k (World s p' o (held o skip) l).
Proof.
  intros Hl Hp. exists (match t with O => p | _ => PActive end). split; [destruct t; [assumption|discriminate]|].
  rewrite Nat.sub_0_r.
  assert (E : edges t (World s p o [] (skip ++ l)) = (Done tt, World s (match t with O => p | _ => PActive end) o (held o skip) l)).
  { rewrite edges_spec. cbn [ins st ph out trace]. rewrite app_length.
    destruct (Nat.leb_spec t (length skip + length l)); [|lia].
    rewrite firstn_app, skipn_app, Hl, Nat.sub_diag. cbn [firstn skipn app].
    rewrite firstn_all2, skipn_all2 by lia. rewrite app_nil_r. reflexivity. }
  now rewrite (bind_done _ _ _ _ _ E).
Qed.

Lemma read_stuck c fuel a s o tr l : r_job c (S fuel) a (UW s PReadOnly o tr l) = (Exn ERuntime, UW s PReadOnly o tr l).
Proof. destruct a as [a size]. reflexivity. Qed.

Lemma waiting_reads c fuel calls p o l t a rest skip seg f tl :
  axi_bus c -> legal_access (x_bytes c) (ra_address a) (ra_length a) (ra_size a) (ra_burst a) ->
  p <> PReadOnly -> length l < fuel ->
  addressed (fst (serve (ar_job c fuel) (admitted (read_check c) calls) (UW tt p o [] l)))
    = (t, (a, size_or (x_bytes c) (ra_size a))) :: rest ->
  l = skip ++ seg ++ f :: tl -> length skip = t ->
  Forall (fun i => r_final c i = false) seg -> Forall (fun i => r_beat i = true -> r_beat_ok c i) seg ->
  r_beat f = true -> length (g_rdata f) = x_width c -> bval (g_rresp f) = None ->
  Forall (fun j => fst j <= length (skip ++ seg)) rest ->
  rs_results (concurrent_reads c fuel calls p o l) =
    (a, Exn EValue) :: map (fun j => (fst (snd j), Exn ERuntime)) rest.
Proof.
  intros Hb Hl Hp Hf E El Ht Fs Fo Fb Fd Fu Fr.
  unfold concurrent_reads. destruct (serve (ar_job c fuel) _ _) as [ra va]. cbn [fst] in E. rewrite E.
  destruct (legal_facts c _ _ _ _ Hb Hl) as (_ & Ps & _ & _ & q & Hq & Eq). pose proof (pow2_pos' _ Ps) as Hs.
  assert (G : good (size_or (x_bytes c) (ra_size a)) q (ra_address a mod x_bytes c / size_or (x_bytes c) (ra_size a) * size_or (x_bytes c) (ra_size a))).
  { eexists. split; [|reflexivity]. exact (blk_range _ _ _ (ra_address a) Hs Hq Eq). }
  assert (Lr : length seg + S (length tl) < fuel).
  { rewrite El in Hf. rewrite !app_length in Hf. cbn [length] in Hf. lia. }
  subst l. cbn [serve trace length].
  destruct (skip_edges (r_job c fuel (a, size_or (x_bytes c) (ra_size a))) tt p o skip (seg ++ f :: tl) t Ht Hp) as (p' & Hp' & Es).
  rewrite Es.
  assert (J : r_job c fuel (a, size_or (x_bytes c) (ra_size a)) (World tt p' o (held o skip) (seg ++ f :: tl))
              = (Exn EValue, World tt PReadOnly o (held o skip ++ held o seg) (f :: tl))).
  { unfold r_job. unfold bind at 1. change (read_beats c fuel (ra_burst a)) with (fun size off => loop fuel (rb_body c size fuel (ra_burst a)) ([], [], off)). cbn beta.
    rewrite (bad_beats c _ q Hs Hq Eq (proj2 (proj2 Hb)) f tl Fb Fd Fu (ra_burst a) (length seg) seg (le_n _) Fs Fo) by (try assumption; try discriminate; lia).
    reflexivity. }
  rewrite J. cbn [trace].
  destruct fuel as [|fuel]; [lia|].
  rewrite (serve_stuck (r_job c (S fuel)) (World tt PReadOnly o (held o skip ++ held o seg) (f :: tl))).
  - cbn [rs_results map fst snd]. rewrite map_map. reflexivity.
  - intros x. apply read_stuck.
  - cbn [trace]. rewrite <- held_app. unfold held. rewrite map_length. exact Fr.
Qed.

Lemma bad_response fuel : forall nr s p (o : unit) tr f tl, p <> PReadOnly -> Forall (fun i => b_valid i = false) nr ->
  b_valid f = true -> bval (g_bresp f) = None -> length nr < fuel ->
  write_response fuel (World s p o tr (nr ++ f :: tl)) = (Exn EValue, World s PReadOnly o (tr ++ held o nr) (f :: tl)).
Proof.
  unfold write_response. intros nr s p o tr f tl Hp F Hf Hu Hn. apply bind_exn.
  revert fuel s p o tr Hp Hn. induction F as [|i nr Hi F IH]; intros fuel s p o tr Hp Hn; (destruct fuel as [|fu]; [cbn [length] in Hn; lia|]).
  - cbn [app held map loop]. rewrite app_nil_r.
    assert (R : readonly (World s p o tr (f :: tl)) = (Done tt, World s PReadOnly o tr (f :: tl))) by (destruct p; try reflexivity; contradiction).
    unfold bind at 1. rewrite (bind_done _ _ _ _ _ R). cbn beta.
    rewrite (bind_done _ _ _ f (World s PReadOnly o tr (f :: tl))) by reflexivity.
    unfold b_valid in Hf. rewrite Hf, Hu. reflexivity.
  - cbn [app].
    assert (R : readonly (World s p o tr (i :: nr ++ f :: tl)) = (Done tt, World s PReadOnly o tr (i :: nr ++ f :: tl))) by (destruct p; try reflexivity; contradiction).
    rewrite (loop_step fu _ tt _ (inl tt) (World s PActive o (tr ++ [(i, o)]) (nr ++ f :: tl))).
    + rewrite (IH fu s PActive o (tr ++ [(i, o)]) ltac:(discriminate) ltac:(cbn [length] in Hn; lia)).
      cbn [held map]. rewrite <- app_assoc. reflexivity.
    + rewrite (bind_done _ _ _ _ _ R). cbn beta. rewrite (bind_done _ _ _ i (World s PReadOnly o tr (i :: nr ++ f :: tl))) by reflexivity.
      unfold b_valid in Hi. rewrite Hi. reflexivity.
Qed.

Lemma waiting_writes c fuel calls p oa ow l t k rest skip seg f tl :
  p <> PReadOnly -> length l < fuel ->
  let jobs := admitted (write_check c) calls in
  let ra := fst (serve (aw_job c fuel) jobs (World tt p oa [] l)) in
  let rw := fst (serve (w_job c fuel) jobs (World tt p ow [] l)) in
  by_time (joined 0 ra rw) = (t, k) :: rest -> raised ra rw = [] ->
  l = skip ++ seg ++ f :: tl -> length skip = t ->
  Forall (fun i => b_valid i = false) seg -> b_valid f = true -> bval (g_bresp f) = None ->
  Forall (fun j => fst j <= length (skip ++ seg)) rest ->
  ws_results (concurrent_writes c fuel calls p oa ow l) =
    (k, Exn EValue) :: map (fun j => (snd j, Exn ERuntime)) rest.
Proof.
  intros Hp Hf jobs ra rw E Er El Ht Fs Fb Fu Fr.
  unfold concurrent_writes. fold jobs. subst ra rw.
  destruct (serve (aw_job c fuel) jobs _) as [ra va]. destruct (serve (w_job c fuel) jobs _) as [rw vw].
  cbn [fst] in E, Er. rewrite E, Er. cbn [app].
  assert (Lr : length seg < fuel).
  { rewrite El in Hf. rewrite !app_length in Hf. lia. }
  destruct fuel as [|fuel]; [lia|]. subst l. cbn [serve trace length].
  destruct (skip_edges (write_response (TO := unit) (S fuel)) tt p tt skip (seg ++ f :: tl) t Ht Hp) as (p' & Hp' & Es).
  rewrite Es, (bad_response (S fuel) seg tt p' tt (held tt skip) f tl Hp' Fs Fb Fu Lr). cbn [trace].
  rewrite (serve_stuck (fun _ : nat => write_response (S fuel)) (World tt PReadOnly tt (held tt skip ++ held tt seg) (f :: tl))).
  - cbn [ws_results map fst snd]. rewrite map_map. reflexivity.
  - intros x. reflexivity.
  - cbn [trace]. rewrite <- held_app. unfold held. rewrite map_length. exact Fr.
Qed.
