(** DrvRefProp.v -- C21 and C69: for which histories they fail. *)
From Verif Require Import ScoreboardModel ScoreboardSpec ScoreboardProof.
From Verif Require DriverModel DriverSpec.
Local Open Scope list_scope.

(** C21: every history after which the only expectations left are in the list of one monitor.
    Adding that monitor again, with any list that is empty then, makes the result a pass. *)
Section Scoreboard.
Context {T : Type} (ty : T -> nat) (eqb : T -> T -> bool) (str : T -> string) (fn : nat -> list T -> T -> T).

Lemma set_expected_fst d m e k : In k (map fst (set_expected d m e)) -> k = m \/ In k (map fst d).
Proof.
  induction d as [|[m' e'] r IH]; cbn [set_expected map]; [intros [<-|[]]; left; reflexivity|].
  destruct (Nat.eqb m' m); cbn [map In]; intros [H|H]; auto. destruct (IH H); auto.
Qed.
Lemma set_expected_nodup d m e : NoDup (map fst d) -> NoDup (map fst (set_expected d m e)).
Proof.
  induction d as [|[m' e'] r IH]; cbn [set_expected map fst]; intro H; [repeat constructor; intros []|].
  inversion H as [|x y N R]; subst. destruct (Nat.eqb_spec m' m) as [->|Ne]; cbn [map fst]; [exact H|].
  constructor; [|apply IH, R]. intro C. apply set_expected_fst in C. destruct C as [C|C]; auto.
Qed.
Lemma set_expected_only d m e k x : NoDup (map fst d) -> In (k, x) (set_expected d m e) -> (k = m /\ x = e) \/ (k <> m /\ In (k, x) d).
Proof.
  induction d as [|[m' e'] r IH]; cbn [set_expected map fst]; intros N H.
  - destruct H as [H|[]]. injection H as <- <-. left. auto.
  - inversion N as [|a b Na Nr]; subst. destruct (Nat.eqb_spec m' m) as [->|Ne].
    + destruct H as [H|H]; [injection H as <- <-; left; auto|]. right. split; [|right; exact H].
      intros ->. apply Na. apply in_map_iff. exists (m, x). auto.
    + destruct H as [H|H]; [injection H as <- <-; right; split; [exact Ne|left; reflexivity]|].
      destruct (IH Nr H) as [A|(A & B)]; [left; exact A|right; split; [exact A|right; exact B]].
Qed.
Lemma run_nodup ops : forall s, NoDup (map fst (expected s)) -> NoDup (map fst (expected (fst (sb_run T ty eqb str fn s ops)))).
Proof.
  induction ops as [|o ops IH]; intros s H; [exact H|]. cbn [sb_run].
  destruct (sb_step T ty eqb str fn s o) as [s1 x] eqn:E1. specialize (IH s1).
  destruct (sb_run T ty eqb str fn s1 ops) as [s2 ys]. cbn [fst] in *. apply IH.
  destruct o as [l t|m t|m im e cf d st]; cbn [sb_step] in E1.
  - injection E1 as <- <-. exact H.
  - apply receive_frame in E1. destruct E1 as (_ & -> & _). exact H.
  - unfold add_interface in E1. destruct im; [destruct cf|]; cbn in E1; injection E1 as <- <-; cbn; apply set_expected_nodup, H.
Qed.
Lemma run_snoc ops o : forall s, fst (sb_run T ty eqb str fn s (ops ++ [o])) = fst (sb_step T ty eqb str fn (fst (sb_run T ty eqb str fn s ops)) o).
Proof.
  induction ops as [|a ops IH]; intro s; cbn [app sb_run].
  - cbn [fst]. destruct (sb_step T ty eqb str fn s o) as [s1 x]. reflexivity.
  - destruct (sb_step T ty eqb str fn s a) as [s1 x]. specialize (IH s1).
    destruct (sb_run T ty eqb str fn s1 (ops ++ [o])) as [s2 ys], (sb_run T ty eqb str fn s1 ops) as [s3 zs]. exact IH.
Qed.
Lemma second_add :
  forall im ops m mon l cf d st,
    let s := fst (sb_run T ty eqb str fn (sb_init T im) ops) in
    errors s = 0 -> (forall m' l', m' <> m -> In (m', EList l') (expected s) -> heap s l' = []) -> heap s l = [] ->
    result T (fst (sb_run T ty eqb str fn (sb_init T im) (ops ++ [SAdd m mon (EList l) cf d st]))) = Ok tt.
Proof.
  intros im ops m mon l cf d st s He Ho Hl. rewrite run_snoc. fold s.
  assert (N : NoDup (map fst (expected s))) by (apply run_nodup; constructor).
  set (s' := fst (sb_step T ty eqb str fn s (SAdd m mon (EList l) cf d st))).
  assert (X : errors s' = errors s /\ heap s' = heap s /\ expected s' = set_expected (expected s) m (EList l)).
  { unfold s'. cbn [sb_step]. unfold add_interface. destruct mon; [destruct cf|]; repeat split; reflexivity. }
  destruct X as (X1 & X2 & X3). apply (proj1 (result_iff s')). split; [rewrite X1; exact He|].
  intros k l' Hi. rewrite X2. rewrite X3 in Hi. apply (set_expected_only _ _ _ _ _ N) in Hi.
  destruct Hi as [(_ & E)|(Hk & Hi)]; [injection E as ->; exact Hl|]. exact (Ho k l' Hk Hi).
Qed.
End Scoreboard.
Theorem C21_second_add_refuted :
  forall (T : Type) (ty : T -> nat) eqb (str : T -> string) fn im ops m mon l cf d st,
    let s := fst (sb_run T ty eqb str fn (sb_init T im) ops) in
    errors s = 0 -> (forall m' l', m' <> m -> In (m', EList l') (expected s) -> heap s l' = []) -> heap s l = [] ->
    result T (fst (sb_run T ty eqb str fn (sb_init T im) (ops ++ [SAdd m mon (EList l) cf d st]))) = Ok tt.
Proof. exact @second_add. Qed.
Print Assumptions C21_second_add_refuted.

(** C69: in every history in which the send thread is inside a transmission, a send() overlaps it;
    and a queued transaction is started into every send() in progress. *)
Import DriverModel DriverSpec.
Theorem C69_every_send_overlaps_refuted :
  forall (T : Type) beh (acts : list (action T)),
    let d := run T beh acts drv_init in
    (forall i sy t s, thr d = TSending i sy -> overlapping (run T beh (acts ++ [ADirect t s]) drv_init)) /\
    (forall i q, thr d = TReady -> sendq d = i :: q -> i_sync_kw i = false -> direct d <> [] ->
       overlapping (run T beh (acts ++ [ARun]) drv_init)).
Proof.
  intros T beh acts d. split.
  - intros i sy t s H. unfold run. rewrite fold_left_app. cbn [fold_left step]. change (fold_left (step T beh) acts drv_init) with d.
    split; cbn; [destruct (direct d); discriminate|rewrite H; exact I].
  - intros i q H Hq Hk Hd. unfold run. rewrite fold_left_app. cbn [fold_left step]. change (fold_left (step T beh) acts drv_init) with d.
    rewrite H. unfold inner_loop. rewrite Hq, Hk. split; cbn; [exact Hd|exact I].
Qed.
Print Assumptions C69_every_send_overlaps_refuted.

Example exd_gen :
  let s := fst (sb_run nat (fun _ => 0) Nat.eqb (fun _ => EmptyString) (fun _ _ t => t) (sb_init nat true)
                  [SAdd 1 true (EList 0) NoFn 0 true; SExpect 0 7; SExpect 0 8; SRecv 1 7]) in
  errors s = 0 /\ heap s 0 = [8] /\ result nat s = Err EAssertion /\ heap s 5 = [] /\
  (forall m' l', m' <> 1 -> In (m', EList l') (expected s) -> heap s l' = []) /\
  let d := run nat (fun _ _ => ([], None)) [AAppend (Item 1 None None false); ADirect 2 true] drv_init in
  thr d = TReady /\ sendq d = [Item 1 None None false] /\ direct d <> [] /\
  thr (run nat (fun _ _ => ([], None)) [AAppend (Item 1 None None false); ARun] drv_init) = TSending (Item 1 None None false) true.
Proof.
  cbn zeta. split; [reflexivity|]. split; [reflexivity|]. split; [reflexivity|]. split; [reflexivity|].
  split; [intros m' l' N H; cbn in H; destruct H as [H|[]]; injection H as <- <-; contradiction|].
  split; [reflexivity|]. split; [reflexivity|]. split; [discriminate|reflexivity].
Qed.
