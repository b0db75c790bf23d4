(** MMRspProof.v *)
From Verif Require Import Base Async MMModel MMSpec MMProof MMProp MMRspSpec.
Local Open Scope list_scope.

Section Rsp.
Context (c : mm_cfg) (D : nat).
Notation rw := (responds_within c D).

Lemma rw_later a b : rw (a ++ b) -> rw b.
Proof. intros H p w f -> L. apply (H (a ++ p) w f); [rewrite app_assoc; reflexivity|exact L]. Qed.

Lemma held_split {TO} (o : TO) n (l : list mm_in) : held o l = held o (firstn n l) ++ held o (skipn n l).
Proof. unfold held. rewrite <- map_app, firstn_skipn. reflexivity. Qed.

(** a request is granted before D stalls *)
Lemma stall_short o waits tl : q_read o = L1 \/ q_write o = L1 -> Forall (stalls c) waits -> rw (held o waits ++ tl) -> length waits < D.
Proof.
  intros O F H. destruct (Nat.lt_ge_cases (length waits) D) as [L|L]; [exact L|exfalso].
  destruct (H [] (held o (firstn D waits)) (held o (skipn D waits) ++ tl)) as [H1 _].
  - cbn [app]. rewrite app_assoc, <- held_split. reflexivity.
  - unfold held. rewrite map_length, firstn_length. lia.
  - assert (S : forall y, In y (held o (firstn D waits)) -> requested y = true /\ granted c y = false).
    { intros y I. unfold held in I. apply in_map_iff in I. destruct I as (i & <- & I). rewrite <- (firstn_skipn D waits), Forall_app, !Forall_forall in F.
      destruct (proj1 F i I) as [W1 W2]. unfold requested, granted. cbn [fst snd]. rewrite W1, W2. split; [|reflexivity]. destruct O as [-> | ->]; [reflexivity|apply Bool.orb_true_r]. }
    specialize (H1 ltac:(apply forallb_forall; intros y I; apply S; exact I)). apply existsb_exists in H1. destruct H1 as (y & I & Y). destruct (S y I). congruence.
Qed.

(** data comes before D cycles without it *)
Lemma lat_short o lat tl : q_read o = L0 -> q_write o = L0 -> a_rdv c = true -> Forall (fun i => i_rdv i = L0) lat -> rw (held o lat ++ tl) -> length lat < D.
Proof.
  intros O1 O2 R F H. destruct (Nat.lt_ge_cases (length lat) D) as [L|L]; [exact L|exfalso].
  destruct (H [] (held o (firstn D lat)) (held o (skipn D lat) ++ tl)) as [_ H1].
  - cbn [app]. rewrite app_assoc, <- held_split. reflexivity.
  - unfold held. rewrite map_length, firstn_length. lia.
  - assert (S : forall y, In y (held o (firstn D lat)) -> requested y = false /\ data_there y = false).
    { intros y I. unfold held in I. apply in_map_iff in I. destruct I as (i & <- & I). rewrite <- (firstn_skipn D lat), Forall_app, !Forall_forall in F.
      unfold requested, data_there. cbn [fst snd]. rewrite O1, O2, (proj1 F i I). split; reflexivity. }
    assert (Q : existsb requested (held o (firstn D lat)) = false).
    { destruct (existsb requested (held o (firstn D lat))) eqn:E; [|reflexivity]. apply existsb_exists in E. destruct E as (y & I & Y). destruct (S y I). congruence. }
    specialize (H1 R Q). apply existsb_exists in H1. destruct H1 as (y & I & Y). destruct (S y I). congruence.
Qed.

Lemma held_len {TO} (o : TO) (l : list mm_in) : length (held o l) = length l.
Proof. apply map_length. Qed.

Lemma mm_resp fuel ops : Forall (op_fits c) ops -> 2 <= fuel -> forall p o tr l, length l < fuel -> quiet c o -> wait_defined c l -> rdv_defined c l ->
  exists r w new, mm_all c fuel ops (World false p o tr l) = (r, w) /\ trace w = tr ++ new /\
    (rw new -> length new <= ops_bound D ops) /\
    ((exists ds, r = Done ds) \/ (r = Susp /\ length new = length l)).
Proof.
  intros F Hf. induction F as [|x ops Fx F IH]; intros p o tr l Hl Q Wd Rd.
  - exists (Done []). eexists. exists []. split; [reflexivity|]. rewrite app_nil_r. split; [reflexivity|]. split; [intro; cbn; lia|left; eauto].
  - change (ops_bound D (x :: ops)) with (op_bound D x + ops_bound D ops).
    assert (Sub : forall a b, l = a ++ b -> length b < fuel /\ wait_defined c b /\ rdv_defined c b).
    { intros a b ->. rewrite app_length in Hl. split; [lia|]. split; intros i I; [apply Wd|apply Rd]; apply in_or_app; auto. }
    assert (D0 : forall new, rw new -> 1 <= D).
    { intros new H. destruct D; [|lia]. destruct (H [] [] new eq_refl eq_refl) as [H1 _]. discriminate (H1 eq_refl). }
    destruct x as [a|a v]; cbn [op_fits] in Fx; cbn [mm_all op_bound].
    + destruct Fx as [Fr Fa]. pose proof (C42_read c fuel a true o p tr l Hf Hl Fr Fa Q Wd Rd ltac:(discriminate)) as R. cbv zeta in R.
      set (req := read_request c o a) in *. assert (Rq : q_read req = L1 \/ q_write req = L1) by (left; reflexivity).
      destruct R as [(pre & waits & ia & lat & iv & r & o' & El & Lp & Fs & G & R1 & R2 & E & Q' & _)|[(pre & waits & p' & El & Lp & Fs & E)|[(pre & waits & ia & lat & o' & El & Lp & Fs & G & R1 & R2 & Q' & E)|(El & _ & E)]]].
      * destruct (Sub (pre ++ waits ++ ia :: lat) (iv :: r)) as (S1 & S2 & S3); [rewrite El, <- !app_assoc; reflexivity|].
        destruct (IH PReadOnly o' (tr ++ held o pre ++ held req (waits ++ [ia]) ++ held o' lat) (iv :: r) S1 Q' S2 S3) as (r2 & w2 & new & E2 & T2 & B2 & C2).
        unfold bind at 1. rewrite E. unfold bind at 1. rewrite E2.
        exists (match r2 with Done ds => Done (i_rdata iv :: ds) | Exn e => Exn e | Susp => Susp | Fuel => Fuel end), w2, ((held o pre ++ held req (waits ++ [ia]) ++ held o' lat) ++ new).
        split; [destruct r2; reflexivity|]. split; [rewrite T2, <- app_assoc; reflexivity|]. split.
        -- intro H. pose proof (D0 _ H) as D1. pose proof (rw_later _ _ H) as H2. specialize (B2 H2).
           rewrite <- !app_assoc in H. apply rw_later in H. unfold held in H. rewrite (map_app _ waits) in H. fold (held req waits) in H. rewrite <- app_assoc in H.
           pose proof (stall_short _ _ _ Rq Fs H) as L1. apply rw_later, rw_later in H.
           assert (L2 : length lat < D).
           { destruct (a_rdv c) eqn:Ev; [|rewrite (R2 eq_refl); cbn; lia]. apply (lat_short o' lat new); [apply Q'|apply Q'|exact Ev|apply (R1 eq_refl)|exact H]. }
           rewrite !app_length, !held_len, app_length, Lp. cbn [length]. lia.
        -- destruct C2 as [(ds & ->)|[-> C2]]; [left; eexists; reflexivity|right]. split; [reflexivity|]. rewrite El, !app_length, !held_len, !app_length in *. cbn [length] in *. rewrite app_length. cbn [length]. lia.
      * unfold bind at 1. rewrite E. do 3 eexists. split; [reflexivity|]. split; [reflexivity|]. split.
        -- intro H. pose proof (D0 _ H) as D1. apply rw_later in H. rewrite <- (app_nil_r (held req waits)) in H. pose proof (stall_short _ _ _ Rq Fs H) as L1.
           rewrite app_length, !held_len, Lp. lia.
        -- right. split; [reflexivity|]. rewrite El, !app_length, !held_len. lia.
      * unfold bind at 1. rewrite E. do 3 eexists. split; [reflexivity|]. split; [reflexivity|]. split.
        -- intro H. pose proof (D0 _ H) as D1. apply rw_later in H. unfold held in H. rewrite (map_app _ waits) in H. fold (held req waits) in H. rewrite <- app_assoc in H.
           pose proof (stall_short _ _ _ Rq Fs H) as L1. apply rw_later, rw_later in H.
           assert (L2 : length lat < D).
           { destruct (a_rdv c) eqn:Ev; [|rewrite (R2 eq_refl); cbn; lia]. rewrite <- (app_nil_r (map _ lat)) in H. apply (lat_short o' lat []); [apply Q'|apply Q'|exact Ev|apply (R1 eq_refl)|exact H]. }
           rewrite !app_length, !held_len, app_length, Lp. cbn [length]. lia.
        -- right. split; [reflexivity|]. rewrite El, !app_length, !held_len, app_length. cbn [length]. lia.
      * unfold bind at 1. rewrite E. do 2 eexists. exists []. split; [reflexivity|]. rewrite app_nil_r. split; [reflexivity|]. split; [intro; cbn; lia|right; subst l; auto].
    + destruct Fx as (Fw & Fa & Fv). pose proof (C41_write c fuel a v o p tr l Hf Fw Fa Fv Q Wd) as R. cbv zeta in R.
      set (req := write_request c o a v) in *. assert (Rq : q_read req = L1 \/ q_write req = L1) by (right; reflexivity).
      destruct R as [(i0 & waits & ia & r & o' & El & Fs & G & E & Q' & _)|[(i0 & waits & p' & El & Fs & E)|(El & E)]].
      * destruct (Sub (i0 :: waits ++ [ia]) r) as (S1 & S2 & S3); [rewrite El; cbn [app]; rewrite <- app_assoc; reflexivity|].
        destruct (IH PActive o' (tr ++ held o [i0] ++ held req (waits ++ [ia])) r S1 Q' S2 S3) as (r2 & w2 & new & E2 & T2 & B2 & C2).
        unfold bind at 1. rewrite E. rewrite E2. exists r2, w2, ((held o [i0] ++ held req (waits ++ [ia])) ++ new). split; [reflexivity|]. split; [rewrite T2, <- app_assoc; reflexivity|]. split.
        -- intro H. specialize (B2 (rw_later _ _ H)). rewrite <- !app_assoc in H. apply rw_later in H. unfold held in H. rewrite (map_app _ waits) in H. fold (held req waits) in H. rewrite <- app_assoc in H.
           pose proof (stall_short _ _ _ Rq Fs H) as L1. rewrite !app_length, !held_len, app_length. cbn [length]. lia.
        -- destruct C2 as [C2|[-> C2]]; [left; exact C2|right]. split; [reflexivity|]. rewrite El. cbn [length]. rewrite !app_length, !held_len, !app_length. cbn [length]. lia.
      * unfold bind at 1. rewrite E. do 3 eexists. split; [reflexivity|]. split; [reflexivity|]. split.
        -- intro H. apply rw_later in H. rewrite <- (app_nil_r (held req waits)) in H. pose proof (stall_short _ _ _ Rq Fs H) as L1. rewrite app_length, !held_len. cbn [length]. lia.
        -- right. split; [reflexivity|]. rewrite El, app_length, !held_len. reflexivity.
      * unfold bind at 1. rewrite E. do 2 eexists. exists []. split; [reflexivity|]. rewrite app_nil_r. split; [reflexivity|]. split; [intro; cbn; lia|right; subst l; auto].
Qed.
End Rsp.
