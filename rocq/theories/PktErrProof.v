(** PktErrProof.v -- who looks at the error signal. *)
From Verif Require Import Base Async BitsLemmas CompatModel DrvUtilModel MonitorModel HandshakeSpec Handshake PktModel PktSpec PktProof PktMonProof PktErrSpec.
Local Open Scope list_scope.

Lemma pk_error c k pkt sync ch s p o fuel l :
  word_bus c k -> c_error c = true -> channel_ok c ch -> pkt <> [] -> length l + length pkt < fuel -> p <> PReadOnly ->
  let '(r, w) := pk_send c fuel pkt sync ch (World s p o [] l) in
  (r = Done tt \/ r = Susp) /\ Forall (fun x => k_error x = L0) (transfers k_offered (k_accepts (c_ready c)) (trace w)).
Proof.
  intros BB Er CH N Hf Hp.
  assert (G : forall f first str, Forall (fun w => k_error w = L0) (pwords_ c k o ch f first str)).
  { induction f as [|f IH]; intros first str; [constructor|]. cbn. destruct str as [|b0 str]; constructor; [|apply IH].
    unfold wd. cbn [k_error]. rewrite Er. reflexivity. }
  pose (Q := fun (_ : unit) (w : world valid logic pk_out) =>
    exists before c0, trace w = before ++ [c0] /\ transferred k_offered (k_accepts (c_ready c)) c0 = true).
  assert (T : tx k_offered (k_accepts (c_ready c)) (pk_send c fuel pkt sync ch) (World s p o [] l)
                (pwords c k o ch true pkt) (pk_budget c k o ch pkt sync s) Q).
  { apply tx_send; try assumption.
    - apply free_nil.
    - repeat split; reflexivity.
    - intros o' o'' p' tr' i l' H _ _ _ Hv. destruct (H N) as [H1 H2].
      exists tr', (i, o''). split; [reflexivity|]. unfold transferred. cbn [fst snd]. rewrite H1, H2. reflexivity. }
  apply tx_result in T.
  2:{ intros a w (b & c0 & E & H). rewrite E. destruct c0 as [i o0]. apply free_accept.
      unfold transferred in H. apply andb_true_iff in H. apply H. }
  destruct (pk_send c fuel pkt sync ch (World s p o [] l)) as [r w].
  destruct T as (T1 & T2 & T3). destruct r as [[]| | |]; try contradiction.
  - destruct T3 as (T3 & _). split; [left; reflexivity|]. rewrite T3. apply G.
  - destruct T3 as (A & _ & n & B). split; [right; reflexivity|]. rewrite B. pose proof (G (length pkt) true pkt) as G1.
    rewrite <- (firstn_skipn n (pwords_ c k o ch (length pkt) true pkt)) in G1. apply Forall_app in G1. apply G1.
Qed.

Lemma step_error c m s s' : but_error s s' -> pm_step c m s = pm_step c m s'.
Proof.
  destruct s as [a b r [v sp ep em d ch er]], s' as [a' b' r' [v' sp' ep' em' d' ch' er']]. unfold but_error. cbn.
  intros (-> & -> & -> & -> & -> & -> & -> & -> & ->). reflexivity.
Qed.
Lemma run_error c l l' : Forall2 but_error l l' -> forall m, pm_run c m l = pm_run c m l'.
Proof.
  induction 1 as [|s s' l l' E _ IH]; intro m; [reflexivity|]. cbn [pm_run]. rewrite (step_error c m s s' E).
  destruct (pm_step c m s') as [[r m']|]; [rewrite IH|]; reflexivity.
Qed.
