(** WaitLoopProof.v *)
From Verif Require Import Base MonitorModel MonitorSpec MonitorProof WaitLoopSpec.
Local Open Scope list_scope.

Section Proof.
Context {T : Type}.
Notation run := (wrun T).

Lemma run_snoc l a : run (l ++ [a]) = wstep T (run l) a.
Proof. unfold wrun. rewrite fold_left_app. reflexivity. Qed.
Lemma hist_receptions (l : list (wact T)) : whist (run l) = receptions l.
Proof.
  induction l as [|a l IH] using rev_ind; [reflexivity|]. rewrite run_snoc. unfold receptions. rewrite flat_map_app. cbn [flat_map].
  rewrite app_nil_r. destruct a; cbn [wstep whist]; rewrite IH, ?app_nil_r; reflexivity.
Qed.
Lemma loop_snoc l a : one_loop (l ++ [a]) -> @one_loop T l.
Proof. intros H l1 b l2 ->. apply (H l1 b (l2 ++ [a])). rewrite <- app_assoc. reflexivity. Qed.
Lemma att_snoc l a : attentive (l ++ [a]) -> @attentive T l.
Proof. intros H l1 b l2 ->. apply (H l1 b (l2 ++ [a])). rewrite <- app_assoc. reflexivity. Qed.

Definition res1 (x : wtask T) : list T := match tstatus x with WDone (Some t) _ => [t] | _ => [] end.
Definition results (w : waits T) : list T := flat_map res1 (tasks w).

(** the calls before the last have returned something *)
Definition over (x : wtask T) : Prop := exists t n, tstatus x = WDone (Some t) n.
Inductive shape (w : waits T) : Prop :=
| s_busy : Forall over (tasks w) -> within (results w) (whist w) -> shape w
| s_wait d n : tasks w = d ++ [mkTask n false WBlocked] -> Forall over d -> within (results w) (whist w) -> shape w
| s_woken d n p q t : tasks w = d ++ [mkTask n false WWoken] -> Forall over d -> whist w = p ++ q ++ [t] -> wdata w = Some t ->
    within (results w) p -> shape w.

Lemma upd_over f d i : Forall over d -> (forall x, over x -> f x = x) -> upd d i f = d.
Proof.
  intros H Hf. revert i. induction H as [|x d Hx _ IH]; intro i; [destruct i; reflexivity|].
  destruct i; cbn [upd]; [rewrite Hf by exact Hx; reflexivity|rewrite IH; reflexivity].
Qed.
Lemma upd_last f d i (x : wtask T) : Forall over d -> (forall x, over x -> f x = x) ->
  upd (d ++ [x]) i f = if Nat.eqb i (length d) then d ++ [f x] else d ++ [x].
Proof.
  intros H Hf. revert i. induction H as [|y d Hy _ IH]; intro i.
  - destruct i as [|[|i]]; reflexivity.
  - destruct i; cbn [app upd length Nat.eqb]; [rewrite Hf by exact Hy; reflexivity|]. rewrite IH. destruct (Nat.eqb i (length d)); reflexivity.
Qed.
Lemma wake_over x : over x -> wake T x = x.
Proof. intros (t & n & E). unfold wake. rewrite E. reflexivity. Qed.
Lemma fire_over x : over x -> fire T x = x.
Proof. intros (t & n & E). unfold fire. rewrite E. reflexivity. Qed.
Lemma resume_over d n x : over x -> resume T d n x = x.
Proof. intros (t & m & E). unfold resume. rewrite E. reflexivity. Qed.
Lemma wake_all d : Forall over d -> map (wake T) d = d.
Proof. induction 1 as [|x d Hx _ IH]; [reflexivity|]. cbn [map]. rewrite wake_over, IH by assumption. reflexivity. Qed.
Lemma within_app a b c : @within T a b -> within a (b ++ c).
Proof.
  intro H. induction c as [|t c IH] using rev_ind; [rewrite app_nil_r; exact H|]. rewrite app_assoc. apply w_skip, IH.
Qed.
Lemma results_app d x : flat_map res1 (d ++ [x]) = flat_map res1 d ++ res1 x.
Proof. rewrite flat_map_app. cbn [flat_map]. rewrite app_nil_r. reflexivity. Qed.
Lemma returned_over w x : shape w -> In x (tasks w) -> returned x -> over x.
Proof.
  intros S I R. destruct S as [F _|d n E F _|d n p q t E F _ _ _].
  - rewrite Forall_forall in F. apply F, I.
  - rewrite E in I. apply in_app_or in I as [I|[<-|[]]]; [rewrite Forall_forall in F; apply F, I|]. destruct R as (r & m & R). discriminate.
  - rewrite E in I. apply in_app_or in I as [I|[<-|[]]]; [rewrite Forall_forall in F; apply F, I|]. destruct R as (r & m & R). discriminate.
Qed.

Lemma shape_step w a : shape w -> (forall b, a = AWait b -> b = false /\ Forall returned (tasks w)) -> shape (wstep T w a).
Proof.
  intros S A. destruct a as [b|t|i|i].
  - destruct (A b eq_refl) as [-> R].
    assert (F : Forall over (tasks w)).
    { apply Forall_forall. intros x I. apply (returned_over w x S I). rewrite Forall_forall in R. apply R, I. }
    assert (Wi : within (results w) (whist w)).
    { destruct S as [_ W|d n _ _ W|d n p q t _ _ Eh _ W]; [exact W|exact W|]. rewrite Eh. apply within_app, W. }
    eapply s_wait; [reflexivity|exact F|]. unfold results. cbn [wstep tasks whist]. rewrite results_app.
    change (res1 (mkTask (length (whist w)) false WBlocked)) with (@nil T). rewrite app_nil_r. exact Wi.
  - destruct S as [F W|d n E F W|d n p q t0 E F Eh Ed W]; cbn [wstep].
    + apply s_busy; unfold results; cbn [tasks whist]; rewrite wake_all by exact F; [exact F|apply w_skip, W].
    + apply (s_woken _ d n (whist w) [] t); cbn [tasks whist wdata].
      * rewrite E, map_app, wake_all by exact F. reflexivity.
      * exact F.
      * reflexivity.
      * reflexivity.
      * unfold results in *. cbn [tasks]. rewrite E, map_app, wake_all by exact F. rewrite E in W. cbn [map]. rewrite results_app in W |- *. exact W.
    + apply (s_woken _ d n p (q ++ [t0]) t); cbn [tasks whist wdata].
      * rewrite E, map_app, wake_all by exact F. reflexivity.
      * exact F.
      * rewrite Eh, <- !app_assoc. reflexivity.
      * reflexivity.
      * unfold results in *. cbn [tasks]. rewrite E, map_app, wake_all by exact F. rewrite E in W. cbn [map]. rewrite results_app in W |- *. exact W.
  - assert (U : upd (tasks w) i (fire T) = tasks w).
    { destruct S as [F W|d n E F W|d n p q t0 E F Eh Ed W]; [apply upd_over; [exact F|apply fire_over]| |];
        rewrite E, upd_last by (try exact F; apply fire_over); destruct (Nat.eqb i (length d)); reflexivity. }
    cbn [wstep]. rewrite U. destruct w as [dd hh tt]. exact S.
  - cbn [wstep]. set (rs := resume T (wdata w) (length (whist w))).
    assert (Ro : forall x, over x -> rs x = x) by (intro x; apply resume_over).
    destruct S as [F W|d n E F W|d n p q t0 E F Eh Ed W].
    + rewrite (upd_over rs _ i F Ro). destruct w as [dd hh tt]. apply s_busy; assumption.
    + assert (U : upd (tasks w) i rs = tasks w) by (rewrite E, upd_last by assumption; destruct (Nat.eqb i (length d)); reflexivity).
      rewrite U. destruct w as [dd hh tt]. eapply s_wait; eassumption.
    + rewrite E, upd_last by assumption. destruct (Nat.eqb i (length d)).
      * unfold rs, resume. cbn [tstatus tstart ttimeout]. rewrite Ed. apply s_busy.
        -- cbn [tasks]. apply Forall_app. split; [exact F|]. constructor; [|constructor]. eexists. eexists. reflexivity.
        -- unfold results. cbn [tasks whist]. rewrite results_app. change (res1 (mkTask n false (WDone (Some t0) (length (whist w))))) with [t0]. rewrite Eh, app_assoc.
           apply w_take, within_app. unfold results in W. rewrite E, results_app in W. change (res1 (mkTask n false WWoken)) with (@nil T) in W.
           rewrite app_nil_r in W. exact W.
      * rewrite <- E. destruct w as [dd hh tt]. eapply s_woken; eassumption.
Qed.
Lemma shape_run (l : list (wact T)) : one_loop l -> shape (run l).
Proof.
  induction l as [|a l IH] using rev_ind; intro H.
  - apply s_busy; [constructor|constructor].
  - rewrite run_snoc. apply shape_step; [apply IH; eapply loop_snoc; exact H|].
    intros b ->. exact (H l b [] eq_refl).
Qed.
Lemma loop_within (l : list (wact T)) : one_loop l -> within (got l) (receptions l).
Proof.
  intro H. rewrite <- hist_receptions. change (got l) with (results (run l)).
  destruct (shape_run l H) as [_ W|d n _ _ W|d n p q t _ _ Eh _ W]; [exact W|exact W|]. rewrite Eh. apply within_app, W.
Qed.

(** ** attentive loops *)
Inductive tight (w : waits T) : Prop :=
| t_busy : Forall over (tasks w) -> results w = whist w -> tight w
| t_wait d n : tasks w = d ++ [mkTask n false WBlocked] -> Forall over d -> results w = whist w -> tight w
| t_woken d n t : tasks w = d ++ [mkTask n false WWoken] -> Forall over d -> whist w = results w ++ [t] -> wdata w = Some t -> tight w.
Lemma tight_step w a : tight w -> (forall b, a = AWait b -> b = false /\ Forall returned (tasks w)) ->
  (forall t, a = ARecv t -> exists x, In x (tasks w) /\ tstatus x = WBlocked) -> tight (wstep T w a).
Proof.
  intros S A B. destruct a as [b|t|i|i].
  - destruct (A b eq_refl) as [-> R]. destruct S as [F W|d n E F W|d n t E F Eh Ed].
    + eapply t_wait; [reflexivity|exact F|]. unfold results. cbn [wstep tasks whist]. rewrite results_app.
      change (res1 (mkTask (length (whist w)) false WBlocked)) with (@nil T). rewrite app_nil_r. exact W.
    + rewrite E in R. apply Forall_app in R as [_ R]. inversion R as [|? ? (r & m & X) _]; discriminate.
    + rewrite E in R. apply Forall_app in R as [_ R]. inversion R as [|? ? (r & m & X) _]; discriminate.
  - destruct (B t eq_refl) as (x & I & X). destruct S as [F W|d n E F W|d n t0 E F Eh Ed].
    + rewrite Forall_forall in F. destruct (F x I) as (r & m & Y). congruence.
    + cbn [wstep]. apply (t_woken _ d n t); cbn [tasks whist wdata].
      * rewrite E, map_app, wake_all by exact F. reflexivity.
      * exact F.
      * unfold results in *. cbn [tasks]. rewrite <- W. rewrite E, map_app, wake_all by exact F. cbn [map]. rewrite !results_app. reflexivity.
      * reflexivity.
    + rewrite E in I. apply in_app_or in I as [I|[<-|[]]]; [|discriminate]. rewrite Forall_forall in F. destruct (F x I) as (r & m & Y). congruence.
  - assert (U : upd (tasks w) i (fire T) = tasks w).
    { destruct S as [F W|d n E F W|d n t0 E F Eh Ed]; [apply upd_over; [exact F|apply fire_over]| |];
        rewrite E, upd_last by (try exact F; apply fire_over); destruct (Nat.eqb i (length d)); reflexivity. }
    cbn [wstep]. rewrite U. destruct w as [dd hh tt]. exact S.
  - cbn [wstep]. set (rs := resume T (wdata w) (length (whist w))).
    assert (Ro : forall x, over x -> rs x = x) by (intro x; apply resume_over).
    destruct S as [F W|d n E F W|d n t0 E F Eh Ed].
    + rewrite (upd_over rs _ i F Ro). destruct w as [dd hh tt]. apply t_busy; assumption.
    + assert (U : upd (tasks w) i rs = tasks w) by (rewrite E, upd_last by assumption; destruct (Nat.eqb i (length d)); reflexivity).
      rewrite U. destruct w as [dd hh tt]. eapply t_wait; eassumption.
    + rewrite E, upd_last by assumption. destruct (Nat.eqb i (length d)).
      * unfold rs, resume. cbn [tstatus tstart ttimeout]. rewrite Ed. apply t_busy.
        -- cbn [tasks]. apply Forall_app. split; [exact F|]. constructor; [|constructor]. eexists. eexists. reflexivity.
        -- unfold results in *. cbn [tasks whist]. rewrite results_app. change (res1 (mkTask n false (WDone (Some t0) (length (whist w))))) with [t0]. rewrite Eh.
           rewrite E, results_app. change (res1 (mkTask n false WWoken)) with (@nil T). rewrite app_nil_r. reflexivity.
      * rewrite <- E. destruct w as [dd hh tt]. eapply t_woken; eassumption.
Qed.
Lemma tight_run (l : list (wact T)) : one_loop l -> attentive l -> tight (run l).
Proof.
  induction l as [|a l IH] using rev_ind; intros H B.
  - apply t_busy; [constructor|reflexivity].
  - rewrite run_snoc. apply tight_step; [apply IH; [eapply loop_snoc; exact H|eapply att_snoc; exact B]| |].
    + intros b ->. exact (H l b [] eq_refl).
    + intros t ->. exact (B l t [] eq_refl).
Qed.
Lemma loop_attentive (l : list (wact T)) : one_loop l -> attentive l ->
  (exists t x, receptions l = got l ++ [t] /\ In x (tasks (run l)) /\ tstatus x = WWoken) \/ receptions l = got l.
Proof.
  intros H B. rewrite <- hist_receptions. change (got l) with (results (run l)).
  destruct (tight_run l H B) as [_ W|d n _ _ W|d n t E _ Eh _]; [right; auto|right; auto|].
  left. exists t, (mkTask n false WWoken). split; [exact Eh|]. split; [rewrite E; apply in_or_app; right; left; reflexivity|reflexivity].
Qed.
End Proof.
