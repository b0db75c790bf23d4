(** RstProof.v -- proofs for C132. *)
From Verif Require Import Base CompatModel CompatSpec CompatProof AvalonSTModel AvalonSTSpec RstModel RstSpec.
Local Open Scope list_scope.

Section R.
Context (hr be : bool).
Lemma seen_transfer s : st_transfer hr (r_cycle s) = word_seen hr s.
Proof.
  unfold st_transfer, word_seen, transferred, accepts. destruct (r_cycle s) as [r [v d]]. cbn [fst snd o_valid].
  destruct hr, v, r; reflexivity.
Qed.
Lemma rst_step s r : rst_monitor hr be (s :: r) =
  if word_seen hr s then match convert_binary_to_bytes (the_word s) be with
                         | Err e => ([], Some e)
                         | Ok b => (b :: fst (rst_monitor hr be r), snd (rst_monitor hr be r))
                         end
  else rst_monitor hr be r.
Proof. cbn [rst_monitor]. rewrite seen_transfer. destruct (rst_monitor hr be r). reflexivity. Qed.
Lemma quiet l : Forall (fun s => resetting s = true -> word_seen hr s = false) l -> rst_monitor hr be l = rst_monitor hr be (outside l).
Proof.
  induction 1 as [|s l Q _ IH]; [reflexivity|]. unfold outside. cbn [filter]. destruct (resetting s) eqn:R; cbn [negb].
  - rewrite rst_step, (Q eq_refl). exact IH.
  - rewrite !rst_step. unfold outside in IH. rewrite <- IH. reflexivity.
Qed.
Lemma split_run a b : rst_monitor hr be (a ++ b) =
  match snd (rst_monitor hr be a) with
  | Some e => rst_monitor hr be a
  | None => (fst (rst_monitor hr be a) ++ fst (rst_monitor hr be b), snd (rst_monitor hr be b))
  end.
Proof.
  induction a as [|s a IH]; [cbn; destruct (rst_monitor hr be b); reflexivity|]. cbn [app]. rewrite !rst_step. destruct (word_seen hr s); [|exact IH].
  destruct (convert_binary_to_bytes (the_word s) be) as [x|e]; [|reflexivity]. cbn [fst snd]. rewrite IH. destruct (snd (rst_monitor hr be a)) eqn:E; [rewrite E; reflexivity|reflexivity].
Qed.
End R.
