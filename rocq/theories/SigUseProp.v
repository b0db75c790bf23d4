(** SigUseProp.v -- C103: _wait_for_nsignal as AvalonMaster uses it (MMModel.v, settled values of
    whole cycles) is _wait_for_nsignal of SigModel.v (every change inside a cycle). *)
From Verif Require Import Base Async MMModel MMProof SigModel SigSpec SigProof.
Local Open Scope list_scope.

(** Whatever happens inside the cycles, if the signal settles to the values that the master
    sees, the master goes on after the cycle in which SigModel.v's wait returns, gets its
    exception in the cycle in which that one raises, and waits on if that one does. *)
Theorem C103_avalon_wait : forall (X I O : Type) (key : I -> logic) fuel (s : X) p (o : O) tr i r steps,
  2 <= fuel -> p <> PReadOnly -> values (key i) steps = map key (i :: r) ->
  let run := (MMModel.wait_for_nsignal key fuel ;; edge) (World s p o tr (i :: r)) in
  match SigModel.wait_for_nsignal (key i) steps with
  | Returned n => run = (Done tt, World s PActive o (tr ++ held o (firstn (S n) (i :: r))) (skipn (S n) (i :: r)))
  | Raised n e => run = (Exn e, World s PReadOnly o (tr ++ held o (firstn n (i :: r))) (skipn n (i :: r)))
  | Waiting => exists p', run = (Susp, World s p' o (tr ++ held o (i :: r)) [])
  end.
Proof.
  intros X I O key fuel s p o tr i r steps Hf Hp V run. pose proof (wait_nsignal_thm (key i) steps) as T.
  destruct (nsignal_spec key fuel s p o tr (i :: r) Hf Hp) as [p' R]. fold run in R. rewrite V in T.
  set (l := i :: r) in *. clearbody l.
  assert (D : forall n x, first_step (fun x => x <> L1) (map key l) n -> nth_error (map key l) n = Some x ->
     exists nr j rest, l = nr ++ j :: rest /\ span (low_or_bad key) l = (nr, j :: rest) /\ length nr = n /\ key j = x /\ x <> L1).
  { intros n x [[y [Y1 Y2]] F] N. rewrite Y1 in N. injection N as ->. rewrite nth_error_map in Y1.
    destruct (nth_error l n) as [j|] eqn:J; [|discriminate]. injection Y1 as Y1.
    destruct (nth_error_split l n J) as (nr & rest & E & L). exists nr, j, rest. split; [exact E|].
    split; [|split; [exact L|split; [exact Y1|exact Y2]]]. subst l n. clear - F Y1 Y2.
    induction nr as [|k nr IH]; cbn [app span].
    - unfold low_or_bad at 1. rewrite Y1. destruct x; try reflexivity. contradiction.
    - assert (K : key k = L1).
      { destruct (key k) eqn:K; try reflexivity; exfalso; apply (F 0 (key k)); cbn; try lia; try reflexivity; rewrite K; discriminate. }
      unfold low_or_bad at 1. rewrite K. cbn [logic_eqb negb]. rewrite IH; [reflexivity|].
      intros m y M N. apply (F (S m) y); [cbn; lia|exact N]. }
  destruct (SigModel.wait_for_nsignal (key i) steps) as [n|n e|].
  - destruct T as [F N]. destruct (D n L0 F N) as (nr & j & rest & E & Sp & Ln & Kj & _). rewrite R, Sp, Kj, E.
    replace (nr ++ j :: rest) with ((nr ++ [j]) ++ rest) by (rewrite <- app_assoc; reflexivity).
    replace (S n) with (length (nr ++ [j])) by (rewrite app_length; cbn; lia).
    rewrite firstn_app, Nat.sub_diag, firstn_all, firstn_O, app_nil_r, skipn_app, Nat.sub_diag, skipn_all. reflexivity.
  - destruct T as (-> & F & N). destruct (nth_error (map key l) n) as [x|] eqn:Nx; [|destruct F as [[y [Y _]] _]; congruence].
    destruct (D n x F Nx) as (nr & j & rest & E & Sp & Ln & Kj & Xn). rewrite R, Sp, E. subst n.
    rewrite firstn_app, Nat.sub_diag, firstn_all, firstn_O, app_nil_r, skipn_app, Nat.sub_diag, skipn_all. cbn [app skipn].
    rewrite Kj. destruct x; congruence.
  - exists p'. rewrite R. replace (span (low_or_bad key) l) with (l, @nil I); [reflexivity|].
    clear - T. induction l as [|j l IH]; [reflexivity|]. cbn [span]. pose proof (Forall_inv T) as J. cbv beta in J.
    unfold low_or_bad at 1. rewrite <- J. cbn [logic_eqb negb]. rewrite <- IH; [reflexivity|exact (Forall_inv_tail T)].
Qed.
Print Assumptions C103_avalon_wait.

(** two wait states, with glitches inside the cycles *)
Example C103_avalon_nonvacuous :
  let cyc v := MMIn v L0 [] in
  let steps := [[L0; L1]; []; [L1; L0]] in
  values L1 steps = map i_wait [cyc L1; cyc L1; cyc L1; cyc L0] /\
  SigModel.wait_for_nsignal L1 steps = Returned 3 /\
  fst ((MMModel.wait_for_nsignal i_wait 5 ;; edge) (World true PActive 0 [] [cyc L1; cyc L1; cyc L1; cyc L0])) = Done tt.
Proof. repeat split. Qed.
