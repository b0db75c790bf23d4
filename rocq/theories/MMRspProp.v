(** MMRspProp.v -- C142: Avalon-MM accesses to slaves that answer within D cycles. *)
From Verif Require Import Base Async MMModel MMSpec MMProof MMProp MMRspSpec MMRspProof.
Local Open Scope list_scope.

(** C142.  Any accesses made one after the other to a slave that grants at least once in any [D]
    cycles with a request, and gives data at least once in any [D] cycles without a request
    (by C41 and C42 the master leaves more than one cycle without a request
    only while it waits for read data): they take no more than [D] + 1
    cycles for a write and 2 [D] for a read, and all of them return.  The slave's signals may depend
    on all it has seen. *)
Theorem C142_bounded : forall c fuel ops p o l D,
  Forall (op_fits c) ops -> 2 <= fuel -> length l < fuel -> quiet c o -> wait_defined c l -> rdv_defined c l ->
  let '(r, w) := mm_all c fuel ops (World false p o [] l) in
  responds_within c D (trace w) ->
  length (trace w) <= ops_bound D ops /\ (ops_bound D ops < length l -> exists ds, r = Done ds).
Proof.
  intros c fuel ops p o l D F Hf Hl Q Wd Rd. destruct (mm_resp c D fuel ops F Hf p o [] l Hl Q Wd Rd) as (r & w & new & E & T & B & C).
  rewrite E, T. cbn [app]. intro H. split; [exact (B H)|]. intro L. destruct C as [C|[_ C]]; [exact C|]. specialize (B H). lia.
Qed.
Print Assumptions C142_bounded.

(** ** a case: a write stalled twice, a read stalled once with its data after two cycles; D = 3 *)
Definition exs_check (c : mm_cfg) (D : nat) (tr : list (mm_in * mm_out)) : bool :=
  forallb (fun k => let w := firstn D (skipn k tr) in
     (negb (forallb requested w) || existsb (granted c) w) && (existsb requested w || existsb data_there w)) (seq 0 (S (length tr - D))).
Lemma exs_ok c D tr : exs_check c D tr = true -> responds_within c D tr.
Proof.
  intros H b w f -> L. unfold exs_check in H. rewrite forallb_forall in H. specialize (H (length b)). cbv zeta in H.
  rewrite skipn_app, skipn_all, Nat.sub_diag in H. cbn [skipn app] in H. rewrite firstn_app, <- L, firstn_all, Nat.sub_diag, firstn_O, app_nil_r in H.
  specialize (H ltac:(apply in_seq; rewrite !app_length; lia)). apply andb_prop in H. destruct H as [H1 H2]. split.
  - intro V. rewrite V in H1. exact H1.
  - intros _ V. rewrite V in H2. exact H2.
Qed.
Example exs_run :
  let '(r, w) := mm_all ex_cfg 30 [MMWrite 3 500; MMRead 3] (World false PMid ex_o [] ex_in) in
  responds_within ex_cfg 3 (trace w) /\ r = Done [zbits 16 77] /\ length (trace w) = 9 /\ ops_bound 3 [MMWrite 3 500; MMRead 3] = 10 /\ length ex_in = 11.
Proof.
  destruct (mm_all ex_cfg 30 [MMWrite 3 500; MMRead 3] (World false PMid ex_o [] ex_in)) as [r w] eqn:E.
  vm_compute in E. injection E as <- <-. split; [apply exs_ok; vm_compute; reflexivity|]. vm_compute. repeat split.
Qed.
