(** PktJoinProp.v -- C151: when may a packet monitor be created? *)
From Verif Require Import Base CompatModel MonitorModel PktModel PktSpec PktMonProof PktJoinSpec PktJoinProof PktProp.
Local Open Scope list_scope.

(** created between two packets, the monitor delivers exactly the packets that are
    completed from then on, which are the rest of the packets on the bus *)
Theorem C151_between_partial :
  forall c a b, (0 <= c_timeout c)%Z -> good_traffic c (a ++ b) -> ~ inside_packet c a ->
    (exists m, pm_run c pm_init b = (map (reported c) (completed (seen c b)), Ok m))
    /\ completed (seen c (a ++ b)) = completed (seen c a) ++ completed (seen c b).
Proof.
  intros c a b T G N. apply join_between; try assumption. unfold inside_packet in N.
  destruct (current (seen c a)) eqn:E; [reflexivity|]. destruct N. discriminate.
Qed.
Print Assumptions C151_between_partial.

(** REFUTED: created inside a packet, the monitor raises at the first word transferred
    after that and never delivers anything, whatever packets follow *)
Theorem C151_refuted :
  forall c a b, good_traffic c (a ++ b) -> inside_packet c a -> seen c b <> [] ->
    pm_run c pm_init b = ([], Err EAvalonProtocol)
    /\ exists x s y, b = x ++ s :: y /\ seen c x = [] /\ seen c [s] <> []
       /\ pm_run c pm_init x = ([], Ok pm_init) /\ pm_run c pm_init (x ++ [s]) = ([], Err EAvalonProtocol).
Proof.
  intros c a b [W R G M] I N. apply Forall_app in R as [_ R].
  assert (G' : forall w r, seen c b = w :: r -> ~ misplaced (seen c a) w).
  { intros w r H. apply (G (seen c a) w r). rewrite seen_app, H. reflexivity. }
  destruct (join_inside c (seen c a) b I R G' N) as (x & s & y & -> & S & S1 & P1 & P2).
  split; [|exists x, s, y; auto].
  change (s :: y) with ([s] ++ y). rewrite app_assoc. apply run_app_err, P2.
Qed.
Print Assumptions C151_refuted.

(** three packets of 4, 6 and 4 bytes; a monitor created before the second delivers the last
    two, one created inside the second none *)
Definition ex_join : list psample :=
  [ex_word L1 L1 0 (zbits 32 16909060) 5;
   ex_word L1 L0 0 (zbits 32 1) 5; ex_word L0 L1 2 (zbits 32 65536) 5;
   ex_word L1 L1 0 (zbits 32 2) 5].
Example C151_nonvacuous :
  good_traffic ex_cfg ex_join
  /\ ~ inside_packet ex_cfg (firstn 1 ex_join) /\ inside_packet ex_cfg (firstn 2 ex_join)
  /\ fst (pm_run ex_cfg pm_init (skipn 1 ex_join)) = [RChan [0; 0; 0; 1; 0; 1]%Z (Some 5%Z); RChan [0; 0; 0; 2]%Z (Some 5%Z)]
  /\ pm_run ex_cfg pm_init (skipn 2 ex_join) = ([], Err EAvalonProtocol).
Proof.
  split; [|repeat split; try reflexivity; try (unfold inside_packet; vm_compute; congruence)].
  constructor.
  - vm_compute. repeat constructor.
  - repeat constructor; right; reflexivity.
  - intros a w b H. unfold ex_join in H. vm_compute in H.
    destruct a as [|? [|? [|? [|? a]]]]; cbn [app] in H; injection H as; subst; try (destruct a; discriminate).
    all: unfold misplaced, readable, bad_channel; vm_compute.
    all: repeat split; try tauto; try (intros [[? ?]|[? ?]]; congruence); eauto; try congruence.
    all: try (intros; eexists; reflexivity).
    all: try (intros [_ (v & Hv & X)]; injection Hv as <-; discriminate X).
    all: try (intros [_ X]; congruence).
  - intros (T & x & mid & y & F & L & N & K). vm_compute in T. discriminate.
Qed.
