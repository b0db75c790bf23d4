(** Async.v -- a small model of cocotb coroutines (the trusted part of cocotb is
    what this file says about triggers).

    Time is divided into clock cycles.  Cycle k lies between rising edge k and
    rising edge k+1 of the bus clock.  [ins] lists, for the current and all
    later cycles, the settled values of the signals the coroutine does not drive;
    it is arbitrary (theorems quantify over it), so it covers every reaction of
    the hardware.  [out] is what the coroutine currently drives.  [trace] lists
    the completed cycles with their settled inputs and outputs: what a monitor
    sampling at the ending edge sees.

    A run ends by returning, by an exception, by running out of input cycles
    while waiting ([Susp]: still waiting), or by exhausting loop fuel ([Fuel],
    shown impossible where it matters). *)
From Verif Require Export Base.

Inductive phase :=
| PActive    (* right after a rising edge: values may be written; reads still see
                the settled values of the previous cycle *)
| PReadOnly  (* after ReadOnly(): reads see this cycle's settled values; writing, or
                awaiting ReadOnly again, raises RuntimeError (cocotb 2.x) *)
| PMid.      (* later in the same cycle (NextTimeStep, FallingEdge, a signal edge):
                writes allowed, reads see this cycle's values *)

Inductive outcome (A : Type) :=
| Done (a : A)
| Exn (e : exn)
| Susp
| Fuel.
Arguments Done {A}. Arguments Exn {A}. Arguments Susp {A}. Arguments Fuel {A}.

Section Async.
Context {TS TI TO : Type}.

Record world := World {
  st : TS;                 (* Python state of the object *)
  ph : phase;
  out : TO;
  trace : list (TI * TO);
  ins : list TI
}.

Definition M (A : Type) := world -> outcome A * world.

Definition ret {A} (a : A) : M A := fun w => (Done a, w).
Definition raise {A} (e : exn) : M A := fun w => (Exn e, w).
Definition bind {A B} (m : M A) (f : A -> M B) : M B := fun w =>
  match m w with
  | (Done a, w') => f a w'
  | (Exn e, w') => (Exn e, w')
  | (Susp, w') => (Susp, w')
  | (Fuel, w') => (Fuel, w')
  end.

Definition get : M TS := fun w => (Done (st w), w).
Definition put (s : TS) : M unit := fun w => (Done tt, World s (ph w) (out w) (trace w) (ins w)).

Definition of_res {A} (r : res A) : M A := match r with Ok a => ret a | Err e => raise e end.

(** sig.value = v *)
Definition drive (f : TO -> TO) : M unit := fun w =>
  match ph w with
  | PReadOnly => (Exn ERuntime, w)
  | p => (Done tt, World (st w) p (f (out w)) (trace w) (ins w))
  end.

(** await RisingEdge(clock) *)
Definition edge : M unit := fun w =>
  match ins w with
  | [] => (Susp, w)
  | i :: r => (Done tt, World (st w) PActive (out w) (trace w ++ [(i, out w)]) r)
  end.

(** await ReadOnly() *)
Definition readonly : M unit := fun w =>
  match ph w, ins w with
  | PReadOnly, _ => (Exn ERuntime, w)
  | _, [] => (Susp, w)
  | _, _ => (Done tt, World (st w) PReadOnly (out w) (trace w) (ins w))
  end.

(** await NextTimeStep() / FallingEdge(clock) / Timer within the cycle *)
Definition midstep : M unit := fun w =>
  match ins w with
  | [] => (Susp, w)
  | _ => (Done tt, World (st w) PMid (out w) (trace w) (ins w))
  end.

(** reading signals, in the ReadOnly phase or later in the cycle *)
Definition input : M TI := fun w =>
  match ins w with
  | [] => (Susp, w)
  | i :: _ => (Done i, w)
  end.

(** await Edge(sig), where [key] reads the signal: cycles pass until the value differs *)
Fixpoint edge_of_rest {K} (eqb : K -> K -> bool) (key : TI -> K) (v : K) (o : TO)
         (tr : list (TI * TO)) (l : list TI) : option (list (TI * TO) * list TI) :=
  match l with
  | [] => None
  | i :: r => if eqb (key i) v then edge_of_rest eqb key v o (tr ++ [(i, o)]) r
              else Some (tr, i :: r)
  end.
Definition edge_of {K} (eqb : K -> K -> bool) (key : TI -> K) : M unit := fun w =>
  match ins w with
  | [] => (Susp, w)
  | i :: r =>
      match edge_of_rest eqb key (key i) (out w) (trace w ++ [(i, out w)]) r with
      | None => (Susp, World (st w) PActive (out w) (trace w ++ map (fun j => (j, out w)) (ins w)) [])
      | Some (tr, l) => (Done tt, World (st w) PMid (out w) tr l)
      end
  end.

(** for _ in range(n): await edge *)
Fixpoint edges (n : nat) : M unit :=
  match n with
  | O => ret tt
  | S n' => bind edge (fun _ => edges n')
  end.

(** while loops, with fuel *)
Fixpoint loop {L A} (fuel : nat) (body : L -> M (L + A)) (l : L) : M A :=
  match fuel with
  | O => fun w => (Fuel, w)
  | S f => bind (body l) (fun r => match r with
                                   | inl l' => loop f body l'
                                   | inr a => ret a
                                   end)
  end.

(** for x in list *)
Fixpoint for_each {X} (body : X -> M unit) (l : list X) : M unit :=
  match l with
  | [] => ret tt
  | x :: r => bind (body x) (fun _ => for_each body r)
  end.
End Async.
Arguments world : clear implicits.
Arguments M : clear implicits.

Declare Scope async_scope.
Notation "x <- m ;; k" := (bind m (fun x => k))
  (at level 61, m at next level, right associativity) : async_scope.
Notation "m ;; k" := (bind m (fun _ => k)) (at level 61, right associativity) : async_scope.
Open Scope async_scope.

(** ** Basic facts *)
Section Facts.
Context {TS TI TO : Type}.
Notation world := (world TS TI TO).

Lemma Forall2_len {A B} (R : A -> B -> Prop) l l' : Forall2 R l l' -> length l = length l'.
Proof. induction 1; cbn; congruence. Qed.

(** inputs not accepted by [ok], up to the first accepted one *)
Fixpoint span (ok : TI -> bool) (l : list TI) : list TI * list TI :=
  match l with
  | [] => ([], [])
  | i :: r => if ok i then ([], l) else let '(a, b) := span ok r in (i :: a, b)
  end.

Lemma span_app ok l : fst (span ok l) ++ snd (span ok l) = l.
Proof.
  induction l as [|i l IH]; [reflexivity|]. cbn. destruct (ok i); [reflexivity|].
  destruct (span ok l) as [a b]. cbn in *. rewrite IH. reflexivity.
Qed.
Lemma span_fst ok l : Forall (fun i => ok i = false) (fst (span ok l)).
Proof.
  induction l as [|i l IH]; [constructor|]. cbn. destruct (ok i) eqn:E; [constructor|].
  destruct (span ok l) as [a b]. cbn in *. constructor; auto.
Qed.
Lemma span_snd ok l i r : snd (span ok l) = i :: r -> ok i = true.
Proof.
  induction l as [|j l IH]; [discriminate|]. cbn. destruct (ok j) eqn:E.
  - intro H. inversion H; subst. exact E.
  - destruct (span ok l) as [a b]. cbn in *. exact IH.
Qed.
Lemma span_length ok l : length (fst (span ok l)) + length (snd (span ok l)) = length l.
Proof. rewrite <- app_length, span_app. reflexivity. Qed.
Lemma span_true ok l : (forall i, ok i = true) -> span ok l = ([], l).
Proof. intro H. destruct l as [|i l]; [reflexivity|]. cbn. rewrite H. reflexivity. Qed.
Lemma span_split ok nr i r : Forall (fun j => ok j = false) nr -> ok i = true ->
  span ok (nr ++ i :: r) = (nr, i :: r).
Proof.
  induction 1 as [|j nr H _ IH]; intro E; cbn; [rewrite E; reflexivity|].
  rewrite H, (IH E). reflexivity.
Qed.

Definition held (o : TO) (l : list TI) : list (TI * TO) := map (fun i => (i, o)) l.
Lemma held_app o l l' : held o (l ++ l') = held o l ++ held o l'.
Proof. apply map_app. Qed.
Lemma held_fst o l : map fst (held o l) = l.
Proof. unfold held. rewrite map_map. cbn. apply map_id. Qed.

Lemma edges_spec n : forall (w : world),
  edges n w =
    if n <=? length (ins w)
    then (Done tt, World (st w) (match n with O => ph w | _ => PActive end) (out w)
                         (trace w ++ held (out w) (firstn n (ins w))) (skipn n (ins w)))
    else (Susp, World (st w) (match ins w with [] => ph w | _ => PActive end) (out w)
                      (trace w ++ held (out w) (ins w)) []).
Proof.
  induction n as [|n IH]; intros [s p o tr l].
  - cbn. rewrite app_nil_r. reflexivity.
  - cbn [edges]. unfold bind, edge. cbn [ins st ph out trace].
    destruct l as [|i l].
    + cbn. rewrite app_nil_r. reflexivity.
    + rewrite IH. cbn [ins st ph out trace]. cbn [length Nat.leb].
      destruct (n <=? length l) eqn:E.
      * cbn [firstn skipn held map]. rewrite <- app_assoc. cbn.
        destruct n; reflexivity.
      * cbn [held map]. rewrite <- app_assoc. cbn. destruct l; reflexivity.
Qed.
Lemma bind_assoc {A B C} (m : M TS TI TO A) (f : A -> M TS TI TO B) (g : B -> M TS TI TO C) w :
  bind (bind m f) g w = bind m (fun a => bind (f a) g) w.
Proof. unfold bind. destruct (m w) as [[a|e| |] w']; reflexivity. Qed.

Lemma bind_done {A B} (m : M TS TI TO A) (f : A -> M TS TI TO B) w a w' :
  m w = (Done a, w') -> bind m f w = f a w'.
Proof. intro H. unfold bind. rewrite H. reflexivity. Qed.
Lemma bind_susp {A B} (m : M TS TI TO A) (f : A -> M TS TI TO B) w w' :
  m w = (Susp, w') -> bind m f w = (Susp, w').
Proof. intro H. unfold bind. rewrite H. reflexivity. Qed.
Lemma bind_exn {A B} (m : M TS TI TO A) (f : A -> M TS TI TO B) w e w' :
  m w = (Exn e, w') -> bind m f w = (Exn e, w').
Proof. intro H. unfold bind. rewrite H. reflexivity. Qed.
Lemma drive_ok f s p (o : TO) tr (l : list TI) : p <> PReadOnly ->
  drive f (World s p o tr l : world) = (Done tt, World s p (f o) tr l).
Proof. destruct p; intro H; try contradiction; reflexivity. Qed.
Lemma loop_step {L A} f (body : L -> M TS TI TO (L + A)) x w r w' :
  body x w = (Done r, w') ->
  loop (S f) body x w = match r with inl x' => loop f body x' w' | inr a => (Done a, w') end.
Proof. intro H. cbn [loop]. rewrite (bind_done _ _ _ _ _ H). destruct r; reflexivity. Qed.
Lemma loop_susp {L A} f (body : L -> M TS TI TO (L + A)) x w w' :
  body x w = (Susp, w') -> loop (S f) body x w = (Susp, w').
Proof. intro H. cbn [loop]. apply bind_susp, H. Qed.
Lemma loop_exn {L A} f (body : L -> M TS TI TO (L + A)) x w e w' :
  body x w = (Exn e, w') -> loop (S f) body x w = (Exn e, w').
Proof. intro H. cbn [loop]. apply bind_exn, H. Qed.
End Facts.

(** ** What a coroutine never changes: [keeps P m] says that if [P] holds of the
    driven values in all past cycles and now, it still does after [m]. *)
Section Keeps.
Context {TS TI TO : Type}.
Context (P : TO -> Prop).
Notation M := (M TS TI TO).
Definition always (w : world TS TI TO) : Prop := P (out w) /\ Forall (fun c => P (snd c)) (trace w).
Definition keeps {A} (m : M A) : Prop := forall w, always w -> always (snd (m w)).

Lemma keeps_ret {A} (a : A) : keeps (ret a).
Proof. intros w H. exact H. Qed.
Lemma keeps_raise {A} e : keeps (@raise TS TI TO A e).
Proof. intros w H. exact H. Qed.
Lemma keeps_bind {A B} (m : M A) (f : A -> M B) : keeps m -> (forall a, keeps (f a)) -> keeps (bind m f).
Proof.
  intros Hm Hf w H. specialize (Hm w H). unfold bind. destruct (m w) as [[a|e| |] w']; try exact Hm.
  apply Hf, Hm.
Qed.
Lemma keeps_get : keeps get.
Proof. intros w H. exact H. Qed.
Lemma keeps_put s : keeps (put s).
Proof. intros w H. exact H. Qed.
Lemma keeps_of_res {A} (r : res A) : keeps (of_res r).
Proof. destruct r; intros w H; exact H. Qed.
Lemma keeps_drive f : (forall o, P o -> P (f o)) -> keeps (drive f).
Proof. intros Hf w [H1 H2]. unfold drive. destruct (ph w); split; cbn; auto. Qed.
Lemma keeps_edge : keeps edge.
Proof.
  intros w [H1 H2]. unfold edge. destruct (ins w); split; cbn; auto.
  apply Forall_app. split; [exact H2|]. constructor; [exact H1|constructor].
Qed.
Lemma keeps_readonly : keeps readonly.
Proof. intros w [H1 H2]. unfold readonly. destruct (ph w), (ins w); split; cbn; auto. Qed.
Lemma keeps_midstep : keeps midstep.
Proof. intros w [H1 H2]. unfold midstep. destruct (ins w); split; cbn; auto. Qed.
Lemma keeps_input : keeps input.
Proof. intros w [H1 H2]. unfold input. destruct (ins w); split; cbn; auto. Qed.
Lemma keeps_edges n : keeps (edges n).
Proof. induction n; [apply keeps_ret|]. apply keeps_bind; [apply keeps_edge|auto]. Qed.
Lemma keeps_loop {L A} fuel (body : L -> M (L + A)) : (forall l, keeps (body l)) -> forall l, keeps (loop fuel body l).
Proof.
  intro H. induction fuel as [|f IH]; intro l; [intros w Hw; exact Hw|].
  cbn [loop]. apply keeps_bind; [apply H|]. intros [l'|a]; [apply IH|apply keeps_ret].
Qed.
Lemma keeps_for {X} (body : X -> M unit) l : (forall x, keeps (body x)) -> keeps (for_each body l).
Proof.
  intro H. induction l as [|x l IH]; [apply keeps_ret|]. cbn [for_each]. apply keeps_bind; [apply H|auto].
Qed.
End Keeps.
Global Hint Resolve keeps_ret keeps_raise keeps_get keeps_put keeps_of_res keeps_edge keeps_readonly keeps_midstep
  keeps_input keeps_edges keeps_bind keeps_drive keeps_loop keeps_for : keeps.
