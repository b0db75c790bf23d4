(** GenExnProp.v -- C125: valid generators and BitDriver generators that raise, or that are
    iterables and no iterators.  [x_send_each] is a test that awaits one send() after the other
    and catches what they raise; its result says which of them raised what. *)
From Verif Require Import Base Async CompatModel DrvUtilModel DrvUtilSpec AvalonSTModel AvalonSTSpec GenExnModel GenExnSpec GenExnProof.
Local Open Scope list_scope.

(** C125 is false: a call of set_valid_generator with an iterable that is no iterator raises,
    and does not leave the driver as it was.  Whatever state it was in, afterwards every send
    raises TypeError, and no word is transferred. *)
Theorem C125_not_an_iterator_refuted :
  forall width has_ready s0 ws ds p o fuel l,
    Forall2 (fun w d => create_binary (fst w) width false = Ok d) ws ds ->
    length l < fuel -> p <> PReadOnly -> o_valid o <> L1 ->
    exists s, x_set (Some NotIterator) s0 = (s, Err EType) /\
    let '(r, w) := x_send_each width has_ready fuel ws (World s p o [] l) in
    transfers has_ready (trace w) = []
    /\ match r with Done rs => rs = repeat (Err EType) (length ws) | Susp => ins w = [] | _ => False end.
Proof. exact x_refused. Qed.
Print Assumptions C125_not_an_iterator_refuted.

(** The same after an iterator that raises once, if the generator before it had been empty:
    the sends then do not come to asking the iterator again. *)
Theorem C125_off_unset_refuted :
  forall width has_ready e more ws ds p o fuel l,
    Forall2 (fun w d => create_binary (fst w) width false = Ok d) ws ds ->
    length l < fuel -> p <> PReadOnly -> o_valid o <> L1 ->
    exists s0 s, x_construct (Some (Iter [])) = (s0, Ok tt) /\ x_set (Some (Iter (Err e :: more))) s0 = (s, Err e) /\
    let '(r, w) := x_send_each width has_ready fuel ws (World s p o [] l) in
    transfers has_ready (trace w) = []
    /\ match r with Done rs => rs = repeat (Err EType) (length ws) | Susp => ins w = [] | _ => False end.
Proof. exact x_none_off. Qed.
Print Assumptions C125_off_unset_refuted.

(** What holds: for an iterator that raises any exceptions at any calls, with which
    set_valid_generator has returned, each exception is raised by one send, in order, and
    by no other; the words transferred are those of the sends that returned, each once and in
    order; a word on offer is held until it is accepted. *)
Theorem C125_iterator_partial :
  forall width has_ready calls s0 s ws ds p o fuel l,
    x_set (Some (Iter calls)) s0 = (s, Ok tt) ->
    Forall2 (fun w d => create_binary (fst w) width false = Ok d) ws ds ->
    length l < fuel -> p <> PReadOnly -> o_valid o <> L1 ->
    let '(r, w) := x_send_each width has_ready fuel ws (World s p o [] l) in
    map fst (trace w) ++ ins w = l
    /\ (forall i, stable has_ready (trace w ++ [(i, out w)]))
    /\ exists rs more, errors calls = errors rs ++ more /\ transfers has_ready (trace w) = returned ds rs
       /\ match r with
          | Done x => rs = x /\ length rs = length ws /\ o_valid (out w) <> L1
          | Susp => ins w = [] /\ length rs < length ws
          | _ => False
          end.
Proof. exact x_iter. Qed.
Print Assumptions C125_iterator_partial.

(** A send that raises because of the generator, in any state, has driven idle cycles only and
    leaves the bus idle (unlike one that raises because of the word, C71). *)
Theorem C125_idle_partial :
  forall width has_ready fuel value (sync : bool) d s p o l e w,
    create_binary value width false = Ok d -> length l < fuel -> p <> PReadOnly ->
    x_send width has_ready fuel value sync (World s p o [] l) = (Exn e, w) ->
    o_valid (out w) = L0 /\ Forall idle (trace w) /\ ph w <> PReadOnly.
Proof. exact x_one. Qed.
Print Assumptions C125_idle_partial.

(** Without exceptions this is the driver of C30 and C32. *)
Theorem C125_no_exceptions_partial :
  forall width has_ready fuel ws ds g p o l,
    Forall2 (fun w d => create_binary (fst w) width false = Ok d) ws ds ->
    length l < fuel -> p <> PReadOnly ->
    let x := x_construct (option_map (fun g => Iter (map Ok g)) g) in
    snd x = Ok tt /\
    let '(r, w) := x_send_each width has_ready fuel ws (World (fst x) p o [] l) in
    let '(r', w') := st_send_all width has_ready fuel ws (World (set_valid_generator g) p o [] l) in
    r = match r' with Done _ => Done (repeat (Ok tt) (length ws)) | Susp => Susp | Exn e => Exn e | Fuel => Fuel end
    /\ trace w = trace w' /\ ins w = ins w' /\ out w = out w'.
Proof. exact x_same. Qed.
Print Assumptions C125_no_exceptions_partial.

(** BitDriver: start() with an iterable that is no iterator, or with an iterator that yields
    nothing before it raises or ends, never drives the signal; the task ends with the exception. *)
Theorem C125_bit_not_an_iterator_refuted :
  forall g v0 n, (match g with NotIterator => True | Iter l => pairs_before l = [] end) ->
    xb_wave n (xb_start g v0) = repeat v0 n
    /\ fst (xb_after n (xb_start g v0)) = XEnd (match g with NotIterator => EType | Iter l => ending l end).
Proof. exact xb_immediate. Qed.
Print Assumptions C125_bit_not_an_iterator_refuted.

(** Otherwise the signal shows the pairs yielded before the first exception and stays at 0; the
    task ends with that exception, at the end of the last pair. *)
Theorem C125_bit_partial :
  forall l v0 n,
    let s := xb_start (Iter l) v0 in
    pairs_before l <> [] ->
    xb_wave n s = firstn n (waveform (pairs_before l) ++ repeat L0 n)
    /\ ((exists e, fst (xb_after n s) = XEnd e) <-> length (waveform (pairs_before l)) <= n)
    /\ (forall e, fst (xb_after n s) = XEnd e -> e = ending l).
Proof. exact xb_waveform. Qed.
Print Assumptions C125_bit_partial.

(** A generator that raises ZeroDivisionError (here EUser 1) after its first pair, and, as a
    Python generator does, ends: the second word is lost, the gap is made again before the third, all others are sent. *)
Example C125_nonvacuous :
  let ws := [(BInt 5, true); (BInt 9, false); (BInt 1, false); (BInt 7, false)] in
  let x := x_construct (Some (Iter [Ok (1, 2)%Z; Err (EUser 1)])) in
  let '(r, w) := x_send_each 8 true 20 ws (World (fst x) PActive (st_init_out 8) [] [L1; L0; L1; L1; L1; L0; L1; LX; L1; L1; L1; L1]) in
  snd x = Ok tt /\ r = Done [Ok tt; Err (EUser 1); Ok tt; Ok tt]
  /\ map (fun c => o_valid (snd c)) (trace w) = [L0; L1; L1; L0; L0; L0; L0; L1; L1; L1]
  /\ transfers true (trace w) = map (zbits 8) [5; 1; 7]%Z.
Proof. vm_compute. auto. Qed.
(** a list as valid generator of a driver that worked *)
Example C125_refuted_nonvacuous :
  let s0 := fst (x_construct (Some (Iter [Ok (1, 2)%Z]))) in
  let s := fst (x_set (Some NotIterator) s0) in
  let ws := [(BInt 5, true); (BInt 9, false)] in
  fst (x_send_each 8 true 20 ws (World s0 PActive (st_init_out 8) [] (repeat L1 9))) = Done [Ok tt; Ok tt]
  /\ fst (x_send_each 8 true 20 ws (World s PActive (st_init_out 8) [] (repeat L1 9))) = Done [Err EType; Err EType].
Proof. vm_compute. auto. Qed.
Example C125_bit_nonvacuous :
  let l := [Ok (2, 1)%Z; Ok (1, 1)%Z; Err (EUser 3); Ok (4, 4)%Z] in
  xb_wave 7 (xb_start (Iter l) LX) = [L1; L1; L0; L1; L0; L0; L0] /\ fst (xb_after 5 (xb_start (Iter l) LX)) = XEnd (EUser 3).
Proof. vm_compute. auto. Qed.
