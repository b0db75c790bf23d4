(** AxPrSpec.v -- a test that makes AXI accesses one after the other, a slave that is a memory, and
    the byte array such a test expects (C138). *)
From Verif Require Import Base Async HandshakeSpec AxiModel AxiSpec AxcSpec.
Local Open Scope list_scope.

(** ** The test *)
Inductive access := AWrite (a : waccess) | ARead (a : raccess).
Inductive result := RWrite (r : outcome unit) | RRead (r : outcome (list bits)).
(** what happened in one access: its result and its cycles, with the signals of the address and
    data channels *)
Record step := Step {
  st_result : result; st_aw : list (axi_in * ax_out); st_w : list (axi_in * w_out); st_ar : list (axi_in * ax_out) }.

(** await master.write(...), await master.read(...), one after the other on the cycles [l]
    (drivers/amba.py 316-406, 408-583, as in AxiModel.v).  An exception of an access is caught by
    the test.  An access that is not answered ends the list.  A write that used the bus returns
    right after an edge (with a defined response); the read channels keep their signals during a
    write and the write channels theirs during a read. *)
Fixpoint axi_program (c : axi_cfg) (fuel : nat) (prog : list access) (p : phase) (oa : ax_out) (ow : w_out) (o : ax_out)
         (l : list axi_in) : list step * outcome (list axi_in) :=
  match prog with
  | [] => ([], Done l)
  | AWrite a :: rest =>
      let r := axi_write c fuel a p oa ow l in
      match wr_result r with
      | Susp => ([], Susp)
      | Fuel => ([], Fuel)
      | x =>
          let '(ss, e) := axi_program c fuel rest (match wr_aw r with [] => p | _ => PActive end)
                            (wr_aw_out r) (wr_w_out r) o (wr_rest r) in
          (Step (RWrite x) (wr_aw r) (wr_w r) [] :: ss, e)
      end
  | ARead a :: rest =>
      let '(x, w) := axi_read c fuel a (World tt p o [] l) in
      match x with
      | Susp => ([], Susp)
      | Fuel => ([], Fuel)
      | _ =>
          let '(ss, e) := axi_program c fuel rest (ph w) oa ow (out w) (ins w) in
          (Step (RRead x) [] [] (trace w) :: ss, e)
      end
  end.

(** ** The slave *)
(** it answers OKAY, with read data of the width of the bus *)
Definition okay_in (c : axi_cfg) (i : axi_in) : Prop :=
  (b_valid i = true -> bval (g_bresp i) = Some 0%Z) /\
  (r_beat i = true -> length (g_rdata i) = x_width c /\ bval (g_rresp i) = Some 0%Z).
(** its memory after an access: the bytes of the burst that was transferred, if there was one *)
Definition slave_step (c : axi_cfg) (m : Z -> Z) (s : step) : Z -> Z :=
  match transfers aw_offered aw_accepts (st_aw s) with
  | [req] => slave_store c req (transfers w_offered w_accepts (st_w s)) m
  | _ => m
  end.
(** the cycles after the transfer of a read address *)
Fixpoint after_request (t : list (axi_in * ax_out)) : list axi_in :=
  match t with
  | [] => []
  | (i, o) :: r => if aw_offered o && ar_accepts i then map fst r else after_request r
  end.
(** it answers the request it was sent with the bytes its memory holds *)
Fixpoint memory_slave (c : axi_cfg) (m : Z -> Z) (ss : list step) : Prop :=
  match ss with
  | [] => True
  | s :: r =>
      (forall req, transfers aw_offered ar_accepts (st_ar s) = [req] ->
         slave_reads c req (fun _ x => zbits 8 (m x)) (filter r_beat (after_request (st_ar s)))) /\
      memory_slave c (slave_step c m s) r
  end.

(** ** The array *)
Definition legal_write (c : axi_cfg) (a : waccess) : Prop :=
  legal_access (x_bytes c) (wa_address a) (Z.of_nat (length (wa_value a))) (wa_size a) (wa_burst a).
Definition legal_read (c : axi_cfg) (a : raccess) : Prop :=
  legal_access (x_bytes c) (ra_address a) (ra_length a) (ra_size a) (ra_burst a).
(** the results of a list of accesses to a byte array, and the array after them *)
Inductive array (c : axi_cfg) : (Z -> Z) -> list access -> list result -> (Z -> Z) -> Prop :=
| array_nil m : array c m [] [] m
| array_write m a prog rs m' : legal_write c a ->
    array c (written (wa_burst a) (wa_address a) (size_or (x_bytes c) (wa_size a)) (wa_value a) (wa_be a) m) prog rs m' ->
    array c m (AWrite a :: prog) (RWrite (Done tt) :: rs) m'
| array_read m a prog rs m' : legal_read c a -> array c m prog rs m' ->
    array c m (ARead a :: prog)
      (RRead (Done (read_words (ra_burst a) (fun _ x => zbits 8 (m x)) (ra_address a) (size_or (x_bytes c) (ra_size a)) (Z.to_nat (ra_length a)))) :: rs) m'
| array_no_write m a prog rs m' : ~ legal_write c a -> array c m prog rs m' ->
    array c m (AWrite a :: prog) (RWrite (Exn EValue) :: rs) m'
| array_no_read m a prog rs m' : ~ legal_read c a -> array c m prog rs m' ->
    array c m (ARead a :: prog) (RRead (Exn EValue) :: rs) m'.

(** ** The accesses of the test: any illegal ones, and of the legal ones those whose address fits,
    with data_latency 0 for several values (C56); WRAP bursts as in C52 *)
Definition access_ok (c : axi_cfg) (x : access) : Prop :=
  match x with
  | AWrite a => ~ legal_write c a \/
      (write_call_ok c a /\ (wa_burst a = WRAP ->
         wrap_smooth (x_bytes c) (wa_address a) (size_or (x_bytes c) (wa_size a)) (Z.of_nat (length (wa_value a)))))
  | ARead a => ~ legal_read c a \/
      (read_call_ok c a /\ (ra_burst a = WRAP ->
         wrap_smooth (x_bytes c) (ra_address a) (size_or (x_bytes c) (ra_size a)) (ra_length a)))
  end.
