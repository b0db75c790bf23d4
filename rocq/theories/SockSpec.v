(** SockSpec.v -- vocabulary for C130: a byte stream from a socket. *)
From Verif Require Export Base DrvUtilModel DrvUtilSpec E2EModel.
Local Open Scope list_scope.

(** the bytes the socket delivered *)
Definition stream (rs : list sockres) : bytes := flat_map (fun r => match r with SData b => b | SError _ => [] end) rs.
(** driver.append(data) (drivers/__init__.py:384) *)
Definition appended_chunk (b : bytes) : item ptx := Item (b, None) None None false.
(** the data of what the packet monitor delivers *)
Definition data_of (r : report) : bytes := match r with RData b => b | RChan b _ => b end.
Definition all_octets (rs : list sockres) : Prop := forall b, In (SData b) rs -> all_bytes b.
