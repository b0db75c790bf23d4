(** XgGapSpec.v -- the gap between packets on an XGMII bus, and how long packets take. *)
From Verif Require Import Base CompatModel XgModel XgSpec.
Local Open Scope list_scope.

(** the minimum gap of IEEE 802.3: 96 bit times *)
Definition IPG : nat := 12.
(** in a stream of lanes, the number of characters from each terminate to the start that follows it, the
    terminate included ([count]: since a terminate) *)
Definition is_char (c : Z) (l : lane) : bool := snd l && (fst l =? c)%Z.
Fixpoint gaps_from (count : option nat) (s : list lane) : list nat :=
  match s with
  | [] => []
  | l :: r =>
      if is_char 253 l then gaps_from (Some 1) r
      else match count with
           | None => gaps_from None r
           | Some k => if is_char 251 l then k :: gaps_from None r else gaps_from (Some (S k)) r
           end
  end.
Definition packet_gaps (s : list lane) : list nat := gaps_from None s.
(** what 802.3 demands of a stream of lanes *)
Definition well_spaced (s : list lane) : Prop := Forall (fun g => IPG <= g) (packet_gaps s).

Section Spec.
Context (n : nat).
(** the characters of a packet, from the start to the terminate *)
Definition chars (pkt : bytes) : nat := 1 + 7 + length (padded pkt) + 4 + 1.
(** the idle characters that fill the word of the terminate, and one more word *)
Definition idles_after (pkt : bytes) : nat := (n - chars pkt mod n) mod n + n.
(** the bus words of a packet: as many as its characters need, and one of idle *)
Definition words_of (pkt : bytes) : nat := (chars pkt + n - 1) / n + 1.
(** idle words before a packet: (cycles before the call, sync, packet) *)
Definition lead (s : nat * bool * bytes) : nat := fst (fst s) + if snd (fst s) then 1 else 0.
(** the cycles all packets take *)
Definition cycles (sends : list (nat * bool * bytes)) : nat :=
  list_sum (map (fun s => lead s + words_of (snd s)) sends).
(** the gap between each packet and the next *)
Fixpoint spacing (sends : list (nat * bool * bytes)) : list nat :=
  match sends with
  | s1 :: ((s2 :: _) as r) => (1 + idles_after (snd s1) + n * lead s2) :: spacing r
  | _ => []
  end.
(** packets that are in the queue when the one before ends: neither a gap nor a clock edge first *)
Definition queued (sends : list (nat * bool * bytes)) : Prop := Forall (fun s => lead s = 0) (tl sends).
End Spec.
