(** * Specification: IPv4 packets (RFC 791, 793, 768) and what should be shown for them. *)
From Coq Require Import ZArith List Bool String.
From Verif Require Import M_Go M_Pkt.
Import ListNotations.
Open Scope Z_scope.

Record ipv4 := { ihl : Z; proto : Z; saddr : list Z; daddr : list Z; l4 : Z -> Z (* bytes of the transport header *) }.
(** The bytes of memory from a on are the header of p, followed by its transport header (20 bytes of it). *)
Definition ipv4_at (m : kmem) (a : Z) (p : ipv4) : Prop :=
  5 <= ihl p <= 15 /\ 0 <= proto p < 256 /\ List.length (saddr p) = 4%nat /\ List.length (daddr p) = 4%nat /\
  m a = Some (4 * 16 + ihl p) /\ m (a + 9) = Some (proto p) /\
  (forall i, (i < 4)%nat -> m (a + 12 + Z.of_nat i) = nth_error (saddr p) i) /\
  (forall i, (i < 4)%nat -> m (a + 16 + Z.of_nat i) = nth_error (daddr p) i) /\
  (forall i, 0 <= i < 20 -> m (a + 4 * ihl p + i) = Some (l4 p i)) /\
  (forall i, 0 <= i < 20 -> 0 <= l4 p i < 256).
Definition port (p : ipv4) (i : Z) : Z := l4 p i * 256 + l4 p (i + 1).
Open Scope string_scope.
(** names of the set flags, lowest bit first *)
Definition flags_of (v : Z) : list string :=
  List.concat (map (fun x => if Z.testbit v (fst x) then [snd x] else [])
    [(0, "FIN"); (1, "SYN"); (2, "RST"); (3, "PSH"); (4, "ACK"); (5, "URG"); (6, "ECE"); (7, "CWR")]).
Close Scope string_scope.
Definition tuple_of (p : ipv4) : option shown :=
  if proto p =? 6 then Some (STcp (saddr p) (port p 0) (daddr p) (port p 2) (flags_of (l4 p 13)))
  else if proto p =? 17 then Some (SUdp (saddr p) (port p 0) (daddr p) (port p 2))
  else if proto p =? 1 then Some (SIcmp (saddr p) (daddr p))
  else None.
Definition some_address (p : ipv4) : Prop := exists b, In b (saddr p ++ daddr p) /\ b <> 0.
(** Ethernet type at the start of the frame *)
Definition be16_at (m : kmem) (a v : Z) : Prop := m a = Some (v / 256) /\ m (a + 1) = Some (v mod 256).
(** UDP port 4789 in the packet at a whose header has no options *)
Definition vxlan_outer (m : kmem) (a : Z) (p : ipv4) : Prop := ipv4_at m a p /\ proto p = 17 /\ port p 2 = 4789.
