(** * Property theorems C41, C52: packet tuples. *)
From Coq Require Import ZArith List Bool String Lia.
From Verif Require Import M_Go M_Pkt S_Pkt P_Pkt.
Import ListNotations.
Open Scope Z_scope.

(** C41. For every IPv4 TCP, UDP or ICMP packet with a header of 5 to 7 words, whatever the 16 bytes of the destination held
    before, the addresses, ports and flags shown are those of the packet: skb, XDP frame, XDP frame with one VLAN tag. *)
Theorem C41_skb_tuple_partial : forall m a p stale, ipv4_at m a p -> ihl p <= 7 -> some_address p -> List.length stale = 16%nat ->
  (proto p = 6 \/ proto p = 17 \/ proto p = 1) -> output_pkt_tuple (output_skb false m stale a) = tuple_of p.
Proof. exact skb_ok. Qed.
Print Assumptions C41_skb_tuple_partial.
Theorem C41_xdp_tuple_partial : forall m a p stale, be16_at m (a + 12) 2048 -> ipv4_at m (a + 14) p -> ihl p <= 7 -> some_address p ->
  List.length stale = 16%nat -> (proto p = 6 \/ proto p = 17 \/ proto p = 1) -> output_pkt_tuple (output_xdp false m stale a) = tuple_of p.
Proof. exact xdp_ok. Qed.
Print Assumptions C41_xdp_tuple_partial.
Theorem C41_xdp_vlan_tuple_partial : forall m a p stale, be16_at m (a + 12) 33024 -> be16_at m (a + 16) 2048 -> ipv4_at m (a + 18) p ->
  ihl p <= 7 -> some_address p -> List.length stale = 16%nat -> (proto p = 6 \/ proto p = 17 \/ proto p = 1) ->
  output_pkt_tuple (output_xdp false m stale a) = tuple_of p.
Proof. exact xdp_vlan_ok. Qed.
Print Assumptions C41_xdp_vlan_tuple_partial.

(** concrete packets *)
Definition mem_at (base : Z) (l : list Z) : kmem := fun a => if a <? base then None else nth_error l (Z.to_nat (a - base)).
Definition ip_bytes (ihl proto : Z) (opts l4 : list Z) : list Z :=
  [64 + ihl; 0; 0; 60; 0; 0; 0; 0; 64; proto; 0; 0; 10; 0; 0; 1; 10; 0; 0; 2] ++ opts ++ l4.
Definition tcp_bytes : list Z := [48; 57; 1; 187; 0; 0; 0; 0; 0; 0; 0; 0; 80; 18; 255; 255; 0; 0; 0; 0]. (* 12345 -> 443, SYN|ACK *)
Definition pkt_of (n proto : Z) : ipv4 :=
  {| ihl := n; proto := proto; saddr := [10; 0; 0; 1]; daddr := [10; 0; 0; 2]; l4 := fun i => nth (Z.to_nat i) tcp_bytes 0 |}.
Lemma ip_bytes_at base n pr opts : 5 <= n <= 15 -> 0 <= pr < 256 -> Z.of_nat (List.length opts) = 4 * (n - 5) ->
  ipv4_at (mem_at base (ip_bytes n pr opts tcp_bytes)) base (pkt_of n pr).
Proof.
  intros Hn Hp Ho.
  assert (Hat : forall i, (0 <= i) -> mem_at base (ip_bytes n pr opts tcp_bytes) (base + i) = nth_error (ip_bytes n pr opts tcp_bytes) (Z.to_nat i)).
  { intros i Hi. unfold mem_at. destruct (Z.ltb_spec (base + i) base); [lia|]. f_equal. f_equal. lia. }
  unfold ipv4_at, pkt_of. cbn [ihl proto saddr daddr l4]. split; [lia|]. split; [lia|]. split; [reflexivity|]. split; [reflexivity|].
  split; [replace base with (base + 0) at 2 by ring; rewrite Hat by lia; reflexivity|].
  split; [rewrite Hat by lia; reflexivity|].
  split; [intros i Hi; replace (base + 12 + Z.of_nat i) with (base + (12 + Z.of_nat i)) by ring; rewrite Hat by lia;
          destruct i as [|[|[|[|]]]]; try reflexivity; lia|].
  split; [intros i Hi; replace (base + 16 + Z.of_nat i) with (base + (16 + Z.of_nat i)) by ring; rewrite Hat by lia;
          destruct i as [|[|[|[|]]]]; try reflexivity; lia|].
  split.
  - intros i Hi. replace (base + 4 * n + i) with (base + (4 * n + i)) by ring. rewrite Hat by lia. unfold ip_bytes.
    rewrite nth_error_app2 by (cbn [List.length]; lia). rewrite nth_error_app2 by (cbn [List.length]; lia).
    cbn [List.length]. replace (Z.to_nat (4 * n + i) - 20 - List.length opts)%nat with (Z.to_nat i) by lia.
    apply nth_error_nth'. cbn. lia.
  - intros i Hi. assert (Hk : (Z.to_nat i < 20)%nat) by lia. revert Hk. generalize (Z.to_nat i) as k. intros k Hk.
    do 20 (destruct k as [|k]; [cbn; lia|]). lia.
Qed.
Example C41_demo : ipv4_at (mem_at 1000 (ip_bytes 6 6 [1; 1; 1; 0] tcp_bytes)) 1000 (pkt_of 6 6) /\ some_address (pkt_of 6 6) /\
  tuple_of (pkt_of 6 6) = Some (STcp [10; 0; 0; 1] 12345 [10; 0; 0; 2] 443 ["SYN"; "ACK"]%string).
Proof.
  split; [apply ip_bytes_at; cbn; lia|]. split; [|vm_compute; reflexivity]. exists 10. split; [left; reflexivity|discriminate].
Qed.

(** Refuted for headers of 8 words or more: the ports are read 32 bytes too early. *)
Theorem C41_long_header_reads_elsewhere : forall m a p stale, ipv4_at m a p -> 8 <= ihl p -> output_tuple m stale a =
  let l4a := a + 4 * (ihl p - 8) in
  if proto p =? 6 then put (put (put (put stale 0 (read_kernel m 8 (a + 12))) 8 (read_kernel m 4 l4a)) 12 [6]) 13 (read_kernel m 1 (l4a + 13))
  else if proto p =? 17 then put (put (put stale 0 (read_kernel m 8 (a + 12))) 8 (read_kernel m 4 l4a)) 12 [17]
  else if proto p =? 1 then put (put stale 0 (read_kernel m 8 (a + 12))) 12 [1] else stale.
Proof. exact tuple_long. Qed.
Print Assumptions C41_long_header_reads_elsewhere.
Theorem C41_long_header_refuted : exists m a p stale,
  ipv4_at m a p /\ ihl p = 8 /\ proto p = 6 /\ List.length stale = 16%nat /\
  tuple_of p = Some (STcp [10; 0; 0; 1] 12345 [10; 0; 0; 2] 443 ["SYN"; "ACK"]%string) /\
  output_pkt_tuple (output_skb false m stale a) = Some (STcp [10; 0; 0; 1] 18432 [10; 0; 0; 2] 60 []).
Proof.
  exists (mem_at 1000 (ip_bytes 8 6 (repeat 1 12) tcp_bytes)), 1000, (pkt_of 8 6), (repeat 0 16).
  split; [apply ip_bytes_at; cbn; lia|]. repeat split; vm_compute; reflexivity.
Qed.
Print Assumptions C41_long_header_refuted.
(** Refuted for packets that are not IPv4 TCP/UDP/ICMP: what earlier records left in the ring buffer is shown as the tuple. *)
Theorem C41_other_packets_show_stale_refuted : forall m a b stale, m a = Some b -> Z.land (Z.shiftr b 4) 7 <> 4 ->
  output_pkt_tuple (output_skb false m stale a) = output_pkt_tuple stale.
Proof. intros m a b stale H N. exact (f_equal output_pkt_tuple (not_v4_stale m a b stale H N)). Qed.
Print Assumptions C41_other_packets_show_stale_refuted.
Theorem C41_other_protocols_show_stale_refuted : forall m a p stale, ipv4_at m a p -> proto p <> 6 -> proto p <> 17 -> proto p <> 1 ->
  output_pkt_tuple (output_skb false m stale a) = output_pkt_tuple stale.
Proof. intros m a p stale H N1 N2 N3. exact (f_equal output_pkt_tuple (other_stale m a p stale H N1 N2 N3)). Qed.
Print Assumptions C41_other_protocols_show_stale_refuted.
Example C41_stale_demo : (* an IPv6 packet shown with the tuple of an earlier TCP packet *)
  output_pkt_tuple (output_skb false (mem_at 1000 [96; 0; 0; 0]) [192; 168; 0; 1; 192; 168; 0; 2; 0; 80; 31; 144; 6; 2; 0; 0] 1000) =
  Some (STcp [192; 168; 0; 1] 80 [192; 168; 0; 2] 8080 ["SYN"]%string).
Proof. vm_compute. reflexivity. Qed.

(** C52. With --skip-tunnel the tuple of a VXLAN packet whose outer IP header has no options is that of the inner packet, and
    other packets are not affected. *)
Theorem C52_vxlan_inner_tuple_partial : forall m a outer inner stale,
  vxlan_outer m a outer -> ihl outer = 5 -> ipv4_at m (a + 4 * ihl outer + 8 + 8 + 14) inner ->
  ihl inner <= 7 -> some_address inner -> List.length stale = 16%nat -> (proto inner = 6 \/ proto inner = 17 \/ proto inner = 1) ->
  output_pkt_tuple (output_skb true m stale a) = tuple_of inner.
Proof. exact skb_skip. Qed.
Print Assumptions C52_vxlan_inner_tuple_partial.
Theorem C52_vxlan_inner_tuple_xdp_partial : forall m a outer inner stale, be16_at m (a + 12) 2048 -> vxlan_outer m (a + 14) outer -> ihl outer = 5 ->
  be16_at m (a + 14 + 4 * ihl outer + 8 + 8 + 12) 2048 -> ipv4_at m (a + 14 + 4 * ihl outer + 8 + 8 + 14) inner ->
  ihl inner <= 7 -> some_address inner -> List.length stale = 16%nat -> (proto inner = 6 \/ proto inner = 17 \/ proto inner = 1) ->
  output_pkt_tuple (output_xdp true m stale a) = tuple_of inner.
Proof. exact xdp_skip. Qed.
Print Assumptions C52_vxlan_inner_tuple_xdp_partial.
Theorem C52_other_packets_unaffected : forall m a p stale, ipv4_at m a p -> (proto p = 17 -> port p 2 <> 4789) ->
  output_skb true m stale a = output_skb false m stale a.
Proof. exact skb_skip_plain. Qed.
Print Assumptions C52_other_packets_unaffected.
(** concrete VXLAN packet: outer header of [n] words, UDP to 4789, VXLAN, inner Ethernet, inner TCP packet *)
Definition udp_vxlan : list Z := [1; 2; 18; 181; 0; 0; 0; 0; 8; 0; 0; 0; 0; 0; 1; 0] ++ repeat 0 12 ++ [8; 0].
Definition vx_bytes (n : Z) (opts : list Z) : list Z := ip_bytes n 17 opts (udp_vxlan ++ ip_bytes 5 6 [] tcp_bytes).
Example C52_demo : output_pkt_tuple (output_skb true (mem_at 1000 (vx_bytes 5 [])) (repeat 0 16) 1000) = tuple_of (pkt_of 5 6).
Proof. vm_compute. reflexivity. Qed.
(** Refuted when the outer header has options: the tuple is read from the wrong place. *)
Theorem C52_outer_options_refuted :
  tuple_of (pkt_of 5 6) = Some (STcp [10; 0; 0; 1] 12345 [10; 0; 0; 2] 443 ["SYN"; "ACK"]%string) /\
  output_pkt_tuple (output_skb true (mem_at 1000 (vx_bytes 6 [1; 1; 1; 1])) (repeat 0 16) 1000) = None /\
  is_ip_vxlan (mem_at 1000 (vx_bytes 6 [1; 1; 1; 1])) 1000 = true.
Proof. repeat split; vm_compute; reflexivity. Qed.
Print Assumptions C52_outer_options_refuted.
