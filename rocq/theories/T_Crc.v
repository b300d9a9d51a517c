(** * Property C106: the connection hash of the xdpcrc example is the CRC of the connection. *)
From Coq Require Import NArith List Bool.
From Verif Require Import M_Crc S_Crc P_Crc.
Import ListNotations.
Open Scope N_scope.

(** crc16 of any number is the remainder of the division of its six low bytes, lowest first, by x^16 + x^12 + x^5 + 1 ... *)
Theorem C106_crc_is_remainder : forall x, remainder (message (map (fun i => N.shiftr x (i * 8) mod 256) [0; 1; 2; 3; 4; 5])) (crc16 x).
Proof. exact crc16_remainder. Qed.
Print Assumptions C106_crc_is_remainder.
(** ... and there is only one such remainder. *)
Theorem C106_remainder_unique : forall m r r', remainder m r -> remainder m r' -> r = r'.
Proof. exact remainder_unique. Qed.
Print Assumptions C106_remainder_unique.
(** the check value of CRC-16/XMODEM is that of "123456789"; here the six bytes "123456" *)
Example C106_demo : crc16 59602136937009 = 8420 /\ message [49; 50; 51; 52; 53; 54] = 54091677185334.
Proof. vm_compute. auto. Qed.

(** Messages that differ only within 16 consecutive bits have different remainders. *)
Theorem C106_bursts_detected : forall m m' r r' e j, remainder m r -> remainder m' r' -> 0 < e < 2 ^ 16 -> N.lxor m m' = e * 2 ^ j -> r <> r'.
Proof. exact burst. Qed.
Print Assumptions C106_bursts_detected.
Example C106_burst_met : remainder 0 0 /\ remainder 5 20645 /\ N.lxor 0 5 = 5 * 2 ^ 0.
Proof. split; [split; [reflexivity|exists 0; reflexivity]|]. split; [|reflexivity]. split; [reflexivity|]. exists 5. vm_compute. reflexivity. Qed.

(** Connections that differ only in the source port have different hashes. *)
Theorem C106_source_ports_differ : forall src sp sp' dst dp, src < 2 ^ 32 -> dst < 2 ^ 32 -> sp < 2 ^ 16 -> sp' < 2 ^ 16 -> dp < 2 ^ 16 ->
  conn_hash src sp dst dp = conn_hash src sp' dst dp -> sp = sp'.
Proof. exact source_ports. Qed.
Print Assumptions C106_source_ports_differ.
(** Of the source address exactly the low 16 bits of the loaded number, the first two octets, count. *)
Theorem C106_source_octets : forall src src' sp dst dp, src < 2 ^ 32 -> src' < 2 ^ 32 -> dst < 2 ^ 32 -> sp < 2 ^ 16 -> dp < 2 ^ 16 ->
  (conn_hash src sp dst dp = conn_hash src' sp dst dp <-> src mod 2 ^ 16 = src' mod 2 ^ 16).
Proof. exact first_octets. Qed.
Print Assumptions C106_source_octets.

(** The program prints, for an IPv4 packet without IP options, exactly those TCP packets to port 8080 that are long enough, and what it prints
    is the CRC of the ports and of the CRC of the destination address and the first two octets of the source address.
    Missing: IP options and other packets (refuted below). *)
Theorem C106_packets_partial : forall p, Forall (fun b => b < 256) p -> ipv4_plain p -> forall h, xdp_crc p = Some h <->
  (54 <= List.length p)%nat /\ ip_proto p = 6 /\ tcp_dport p = 8080 /\
  exists crc, remainder (message (daddr p ++ firstn 2 (saddr p))) crc /\
    remainder (message (tcp_sport_bytes p ++ tcp_dport_bytes p ++ [crc mod 256; crc / 256])) h.
Proof. exact packets. Qed.
Print Assumptions C106_packets_partial.

(** Ethernet and IPv4 headers: 10.0.x.y:40000 -> 192.168.1.2:8080, TCP *)
Definition pkt (etype1 ihl : N) (x y : N) (opts tcp : list N) : list N :=
  [1; 2; 3; 4; 5; 6; 7; 8; 9; 10; 11; 12; etype1; 0; ihl; 0; 0; 40; 0; 0; 0; 0; 64; 6; 0; 0; 10; 0; x; y; 192; 168; 1; 2] ++ opts ++ tcp.
Definition tcp_hdr (sp1 sp2 dp1 dp2 : N) : list N := [sp1; sp2; dp1; dp2] ++ repeat 0 16.
Definition tcp_40000_8080 := tcp_hdr 156 64 31 144.
Example C106_packets_met : let p := pkt 8 69 0 7 [] tcp_40000_8080 in
  Forall (fun b => b < 256) p /\ ipv4_plain p /\ ip_proto p = 6 /\ tcp_dport p = 8080 /\ xdp_crc p = Some (conn_hash 117440522 16540 33663168 36895).
Proof. cbv zeta. split; [repeat constructor|]. vm_compute. auto. Qed.

(** The last two octets of the source address do not enter the hash: all hosts of a /16 network with the same ports collide. *)
Theorem C106_whole_address_refuted : exists p p', ipv4_plain p /\ ipv4_plain p' /\ saddr p = [10; 0; 0; 7] /\ saddr p' = [10; 0; 99; 1] /\
  xdp_crc p <> None /\ xdp_crc p = xdp_crc p'.
Proof. exists (pkt 8 69 0 7 [] tcp_40000_8080), (pkt 8 69 99 1 [] tcp_40000_8080). vm_compute. repeat split; discriminate. Qed.
Print Assumptions C106_whole_address_refuted.
(** With IP options the ports are taken from the options: a packet to port 8080 is not printed, one to port 443 is. *)
Theorem C106_options_refuted : exists p p', tcp_dport p = 8080 /\ xdp_crc p = None /\ tcp_dport p' = 443 /\ xdp_crc p' <> None.
Proof.
  exists (pkt 8 70 0 7 [1; 1; 1; 1] tcp_40000_8080), (pkt 8 70 0 7 [68; 4; 31; 144] (tcp_hdr 156 64 1 187)).
  vm_compute. repeat split; discriminate.
Qed.
Print Assumptions C106_options_refuted.
(** The Ethernet type is not looked at: a frame that is not IPv4 (type 0x8600) is printed. *)
Theorem C106_not_ip_refuted : exists p, be16 p 12 <> 2048 /\ xdp_crc p <> None.
Proof. exists (pkt 134 69 0 7 [] tcp_40000_8080). vm_compute. split; discriminate. Qed.
Print Assumptions C106_not_ip_refuted.
