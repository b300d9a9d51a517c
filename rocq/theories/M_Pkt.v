(** * Packet tuple: bpf/bpfsnoop_pkt.h, bpf/bpfsnoop_pkt_output.h, internal/bpfsnoop/bpfsnoop_pkt.go.

    Kernel memory: one byte (or unreadable) per address.  The text of addresses and the colours are not modelled. *)
From Coq Require Import ZArith List Bool String.
From Verif Require Import M_Go.
Import ListNotations.
Open Scope Z_scope.

Definition kmem := Z -> option Z.
(** bpf_probe_read_kernel: n bytes at a; the destination is zeroed when the read fails. *)
Fixpoint read_ok (m : kmem) (n : nat) (a : Z) : option (list Z) :=
  match n with
  | O => Some []
  | S k => match m a, read_ok m k (a + 1) with Some b, Some l => Some (b :: l) | _, _ => None end
  end.
Definition read_kernel (m : kmem) (n : nat) (a : Z) : list Z :=
  match read_ok m n a with Some l => l | None => repeat 0 n end.
Definition read1 (m : kmem) (a : Z) : Z := hd 0 (read_kernel m 1 a).
(** two bytes as the little-endian number the C code compares with bpf_htons(...) *)
Definition read2 (m : kmem) (a : Z) : Z := le_bytes (read_kernel m 2 a).
Definition htons (v : Z) : Z := (v mod 256) * 256 + v / 256.

(** bpfsnoop_pkt.h:21-34 is_ip_vxlan_pkt *)
Definition is_ip_vxlan (m : kmem) (ip : Z) : bool :=
  if negb (read1 m (ip + 9) =? 17) then false else
  let b := read1 m ip in
  let udp := ip + Z.land b 15 * 4 in
  read2 m (udp + 2) =? htons 4789.
(** bpfsnoop_pkt.h:36-45 is_vxlan_pkt *)
Definition is_vxlan (m : kmem) (data : Z) : bool :=
  if negb (read2 m (data + 12) =? htons 2048) then false else is_ip_vxlan m (data + 14).
(** bpfsnoop_pkt.h:47-72 *)
Definition skip_tunnel (skip : bool) (m : kmem) (data : Z) : Z :=
  if negb skip then data else if is_vxlan m data then data + 50 else data.
Definition skip_tunnel_iph (skip : bool) (m : kmem) (iph : Z) : Z :=
  if negb skip then iph else if is_ip_vxlan m iph then iph + 50 else iph.

(** struct bpfsnoop_pkt_data: addrs 0-7, ports 8-11, protocol 12, tcp_flags 13, pad 14-15 *)
Definition put (l : list Z) (off : nat) (bs : list Z) : list Z := firstn off l ++ bs ++ skipn (off + List.length bs) l.
(** bpfsnoop_pkt_output.h:26-60 output_tuple; [pkt]: the 16 bytes at the destination before *)
Definition output_tuple (m : kmem) (pkt : list Z) (iph : Z) : list Z :=
  let b := read1 m iph in
  if negb (Z.land (Z.shiftr b 4) 7 =? 4) then pkt else
  let l4 := iph + Z.land b 7 * 4 in
  let proto := read1 m (iph + 9) in
  if proto =? 6 then
    put (put (put (put pkt 0 (read_kernel m 8 (iph + 12))) 8 (read_kernel m 4 l4)) 12 [6]) 13 (read_kernel m 1 (l4 + 13))
  else if proto =? 17 then
    put (put (put pkt 0 (read_kernel m 8 (iph + 12))) 8 (read_kernel m 4 l4)) 12 [17]
  else if proto =? 1 then
    put (put pkt 0 (read_kernel m 8 (iph + 12))) 12 [1]
  else pkt.
(** bpfsnoop_pkt_output.h:62-76 output_skb, from the address of the network header *)
Definition output_skb (skip : bool) (m : kmem) (pkt : list Z) (nh : Z) : list Z := output_tuple m pkt (skip_tunnel_iph skip m nh).
(** bpfsnoop_pkt_output.h:78-104 output_xdp_data; output_xdp_buff / output_xdp_frame from xdp->data *)
Definition output_xdp_data (m : kmem) (pkt : list Z) (data : Z) : list Z :=
  let p := read2 m (data + 12) in
  if p =? htons 2048 then output_tuple m pkt (data + 14) else
  if p =? htons 33024 then
    (if negb (read2 m (data + 16) =? htons 2048) then pkt else output_tuple m pkt (data + 18))
  else pkt.
Definition output_xdp (skip : bool) (m : kmem) (pkt : list Z) (data : Z) : list Z := output_xdp_data m pkt (skip_tunnel skip m data).

(** bpfsnoop_pkt.go: what is printed. *)
Inductive shown :=
| STcp (src : list Z) (sport : Z) (dst : list Z) (dport : Z) (flags : list string)
| SUdp (src : list Z) (sport : Z) (dst : list Z) (dport : Z)
| SIcmp (src dst : list Z)
| SUnk.
Definition byte_at (l : list Z) (i : nat) : Z := nth i l 0.
Definition be16 (l : list Z) (i : nat) : Z := byte_at l i * 256 + byte_at l (i + 1).
Definition slice (l : list Z) (i n : nat) : list Z := firstn n (skipn i l).
Open Scope string_scope.
Definition tcp_flag_names : list string := ["FIN"; "SYN"; "RST"; "PSH"; "ACK"; "URG"; "ECE"; "CWR"].
Close Scope string_scope.
(** bpfsnoop_pkt.go:49-69 tcpFlags (before joining with "|") *)
Fixpoint flags_from (i : Z) (names : list string) (v : Z) : list string :=
  match names with
  | [] => []
  | n :: names' => if negb (Z.land v (2 ^ i) =? 0) then n :: flags_from (i + 1) names' v else flags_from (i + 1) names' v
  end.
Definition tcp_flags (v : Z) : list string := flags_from 0 tcp_flag_names v.
(** bpfsnoop_pkt.go:71-103 repr, outputPktTuple; None: nothing printed *)
Definition output_pkt_tuple (d : list Z) : option shown :=
  if forallb (fun b => b =? 0) (slice d 0 8) then None else
  let src := slice d 0 4 in let dst := slice d 4 4 in
  Some (if byte_at d 12 =? 6 then STcp src (be16 d 8) dst (be16 d 10) (tcp_flags (byte_at d 13))
        else if byte_at d 12 =? 17 then SUdp src (be16 d 8) dst (be16 d 10)
        else if byte_at d 12 =? 1 then SIcmp src dst
        else SUnk).
