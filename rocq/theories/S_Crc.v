(** * Specification of the CRC: the remainder of polynomial division over GF(2). *)
From Coq Require Import NArith List Bool.
Import ListNotations.
Open Scope N_scope.

(** Polynomials over GF(2) are the numbers whose bits are the coefficients; addition is xor; product: *)
Fixpoint pclmul (q : positive) (p : N) : N :=
  match q with
  | xH => p
  | xO q' => 2 * pclmul q' p
  | xI q' => N.lxor (2 * pclmul q' p) p
  end.
Definition clmul (q p : N) : N := match q with 0 => 0 | Npos q' => pclmul q' p end.
(** x^16 + x^12 + x^5 + 1 (CCITT) *)
Definition ccitt : N := 2 ^ 16 + 2 ^ 12 + 2 ^ 5 + 1.
(** r is the remainder of the division of msg * x^16 by it: degree below 16, and the difference is a multiple. *)
Definition remainder (msg r : N) : Prop := r < 2 ^ 16 /\ exists q, N.lxor (msg * 2 ^ 16) r = clmul q ccitt.
(** A message of bytes, first byte first *)
Definition message (l : list N) : N := fold_left (fun m b => m * 256 + b) l 0.

(** ** Packets *)
Definition at_ (p : list N) (i : nat) : N := nth i p 0.
(** numbers in network byte order *)
Definition be16 (p : list N) (i : nat) : N := at_ p i * 256 + at_ p (i + 1).
(** an Ethernet frame with an IPv4 header without options *)
Definition ipv4_plain (p : list N) : Prop := be16 p 12 = 2048 /\ at_ p 14 = 69.
(** IPv4: protocol, addresses, ports (header length in 32-bit words in the low half of byte 14) *)
Definition ip_proto (p : list N) : N := at_ p 23.
Definition ip_hlen (p : list N) : nat := N.to_nat (4 * (at_ p 14 mod 16)).
Definition tcp_dport (p : list N) : N := be16 p (14 + ip_hlen p + 2).
Definition saddr (p : list N) : list N := [at_ p 26; at_ p 27; at_ p 28; at_ p 29]%nat.
Definition daddr (p : list N) : list N := [at_ p 30; at_ p 31; at_ p 32; at_ p 33]%nat.
Definition tcp_sport_bytes (p : list N) : list N := [at_ p (14 + ip_hlen p); at_ p (15 + ip_hlen p)]%nat.
Definition tcp_dport_bytes (p : list N) : list N := [at_ p (16 + ip_hlen p); at_ p (17 + ip_hlen p)]%nat.
