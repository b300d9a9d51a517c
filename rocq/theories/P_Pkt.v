From Coq Require Import ZArith List Bool String Lia.
From Verif Require Import M_Go M_Pkt S_Pkt.
Import ListNotations.
Open Scope Z_scope.

Lemma read1_some m a b : m a = Some b -> read1 m a = b.
Proof. intros H. unfold read1, read_kernel. cbn. rewrite H. reflexivity. Qed.
Lemma read2_some m a b c : m a = Some b -> m (a + 1) = Some c -> read2 m a = b + 256 * c.
Proof. intros H1 H2. unfold read2, read_kernel. cbn [read_ok]. rewrite H1, H2. cbn [le_bytes]. ring. Qed.
Lemma be16_read m a v : 0 <= v < 65536 -> be16_at m a v -> read2 m a = htons v.
Proof. intros Hv [H1 H2]. rewrite (read2_some _ _ _ _ H1 H2). unfold htons. ring. Qed.

Lemma flags_eq v : 0 <= v < 256 -> tcp_flags v = flags_of v.
Proof.
  intros H. assert (Hb : forall i, 0 <= i -> negb (Z.land v (2 ^ i) =? 0) = Z.testbit v i).
  { intros i Hi. destruct (Z.testbit v i) eqn:Ht.
    - apply negb_true_iff, Z.eqb_neq. intros Hz. assert (Hx : Z.testbit (Z.land v (2 ^ i)) i = false) by (rewrite Hz; apply Z.bits_0).
      rewrite Z.land_spec, Ht, Z.pow2_bits_true in Hx by assumption. discriminate.
    - apply negb_false_iff, Z.eqb_eq. apply Z.bits_inj'. intros n Hn. rewrite Z.land_spec, Z.bits_0, Z.pow2_bits_eqb by assumption.
      destruct (Z.eqb_spec i n); [subst; rewrite Ht; reflexivity|apply andb_false_r]. }
  unfold tcp_flags, flags_of, tcp_flag_names. cbn [flags_from map List.concat fst snd Z.add Pos.add Pos.succ].
  rewrite !Hb by lia. repeat match goal with |- context [Z.testbit v ?i] => destruct (Z.testbit v i); cbn [app] end; reflexivity.
Qed.

Lemma len4 {A} (l : list A) : List.length l = 4%nat -> exists a b c d, l = [a; b; c; d].
Proof. destruct l as [|a [|b [|c [|d [|]]]]]; try discriminate. intros _. eauto. Qed.
Lemma len16 {A} (l : list A) : List.length l = 16%nat -> exists a0 a1 a2 a3 a4 a5 a6 a7 a8 a9 b0 b1 b2 b3 b4 b5, l = [a0; a1; a2; a3; a4; a5; a6; a7; a8; a9; b0; b1; b2; b3; b4; b5].
Proof.
  intros H. do 16 (destruct l as [|? l]; [discriminate|]). destruct l; [|discriminate]. repeat eexists.
Qed.
Lemma read8 m a s d : List.length s = 4%nat -> List.length d = 4%nat ->
  (forall i, (i < 4)%nat -> m (a + Z.of_nat i) = nth_error s i) -> (forall i, (i < 4)%nat -> m (a + 4 + Z.of_nat i) = nth_error d i) ->
  read_kernel m 8 a = s ++ d.
Proof.
  intros Hs Hd H1 H2. apply len4 in Hs as (s0 & s1 & s2 & s3 & ->). apply len4 in Hd as (d0 & d1 & d2 & d3 & ->).
  pose proof (H1 0%nat ltac:(lia)) as A0. pose proof (H1 1%nat ltac:(lia)) as A1. pose proof (H1 2%nat ltac:(lia)) as A2. pose proof (H1 3%nat ltac:(lia)) as A3.
  pose proof (H2 0%nat ltac:(lia)) as B0. pose proof (H2 1%nat ltac:(lia)) as B1. pose proof (H2 2%nat ltac:(lia)) as B2. pose proof (H2 3%nat ltac:(lia)) as B3.
  cbn [nth_error Z.of_nat Pos.of_succ_nat Pos.succ] in *. unfold read_kernel. cbn [read_ok].
  replace (a + 0) with a in A0 by ring. replace (a + 4 + 0) with (a + 4) in B0 by ring.
  replace (a + 1 + 1) with (a + 2) by ring. replace (a + 2 + 1) with (a + 3) by ring. replace (a + 3 + 1) with (a + 4) by ring.
  replace (a + 4 + 1 + 1) with (a + 4 + 2) by ring. replace (a + 4 + 2 + 1) with (a + 4 + 3) by ring.
  rewrite A0, A1, A2, A3, B0, B1, B2, B3. reflexivity.
Qed.
Lemma read4 m a f : (forall i, 0 <= i < 20 -> m (a + i) = Some (f i)) -> read_kernel m 4 a = [f 0; f 1; f 2; f 3].
Proof.
  intros H. unfold read_kernel. cbn [read_ok]. replace (a + 1 + 1) with (a + 2) by ring. replace (a + 2 + 1) with (a + 3) by ring.
  replace (m a) with (m (a + 0)) by (f_equal; ring). rewrite !H by lia. reflexivity.
Qed.
Lemma read1l m a b : m a = Some b -> read_kernel m 1 a = [b].
Proof. intros H. unfold read_kernel. cbn. rewrite H. reflexivity. Qed.

Lemma tuple_ok m a p stale : ipv4_at m a p -> ihl p <= 7 -> some_address p -> List.length stale = 16%nat ->
  (proto p = 6 \/ proto p = 17 \/ proto p = 1) -> output_pkt_tuple (output_tuple m stale a) = tuple_of p.
Proof.
  intros (Hi & Hp & Hs & Hd & H0 & H9 & Hsa & Hda & H4 & Hb) H7 Hz Hst Hpr. unfold output_tuple, tuple_of.
  rewrite (read1_some _ _ _ H0).
  assert (Hv : Z.land (Z.shiftr (4 * 16 + ihl p) 4) 7 = 4 /\ Z.land (4 * 16 + ihl p) 7 = ihl p).
  { assert (ihl p = 5 \/ ihl p = 6 \/ ihl p = 7) as [-> | [-> | ->]] by lia; split; reflexivity. }
  destruct Hv as [Hv1 Hv2]. rewrite Hv1, Hv2. cbn [Z.eqb Pos.eqb negb]. rewrite (read1_some _ _ _ H9).
  rewrite (read8 m (a + 12) (saddr p) (daddr p) Hs Hd Hsa); [|intros i Hii; rewrite <- Hda by exact Hii; f_equal; ring].
  replace (a + ihl p * 4) with (a + 4 * ihl p) by ring.
  rewrite (read4 m (a + 4 * ihl p) (l4 p) H4), (read1l m (a + 4 * ihl p + 13) (l4 p 13) (H4 13 ltac:(lia))).
  apply len16 in Hst as (a0 & a1 & a2 & a3 & a4 & a5 & a6 & a7 & a8 & a9 & b0 & b1 & b2 & b3 & b4 & b5 & ->).
  unfold some_address in Hz.
  apply len4 in Hs as (s0 & s1 & s2 & s3 & Hs). apply len4 in Hd as (d0 & d1 & d2 & d3 & Hd). rewrite Hs, Hd in *.
  assert (Hnz : forallb (fun b => b =? 0) [s0; s1; s2; s3; d0; d1; d2; d3] = false).
  { destruct Hz as (b & Hin & Hne). destruct (forallb (fun b => b =? 0) [s0; s1; s2; s3; d0; d1; d2; d3]) eqn:Hf; [|reflexivity].
    exfalso. rewrite forallb_forall in Hf. specialize (Hf b Hin). apply Z.eqb_eq in Hf. contradiction. }
  destruct Hpr as [-> | [-> | ->]]; cbn [Z.eqb Pos.eqb]; unfold output_pkt_tuple, put, slice, byte_at, be16;
    cbn [firstn skipn app List.length Nat.add byte_at nth]; rewrite Hnz; cbn [Z.eqb Pos.eqb]; unfold be16, byte_at; cbn [nth Nat.add]; [|reflexivity..].
  rewrite flags_eq by (apply Hb; lia). reflexivity.
Qed.
(** IHL of 8 or more: the ports are taken 32 bytes before the transport header. *)
Lemma tuple_long m a p stale : ipv4_at m a p -> 8 <= ihl p -> output_tuple m stale a =
  let l4a := a + 4 * (ihl p - 8) in
  if proto p =? 6 then put (put (put (put stale 0 (read_kernel m 8 (a + 12))) 8 (read_kernel m 4 l4a)) 12 [6]) 13 (read_kernel m 1 (l4a + 13))
  else if proto p =? 17 then put (put (put stale 0 (read_kernel m 8 (a + 12))) 8 (read_kernel m 4 l4a)) 12 [17]
  else if proto p =? 1 then put (put stale 0 (read_kernel m 8 (a + 12))) 12 [1] else stale.
Proof.
  intros (Hi & _ & _ & _ & H0 & H9 & _) H8. unfold output_tuple. rewrite (read1_some _ _ _ H0), (read1_some _ _ _ H9).
  assert (Hv : Z.land (Z.shiftr (4 * 16 + ihl p) 4) 7 = 4 /\ Z.land (4 * 16 + ihl p) 7 = ihl p - 8).
  { assert (ihl p = 8 \/ ihl p = 9 \/ ihl p = 10 \/ ihl p = 11 \/ ihl p = 12 \/ ihl p = 13 \/ ihl p = 14 \/ ihl p = 15) as Hc by lia.
    repeat destruct Hc as [-> | Hc]; [..|rewrite Hc]; split; reflexivity. }
  destruct Hv as [-> ->]. cbn [Z.eqb Pos.eqb negb]. replace (a + (ihl p - 8) * 4) with (a + 4 * (ihl p - 8)) by ring. reflexivity.
Qed.
Lemma other_stale m a p stale : ipv4_at m a p -> proto p <> 6 -> proto p <> 17 -> proto p <> 1 -> output_tuple m stale a = stale.
Proof.
  intros (Hi & _ & _ & _ & H0 & H9 & _) N1 N2 N3. unfold output_tuple. rewrite (read1_some _ _ _ H9).
  apply Z.eqb_neq in N1, N2, N3. rewrite N1, N2, N3. destruct (negb _); reflexivity.
Qed.
Lemma not_v4_stale m a b stale : m a = Some b -> Z.land (Z.shiftr b 4) 7 <> 4 -> output_tuple m stale a = stale.
Proof. intros H N. unfold output_tuple. rewrite (read1_some _ _ _ H). apply Z.eqb_neq in N. rewrite N. reflexivity. Qed.

Lemma skb_ok m a p stale : ipv4_at m a p -> ihl p <= 7 -> some_address p -> List.length stale = 16%nat ->
  (proto p = 6 \/ proto p = 17 \/ proto p = 1) -> output_pkt_tuple (output_skb false m stale a) = tuple_of p.
Proof. intros. apply tuple_ok; assumption. Qed.
Lemma xdp_ok m a p stale : be16_at m (a + 12) 2048 -> ipv4_at m (a + 14) p -> ihl p <= 7 -> some_address p -> List.length stale = 16%nat ->
  (proto p = 6 \/ proto p = 17 \/ proto p = 1) -> output_pkt_tuple (output_xdp false m stale a) = tuple_of p.
Proof.
  intros He. intros. unfold output_xdp, skip_tunnel, output_xdp_data. cbn [negb]. rewrite (be16_read _ _ 2048 ltac:(lia) He). cbn [Z.eqb].
  rewrite Z.eqb_refl. apply tuple_ok; assumption.
Qed.
Lemma xdp_vlan_ok m a p stale : be16_at m (a + 12) 33024 -> be16_at m (a + 16) 2048 -> ipv4_at m (a + 18) p -> ihl p <= 7 -> some_address p -> List.length stale = 16%nat ->
  (proto p = 6 \/ proto p = 17 \/ proto p = 1) -> output_pkt_tuple (output_xdp false m stale a) = tuple_of p.
Proof.
  intros He Hv. intros. unfold output_xdp, skip_tunnel, output_xdp_data. cbn [negb]. rewrite (be16_read _ _ 33024 ltac:(lia) He), (be16_read _ _ 2048 ltac:(lia) Hv).
  change (htons 33024 =? htons 2048) with false. cbn iota. rewrite !Z.eqb_refl. cbn [negb]. apply tuple_ok; assumption.
Qed.

Lemma is_vxlan_yes m a p : ipv4_at m a p -> proto p = 17 -> is_ip_vxlan m a = (port p 2 =? 4789).
Proof.
  intros (Hi & _ & _ & _ & H0 & H9 & _ & _ & H4 & Hb) Hp. unfold is_ip_vxlan. rewrite (read1_some _ _ _ H9), Hp. cbn [Z.eqb Pos.eqb negb].
  rewrite (read1_some _ _ _ H0).
  assert (Hv : Z.land (4 * 16 + ihl p) 15 = ihl p).
  { assert (ihl p = 5 \/ ihl p = 6 \/ ihl p = 7 \/ ihl p = 8 \/ ihl p = 9 \/ ihl p = 10 \/ ihl p = 11 \/ ihl p = 12 \/ ihl p = 13 \/ ihl p = 14 \/ ihl p = 15) as Hc by lia.
    repeat destruct Hc as [-> | Hc]; [..|rewrite Hc]; reflexivity. }
  rewrite Hv. replace (a + ihl p * 4 + 2) with (a + 4 * ihl p + 2) by ring.
  rewrite (read2_some m _ (l4 p 2) (l4 p 3) (H4 2 ltac:(lia))); [|replace (a + 4 * ihl p + 2 + 1) with (a + 4 * ihl p + 3) by ring; apply H4; lia].
  unfold port. change (2 + 1) with 3. change (htons 4789) with (18 + 256 * 181).
  pose proof (Hb 2 ltac:(lia)). pose proof (Hb 3 ltac:(lia)).
  destruct (Z.eqb_spec (l4 p 2 + 256 * l4 p 3) (18 + 256 * 181)), (Z.eqb_spec (l4 p 2 * 256 + l4 p 3) 4789); try reflexivity; exfalso; lia.
Qed.
Lemma not_udp_vxlan m a p : ipv4_at m a p -> proto p <> 17 -> is_ip_vxlan m a = false.
Proof. intros (Hi & _ & _ & _ & H0 & H9 & _) Hp. unfold is_ip_vxlan. rewrite (read1_some _ _ _ H9). apply Z.eqb_neq in Hp. rewrite Hp. reflexivity. Qed.
Lemma skb_skip_plain m a p stale : ipv4_at m a p -> (proto p = 17 -> port p 2 <> 4789) -> output_skb true m stale a = output_skb false m stale a.
Proof.
  intros H Hp. unfold output_skb, skip_tunnel_iph. cbn [negb].
  assert (is_ip_vxlan m a = false). { destruct (Z.eq_dec (proto p) 17) as [He|He]; [|exact (not_udp_vxlan _ _ _ H He)]. rewrite (is_vxlan_yes _ _ _ H He). apply Z.eqb_neq. exact (Hp He). }
  rewrite H0. reflexivity.
Qed.
Lemma skb_skip m a outer inner stale : vxlan_outer m a outer -> ihl outer = 5 -> ipv4_at m (a + 4 * ihl outer + 8 + 8 + 14) inner ->
  ihl inner <= 7 -> some_address inner -> List.length stale = 16%nat -> (proto inner = 6 \/ proto inner = 17 \/ proto inner = 1) ->
  output_pkt_tuple (output_skb true m stale a) = tuple_of inner.
Proof.
  intros (Ho & Hp & Hport) H5 Hin. intros. unfold output_skb, skip_tunnel_iph. cbn [negb]. rewrite (is_vxlan_yes _ _ _ Ho Hp), Hport. cbn [Z.eqb Pos.eqb].
  apply tuple_ok; try assumption. rewrite H5 in Hin. replace (a + 50) with (a + 4 * 5 + 8 + 8 + 14) by ring. exact Hin.
Qed.
Lemma xdp_skip m a outer inner stale : be16_at m (a + 12) 2048 -> vxlan_outer m (a + 14) outer -> ihl outer = 5 ->
  be16_at m (a + 14 + 4 * ihl outer + 8 + 8 + 12) 2048 -> ipv4_at m (a + 14 + 4 * ihl outer + 8 + 8 + 14) inner ->
  ihl inner <= 7 -> some_address inner -> List.length stale = 16%nat -> (proto inner = 6 \/ proto inner = 17 \/ proto inner = 1) ->
  output_pkt_tuple (output_xdp true m stale a) = tuple_of inner.
Proof.
  intros He (Ho & Hp & Hport) H5 He2 Hin. intros. unfold output_xdp, skip_tunnel, is_vxlan. cbn [negb].
  rewrite (be16_read _ _ 2048 ltac:(lia) He), Z.eqb_refl, (is_vxlan_yes _ _ _ Ho Hp), Hport. cbn [Z.eqb Pos.eqb negb].
  change (output_xdp_data m stale (a + 50)) with (output_xdp false m stale (a + 50)). rewrite H5 in He2, Hin.
  apply xdp_ok; try assumption; [replace (a + 50 + 12) with (a + 14 + 4 * 5 + 8 + 8 + 12) by ring; exact He2|
    replace (a + 50 + 14) with (a + 14 + 4 * 5 + 8 + 8 + 14) by ring; exact Hin].
Qed.
Lemma skb_skip_options m a outer stale : vxlan_outer m a outer -> output_skb true m stale a = output_tuple m stale (a + 50).
Proof. intros (Ho & Hp & Hport). unfold output_skb, skip_tunnel_iph. cbn [negb]. rewrite (is_vxlan_yes _ _ _ Ho Hp), Hport. reflexivity. Qed.
