(** * Proofs for M_Crc *)
From Coq Require Import NArith Arith List Bool Lia.
From Verif Require Import M_Crc S_Crc.
Import ListNotations.
Open Scope N_scope.

(** ** xor *)
Ltac xor := apply N.bits_inj; intros ?n; rewrite ?N.lxor_spec; repeat match goal with |- context [N.testbit ?a ?b] => destruct (N.testbit a b) end; reflexivity.
Lemma small_bits y n i : y < 2 ^ n -> n <= i -> N.testbit y i = false.
Proof. intros H Hi. rewrite <- (N.mod_small y (2 ^ n)) by exact H. apply N.mod_pow2_bits_high. exact Hi. Qed.
Lemma bits_small y n : (forall i, n <= i -> N.testbit y i = false) -> y < 2 ^ n.
Proof.
  intros H. destruct (N.eq_dec y 0) as [->|Hy]; [apply N.neq_0_lt_0, N.pow_nonzero; discriminate|].
  apply N.log2_lt_pow2; [lia|]. destruct (N.lt_ge_cases (N.log2 y) n) as [?|Hl]; [assumption|].
  pose proof (N.bit_log2 y Hy) as Hb. rewrite (H _ Hl) in Hb. discriminate.
Qed.
Lemma lxor_small a b n : a < 2 ^ n -> b < 2 ^ n -> N.lxor a b < 2 ^ n.
Proof. intros Ha Hb. apply bits_small. intros i Hi. rewrite N.lxor_spec, (small_bits a n i Ha Hi), (small_bits b n i Hb Hi). reflexivity. Qed.
Lemma lxor_add x y n : y < 2 ^ n -> x * 2 ^ n + y = N.lxor (x * 2 ^ n) y.
Proof.
  intros H. apply N.add_nocarry_lxor. apply N.bits_inj. intros i. rewrite N.land_spec, N.bits_0. destruct (N.lt_ge_cases i n) as [Hi|Hi].
  - rewrite N.mul_pow2_bits_low by exact Hi. reflexivity.
  - rewrite (small_bits y n i H Hi). apply andb_false_r.
Qed.
Lemma lxor_mul a b n : N.lxor a b * 2 ^ n = N.lxor (a * 2 ^ n) (b * 2 ^ n).
Proof. rewrite <- !N.shiftl_mul_pow2. apply N.shiftl_lxor. Qed.
Lemma lxor_double a b : N.lxor (2 * a) (2 * b) = 2 * N.lxor a b.
Proof. rewrite !(N.mul_comm 2). change 2 with (2 ^ 1). symmetry. apply lxor_mul. Qed.

(** ** product *)
Lemma clmul_double q p : clmul (2 * q) p = 2 * clmul q p.
Proof. destruct q; reflexivity. Qed.
Lemma clmul_succ_double q p : clmul (2 * q + 1) p = N.lxor (2 * clmul q p) p.
Proof. destruct q; [symmetry; apply N.lxor_0_l|reflexivity]. Qed.
Lemma lxor_sd a b : N.lxor (2 * a + 1) (2 * b) = 2 * N.lxor a b + 1.
Proof.
  rewrite !(N.mul_comm 2). change (a * 2) with (a * 2 ^ 1). change (b * 2) with (b * 2 ^ 1). change (N.lxor a b * 2) with (N.lxor a b * 2 ^ 1).
  rewrite !lxor_add by reflexivity. rewrite lxor_mul. xor.
Qed.
Lemma lxor_ss a b : N.lxor (2 * a + 1) (2 * b + 1) = 2 * N.lxor a b.
Proof.
  rewrite !(N.mul_comm 2). change (a * 2) with (a * 2 ^ 1). change (b * 2) with (b * 2 ^ 1). change (N.lxor a b * 2) with (N.lxor a b * 2 ^ 1).
  rewrite !lxor_add by reflexivity. rewrite lxor_mul. xor.
Qed.
Lemma half n : n = 2 * (n / 2) \/ n = 2 * (n / 2) + 1.
Proof.
  pose proof (N.div_mod n 2 ltac:(discriminate)) as H. pose proof (N.mod_lt n 2 ltac:(discriminate)) as H1.
  revert H H1. generalize (n / 2), (n mod 2). intros a b H H1. lia.
Qed.
Lemma clmul_lxor p a : forall b, clmul (N.lxor a b) p = N.lxor (clmul a p) (clmul b p).
Proof.
  induction a as [a IH] using (well_founded_induction N.lt_wf_0). intros b.
  destruct (N.eq_dec a 0) as [->|Ha]; [cbn [clmul]; rewrite !N.lxor_0_l; reflexivity|].
  pose proof (N.div_lt a 2 ltac:(lia) ltac:(lia)) as Hlt. specialize (IH (a / 2) Hlt (b / 2)).
  destruct (half a) as [Ea|Ea], (half b) as [Eb|Eb]; rewrite Ea, Eb.
  - rewrite lxor_double, !clmul_double, IH, lxor_double. reflexivity.
  - rewrite N.lxor_comm, lxor_sd, N.lxor_comm, clmul_succ_double, clmul_double, IH, clmul_succ_double, <- lxor_double. xor.
  - rewrite lxor_sd, !clmul_succ_double, clmul_double, IH, <- lxor_double. xor.
  - rewrite lxor_ss, clmul_double, !clmul_succ_double, IH, <- lxor_double. xor.
Qed.
Lemma clmul_256 q p : clmul (q * 256) p = clmul q p * 256.
Proof. replace (q * 256) with (2 * (2 * (2 * (2 * (2 * (2 * (2 * (2 * q)))))))) by lia. rewrite !clmul_double. lia. Qed.

(** ** the table *)
Definition qstep (s : N * N) (i : N) : N * N := if N.testbit (fst s) (16 + i) then (N.lxor (fst s) (ccitt * 2 ^ i), snd s + 2 ^ i) else s.
Definition quot8 (k : N) : N := snd (fold_left qstep [7; 6; 5; 4; 3; 2; 1; 0] (k * 2 ^ 16, 0)).
Definition entry (k : N) : N := nth (N.to_nat k) crc16tab 0.
Lemma table_checked : forallb (fun k => N.eqb (N.lxor (N.of_nat k * 2 ^ 16) (entry (N.of_nat k))) (clmul (quot8 (N.of_nat k)) ccitt) && (entry (N.of_nat k) <? 2 ^ 16)) (seq 0 256) = true.
Proof. vm_compute. reflexivity. Qed.
Lemma table k : k < 256 -> N.lxor (k * 2 ^ 16) (entry k) = clmul (quot8 k) ccitt /\ entry k < 2 ^ 16.
Proof.
  intros Hk. pose proof table_checked as H. rewrite forallb_forall in H. specialize (H (N.to_nat k)).
  rewrite N2Nat.id in H. apply andb_true_iff in H; [|apply in_seq; lia]. rewrite N.eqb_eq, N.ltb_lt in H. exact H.
Qed.

Definition bstep (r b : N) : N := N.lxor ((r mod 256) * 256) (entry (N.lxor (r / 256) b)).
Lemma bstep_ok M r q b : r < 2 ^ 16 -> b < 256 -> N.lxor (M * 2 ^ 16) r = clmul q ccitt ->
  bstep r b < 2 ^ 16 /\ exists q', N.lxor ((M * 256 + b) * 2 ^ 16) (bstep r b) = clmul q' ccitt.
Proof.
  intros Hr Hb H. set (k := N.lxor (r / 256) b).
  assert (Hrh : r / 256 < 256) by (apply N.div_lt_upper_bound; [lia|exact Hr]).
  assert (Hk : k < 2 ^ 8) by (apply lxor_small; assumption).
  destruct (table k Hk) as [Ht He]. pose proof (N.mod_lt r 256 ltac:(lia)) as Hrl. split.
  - unfold bstep. fold k. apply lxor_small; [lia|exact He].
  - exists (N.lxor (q * 256) (quot8 k)). rewrite clmul_lxor, clmul_256, <- H, <- Ht. unfold bstep. fold k. change 256 with (2 ^ 8).
    rewrite lxor_mul. rewrite (lxor_add M b 8) by exact Hb. rewrite lxor_mul.
    assert (E : r * 2 ^ 8 = N.lxor (r / 256 * 2 ^ 16) (r mod 256 * 2 ^ 8)).
    { rewrite <- lxor_add by lia. pose proof (N.div_mod r 256 ltac:(lia)). lia. }
    rewrite E. unfold k at 2. rewrite (lxor_mul (r / 256) b 16). change (2 ^ 8) with 256. rewrite <- !N.mul_assoc, (N.mul_comm 256 (2 ^ 16)). xor.
Qed.
Lemma crc_byte_ok c port i : crc_byte c port i mod 2 ^ 16 = bstep (c mod 2 ^ 16) (N.shiftr port (i * 8) mod 256).
Proof.
  unfold crc_byte, bstep, entry. cbv zeta.
  assert (Ek : N.land (N.lxor (N.shiftr c 8) (N.shiftr port (i * 8))) 255 = N.lxor (c mod 2 ^ 16 / 256) (N.shiftr port (i * 8) mod 256)).
  { change 255 with (N.ones 8). change 256 with (2 ^ 8). rewrite <- N.shiftr_div_pow2. apply N.bits_inj. intros n. rewrite N.land_spec, !N.lxor_spec.
    destruct (N.lt_ge_cases n 8) as [Hn|Hn].
    - rewrite N.ones_spec_low, andb_true_r, (N.mod_pow2_bits_low _ _ _ Hn), !N.shiftr_spec' , N.mod_pow2_bits_low by lia. reflexivity.
    - rewrite N.ones_spec_high by exact Hn. rewrite andb_false_r, N.shiftr_spec', (N.mod_pow2_bits_high c) by lia. rewrite N.mod_pow2_bits_high by exact Hn. reflexivity. }
  rewrite Ek. set (k := N.lxor (c mod 2 ^ 16 / 256) (N.shiftr port (i * 8) mod 256)).
  assert (Hk : k < 2 ^ 8).
  { apply lxor_small; [apply N.div_lt_upper_bound; [discriminate|]; apply N.mod_lt; discriminate|apply N.mod_lt; discriminate]. }
  destruct (table k Hk) as [_ He]. fold (entry k). apply N.bits_inj. intros n. destruct (N.lt_ge_cases n 16) as [Hn|Hn].
  - rewrite N.mod_pow2_bits_low by exact Hn. rewrite !N.lxor_spec. f_equal. rewrite N.mod_pow2_bits_low by lia. change 256 with (2 ^ 8).
    destruct (N.lt_ge_cases n 8) as [H8|H8].
    + rewrite N.shiftl_spec_low by exact H8. rewrite N.mul_pow2_bits_low by exact H8. reflexivity.
    + rewrite N.shiftl_spec_high' by exact H8. rewrite N.mul_pow2_bits_high by exact H8. rewrite !N.mod_pow2_bits_low by lia. reflexivity.
  - rewrite N.mod_pow2_bits_high by exact Hn. symmetry. apply (small_bits _ 16); [|exact Hn]. apply lxor_small; [|exact He].
    pose proof (N.mod_lt (c mod 2 ^ 16) 256 ltac:(discriminate)). lia.
Qed.
(** ** crc16 of any 64-bit number: the remainder of its six low bytes, lowest first *)
Definition byte_of (port i : N) : N := N.shiftr port (i * 8) mod 256.
Lemma fold_ok port l : forall c M q, N.lxor (M * 2 ^ 16) (c mod 2 ^ 16) = clmul q ccitt ->
  exists q', N.lxor (fold_left (fun m b => m * 256 + b) (map (byte_of port) l) M * 2 ^ 16) (fold_left (fun c i => crc_byte c port i) l c mod 2 ^ 16) = clmul q' ccitt.
Proof.
  induction l as [|i l IH]; intros c M q H; [exists q; exact H|]. cbn [map fold_left].
  destruct (bstep_ok M (c mod 2 ^ 16) q (byte_of port i) ltac:(apply N.mod_lt; discriminate) ltac:(apply N.mod_lt; discriminate) H) as (_ & q' & Hq).
  apply (IH _ _ q'). rewrite crc_byte_ok. exact Hq.
Qed.
Theorem crc16_remainder port : remainder (message (map (byte_of port) [0; 1; 2; 3; 4; 5])) (crc16 port).
Proof.
  split; [apply N.mod_lt; discriminate|]. unfold message, crc16. destruct (fold_ok port [0; 1; 2; 3; 4; 5] 0 0 0 eq_refl) as [q Hq]. exists q. exact Hq.
Qed.

(** ** remainders are unique; multiples have degree 16 at least *)
Lemma log2_lxor a b : N.log2 b < N.log2 a -> N.log2 (N.lxor a b) = N.log2 a.
Proof.
  intros H. assert (Ha : a <> 0) by (intros ->; cbn in H; lia).
  assert (Hb : N.testbit (N.lxor a b) (N.log2 a) = true).
  { rewrite N.lxor_spec, N.bit_log2, N.bits_above_log2 by assumption. reflexivity. }
  pose proof (N.log2_lxor a b). destruct (N.lt_ge_cases (N.log2 (N.lxor a b)) (N.log2 a)) as [Hlt|]; [|lia].
  rewrite (N.bits_above_log2 _ _ Hlt) in Hb. discriminate.
Qed.
Lemma clmul_log2 q : N.log2 (pclmul q ccitt) = 16 + N.log2 (Npos q).
Proof.
  assert (D : forall q, 0 < 2 * pclmul q ccitt /\ 0 < pclmul q ccitt \/ pclmul q ccitt = 0) by (intros; destruct (N.eq_dec (pclmul q0 ccitt) 0); lia).
  induction q as [q IH|q IH|]; cbn [pclmul].
  - assert (Hp : 0 < pclmul q ccitt) by (destruct (D q) as [[_ ?]|E]; [assumption|rewrite E in IH; change (N.log2 0) with 0 in IH; clear -IH; lia]).
    assert (H2 : N.log2 (2 * pclmul q ccitt) = N.succ (16 + N.log2 (N.pos q))) by (rewrite N.log2_double by exact Hp; rewrite IH; reflexivity).
    rewrite log2_lxor by (rewrite H2; change (N.log2 ccitt) with 16; lia). rewrite H2. clear H2.
    change (N.pos q~1) with (2 * N.pos q + 1). rewrite N.log2_succ_double by lia. lia.
  - assert (Hp : 0 < pclmul q ccitt) by (destruct (D q) as [[_ ?]|E]; [assumption|rewrite E in IH; change (N.log2 0) with 0 in IH; clear -IH; lia]).
    rewrite N.log2_double by exact Hp. rewrite IH. change (N.pos q~0) with (2 * N.pos q). rewrite N.log2_double by lia. lia.
  - reflexivity.
Qed.
Lemma clmul_big q : clmul q ccitt < 2 ^ 16 -> q = 0.
Proof.
  destruct q as [|q]; [reflexivity|]. cbn [clmul]. intros H. exfalso. pose proof (clmul_log2 q) as L.
  assert (Hp : 0 < pclmul q ccitt) by (destruct (N.eq_dec (pclmul q ccitt) 0) as [E|]; [rewrite E in L; change (N.log2 0) with 0 in L; clear -L; lia|lia]).
  apply N.log2_lt_pow2 in H; [|exact Hp]. lia.
Qed.
Theorem remainder_unique m r r' : remainder m r -> remainder m r' -> r = r'.
Proof.
  intros [Hr [q Hq]] [Hr' [q' Hq']].
  assert (E : N.lxor r r' = clmul (N.lxor q q') ccitt) by (rewrite clmul_lxor, <- Hq, <- Hq'; xor).
  assert (Hz : N.lxor q q' = 0) by (apply clmul_big; rewrite <- E; apply lxor_small; assumption).
  rewrite Hz in E. apply N.lxor_eq in E. exact E.
Qed.
Lemma clmul_odd q : N.testbit (clmul q ccitt) 0 = N.testbit q 0.
Proof.
  destruct (half q) as [E|E]; rewrite E.
  - rewrite clmul_double, !N.testbit_even_0. reflexivity.
  - rewrite clmul_succ_double, N.lxor_spec, N.testbit_even_0, N.testbit_odd_0. reflexivity.
Qed.
Lemma no_short_multiple e n : forall q, 0 < e < 2 ^ 16 -> clmul q ccitt <> e * 2 ^ N.of_nat n.
Proof.
  induction n as [|n IH]; intros q He H.
  - change (2 ^ N.of_nat 0) with 1 in H. rewrite N.mul_1_r in H. assert (q = 0) by (apply clmul_big; rewrite H; apply He). subst q. change (clmul 0 ccitt) with 0 in H. lia.
  - rewrite Nat2N.inj_succ, N.pow_succ_r' in H. replace (e * (2 * 2 ^ N.of_nat n)) with (2 * (e * 2 ^ N.of_nat n)) in H by lia.
    pose proof (clmul_odd q) as Ho. rewrite H, N.testbit_even_0 in Ho.
    destruct (half q) as [E|E]; [|rewrite E, N.testbit_odd_0 in Ho; discriminate].
    rewrite E, clmul_double in H. apply (IH (q / 2) He). lia.
Qed.
(** messages that differ only within 16 consecutive bits have different remainders *)
Theorem burst m m' r r' e j : remainder m r -> remainder m' r' -> 0 < e < 2 ^ 16 -> N.lxor m m' = e * 2 ^ j -> r <> r'.
Proof.
  intros [Hr [q Hq]] [Hr' [q' Hq']] He Hm Heq. subst r'.
  apply (no_short_multiple e (N.to_nat (j + 16)) (N.lxor q q') He). rewrite N2Nat.id, clmul_lxor, <- Hq, <- Hq'.
  replace (N.lxor (N.lxor (m * 2 ^ 16) r) (N.lxor (m' * 2 ^ 16) r)) with (N.lxor (m * 2 ^ 16) (m' * 2 ^ 16)) by xor.
  rewrite <- lxor_mul, Hm, N.pow_add_r. lia.
Qed.

(** ** the connection hash *)
Definition b0 (x : N) := x mod 256.
Definition b1 (x : N) := x / 256 mod 256.
Lemma byte_lor x y i n : x mod 2 ^ n = 0 -> i * 8 + 8 <= n -> byte_of (N.lor x y) i = byte_of y i.
Proof.
  intros Hx Hi. unfold byte_of. change 256 with (2 ^ 8). apply N.bits_inj. intros k. destruct (N.lt_ge_cases k 8) as [Hk|Hk].
  - rewrite !N.mod_pow2_bits_low by exact Hk. rewrite !N.shiftr_spec', N.lor_spec.
    replace (N.testbit x (k + i * 8)) with false; [reflexivity|]. rewrite <- (N.mod_pow2_bits_low x n) by lia. rewrite Hx. symmetry. apply N.bits_0.
  - rewrite !N.mod_pow2_bits_high by exact Hk. reflexivity.
Qed.
Lemma byte_lor_high x y i n : y < 2 ^ n -> n <= i * 8 -> byte_of (N.lor x y) i = byte_of x i.
Proof.
  intros Hy Hi. unfold byte_of. change 256 with (2 ^ 8). apply N.bits_inj. intros k. destruct (N.lt_ge_cases k 8) as [Hk|Hk].
  - rewrite !N.mod_pow2_bits_low by exact Hk. rewrite !N.shiftr_spec', N.lor_spec. rewrite (small_bits y n) by (try exact Hy; lia). apply orb_false_r.
  - rewrite !N.mod_pow2_bits_high by exact Hk. reflexivity.
Qed.
Lemma byte_shl x i j : j <= i -> byte_of (N.shiftl x (j * 8)) i = byte_of x (i - j).
Proof.
  intros H. unfold byte_of. f_equal. rewrite <- (N.sub_add j i) at 1 by exact H. rewrite N.mul_add_distr_r, <- N.shiftr_shiftr.
  rewrite N.shiftr_shiftr. rewrite N.add_comm, <- N.shiftr_shiftr. rewrite N.shiftr_shiftl_l by lia. rewrite N.sub_diag, N.shiftl_0_r. reflexivity.
Qed.
Lemma byte_shl_low x i j : i + 1 <= j -> byte_of (N.shiftl x (j * 8)) i = 0.
Proof.
  intros H. unfold byte_of. change 256 with (2 ^ 8). apply N.bits_inj. intros k. rewrite N.bits_0. destruct (N.lt_ge_cases k 8) as [Hk|Hk].
  - rewrite N.mod_pow2_bits_low by exact Hk. rewrite N.shiftr_spec', N.shiftl_spec_low by lia. reflexivity.
  - apply N.mod_pow2_bits_high. exact Hk.
Qed.
Lemma byte_lor_gen x y i : byte_of (N.lor x y) i = N.lor (byte_of x i) (byte_of y i).
Proof.
  unfold byte_of. change 256 with (2 ^ 8). rewrite N.shiftr_lor. apply N.bits_inj. intros k. rewrite N.lor_spec. destruct (N.lt_ge_cases k 8) as [Hk|Hk].
  - rewrite !N.mod_pow2_bits_low by exact Hk. apply N.lor_spec.
  - rewrite !N.mod_pow2_bits_high by exact Hk. reflexivity.
Qed.
Lemma byte_high x i n : x < 2 ^ n -> n <= i * 8 -> byte_of x i = 0.
Proof. intros H Hi. rewrite <- (N.lor_0_l x). rewrite (byte_lor_high 0 x i n) by assumption. unfold byte_of. rewrite N.shiftr_0_l. reflexivity. Qed.
Lemma byte_0 x : byte_of x 0 = b0 x.
Proof. unfold byte_of. rewrite N.mul_0_l, N.shiftr_0_r. reflexivity. Qed.
Lemma byte_1 x : byte_of x 1 = b1 x.
Proof. unfold byte_of, b1. rewrite N.mul_1_l, N.shiftr_div_pow2. reflexivity. Qed.

Lemma merge1 src dst : dst < 2 ^ 32 ->
  map (byte_of (N.lor (N.shiftl src 32) dst)) [0; 1; 2; 3; 4; 5] = [byte_of dst 0; byte_of dst 1; byte_of dst 2; byte_of dst 3; byte_of src 0; byte_of src 1].
Proof.
  intros Hd. cbn [map]. rewrite !byte_lor_gen. change (N.shiftl src 32) with (N.shiftl src (4 * 8)).
  rewrite (byte_shl_low src 0 4), (byte_shl_low src 1 4), (byte_shl_low src 2 4), (byte_shl_low src 3 4), (byte_shl src 4 4), (byte_shl src 5 4) by lia.
  rewrite (byte_high dst 4 32), (byte_high dst 5 32) by (try exact Hd; lia). rewrite !N.lor_0_l, !N.lor_0_r. reflexivity.
Qed.
Lemma merge2 sp crc dp : sp < 2 ^ 16 -> crc < 2 ^ 16 -> dp < 2 ^ 16 ->
  map (byte_of (N.lor (N.lor (N.lor (N.shiftl sp 48) (N.shiftl crc 32)) (N.shiftl dp 16)) sp)) [0; 1; 2; 3; 4; 5] =
  [b0 sp; b1 sp; b0 dp; b1 dp; b0 crc; b1 crc].
Proof.
  intros Hs Hc Hd. rewrite <- !byte_0, <- !byte_1. cbn [map]. rewrite !byte_lor_gen.
  change (N.shiftl sp 48) with (N.shiftl sp (6 * 8)). change (N.shiftl crc 32) with (N.shiftl crc (4 * 8)). change (N.shiftl dp 16) with (N.shiftl dp (2 * 8)).
  rewrite (byte_shl_low sp 0 6), (byte_shl_low sp 1 6), (byte_shl_low sp 2 6), (byte_shl_low sp 3 6), (byte_shl_low sp 4 6), (byte_shl_low sp 5 6) by lia.
  rewrite (byte_shl_low crc 0 4), (byte_shl_low crc 1 4), (byte_shl_low crc 2 4), (byte_shl_low crc 3 4), (byte_shl crc 4 4), (byte_shl crc 5 4) by lia.
  rewrite (byte_shl_low dp 0 2), (byte_shl_low dp 1 2), (byte_shl dp 2 2), (byte_shl dp 3 2), (byte_shl dp 4 2), (byte_shl dp 5 2) by lia.
  change (2 - 2) with 0. change (3 - 2) with 1. change (4 - 2) with 2. change (5 - 2) with 3. change (4 - 4) with 0. change (5 - 4) with 1.
  rewrite ?(byte_high dp 2 16), ?(byte_high dp 3 16) by (try exact Hd; lia).
  rewrite ?(byte_high sp 2 16), ?(byte_high sp 3 16), ?(byte_high sp 4 16), ?(byte_high sp 5 16) by (try exact Hs; lia).
  rewrite ?N.lor_0_l, ?N.lor_0_r. reflexivity.
Qed.
Theorem conn_hash_ok src sp dst dp : src < 2 ^ 32 -> dst < 2 ^ 32 -> sp < 2 ^ 16 -> dp < 2 ^ 16 ->
  exists crc, remainder (message [byte_of dst 0; byte_of dst 1; byte_of dst 2; byte_of dst 3; byte_of src 0; byte_of src 1]) crc /\
    remainder (message [b0 sp; b1 sp; b0 dp; b1 dp; b0 crc; b1 crc]) (conn_hash src sp dst dp).
Proof.
  intros Hs Hd Hsp Hdp. exists (crc16 (N.lor (N.shiftl src 32) dst)). split.
  - rewrite <- merge1 by exact Hd. apply crc16_remainder.
  - rewrite <- merge2 by (try assumption; apply N.mod_lt; discriminate). apply crc16_remainder.
Qed.

Lemma message6 a b c d e f : message [a; b; c; d; e; f] = ((a * 256 + b) * 256 + c) * 2 ^ 24 + ((d * 256 + e) * 256 + f).
Proof. unfold message. cbn [fold_left]. lia. Qed.
Lemma swap_bytes x y : x < 2 ^ 16 -> y < 2 ^ 16 -> b0 x = b0 y -> b1 x = b1 y -> x = y.
Proof.
  intros Hx Hy H0 H1. unfold b0, b1 in *.
  assert (E : forall z, z < 2 ^ 16 -> z / 256 mod 256 = z / 256) by (intros z Hz; apply N.mod_small, N.div_lt_upper_bound; [discriminate|exact Hz]).
  rewrite !E in H1 by assumption. rewrite (N.div_mod x 256), (N.div_mod y 256) by discriminate. congruence.
Qed.
(** two messages hi * 2^(n+16) + x * 2^n + lo that differ only in the 16 bits x *)
Lemma differ hi x y lo n r r' : x < 2 ^ 16 -> y < 2 ^ 16 -> lo < 2 ^ n -> remainder ((hi * 2 ^ 16 + x) * 2 ^ n + lo) r -> remainder ((hi * 2 ^ 16 + y) * 2 ^ n + lo) r' -> x <> y -> r <> r'.
Proof.
  intros Hx Hy Hl H H' Hn. apply (burst _ _ r r' (N.lxor x y) n H H').
  - split; [|apply lxor_small; assumption]. destruct (N.eq_dec (N.lxor x y) 0) as [E|]; [|lia]. apply N.lxor_eq in E. congruence.
  - rewrite !(lxor_add _ lo n) by exact Hl. rewrite !(lxor_add hi) by assumption. rewrite !lxor_mul. xor.
Qed.
Lemma b_small x : b0 x < 256 /\ b1 x < 256.
Proof. split; apply N.mod_lt; discriminate. Qed.
Theorem source_ports src sp sp' dst dp : src < 2 ^ 32 -> dst < 2 ^ 32 -> sp < 2 ^ 16 -> sp' < 2 ^ 16 -> dp < 2 ^ 16 ->
  conn_hash src sp dst dp = conn_hash src sp' dst dp -> sp = sp'.
Proof.
  intros Hs Hd Hsp Hsp' Hdp H. destruct (N.eq_dec (b0 sp * 256 + b1 sp) (b0 sp' * 256 + b1 sp')) as [E|E].
  { pose proof (b_small sp). pose proof (b_small sp'). apply swap_bytes; try assumption; lia. }
  exfalso. destruct (conn_hash_ok src sp dst dp Hs Hd Hsp Hdp) as (c & Hc & H1). destruct (conn_hash_ok src sp' dst dp Hs Hd Hsp' Hdp) as (c' & Hc' & H2).
  pose proof (remainder_unique _ _ _ Hc Hc') as <-. rewrite message6 in H1, H2.
  pose proof (b_small sp) as [? ?]. pose proof (b_small sp') as [? ?]. pose proof (b_small dp) as [? ?]. pose proof (b_small c) as [? ?].
  refine (differ 0 (b0 sp * 256 + b1 sp) (b0 sp' * 256 + b1 sp') (((b0 dp * 256 + b1 dp) * 256 + b0 c) * 256 + b1 c) 32 _ _ _ _ _ _ _ E H); try lia.
  - replace ((0 * 2 ^ 16 + (b0 sp * 256 + b1 sp)) * 2 ^ 32 + (((b0 dp * 256 + b1 dp) * 256 + b0 c) * 256 + b1 c)) with (((b0 sp * 256 + b1 sp) * 256 + b0 dp) * 2 ^ 24 + ((b1 dp * 256 + b0 c) * 256 + b1 c)) by lia. exact H1.
  - replace ((0 * 2 ^ 16 + (b0 sp' * 256 + b1 sp')) * 2 ^ 32 + (((b0 dp * 256 + b1 dp) * 256 + b0 c) * 256 + b1 c)) with (((b0 sp' * 256 + b1 sp') * 256 + b0 dp) * 2 ^ 24 + ((b1 dp * 256 + b0 c) * 256 + b1 c)) by lia. exact H2.
Qed.
Theorem first_octets src src' sp dst dp : src < 2 ^ 32 -> src' < 2 ^ 32 -> dst < 2 ^ 32 -> sp < 2 ^ 16 -> dp < 2 ^ 16 ->
  (conn_hash src sp dst dp = conn_hash src' sp dst dp <-> src mod 2 ^ 16 = src' mod 2 ^ 16).
Proof.
  intros Hs Hs' Hd Hsp Hdp.
  destruct (conn_hash_ok src sp dst dp Hs Hd Hsp Hdp) as (c & Hc & H1). destruct (conn_hash_ok src' sp dst dp Hs' Hd Hsp Hdp) as (c' & Hc' & H2).
  assert (B : forall x, byte_of x 0 = b0 (x mod 2 ^ 16) /\ byte_of x 1 = b1 (x mod 2 ^ 16)).
  { intros x. rewrite <- byte_0, <- byte_1. unfold byte_of. change 256 with (2 ^ 8). split; apply N.bits_inj; intros k; (destruct (N.lt_ge_cases k 8) as [Hk|Hk];
      [rewrite !N.mod_pow2_bits_low, !N.shiftr_spec', N.mod_pow2_bits_low by lia; reflexivity|rewrite !N.mod_pow2_bits_high by exact Hk; reflexivity]). }
  destruct (B src) as [B0 B1]. destruct (B src') as [B0' B1']. rewrite B0, B1 in Hc. rewrite B0', B1' in Hc'.
  set (u := src mod 2 ^ 16) in *. set (u' := src' mod 2 ^ 16) in *.
  assert (Hu : u < 2 ^ 16) by (apply N.mod_lt; discriminate). assert (Hu' : u' < 2 ^ 16) by (apply N.mod_lt; discriminate).
  split; intros H.
  - destruct (N.eq_dec u u') as [|Hne]; [assumption|exfalso].
    rewrite message6 in Hc, Hc'. pose proof (b_small u) as [? ?]. pose proof (b_small u') as [? ?].
    assert (Hcc : c <> c').
    { set (x := byte_of dst 0) in *. set (y := byte_of dst 1) in *. set (z := byte_of dst 2) in *. set (w := byte_of dst 3) in *.
      refine (differ (((x * 256 + y) * 256 + z) * 256 + w) (b0 u * 256 + b1 u) (b0 u' * 256 + b1 u') 0 0 _ _ _ _ _ _ _ _); try lia.
      - replace (((((x * 256 + y) * 256 + z) * 256 + w) * 2 ^ 16 + (b0 u * 256 + b1 u)) * 2 ^ 0 + 0) with (((x * 256 + y) * 256 + z) * 2 ^ 24 + ((w * 256 + b0 u) * 256 + b1 u)) by lia. exact Hc.
      - replace (((((x * 256 + y) * 256 + z) * 256 + w) * 2 ^ 16 + (b0 u' * 256 + b1 u')) * 2 ^ 0 + 0) with (((x * 256 + y) * 256 + z) * 2 ^ 24 + ((w * 256 + b0 u') * 256 + b1 u')) by lia. exact Hc'.
      - intros E. apply Hne. apply swap_bytes; try assumption; lia. }
    rewrite message6 in H1, H2. pose proof (b_small c) as [? ?]. pose proof (b_small c') as [? ?].
    destruct Hc as [Hcr _]. destruct Hc' as [Hcr' _].
    set (x := b0 sp) in *. set (y := b1 sp) in *. set (z := b0 dp) in *. set (w := b1 dp) in *.
    refine (differ (((x * 256 + y) * 256 + z) * 256 + w) (b0 c * 256 + b1 c) (b0 c' * 256 + b1 c') 0 0 _ _ _ _ _ _ _ _ H); try lia.
    + replace (((((x * 256 + y) * 256 + z) * 256 + w) * 2 ^ 16 + (b0 c * 256 + b1 c)) * 2 ^ 0 + 0) with (((x * 256 + y) * 256 + z) * 2 ^ 24 + ((w * 256 + b0 c) * 256 + b1 c)) by lia. exact H1.
    + replace (((((x * 256 + y) * 256 + z) * 256 + w) * 2 ^ 16 + (b0 c' * 256 + b1 c')) * 2 ^ 0 + 0) with (((x * 256 + y) * 256 + z) * 2 ^ 24 + ((w * 256 + b0 c') * 256 + b1 c')) by lia. exact H2.
    + intros E. apply Hcc. apply swap_bytes; try assumption; lia.
  - rewrite H in Hc. pose proof (remainder_unique _ _ _ Hc Hc') as <-. exact (remainder_unique _ _ _ H1 H2).
Qed.

(** ** packets *)
Lemma nth_byte p i : Forall (fun b => b < 256) p -> nth i p 0 < 256.
Proof. intros H. destruct (Nat.lt_ge_cases i (List.length p)); [apply (proj1 (Forall_nth _ p) H); assumption|rewrite nth_overflow by assumption; reflexivity]. Qed.
Lemma ld16_bytes p i : Forall (fun b => b < 256) p -> b0 (ld16 p i) = at_ p i /\ b1 (ld16 p i) = at_ p (i + 1) /\ ld16 p i < 2 ^ 16.
Proof.
  intros H. unfold ld16, b0, b1, byte, at_. pose proof (nth_byte p i H). pose proof (nth_byte p (i + 1) H).
  rewrite (N.mul_comm 256), N.mod_add by discriminate. rewrite N.div_add by discriminate. rewrite (N.div_small (nth i p 0)) by assumption.
  rewrite (N.mod_small (nth i p 0)) by assumption. rewrite N.add_0_l, N.mod_small by assumption. repeat split; lia.
Qed.
Lemma ld32_bytes p i : Forall (fun b => b < 256) p -> byte_of (ld32 p i) 0 = at_ p i /\ byte_of (ld32 p i) 1 = at_ p (i + 1) /\
  byte_of (ld32 p i) 2 = at_ p (i + 2) /\ byte_of (ld32 p i) 3 = at_ p (i + 2 + 1) /\ ld32 p i < 2 ^ 32.
Proof.
  intros H. unfold ld32. destruct (ld16_bytes p i H) as (A & B & Ca). destruct (ld16_bytes p (i + 2) H) as (A' & B' & C').
  rewrite <- A, <- B, <- A', <- B'. set (x := ld16 p i) in *. set (y := ld16 p (i + 2)) in *.
  replace (x + 65536 * y) with (y * 2 ^ 16 + x) by lia.
  assert (Hd : (y * 2 ^ 16 + x) / 2 ^ 16 = y) by (rewrite N.add_comm, N.div_add by discriminate; rewrite N.div_small by exact Ca; reflexivity).
  unfold byte_of. rewrite !N.shiftr_div_pow2. change (2 * 8) with (16 + 0). change (3 * 8) with (16 + 8). rewrite !N.pow_add_r, <- !N.div_div by discriminate. rewrite Hd.
  change (2 ^ (0 * 8)) with 1. change (2 ^ 0) with 1. rewrite !N.div_1_r. unfold b0, b1. split; [|split; [|split; [reflexivity|split; [reflexivity|lia]]]].
  - replace (y * 2 ^ 16 + x) with (x + y * 256 * 256) by lia. rewrite N.mod_add by discriminate. reflexivity.
  - change (2 ^ (1 * 8)) with 256. replace (y * 2 ^ 16 + x) with (x + y * 256 * 256) by lia. rewrite N.div_add by discriminate. rewrite N.mod_add by discriminate. reflexivity.
Qed.
Theorem packets p : Forall (fun b => b < 256) p -> ipv4_plain p -> forall h, xdp_crc p = Some h <->
  (54 <= List.length p)%nat /\ ip_proto p = 6 /\ tcp_dport p = 8080 /\
  exists crc, remainder (message (daddr p ++ firstn 2 (saddr p))) crc /\
    remainder (message (tcp_sport_bytes p ++ tcp_dport_bytes p ++ [crc mod 256; crc / 256])) h.
Proof.
  intros Hb [_ Hi] h. unfold tcp_dport, tcp_sport_bytes, tcp_dport_bytes, ip_hlen. rewrite Hi. change (N.to_nat (4 * (69 mod 16))) with 20%nat. cbn [Nat.add].
  destruct (ld16_bytes p 34 Hb) as (S0 & S1 & S2). destruct (ld16_bytes p 36 Hb) as (D0 & D1 & D2).
  destruct (ld32_bytes p 26 Hb) as (A0 & A1 & A2 & A3 & A4). destruct (ld32_bytes p 30 Hb) as (B0 & B1 & B2 & B3 & B4). cbn [Nat.add] in *.
  assert (Hport : ld16 p 36 = 36895 <-> be16 p 36 = 8080).
  { unfold be16. cbn [Nat.add]. unfold ld16, byte. cbn [Nat.add]. fold (at_ p 36) (at_ p 37). pose proof (nth_byte p 36 Hb). pose proof (nth_byte p 37 Hb). fold (at_ p 36) (at_ p 37) in *. lia. }
  destruct (conn_hash_ok (ld32 p 26) (ld16 p 34) (ld32 p 30) (ld16 p 36) A4 B4 S2 D2) as (c & Hc & Hh).
  rewrite A0, A1, B0, B1, B2, B3 in Hc. rewrite S0, S1, D0, D1 in Hh.
  assert (Hcb : b0 c = c mod 256 /\ b1 c = c / 256).
  { split; [reflexivity|]. unfold b1. apply N.mod_small, N.div_lt_upper_bound; [discriminate|]. apply Hc. }
  destruct Hcb as [_ Hcb]. rewrite Hcb in Hh.
  unfold xdp_crc, ip_proto. fold (at_ p 23). change (byte p 23) with (at_ p 23).
  destruct (N.ltb_spec (N.of_nat (List.length p)) 54) as [Hl|Hl].
  { split; [discriminate|]. intros (H & _). lia. }
  destruct (N.eqb_spec (at_ p 23) 6) as [E6|E6]; cbn [negb orb].
  2:{ split; [discriminate|]. intros (_ & H & _). congruence. }
  destruct (N.eqb_spec (ld16 p 36) 36895) as [E8|E8]; cbn [negb].
  2:{ split; [discriminate|]. intros (_ & _ & H & _). exfalso. apply E8. apply Hport. exact H. }
  split.
  - intros H. injection H as <-. split; [lia|]. split; [exact E6|]. split; [apply Hport; exact E8|]. exists c. split; [exact Hc|]. exact Hh.
  - intros (_ & _ & _ & c' & Hc' & Hh'). pose proof (remainder_unique _ _ _ Hc Hc') as <-. f_equal. exact (remainder_unique _ _ _ Hh Hh').
Qed.
