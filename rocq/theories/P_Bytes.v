From Coq Require Import ZArith List Bool String Lia.
From Verif Require Import M_Go P_Go M_Kallsyms S_Kallsyms P_Kallsyms M_Bytes.
Import ListNotations.
Open Scope Z_scope.

(** ** NullTerminated *)
Lemma null_idx_spec b :
  exists r, b = firstn (null_idx b) b ++ r /\ ~ In 0 (firstn (null_idx b) b) /\
            (r = [] \/ exists r', r = 0 :: r').
Proof.
  induction b as [|x b (r & E & H1 & H2)]; cbn [null_idx].
  - exists []. cbn. auto.
  - destruct (Z.eqb_spec x 0).
    + subst. exists (0 :: b). cbn. split; [reflexivity|]. split; [tauto|]. right. eauto.
    + exists r. cbn [firstn app]. split; [rewrite <- E; reflexivity|]. split; [|assumption].
      cbn. intros [X|X]; [congruence|contradiction].
Qed.
Lemma null_terminated_spec b :
  exists r, b = null_terminated b ++ r /\ ~ In 0 (null_terminated b) /\ (r = [] \/ exists r', r = 0 :: r').
Proof.
  destruct (null_idx_spec b) as (r & H). exists r. unfold null_terminated.
  destruct (Nat.eqb_spec (null_idx b) 0) as [E|E]; [|exact H]. rewrite E in H. exact H.
Qed.

(** ** bytes2i *)
Lemma land_shift_0 a b n : 0 <= n -> 0 <= a < 2 ^ n -> Z.land a (Z.shiftl b n) = 0.
Proof.
  intros Hn Ha. apply Z.bits_inj_0. intros m. rewrite Z.land_spec.
  destruct (Z.ltb_spec m n).
  - destruct (Z.ltb_spec m 0); [rewrite (Z.testbit_neg_r a) by lia; reflexivity|].
    rewrite (Z.shiftl_spec b n m) by lia. rewrite (Z.testbit_neg_r b) by lia. apply andb_false_r.
  - destruct (Z.eq_dec a 0) as [->|Hz]; [rewrite Z.bits_0; reflexivity|].
    rewrite (Z.bits_above_log2 a m); [reflexivity|lia|].
    apply Z.log2_lt_pow2; [lia|]. eapply Z.lt_le_trans; [apply Ha|]. apply Z.pow_le_mono_r; lia.
Qed.
Lemma lor_add a b n : 0 <= n -> 0 <= a < 2 ^ n -> Z.lor a (Z.shiftl b n) = a + b * 2 ^ n.
Proof.
  intros Hn Ha. pose proof (land_shift_0 a b n Hn Ha) as H0.
  rewrite <- Z.shiftl_mul_pow2 by lia.
  rewrite Z.add_nocarry_lxor by assumption.
  rewrite <- Z.lxor_lor by assumption. reflexivity.
Qed.

Lemma bytes2i_go_spec : forall n b i v, (n <= List.length b)%nat -> Forall is_byte b -> 0 <= i -> 0 <= v < 2 ^ (8 * i) ->
  v < W64 ->
  bytes2i_go b n i v = (v + 2 ^ (8 * i) * le_bytes (firstn n b)) mod W64.
Proof.
  induction n as [|n IH]; intros b i v Hl Hb Hi Hv Hw.
  - cbn [bytes2i_go firstn le_bytes]. rewrite Z.mul_0_r, Z.add_0_r. symmetry. apply Z.mod_small; lia.
  - destruct b as [|x b]; [cbn in Hl; lia|]. cbn [bytes2i_go firstn le_bytes].
    inversion Hb; subst. unfold is_byte in *.
    assert (E1 : 2 ^ (8 * (i + 1)) = 256 * 2 ^ (8 * i)).
    { replace (8 * (i + 1)) with (8 + 8 * i) by lia. rewrite Z.pow_add_r by lia. reflexivity. }
    destruct (Z.ltb_spec i 8) as [Hi8|Hi8].
    + assert (Hle : 2 ^ (8 * (i + 1)) <= W64).
      { change W64 with (2 ^ 64). apply Z.pow_le_mono_r; lia. }
      assert (Hs : u64 (Z.shiftl x (8 * i)) = Z.shiftl x (8 * i)).
      { unfold u64. rewrite Z.shiftl_mul_pow2 by lia. apply Z.mod_small. nia. }
      rewrite Hs, lor_add by lia.
      rewrite IH; [|cbn in Hl; lia|assumption|lia|nia|nia].
      f_equal. rewrite E1. ring.
    + assert (Hz : u64 (Z.shiftl x (8 * i)) = 0).
      { unfold u64. rewrite Z.shiftl_mul_pow2 by lia.
        replace (8 * i) with (64 + (8 * i - 64)) by lia. rewrite Z.pow_add_r by lia.
        change (2 ^ 64) with W64. replace (x * (W64 * 2 ^ (8 * i - 64))) with (x * 2 ^ (8 * i - 64) * W64) by ring.
        apply Z.mod_mul. unfold W64; lia. }
      rewrite Hz, Z.lor_0_r.
      rewrite IH; [|cbn in Hl; lia|assumption|lia| |assumption].
      2:{ rewrite E1. lia. }
      assert (E2 : exists q, 2 ^ (8 * i) = q * W64).
      { exists (2 ^ (8 * i - 64)). change W64 with (2 ^ 64). rewrite <- Z.pow_add_r by lia. f_equal; lia. }
      destruct E2 as (q & E2). rewrite E1, E2.
      replace (v + 256 * (q * W64) * le_bytes (firstn n b)) with (v + (256 * q * le_bytes (firstn n b)) * W64) by ring.
      replace (v + q * W64 * (x + 256 * le_bytes (firstn n b))) with (v + (q * (x + 256 * le_bytes (firstn n b))) * W64) by ring.
      rewrite !Z.mod_add by (unfold W64; lia). reflexivity.
Qed.
Lemma bytes2i_spec b size : Forall is_byte b -> 0 < size <= Z.of_nat (List.length b) ->
  bytes2i b size = le_bytes (firstn (Z.to_nat size) b) mod 2 ^ 64.
Proof.
  intros Hb Hs. unfold bytes2i.
  destruct (Z.leb_spec size 0); [lia|]. destruct (Z.ltb_spec (Z.of_nat (List.length b)) size); [lia|].
  cbn [orb]. rewrite bytes2i_go_spec; [|lia|assumption|lia|cbn; lia|unfold W64; lia].
  f_equal. rewrite Z.mul_0_r, Z.pow_0_r. lia.
Qed.

(** ** histogram *)
Lemma i2h_log2 v : 0 < v -> i2h v = Z.log2 v.
Proof. intros H. unfold i2h, leading_zeros64. destruct (Z.leb_spec v 0); lia. Qed.

Lemma bytes2i_range b n : 0 <= bytes2i b n < W64 \/ ~ Forall is_byte b.
Proof.
  destruct (Forall_dec is_byte) with (l := b) as [H|H].
  - intros x. unfold is_byte. destruct (Z_le_dec 0 x), (Z_lt_dec x 256); [left|right|right|right]; lia.
  - left. unfold bytes2i. destruct (Z.leb_spec n 0); cbn [orb]; [unfold W64; lia|].
    destruct (Z.ltb_spec (Z.of_nat (List.length b)) n); [unfold W64; lia|].
    rewrite bytes2i_go_spec; [|lia|assumption|lia|cbn; lia|unfold W64; lia]. apply Z.mod_pos_bound. unfold W64; lia.
  - right; assumption.
Qed.

Definition in_bucket (k : Z) (v : Z) : bool := (2 ^ k <=? v) && (v <? 2 ^ (k + 1)).
Definition countb {A} (p : A -> bool) (l : list A) : Z := Z.of_nat (List.length (filter p l)).

Lemma in_bucket_log2 k v : 0 <= k -> 0 < v -> in_bucket k v = (Z.log2 v =? k).
Proof.
  intros Hk Hv. unfold in_bucket.
  destruct (Z.eqb_spec (Z.log2 v) k) as [E|E].
  - pose proof (Z.log2_spec v Hv) as X. rewrite E in X. rewrite <- Z.add_1_r in X.
    destruct (Z.leb_spec (2 ^ k) v); [|lia]. destruct (Z.ltb_spec v (2 ^ (k + 1))); [reflexivity|lia].
  - destruct (Z.leb_spec (2 ^ k) v); [|reflexivity]. destruct (Z.ltb_spec v (2 ^ (k + 1))); [|reflexivity].
    exfalso. apply E. apply Z.log2_unique; [assumption|]. rewrite <- Z.add_1_r. lia.
Qed.

Lemma nth_upd_nth {A} (f : A -> A) l p i d : (i < List.length l)%nat ->
  nth i (upd_nth p f l) d = if Nat.eqb i p then f (nth i l d) else nth i l d.
Proof.
  revert p i; induction l as [|x l IH]; intros p i Hi; cbn in Hi; [lia|].
  destruct p, i; cbn; try reflexivity. apply IH. lia.
Qed.

Lemma filter_length_le {A} (p : A -> bool) l : (List.length (filter p l) <= List.length l)%nat.
Proof. induction l as [|x l IH]; cbn; [lia|]. destruct (p x); cbn; lia. Qed.

Lemma hist_adds_gen l : forall h,
  List.length (log2 h) = 64%nat ->
  Forall (fun s => Forall is_byte (fst s) /\ 0 < bytes2i (fst s) (snd s)) l ->
  exists h', hist_adds h l = Some h' /\ List.length (log2 h') = 64%nat /\
    (forall k, 0 <= k < 64 -> nth (Z.to_nat k) (log2 h') 0 mod W64 =
        (nth (Z.to_nat k) (log2 h) 0 + countb (fun s => in_bucket k (bytes2i (fst s) (snd s))) l) mod W64) /\
    total h' mod W64 = (total h + Z.of_nat (List.length l)) mod W64.
Proof.
  induction l as [|[d n] l IH]; intros h Hlen Hall.
  - exists h. cbn. unfold countb. cbn. repeat split; auto; intros; f_equal; lia.
  - inversion Hall as [|? ? [Hb Hpos] Hall']; subst. cbn [fst snd] in *.
    cbn [hist_adds]. unfold hist_add.
    destruct (bytes2i_range d n) as [Hr|]; [|contradiction].
    rewrite (i2h_log2 _ Hpos).
    pose proof (Z.log2_nonneg (bytes2i d n)) as Hl0.
    assert (Hl64 : Z.log2 (bytes2i d n) < 64) by (apply Z.log2_lt_pow2; [assumption|change (2^64) with W64; lia]).
    destruct (Z.ltb_spec (Z.log2 (bytes2i d n)) 0); [lia|].
    destruct (Z.leb_spec 64 (Z.log2 (bytes2i d n))); [lia|]. cbn [orb].
    set (h1 := {| log2 := _; total := _ |}).
    destruct (IH h1) as (h' & E & L & C & T); [cbn; rewrite upd_nth_length; assumption|assumption|].
    exists h'. split; [exact E|]. split; [exact L|]. split.
    + intros k Hk. rewrite (C k Hk). unfold h1; cbn [log2].
      rewrite nth_upd_nth by lia. unfold countb. cbn [filter fst snd].
      rewrite in_bucket_log2 by lia.
      destruct (Nat.eqb_spec (Z.to_nat k) (Z.to_nat (Z.log2 (bytes2i d n)))).
      * destruct (Z.eqb_spec (Z.log2 (bytes2i d n)) k); [|lia]. cbn [List.length].
        unfold u64. rewrite Zplus_mod_idemp_l. f_equal. lia.
      * destruct (Z.eqb_spec (Z.log2 (bytes2i d n)) k); [lia|]. reflexivity.
    + rewrite T. unfold h1; cbn [total List.length]. unfold u64. rewrite Zplus_mod_idemp_l. f_equal. lia.
Qed.

Lemma hist_counts l :
  Forall (fun s => Forall is_byte (fst s) /\ 0 < bytes2i (fst s) (snd s)) l ->
  Z.of_nat (List.length l) < W64 ->
  exists h, hist_adds new_histogram l = Some h /\
    (forall k, 0 <= k < 64 -> nth (Z.to_nat k) (log2 h) 0 mod W64 =
        countb (fun s => in_bucket k (bytes2i (fst s) (snd s))) l) /\
    total h mod W64 = Z.of_nat (List.length l).
Proof.
  intros Hall Hlen. destruct (hist_adds_gen l new_histogram eq_refl Hall) as (h & E & _ & C & T).
  exists h. split; [exact E|]. split.
  - intros k Hk. rewrite (C k Hk). unfold new_histogram; cbn [log2].
    rewrite nth_repeat, Z.add_0_l. apply Z.mod_small. unfold countb.
    pose proof (filter_length_le (fun s : list Z * Z => in_bucket k (bytes2i (fst s) (snd s))) l). lia.
  - rewrite T. cbn [total new_histogram]. rewrite Z.add_0_l. apply Z.mod_small. lia.
Qed.

(** counters are always reduced *)
Lemma hist_adds_reduced l : forall h h', hist_adds h l = Some h' ->
  Forall (fun c => 0 <= c < W64) (log2 h) -> 0 <= total h < W64 ->
  Forall (fun c => 0 <= c < W64) (log2 h') /\ 0 <= total h' < W64.
Proof.
  induction l as [|[d n] l IH]; intros h h' E H1 H2; cbn in E.
  - injection E as <-. auto.
  - unfold hist_add in E. destruct (_ || _); [discriminate|]. apply (IH _ _ E); cbn [log2 total].
    + remember (Z.to_nat (i2h (bytes2i d n))) as p. clear - H1. revert p; induction H1; intros [|p]; cbn; constructor; auto.
      unfold u64. apply Z.mod_pos_bound. unfold W64; lia.
    + unfold u64. apply Z.mod_pos_bound. unfold W64; lia.
Qed.

Lemma hist_counts' l :
  Forall (fun s => Forall is_byte (fst s) /\ 0 < bytes2i (fst s) (snd s)) l ->
  Z.of_nat (List.length l) < W64 ->
  exists h, hist_adds new_histogram l = Some h /\
    (forall k, 0 <= k < 64 -> nth (Z.to_nat k) (log2 h) 0 =
        countb (fun s => in_bucket k (bytes2i (fst s) (snd s))) l) /\
    total h = Z.of_nat (List.length l).
Proof.
  intros Hall Hlen. destruct (hist_counts l Hall Hlen) as (h & E & C & T).
  exists h. split; [exact E|].
  destruct (hist_adds_reduced _ _ _ E) as [R1 R2].
  { apply Forall_forall. intros x Hx. apply repeat_spec in Hx. subst. unfold W64; lia. }
  { cbn. unfold W64; lia. }
  split.
  - intros k Hk. rewrite <- (C k Hk). symmetry. apply Z.mod_small.
    destruct (Nat.ltb_spec (Z.to_nat k) (List.length (log2 h))).
    + rewrite Forall_forall in R1. apply R1. apply nth_In. assumption.
    + rewrite nth_overflow by assumption. unfold W64; lia.
  - rewrite <- T. symmetry. apply Z.mod_small. assumption.
Qed.

Lemma hist_zero_panics h d n : bytes2i d n = 0 -> hist_add h d n = None.
Proof. intros H. unfold hist_add. rewrite H. reflexivity. Qed.

Lemma bucket_bounds k : 0 <= k <= 62 ->
  bucket_high k = 2 ^ (k + 1) - 1 /\ bucket_low k = if k =? 0 then 0 else 2 ^ k.
Proof.
  intros Hk. unfold bucket_high, bucket_low.
  assert (E : u64 (Z.shiftl 1 (k + 1)) = 2 ^ (k + 1)).
  { unfold u64. rewrite Z.shiftl_mul_pow2 by lia. rewrite Z.mul_1_l. apply Z.mod_small.
    split; [apply Z.pow_nonneg; lia|]. change W64 with (2 ^ 64). apply Z.pow_lt_mono_r; lia. }
  rewrite E.
  assert (Hp : 1 <= 2 ^ k) by (pose proof (Z.pow_pos_nonneg 2 k); lia).
  assert (E2 : 2 ^ (k + 1) = 2 * 2 ^ k) by (rewrite Z.pow_add_r by lia; lia).
  assert (Hlt : 2 ^ (k + 1) < W64) by (change W64 with (2 ^ 64); apply Z.pow_lt_mono_r; lia).
  assert (E3 : u64 (2 ^ (k + 1) - 1) = 2 ^ (k + 1) - 1) by (unfold u64; apply Z.mod_small; lia).
  rewrite E3. rewrite Z.shiftr_div_pow2 by lia. rewrite Z.pow_1_r.
  assert (E4 : 2 ^ (k + 1) / 2 = 2 ^ k) by (rewrite E2, Z.mul_comm; apply Z.div_mul; lia).
  rewrite E4. split; [reflexivity|].
  destruct (Z.eqb_spec (2 ^ k) (2 ^ (k + 1) - 1)) as [H|H].
  - assert (2 ^ k = 1) by lia. destruct (Z.eqb_spec k 0) as [->|Hk0]; [reflexivity|].
    exfalso. assert (2 ^ 1 <= 2 ^ k) by (apply Z.pow_le_mono_r; lia). lia.
  - destruct (Z.eqb_spec k 0) as [->|]; [cbn in H; lia|reflexivity].
Qed.

(** ** endbr / tail call *)
Lemma endbr_spec v : 0 <= v < 2 ^ 32 ->
  (is_endbr_insn v = true <-> v = 2035558 \/ v = 4196274163 \/ v = 4213051379).
Proof.
  intros Hv. unfold is_endbr_insn, endbr_poison, endbr64.
  destruct (Z.eqb_spec v 2035558) as [->|Hne]; [split; auto|].
  rewrite Z.eqb_eq. split.
  - intros H. right.
    assert (E : v = Z.lor (Z.land v (4294967295 - 16777216)) (Z.land v 16777216)).
    { rewrite <- Z.land_lor_distr_r. change (Z.lor (4294967295 - 16777216) 16777216) with (Z.ones 32).
      rewrite Z.land_ones by lia. symmetry. apply Z.mod_small. assumption. }
    assert (E2 : Z.land v 16777216 = 0 \/ Z.land v 16777216 = 16777216).
    { change 16777216 with (2 ^ 24). destruct (Z.testbit v 24) eqn:T; [right|left].
      - apply Z.bits_inj'. intros n Hn. rewrite Z.land_spec, Z.pow2_bits_eqb by lia.
        destruct (Z.eqb_spec 24 n); [subst; rewrite T; reflexivity|apply andb_false_r].
      - apply Z.bits_inj'. intros n Hn. rewrite Z.land_spec, Z.pow2_bits_eqb, Z.bits_0 by lia.
        destruct (Z.eqb_spec 24 n); [subst; rewrite T; reflexivity|apply andb_false_r]. }
    rewrite H in E. destruct E2 as [E2|E2]; rewrite E2 in E; rewrite E; [left|right]; reflexivity.
  - intros [H|[->| ->]]; [contradiction|reflexivity|reflexivity].
Qed.

Lemma slice_ok b lo hi : (lo <= hi)%nat -> (hi <= List.length b)%nat ->
  slice b lo hi = Some (firstn (hi - lo) (skipn lo b)).
Proof.
  intros H1 H2. unfold slice. destruct (Nat.leb_spec lo hi); [|lia]. destruct (Nat.leb_spec hi (List.length b)); [|lia]. reflexivity.
Qed.
Lemma eq_bytes_eq a b : eq_bytes a b = true <-> a = b.
Proof.
  revert b; induction a as [|x a IH]; intros [|y b]; cbn; try (split; congruence).
  rewrite andb_true_iff, Z.eqb_eq, IH. split; [intros [-> ->]; reflexivity|intros [= -> ->]; auto].
Qed.

Lemma tailcall_spec insns :
  exists r, is_tailcall_reachable insns = Some r /\
   (r = true <-> (12 <= List.length insns)%nat /\
      let off := if is_endbr_insn (le_bytes (firstn 4 insns)) then 9%nat else 5%nat in
      firstn 2 (skipn off insns) = [49; 192] \/ firstn 3 (skipn off insns) = [72; 49; 192]).
Proof.
  unfold is_tailcall_reachable.
  destruct (Nat.ltb_spec (List.length insns) 12) as [H|H].
  - rewrite orb_true_r. exists false. split; [reflexivity|]. split; [discriminate|]. intros [X _]. lia.
  - destruct (Nat.eqb_spec (List.length insns) 0); [lia|]. cbn [orb].
    rewrite slice_ok by lia. change (skipn 0 insns) with insns. change (4 - 0)%nat with 4%nat.
    cbv zeta. set (off := if is_endbr_insn _ then 9%nat else 5%nat).
    assert (Ho : (off <= 9)%nat) by (unfold off; destruct (is_endbr_insn _); lia).
    clearbody off.
    rewrite slice_ok by lia. replace (off + 2 - off)%nat with 2%nat by lia.
    destruct (eq_bytes (firstn 2 (skipn off insns)) [49; 192]) eqn:E.
    + apply eq_bytes_eq in E. exists true. split; [reflexivity|]. split; auto.
    + rewrite slice_ok by lia. replace (off + 3 - off)%nat with 3%nat by lia.
      eexists. split; [reflexivity|]. rewrite eq_bytes_eq. split; [auto|].
      intros [_ [X|X]]; [|assumption]. apply eq_bytes_eq in X. congruence.
Qed.

(** ** callee *)
Lemma sext32 (off : Z) : 0 <= off < 2 ^ 32 ->
  (if off <? 2 ^ 31 then off else off - 2 ^ 32) mod W32 = off.
Proof.
  intros H. change W32 with (2 ^ 32) . destruct (off <? 2 ^ 31).
  - apply Z.mod_small; assumption.
  - replace (off - 2 ^ 32) with (off + (-1) * 2 ^ 32) by lia. rewrite Z.mod_add by lia. apply Z.mod_small; assumption.
Qed.

Lemma lor_high a : 0 <= a < W64 -> Z.lor a (W64 - W32) = a mod W32 + (W64 - W32).
Proof.
  intros Ha. change (W64 - W32) with (Z.shiftl (W32 - 1) 32).
  assert (E : Z.lor a (Z.shiftl (W32 - 1) 32) = Z.lor (a mod W32) (Z.shiftl (W32 - 1) 32)).
  { apply Z.bits_inj'. intros n Hn. rewrite !Z.lor_spec.
    change W32 with (2 ^ 32) at 2. 
    destruct (Z.ltb_spec n 32).
    - rewrite Z.mod_pow2_bits_low by lia. reflexivity.
    - rewrite Z.mod_pow2_bits_high by lia. cbn [orb].
      rewrite Z.shiftl_spec by lia. change (W32 - 1) with (Z.ones 32).
      destruct (Z.ltb_spec (n - 32) 32).
      + rewrite Z.ones_spec_low by lia. apply orb_true_r.
      + assert (Z.testbit a n = false).
        { destruct (Z.eq_dec a 0) as [->|]; [apply Z.bits_0|]. apply Z.bits_above_log2; [lia|].
          apply Z.log2_lt_pow2; [lia|]. eapply Z.lt_le_trans; [apply Ha|]. change W64 with (2 ^ 64). apply Z.pow_le_mono_r; lia. }
        rewrite H1. reflexivity. }
  rewrite E. rewrite lor_add; [|lia|apply Z.mod_pos_bound; unfold W32; lia].
  rewrite Z.shiftl_mul_pow2 by lia. reflexivity.
Qed.

Lemma mod32_of_mod64 a : (a mod W64) mod W32 = a mod W32.
Proof.
  change W64 with (W32 * W32). rewrite Z.rem_mul_r by (unfold W32; lia).
  rewrite (Z.mul_comm W32), Z.mod_add by (unfold W32; lia). apply Z.mod_mod. unfold W32; lia.
Qed.

Lemma get_callee_ip_val kaddr off : get_callee_ip kaddr off = (kaddr + 5 + off) mod W32 + (W64 - W32).
Proof.
  unfold get_callee_ip. rewrite lor_high by (unfold u64; apply Z.mod_pos_bound; unfold W64; lia).
  f_equal. unfold u64. rewrite mod32_of_mod64. rewrite <- (Zplus_mod_idemp_l (_ mod W64)), mod32_of_mod64, Zplus_mod_idemp_l.
  reflexivity.
Qed.
Lemma callee_cpu kaddr off :
  0 <= off < 2 ^ 32 ->
  let rel := if off <? 2 ^ 31 then off else off - 2 ^ 32 in
  let target := (kaddr + 5 + rel) mod 2 ^ 64 in
  2 ^ 64 - 2 ^ 32 <= target -> get_callee_ip kaddr off = target.
Proof.
  intros Ho rel target Ht. rewrite get_callee_ip_val.
  pose proof (sext32 off Ho) as E. fold rel in E.
  assert (Hl : 0 <= target < 2 ^ 64) by (apply Z.mod_pos_bound; lia).
  assert (Hm : target mod W32 = (kaddr + 5 + off) mod W32).
  { unfold target. change (2 ^ 64) with W64. rewrite mod32_of_mod64.
    rewrite <- (Zplus_mod_idemp_r rel), E. reflexivity. }
  rewrite <- Hm.
  assert (target mod W32 = target - (2 ^ 64 - 2 ^ 32)).
  { replace target with ((target - (2 ^ 64 - 2 ^ 32)) + (2 ^ 32 - 1) * W32) at 1 by (unfold W32; lia).
    rewrite Z.mod_add by (unfold W32; lia). apply Z.mod_small. unfold W32. lia. }
  change W64 with (2 ^ 64). change W32 with (2 ^ 32) at 2. lia.
Qed.

(** ** guess / trim *)
Lemma guess_spec ls ks a :
  new_kallsyms ls = Some ks -> text_syms ls <> [] -> 0 <= a < 2 ^ 64 ->
  (forall s, In s (text_syms ls) -> 0 <= fst s < 2 ^ 64) ->
  exists n, guess_bytes ks a 0 = Some n /\ 0 < n <= 4096 /\
   ((exists s, In s (text_syms ls) /\ fst s <= a) ->
    forall s, In s (text_syms ls) -> a < fst s -> a + n <= fst s).
Proof.
  intros H Hne Ha Hr. unfold guess_bytes. cbn [Z.eqb negb].
  destruct (Exists_dec (fun s : Z * string => fst s <= a) (text_syms ls)) as [Hlo|Hlo].
  { intros x. destruct (Z_le_dec (fst x) a); [left|right]; assumption. }
  - apply Exists_exists in Hlo. destruct Hlo as (s1 & Hs1 & Hs1').
    destruct (Exists_dec (fun s : Z * string => a < fst s) (text_syms ls)) as [Hhi|Hhi].
    { intros x. destruct (Z_lt_dec a (fst x)); [left|right]; assumption. }
    + apply Exists_exists in Hhi.
      destruct (next_in_range ls ks a H (ex_intro _ s1 (conj Hs1 Hs1')) Hhi) as (e & E & Hl & Hgt & Hmin).
      rewrite E.
      assert (Hin : In (M_Kallsyms.kaddr e, kname e) (text_syms ls)).
      { destruct Hl as (p & q & -> & _). apply in_app_iff. right. left. reflexivity. }
      pose proof (Hr _ Hin) as Hre. cbn [fst] in Hre.
      assert (Hu : u64 (M_Kallsyms.kaddr e - a) = M_Kallsyms.kaddr e - a).
      { unfold u64. apply Z.mod_small. change W64 with (2 ^ 64). lia. }
      rewrite Hu. eexists. split; [reflexivity|]. split; [lia|].
      intros _ s Hs Hsa. specialize (Hmin s Hs Hsa). lia.
    + assert (Hall : forall s, In s (text_syms ls) -> fst s <= a).
      { intros s Hs. destruct (Z_lt_dec a (fst s)); [|lia]. exfalso. apply Hhi. apply Exists_exists. eauto. }
      assert (E : ks_next ks a = FNone).
      { destruct (Exists_dec (fun s : Z * string => fst s = a) (text_syms ls)) as [He|He].
        { intros x. destruct (Z.eq_dec (fst x) a); [left|right]; assumption. }
        - apply Exists_exists in He. eapply next_of_last; eauto.
        - eapply find_out_of_range; eauto. right. intros s Hs. specialize (Hall s Hs).
          destruct (Z.eq_dec (fst s) a); [|lia]. exfalso. apply He. apply Exists_exists. eauto. }
      rewrite E. exists 4096. split; [reflexivity|]. split; [lia|].
      intros _ s Hs Hsa. specialize (Hall s Hs). lia.
  - assert (Hall : forall s, In s (text_syms ls) -> a < fst s).
    { intros s Hs. destruct (Z_le_dec (fst s) a); [|lia]. exfalso. apply Hlo. apply Exists_exists. eauto. }
    destruct (find_out_of_range ls ks a H Hne (or_introl Hall)) as [_ E]. rewrite E.
    exists 4096. split; [reflexivity|]. split; [lia|]. intros (s & Hs & X). specialize (Hall s Hs). lia.
Qed.
Lemma guess_user ks a n : n <> 0 -> guess_bytes ks a n = Some n.
Proof. intros H. unfold guess_bytes. destruct (Z.eqb_spec n 0); [contradiction|reflexivity]. Qed.

Lemma trim_len_le b : (trim_len b <= List.length b)%nat.
Proof. induction b as [|x b IH]; cbn; [lia|]. destruct (trim_len b); [destruct (is_pad x); lia|lia]. Qed.
Lemma trim_spec b :
  exists tail, b = trim_tail b ++ tail /\ Forall (fun x => x = 204 \/ x = 144) tail /\
    (trim_tail b = [] \/ exists p x, trim_tail b = p ++ [x] /\ x <> 204 /\ x <> 144).
Proof.
  unfold trim_tail. induction b as [|x b (tail & E & Hp & Hl)]; cbn [trim_len].
  - exists []. cbn. repeat split; auto.
  - destruct (trim_len b) as [|n] eqn:En.
    + cbn in E. subst tail. destruct (is_pad x) eqn:Ep.
      * exists (x :: b). cbn. split; [reflexivity|]. split; [|left; reflexivity]. constructor; [|assumption].
        unfold is_pad in Ep. apply orb_true_iff in Ep. rewrite !Z.eqb_eq in Ep. exact Ep.
      * exists b. cbn. split; [reflexivity|]. split; [assumption|]. right. exists [], x. split; [reflexivity|].
        unfold is_pad in Ep. apply orb_false_iff in Ep. rewrite !Z.eqb_neq in Ep. exact Ep.
    + exists tail. change (firstn (S (S n)) (x :: b)) with (x :: firstn (S n) b).
      split; [change ((x :: firstn (S n) b) ++ tail) with (x :: (firstn (S n) b ++ tail)); f_equal; exact E|]. split; [assumption|].
      right. destruct Hl as [Hl|(p & y & Hl & Hy)].
      * pose proof (trim_len_le b) as X. rewrite En in X. destruct b; cbn in *; [lia|discriminate].
      * exists (x :: p), y. rewrite Hl. split; [reflexivity|exact Hy].
Qed.

(** ** mask *)
Lemma mask_loop_spec : forall fuel k v, 0 <= k -> (1 <= v <= 2 ^ 62) -> (k = 0 \/ 2 ^ (k - 1) < v) ->
  (k <= 62) -> 62 - k < Z.of_nat fuel ->
  exists j, mask_loop fuel v (2 ^ k) = Some (2 ^ j - 1) /\ 0 <= j /\ v <= 2 ^ j /\ (j = 0 \/ 2 ^ (j - 1) < v).
Proof.
  induction fuel as [|f IH]; intros k v Hk Hv Hlo Hk62 Hf; [lia|].
  cbn [mask_loop]. destruct (Z.ltb_spec (2 ^ k) v) as [Hlt|Hge].
  - assert (k < 62). { destruct (Z.eq_dec k 62); [subst; lia|lia]. }
    assert (E : s64z (2 * 2 ^ k) = 2 ^ (k + 1)).
    { assert (E1 : 2 * 2 ^ k = 2 ^ (k + 1)) by (rewrite Z.pow_add_r by lia; lia). rewrite E1.
      assert (2 ^ (k + 1) <= 2 ^ 62) by (apply Z.pow_le_mono_r; lia).
      assert (0 <= 2 ^ (k + 1)) by (apply Z.pow_nonneg; lia).
      unfold s64z. rewrite Z.mod_small by (unfold W64; lia).
      destruct (Z.ltb_spec (2 ^ (k + 1)) 9223372036854775808); [reflexivity|lia]. }
    rewrite E. apply IH; try lia. right. replace (k + 1 - 1) with k by lia. assumption.
  - exists k. repeat split; auto; lia.
Qed.
Lemma mask_spec v : 1 <= v <= 2 ^ 62 ->
  exists j, mask 64 v = Some (2 ^ j - 1) /\ 0 <= j /\ v <= 2 ^ j /\ (j = 0 \/ 2 ^ (j - 1) < v) /\
   forall cpu, 0 <= cpu < v -> Z.land cpu (2 ^ j - 1) = cpu.
Proof.
  intros Hv. unfold mask. destruct (Z.eqb_spec v max_int); [unfold max_int in *; lia|].
  destruct (mask_loop_spec 64 0 v) as (j & E & Hj & Hle & Hlo); try lia.
  rewrite Z.pow_0_r in E. exists j. split; [exact E|]. repeat (split; [assumption|]).
  intros cpu Hc. replace (2 ^ j - 1) with (Z.ones j) by (rewrite Z.ones_equiv; lia).
  rewrite Z.land_ones by assumption. apply Z.mod_small. lia.
Qed.
Lemma mask_loop_zero_diverges fuel v : 0 < v -> mask_loop fuel v 0 = None.
Proof.
  intros Hv. induction fuel as [|f IH]; cbn [mask_loop]; destruct (Z.ltb_spec 0 v); try lia; [reflexivity|exact IH].
Qed.
Lemma mask_large_diverges fuel v : 2 ^ 62 < v < max_int -> mask fuel v = None.
Proof.
  intros Hv. unfold mask. destruct (Z.eqb_spec v max_int); [lia|].
  assert (G : forall f k, 0 <= k <= 62 -> mask_loop f v (2 ^ k) = None).
  { induction f as [|f IH]; intros k Hk; cbn [mask_loop].
    - destruct (Z.ltb_spec (2 ^ k) v); [reflexivity|].
      assert (2 ^ k <= 2 ^ 62) by (apply Z.pow_le_mono_r; lia). lia.
    - destruct (Z.ltb_spec (2 ^ k) v).
      2:{ assert (2 ^ k <= 2 ^ 62) by (apply Z.pow_le_mono_r; lia). lia. }
      destruct (Z.eq_dec k 62) as [->|].
      + change (s64z (2 * 2 ^ 62)) with (- 9223372036854775808).
        destruct f as [|f]; cbn [mask_loop];
        (destruct (Z.ltb_spec (- 9223372036854775808) v); [|unfold max_int in *; lia]); [reflexivity|].
        change (s64z (2 * - 9223372036854775808)) with 0. apply mask_loop_zero_diverges. lia.
      + assert (E : s64z (2 * 2 ^ k) = 2 ^ (k + 1)).
        { assert (E1 : 2 * 2 ^ k = 2 ^ (k + 1)) by (rewrite Z.pow_add_r by lia; lia). rewrite E1.
          assert (2 ^ (k + 1) <= 2 ^ 62) by (apply Z.pow_le_mono_r; lia).
          assert (0 <= 2 ^ (k + 1)) by (apply Z.pow_nonneg; lia).
          unfold s64z. rewrite Z.mod_small by (unfold W64; lia).
          destruct (Z.ltb_spec (2 ^ (k + 1)) 9223372036854775808); [reflexivity|lia]. }
        rewrite E. apply IH. lia. }
  apply (G fuel 0). lia.
Qed.

(** ** actions *)
Lemma firstn4 (d s : list Z) : List.length d = 4%nat -> firstn 4 (d ++ s) = d.
Proof. intros H. rewrite <- H, firstn_app, Nat.sub_diag, firstn_O, app_nil_r. apply firstn_all. Qed.
Lemma xdp_spec data spare : List.length data = 4%nat -> Forall is_byte data ->
  show_xdp_ret (data ++ spare) = match nth_error ["XDP_ABORTED"; "XDP_DROP"; "XDP_PASS"; "XDP_TX"; "XDP_REDIRECT"]%string (Z.to_nat (le_bytes data)) with
                      | Some s => Named s | None => Number (le_bytes data) end.
Proof.
  intros Hl Hb. unfold show_xdp_ret. rewrite (firstn4 data spare Hl).
  pose proof (le_bytes_range data Hb) as Hr. set (v := le_bytes data) in *.
  unfold xdp_action. destruct (Z.leb_spec 0 v); [|lia].
  destruct (Z.leb_spec v 4) as [H4|H4]; cbn [andb].
  - unfold idx_str. destruct (Z.ltb_spec v 0); [lia|].
    assert (Hc : v = 0 \/ v = 1 \/ v = 2 \/ v = 3 \/ v = 4) by lia.
    destruct Hc as [->|[->|[->|[->| ->]]]]; reflexivity.
  - assert (E : nth_error ["XDP_ABORTED"; "XDP_DROP"; "XDP_PASS"; "XDP_TX"; "XDP_REDIRECT"]%string (Z.to_nat v) = None).
    { apply nth_error_None. cbn [List.length]. lia. }
    rewrite E. reflexivity.
Qed.
Lemma tc_spec data spare : List.length data = 4%nat -> Forall is_byte data ->
  show_tc_ret (data ++ spare) = match nth_error ["TC_ACT_OK"; "TC_ACT_RECLASSIFY"; "TC_ACT_SHOT"; "TC_ACT_PIPE"; "TC_ACT_STOLEN";
   "TC_ACT_QUEUED"; "TC_ACT_REPEAT"; "TC_ACT_REDIRECT"; "TC_ACT_TRAP"]%string (Z.to_nat (le_bytes data)) with
                      | Some s => Named s | None => Number (le_bytes data) end.
Proof.
  intros Hl Hb. unfold show_tc_ret. rewrite (firstn4 data spare Hl).
  pose proof (le_bytes_range data Hb) as Hr. set (v := le_bytes data) in *.
  unfold tc_action. destruct (Z.leb_spec (-1) v); [|lia].
  destruct (Z.leb_spec v 8) as [H4|H4]; cbn [andb].
  - unfold idx_str. destruct (Z.ltb_spec (v + 1) 0); [lia|].
    assert (Hc : v = 0 \/ v = 1 \/ v = 2 \/ v = 3 \/ v = 4 \/ v = 5 \/ v = 6 \/ v = 7 \/ v = 8) by lia.
    destruct Hc as [->|[->|[->|[->|[->|[->|[->|[->| ->]]]]]]]]; reflexivity.
  - match goal with |- context [nth_error ?l ?n] => assert (E : nth_error l n = None) by (apply nth_error_None; cbn [List.length]; lia) end.
    rewrite E. reflexivity.
Qed.

(** ** read size *)
Lemma read_size_spec size : 0 <= size < 2 ^ 32 - 7 ->
  read_size size = if 65536 <? (size + 7) / 8 * 8 then None else Some ((size + 7) / 8 * 8).
Proof.
  intros H. unfold read_size. replace (u32 (size + 7)) with (size + 7) by (symmetry; unfold u32; apply Z.mod_small; unfold W32; lia).
  assert (E : Z.land (size + 7) (W32 - 8) = (size + 7) / 8 * 8).
  { change (W32 - 8) with (Z.shiftl (Z.ones 29) 3).
    transitivity (Z.shiftl (Z.shiftr (size + 7) 3) 3).
    - apply Z.bits_inj'. intros n Hn. rewrite Z.land_spec, !Z.shiftl_spec by lia.
      destruct (Z.ltb_spec n 3); [rewrite !(Z.testbit_neg_r _ (n-3)) by lia; apply andb_false_r|].
      rewrite Z.shiftr_spec by lia. replace (n - 3 + 3) with n by lia.
      destruct (Z.ltb_spec (n - 3) 29); [rewrite Z.ones_spec_low by lia; apply andb_true_r|].
      rewrite Z.ones_spec_high by lia. rewrite andb_false_r. symmetry.
      apply Z.bits_above_log2; [lia|]. apply Z.log2_lt_pow2; [lia|].
      assert (2 ^ 32 <= 2 ^ n) by (apply Z.pow_le_mono_r; lia). lia.
    - rewrite Z.shiftl_mul_pow2, Z.shiftr_div_pow2 by lia. reflexivity. }
  rewrite E. reflexivity.
Qed.

(** ** detectTraceables *)
Lemma keep_batch_filter t b : keep_batch b (map t b) = filter t b.
Proof. induction b as [|a b IH]; cbn; [reflexivity|]. destruct (t a); rewrite IH; reflexivity. Qed.
Lemma detect_filter t cap fuel : forall addrs, (0 < cap)%nat -> (List.length addrs <= fuel)%nat ->
  detect_traceables fuel cap (map t) addrs = filter t addrs.
Proof.
  induction fuel as [|f IH]; intros addrs Hc Hl.
  - destruct addrs; [reflexivity|cbn in Hl; lia].
  - cbn [detect_traceables]. destruct addrs as [|a l] eqn:Ea; [reflexivity|]. rewrite <- Ea in *. clear a l Ea.
    destruct (Nat.ltb_spec cap (List.length addrs)).
    + rewrite keep_batch_filter, IH; [|assumption|rewrite skipn_length; lia].
      rewrite <- filter_app, firstn_skipn. reflexivity.
    + apply keep_batch_filter.
Qed.
