(** * Machine-level lemmas for the compiler simulation: numerics and memory reads. *)
From Coq Require Import ZArith List Bool Lia String.
From Verif Require Import M_Ebpf P_Ebpf M_CcNum M_Cc S_CSem S_CSup.
Import ListNotations.
Open Scope Z_scope.

Lemma M64_pow : M64 = 2 ^ 64. Proof. reflexivity. Qed.
Lemma wrap_small z : 0 <= z < M64 -> wrap z = z.
Proof. apply Z.mod_small. Qed.
Lemma wrap_range z : 0 <= wrap z < M64.
Proof. apply Z.mod_pos_bound. reflexivity. Qed.
Lemma wrap_wrap z : wrap (wrap z) = wrap z.
Proof. apply Z.mod_mod. discriminate. Qed.
Lemma wrap_add_l a b : wrap (wrap a + b) = wrap (a + b).
Proof. apply Zplus_mod_idemp_l. Qed.
Lemma wrap_add_r a b : wrap (a + wrap b) = wrap (a + b).
Proof. apply Zplus_mod_idemp_r. Qed.
Lemma wrap_sub_r a b : wrap (a - wrap b) = wrap (a - b).
Proof. apply Zminus_mod_idemp_r. Qed.
Lemma wrap_sub_l a b : wrap (wrap a - b) = wrap (a - b).
Proof. apply Zminus_mod_idemp_l. Qed.
Lemma wrap_mul_l a b : wrap (wrap a * b) = wrap (a * b).
Proof. apply Zmult_mod_idemp_l. Qed.
Lemma wrap_mul_r a b : wrap (a * wrap b) = wrap (a * b).
Proof. apply Zmult_mod_idemp_r. Qed.

Lemma sgn_id b z : 0 < b -> - 2 ^ (b - 1) <= z < 2 ^ (b - 1) -> sgn b z = z.
Proof.
  intros Hb H. unfold sgn.
  assert (Hp : 2 ^ b = 2 * 2 ^ (b - 1)).
  { replace b with (Z.succ (b - 1)) at 1 by lia. rewrite Z.pow_succ_r by lia. reflexivity. }
  destruct (Z.neg_nonneg_cases z) as [Hn|Hn].
  - replace (z mod 2 ^ b) with (z + 2 ^ b).
    + destruct (Z.ltb_spec (z + 2 ^ b) (2 ^ (b - 1))); lia.
    + apply Z.mod_unique with (-1); lia.
  - rewrite Z.mod_small by lia. destruct (Z.ltb_spec z (2 ^ (b - 1))); lia.
Qed.
Lemma s64_id z : - 2 ^ 63 <= z < 2 ^ 63 -> s64 z = z.
Proof. intros. apply sgn_id; lia. Qed.
Lemma s32_id z : - 2 ^ 31 <= z < 2 ^ 31 -> s32 z = z.
Proof. intros. apply sgn_id; lia. Qed.
Lemma s16_id z : - 2 ^ 15 <= z < 2 ^ 15 -> s16 z = z.
Proof. intros. apply sgn_id; lia. Qed.
Lemma immv_s32 z : - 2 ^ 31 <= z < 2 ^ 31 -> immv z = wrap z.
Proof. intros. unfold immv. rewrite s32_id by assumption. reflexivity. Qed.
Lemma immv_s32' z : - 2 ^ 31 <= z < 2 ^ 31 -> immv (s32 z) = wrap z.
Proof. intros. rewrite s32_id by assumption. apply immv_s32; assumption. Qed.
Lemma immv_small z : 0 <= z < 2 ^ 31 -> immv z = z.
Proof. intros. rewrite immv_s32 by lia. apply wrap_small. unfold M64. lia. Qed.

Lemma sgn_nonneg b z : 0 < b -> 0 <= sgn b z -> sgn b z = z mod 2 ^ b.
Proof.
  intros Hb. unfold sgn. pose proof (Z.mod_pos_bound z (2 ^ b)) as H.
  assert (0 < 2 ^ b) by (apply Z.pow_pos_nonneg; lia).
  destruct (Z.ltb_spec (z mod 2 ^ b) (2 ^ (b - 1))); lia.
Qed.
Lemma sgn_mod b z : 0 < b -> sgn b z mod 2 ^ b = z mod 2 ^ b.
Proof.
  intros Hb. assert (0 < 2 ^ b) by (apply Z.pow_pos_nonneg; lia).
  unfold sgn. destruct (Z.ltb_spec (z mod 2 ^ b) (2 ^ (b - 1))).
  - apply Z.mod_mod; lia.
  - replace (z mod 2 ^ b - 2 ^ b) with (z mod 2 ^ b + (-1) * 2 ^ b) by lia.
    rewrite Z.mod_add by lia. apply Z.mod_mod; lia.
Qed.

(** Little-endian reads. *)
Lemma le_range f a n : 0 <= le f a n < 256 ^ Z.of_nat n.
Proof.
  revert a; induction n as [|n IH]; intros a; cbn [le].
  - cbn. lia.
  - specialize (IH (a + 1)). pose proof (Z.mod_pos_bound (f a) 256).
    replace (Z.of_nat (S n)) with (Z.succ (Z.of_nat n)) by lia.
    rewrite Z.pow_succ_r by lia. lia.
Qed.
Lemma pow256 n : 256 ^ Z.of_nat n = 2 ^ (8 * Z.of_nat n).
Proof. change 256 with (2 ^ 8). rewrite <- Z.pow_mul_r by lia. reflexivity. Qed.
Lemma le_mod f a n N : (n <= N)%nat -> le f a N mod 2 ^ (8 * Z.of_nat n) = le f a n.
Proof.
  revert a N; induction n as [|n IH]; intros a N H.
  - cbn. apply Z.mod_1_r.
  - destruct N as [|N]; [lia|]. cbn [le].
    replace (8 * Z.of_nat (S n)) with (8 + 8 * Z.of_nat n) by lia.
    rewrite Z.pow_add_r by lia. change (2 ^ 8) with 256.
    assert (0 < 2 ^ (8 * Z.of_nat n)) by (apply Z.pow_pos_nonneg; lia).
    rewrite Z.rem_mul_r by lia.
    rewrite (Z.mul_comm 256 (le f (a + 1) N)).
    rewrite Z.mod_add by lia. rewrite Z.mod_mod by lia.
    rewrite Z.div_add by lia.
    rewrite (Z.div_small (f a mod 256) 256) by (apply Z.mod_pos_bound; lia).
    rewrite Z.add_0_l, IH by lia. lia.
Qed.
Lemma le_ext f g a n : (forall x, a <= x < a + Z.of_nat n -> f x mod 256 = g x mod 256) -> le f a n = le g a n.
Proof.
  revert a; induction n as [|n IH]; intros a H; cbn [le]; [reflexivity|].
  rewrite (H a) by lia. rewrite (IH (a + 1)); [reflexivity|]. intros x Hx. apply H. lia.
Qed.

Lemma mod_pow_le z a b : 0 <= a <= b -> (z mod 2 ^ b) mod 2 ^ a = z mod 2 ^ a.
Proof.
  intros H. assert (0 < 2 ^ a) by (apply Z.pow_pos_nonneg; lia).
  replace (2 ^ b) with (2 ^ a * 2 ^ (b - a)) by (rewrite <- Z.pow_add_r by lia; f_equal; lia).
  assert (0 < 2 ^ (b - a)) by (apply Z.pow_pos_nonneg; lia).
  rewrite Z.rem_mul_r by lia.
  rewrite Z.mul_comm, Z.mod_add by lia. apply Z.mod_mod. lia.
Qed.

(** Register updates. *)
Lemma upd_eq {A} (f : reg -> A) r v : upd f r v r = v.
Proof. unfold upd. rewrite Nat.eqb_refl. reflexivity. Qed.
Lemma upd_neq {A} (f : reg -> A) r v x : x <> r -> upd f r v x = f x.
Proof. intros H. unfold upd. destruct (Nat.eqb_spec x r); [contradiction|reflexivity]. Qed.
Lemma rg_setr_eq s r v : rg (setr s r v) r = v.
Proof. apply upd_eq. Qed.
Lemma rg_setr_neq s r v x : x <> r -> rg (setr s r v) x = rg s x.
Proof. apply upd_neq. Qed.

(** Masks emitted to adjust a register. *)
Lemma and_mask r k : 0 <= k <= 31 -> Z.land r (immv (2 ^ k - 1)) = r mod 2 ^ k.
Proof.
  intros Hk. assert (0 < 2 ^ k) by (apply Z.pow_pos_nonneg; lia).
  assert (2 ^ k <= 2 ^ 31) by (apply Z.pow_le_mono_r; lia).
  rewrite immv_small by lia.
  rewrite <- Z.land_ones by lia. rewrite Z.ones_equiv. reflexivity.
Qed.
Lemma shl32_shr32 r : Z.shiftr (wrap (Z.shiftl r (immv 32 mod 64))) (immv 32 mod 64) = r mod 2 ^ 32.
Proof.
  change (immv 32 mod 64) with 32.
  rewrite Z.shiftl_mul_pow2, Z.shiftr_div_pow2 by lia.
  unfold wrap. rewrite M64_pow. change (2 ^ 64) with (2 ^ 32 * 2 ^ 32).
  rewrite Z.mul_mod_distr_r by lia. rewrite Z.div_mul by lia. reflexivity.
Qed.

Lemma forallb_ext {A} (f g : A -> bool) l : (forall x, f x = g x) -> forallb f l = forallb g l.
Proof. intros H. induction l; cbn; congruence. Qed.

(** Memory reads of the machine and of the specification. *)
Lemma all_mapped_forallb m a n :
  all_mapped m a n = forallb (fun i => mapped m (wrap (a + Z.of_nat i))) (seq 0 n).
Proof.
  assert (H : forall k a, all_mapped m (a + Z.of_nat k) n =
              forallb (fun i => mapped m (wrap (a + Z.of_nat i))) (seq k n)).
  { induction n as [|n IH]; intros k a'; cbn [all_mapped seq forallb]; [reflexivity|].
    f_equal. rewrite <- IH. f_equal. lia. }
  specialize (H 0%nat a). cbn in H. rewrite Z.add_0_r in H. exact H.
Qed.

(** The readable bytes of the machine are those of the C environment. *)
Definition kagree (C : cenv) (k : Z -> Z) : Prop := forall x, ce_map C x = true -> k x = ce_mem C x.
Lemma kagree_eq C k : k = ce_mem C -> kagree C k. Proof. intros -> x _. reflexivity. Qed.
Section Mem.
  Variables (m : mach) (C : cenv).
  Hypothesis Hmap : forall a, ce_map C a = true -> mapped m a = true.
  Lemma rd_mapped a n raw : rd C a n = Some raw ->
    all_mapped m a n = true /\ raw = le (fun x => ce_mem C (wrap x)) a n.
  Proof.
    unfold rd. rewrite all_mapped_forallb. destruct (forallb _ _) eqn:Hf; intros H; inversion H. split; [|reflexivity].
    rewrite forallb_forall in *. intros i Hi. apply Hmap, Hf, Hi.
  Qed.
  Lemma rd_kread a n raw ms : rd C a n = Some raw -> kagree C (ker ms) -> kread m ms a n = raw.
  Proof.
    intros H Hk. pose proof H as H'. apply rd_mapped in H as [H1 H2]. unfold kread. rewrite H1. subst raw.
    apply le_ext. intros x Hx. unfold kb. rewrite Hk; [reflexivity|].
    unfold rd in H'. destruct (forallb _ _) eqn:Hf; [|discriminate]. rewrite forallb_forall in Hf.
    specialize (Hf (Z.to_nat (x - a))). rewrite Z2Nat.id in Hf by lia. replace (a + (x - a)) with x in Hf by lia.
    apply Hf. apply in_seq. lia.
  Qed.
  Lemma rd_range a n raw : rd C a n = Some raw -> 0 <= raw < 2 ^ (8 * Z.of_nat n).
  Proof. intros H. apply rd_mapped in H as [_ ->]. rewrite <- pow256. apply le_range. Qed.
  Lemma rd_sub a n k raw : rd C a n = Some raw -> (k <= n)%nat ->
    rd C a k = Some (raw mod 2 ^ (8 * Z.of_nat k)).
  Proof.
    unfold rd. intros H Hk.
    destruct (forallb _ (seq 0 n)) eqn:Hf; [|discriminate]. inversion H; subst.
    replace n with (k + (n - k))%nat in Hf by lia. rewrite seq_app, forallb_app in Hf.
    apply andb_prop in Hf as [-> _]. rewrite le_mod by assumption. reflexivity.
  Qed.
End Mem.
Ltac kagr := solve [ assumption | repeat match goal with H : ker ?a = _ |- kagree _ (ker ?a) => rewrite H end; assumption ].
