(** * Numerics: under the guards of S_CSup the 64-bit unsigned machine operations compute the C
    values. *)
From Coq Require Import ZArith List Bool Lia String.
From Verif Require Import M_Ebpf M_CcNum M_Cc S_CSem S_CSup P_CcMach.
Import ListNotations.
Open Scope Z_scope.

Ltac bsplit H :=
  repeat match type of H with
  | (_ && _)%bool = true => let H1 := fresh "Hb" in apply andb_prop in H as [H H1]; bsplit H1
  end;
  try match type of H with
  | (_ <=? _) = true => apply Z.leb_le in H
  | (_ <? _) = true => apply Z.ltb_lt in H
  | (_ =? _) = true => apply Z.eqb_eq in H
  | negb _ = true => apply negb_true_iff in H
  end.

Lemma pow_neg0 z : z < 0 -> 2 ^ z = 0. Proof. apply Z.pow_neg_r. Qed.

Lemma conv_id t a : 0 <= a <= tmax t -> conv t a = a.
Proof.
  destruct t as [w [|]]; unfold conv, tmax; cbn [fst snd]; intros H.
  - destruct (Z.ltb_spec (8 * w - 1) 0) as [Hw|Hw].
    + rewrite (pow_neg0 (8 * w - 1)) in H by lia. lia.
    + apply sgn_id; lia.
  - destruct (Z.ltb_spec (8 * w) 0) as [Hw|Hw].
    + rewrite pow_neg0 in H by lia. lia.
    + apply Z.mod_small. lia.
Qed.
Lemma tmax_w t a : 0 <= a <= tmax t -> 0 <= 8 * fst t /\ (snd t = true -> 0 < 8 * fst t).
Proof.
  destruct t as [w [|]]; unfold tmax; cbn [fst snd]; intros H.
  - destruct (Z.ltb_spec (8 * w - 1) 0) as [Hw|Hw]; [rewrite (pow_neg0 (8 * w - 1)) in H by lia|]; lia.
  - destruct (Z.ltb_spec (8 * w) 0) as [Hw|Hw]; [rewrite pow_neg0 in H by lia|]; lia.
Qed.
Lemma conv_cong t a : 0 <= 8 * fst t -> (snd t = true -> 0 < 8 * fst t) ->
  conv t a mod 2 ^ (8 * fst t) = a mod 2 ^ (8 * fst t).
Proof.
  intros H H'. assert (0 < 2 ^ (8 * fst t)) by (apply Z.pow_pos_nonneg; lia).
  unfold conv. destruct (snd t) eqn:Hs.
  - apply sgn_mod. auto.
  - apply Z.mod_mod. lia.
Qed.
(** A result congruent to the exact one and both in range are equal. *)
Lemma arith_exact t y n z : arith t y = Some n -> tmin t <= z <= tmax t ->
  0 <= 8 * fst t -> (snd t = true -> 0 < 8 * fst t) ->
  y mod 2 ^ (8 * fst t) = z mod 2 ^ (8 * fst t) -> n = z.
Proof.
  intros Ha Hz Hw Hw' Hc. assert (Hp : 0 < 2 ^ (8 * fst t)) by (apply Z.pow_pos_nonneg; lia).
  unfold arith, tmax, tmin in *. destruct (snd t) eqn:Hs.
  - specialize (Hw' eq_refl).
    destruct ((- 2 ^ (8 * fst t - 1) <=? y) && (y <=? 2 ^ (8 * fst t - 1) - 1)) eqn:Hr; [|discriminate].
    inversion Ha; subst. bsplit Hr.
    assert (H2 : 2 ^ (8 * fst t) = 2 * 2 ^ (8 * fst t - 1)).
    { replace (8 * fst t) with (Z.succ (8 * fst t - 1)) at 1 by lia. rewrite Z.pow_succ_r by lia. reflexivity. }
    assert (Hd : (n - z) mod 2 ^ (8 * fst t) = 0).
    { rewrite Zminus_mod, Hc, Z.sub_diag. apply Z.mod_0_l. intros E0; rewrite E0 in Hp; lia. }
    apply Z.mod_divide in Hd; [|intros E0; rewrite E0 in Hp; lia]. destruct Hd as [k Hk].
    rewrite H2 in Hk. set (x := 2 ^ (8 * fst t - 1)) in *. clearbody x.
    destruct (Z.lt_trichotomy k 0) as [Hk0|[Hk0|Hk0]]; [nia|subst k; lia|nia].
  - assert (n = y mod 2 ^ (8 * fst t)) by congruence. subst n. rewrite Hc. apply Z.mod_small. lia.
Qed.

Definition opx (op : binop) (a b : Z) : Z :=
  match op with
  | BAdd => a + b | BSub => a - b | BMul => a * b
  | BDiv => a / b | BMod => a mod b
  | BAnd => Z.land a b | BOr => Z.lor a b | BXor => Z.lxor a b
  | BLsh => Z.shiftl a b | BRsh => Z.shiftr a b
  end.

Lemma mkint_inv t o n w sg : mkint t o = Some (CInt n w sg) -> o = Some n /\ t = (w, sg).
Proof. unfold mkint. destruct o; [|discriminate]. intros H; inversion H; subst. destruct t; auto. Qed.

Lemma ring_cong_add t a b : 0 <= 8 * fst t -> (snd t = true -> 0 < 8 * fst t) ->
  (conv t a + conv t b) mod 2 ^ (8 * fst t) = (a + b) mod 2 ^ (8 * fst t).
Proof. intros. rewrite Zplus_mod, !conv_cong by assumption. rewrite <- Zplus_mod. reflexivity. Qed.
Lemma ring_cong_sub t a b : 0 <= 8 * fst t -> (snd t = true -> 0 < 8 * fst t) ->
  (conv t a - conv t b) mod 2 ^ (8 * fst t) = (a - b) mod 2 ^ (8 * fst t).
Proof. intros. rewrite Zminus_mod, !conv_cong by assumption. rewrite <- Zminus_mod. reflexivity. Qed.
Lemma ring_cong_mul t a b : 0 <= 8 * fst t -> (snd t = true -> 0 < 8 * fst t) ->
  (conv t a * conv t b) mod 2 ^ (8 * fst t) = (a * b) mod 2 ^ (8 * fst t).
Proof. intros. rewrite Zmult_mod, !conv_cong by assumption. rewrite <- Zmult_mod. reflexivity. Qed.

(** [ring_ok]: the C result is the exact one modulo 2^64 and fits the tracked width. *)
Lemma ring_correct t y n z L : ring_ok z t L = true -> 0 < L <= 2 ^ 64 ->
  (0 <= 8 * fst t -> (snd t = true -> 0 < 8 * fst t) -> y mod 2 ^ (8 * fst t) = z mod 2 ^ (8 * fst t)) ->
  arith t y = Some n -> wrap z = n mod L.
Proof.
  intros Hr HL Hc Ha. unfold ring_ok in Hr. apply orb_prop in Hr as [Hr|Hr]; bsplit Hr.
  - destruct (tmax_w t z) as [Hw Hw']; [lia|].
    assert (n = z).
    { eapply arith_exact; eauto. split; [|assumption]. unfold tmin. destruct (snd t); [|lia].
      assert (0 < 2 ^ (8 * fst t - 1)) by (apply Z.pow_pos_nonneg; specialize (Hw' eq_refl); lia). lia. }
    subst. rewrite wrap_small by (rewrite M64_pow; lia). symmetry. apply Z.mod_small. lia.
  - subst L. destruct t as [tw ts]. cbn [fst snd] in *. subst tw.
    specialize (Hc ltac:(lia) ltac:(intros _; lia)). change (2 ^ (8 * 8)) with (2 ^ 64) in Hc.
    transitivity (y mod 2 ^ 64); [rewrite Hc; unfold wrap; rewrite M64_pow; reflexivity|].
    unfold arith in Ha. cbn [fst snd] in Ha. destruct ts.
    + destruct (_ && _); [|discriminate]. inversion Ha. reflexivity.
    + inversion Ha. symmetry. apply Z.mod_mod. lia.
Qed.
(** The result modulo any smaller power of two. *)
Lemma arith_cong t y n z j : 0 <= j <= 8 * fst t ->
  (0 <= 8 * fst t -> (snd t = true -> 0 < 8 * fst t) -> y mod 2 ^ (8 * fst t) = z mod 2 ^ (8 * fst t)) -> 0 < fst t ->
  arith t y = Some n -> n mod 2 ^ j = z mod 2 ^ j.
Proof.
  intros Hj Hc Hp Ha. specialize (Hc ltac:(lia) ltac:(intros _; lia)).
  rewrite <- (mod_pow_le z j (8 * fst t)), <- Hc, mod_pow_le by lia.
  unfold arith in Ha. destruct (snd t).
  - destruct (_ && _); [|discriminate]. inversion Ha. reflexivity.
  - injection Ha as <-. exact (mod_pow_le y j (8 * fst t) Hj).
Qed.
Lemma conv_fit t a : tmin t <= a <= tmax t -> conv t a = a.
Proof.
  intros H. destruct (Z.ltb_spec a 0) as [Hn|Hn]; [|apply conv_id; lia].
  unfold tmin, tmax, conv in *. destruct t as [w sg]. cbn [fst snd] in *. destruct sg; [|lia].
  destruct (Z.ltb_spec (8 * w - 1) 0). { rewrite (Z.pow_neg_r 2 (8 * w - 1)) in * by lia. lia. }
  apply sgn_id; lia.
Qed.
Lemma land_mod j x y : 0 <= j -> Z.land x y mod 2 ^ j = Z.land (x mod 2 ^ j) (y mod 2 ^ j).
Proof.
  intros Hj. apply Z.bits_inj'. intros i Hi. rewrite Z.land_spec. destruct (Z.ltb_spec i j).
  - rewrite !Z.mod_pow2_bits_low by lia. apply Z.land_spec.
  - rewrite !Z.mod_pow2_bits_high by lia. reflexivity.
Qed.
Lemma lor_mod j x y : 0 <= j -> Z.lor x y mod 2 ^ j = Z.lor (x mod 2 ^ j) (y mod 2 ^ j).
Proof.
  intros Hj. apply Z.bits_inj'. intros i Hi. rewrite Z.lor_spec. destruct (Z.ltb_spec i j).
  - rewrite !Z.mod_pow2_bits_low by lia. apply Z.lor_spec.
  - rewrite !Z.mod_pow2_bits_high by lia. reflexivity.
Qed.
Lemma lxor_mod j x y : 0 <= j -> Z.lxor x y mod 2 ^ j = Z.lxor (x mod 2 ^ j) (y mod 2 ^ j).
Proof.
  intros Hj. apply Z.bits_inj'. intros i Hi. rewrite Z.lxor_spec. destruct (Z.ltb_spec i j).
  - rewrite !Z.mod_pow2_bits_low by lia. apply Z.lxor_spec.
  - rewrite !Z.mod_pow2_bits_high by lia. reflexivity.
Qed.
(** Masking with a value below 2^j does not see the higher bits. *)
Lemma land_low j x b : 0 <= j -> 0 <= b < 2 ^ j -> Z.land (x mod 2 ^ j) b = Z.land x b.
Proof.
  intros Hj Hb. apply Z.bits_inj'. intros i Hi. rewrite !Z.land_spec. destruct (Z.ltb_spec i j).
  - rewrite Z.mod_pow2_bits_low by lia. reflexivity.
  - rewrite <- (Z.mod_small b (2 ^ j)) by assumption. rewrite !(Z.mod_pow2_bits_high b) by lia.
    rewrite !andb_false_r. reflexivity.
Qed.

Definition small_or_imm (b : Z) : Prop := - 2 ^ 63 <= b < 2 ^ 64.

Lemma shiftl_ge a b : 0 <= a -> 0 <= b -> a <= Z.shiftl a b.
Proof.
  intros. rewrite Z.shiftl_mul_pow2 by lia.
  assert (1 <= 2 ^ b) by (pose proof (Z.pow_pos_nonneg 2 b); lia). nia.
Qed.
Lemma land_le a b : 0 <= a -> 0 <= b -> 0 <= Z.land a b <= a.
Proof.
  intros Ha Hb. split; [apply Z.land_nonneg; auto|].
  destruct (Z.eq_dec a 0) as [->|Hn]; [rewrite Z.land_0_l; lia|].
  assert (H : Z.land a b = a - Z.ldiff a b).
  { assert (Hl : Z.land (Z.land a b) (Z.ldiff a b) = 0).
    { apply Z.bits_inj'. intros i Hi. rewrite !Z.land_spec, Z.ldiff_spec, Z.bits_0.
      destruct (Z.testbit a i), (Z.testbit b i); reflexivity. }
    assert (Ha' : Z.land a b + Z.ldiff a b = a).
    { rewrite Z.add_nocarry_lxor by exact Hl. apply Z.bits_inj'. intros i Hi.
      rewrite Z.lxor_spec, Z.land_spec, Z.ldiff_spec. destruct (Z.testbit a i), (Z.testbit b i); reflexivity. }
    lia. }
  assert (0 <= Z.ldiff a b) by (apply Z.ldiff_nonneg; auto). lia.
Qed.

Lemma arith_correct op a b ta tb n w sg L :
  c_int_op op a b ta tb = Some (CInt n w sg) -> arith_ok op a b (w, sg) L = true -> 0 < L <= 2 ^ 64 ->
  small_or_imm a -> small_or_imm b ->
  alu_sem (alu_of op) (wrap a) (wrap b) = n mod L /\
  (op = BDiv \/ op = BMod -> wrap b <> 0).
Proof.
  intros Hc Hok HL Ha Hb. unfold c_int_op in Hc.
  assert (HabM : forall x, 0 <= x -> small_or_imm x -> wrap x = x).
  { intros x Hx Hs; unfold small_or_imm in Hs; apply wrap_small; rewrite M64_pow; lia. }
  assert (Hmod : forall x, 0 <= x < L -> x = x mod L) by (intros; symmetry; apply Z.mod_small; assumption).
  assert (Hcv : forall x, L = 2 ^ 64 -> fst (w, sg) = 8 -> conv (w, sg) x mod L = wrap x).
  { intros x -> H8. pose proof (conv_cong (w, sg) x) as Hcc. rewrite H8 in Hcc. change (8 * 8) with 64 in Hcc.
    rewrite Hcc by lia. unfold wrap. rewrite M64_pow. reflexivity. }
  destruct op; cbn [arith_ok alu_of alu_sem] in *.
  - apply mkint_inv in Hc as [Hc Ht]. rewrite Ht in Hc.
    pose proof (ring_correct _ _ _ _ _ Hok HL (fun h1 h2 => ring_cong_add _ _ _ h1 h2) Hc) as H.
    rewrite wrap_add_l, wrap_add_r. split; [exact H|]. intros [|]; discriminate.
  - apply mkint_inv in Hc as [Hc Ht]. rewrite Ht in Hc.
    pose proof (ring_correct _ _ _ _ _ Hok HL (fun h1 h2 => ring_cong_sub _ _ _ h1 h2) Hc) as H.
    rewrite wrap_sub_r, wrap_sub_l. split; [exact H|]. intros [|]; discriminate.
  - apply mkint_inv in Hc as [Hc Ht]. rewrite Ht in Hc.
    pose proof (ring_correct _ _ _ _ _ Hok HL (fun h1 h2 => ring_cong_mul _ _ _ h1 h2) Hc) as H.
    rewrite wrap_mul_l, wrap_mul_r. split; [exact H|]. intros [|]; discriminate.
  - destruct (conv (common ta tb) b =? 0) eqn:Hz; [discriminate|].
    apply mkint_inv in Hc as [Hc Ht]. rewrite Ht in *. bsplit Hok.
    rewrite !conv_id in * by lia. rewrite !HabM by auto.
    assert (Hq : Z.quot a b = a / b) by (apply Z.quot_div_nonneg; lia). rewrite Hq in Hc.
    assert (0 <= a / b <= a) by (split; [apply Z.div_pos; lia|apply Z.div_le_upper_bound; nia]).
    destruct (tmax_w (w, sg) a) as [Hw Hw']; [lia|].
    assert (n = a / b).
    { eapply arith_exact; eauto. unfold tmin. destruct (snd (w, sg)) eqn:Hs; [|lia].
      assert (0 < 2 ^ (8 * fst (w, sg) - 1)) by (apply Z.pow_pos_nonneg; specialize (Hw' eq_refl); lia). lia. }
    destruct (Z.eqb_spec b 0); [lia|]. subst n. split; [apply Hmod; lia|]. intros _. lia.
  - destruct (conv (common ta tb) b =? 0) eqn:Hz; [discriminate|].
    apply mkint_inv in Hc as [Hc Ht]. rewrite Ht in *. bsplit Hok.
    rewrite !conv_id in * by lia. rewrite !HabM by auto.
    assert (Hq : Z.rem a b = a mod b) by (apply Z.rem_mod_nonneg; lia). rewrite Hq in Hc.
    assert (0 <= a mod b <= a).
    { split; [apply Z.mod_pos_bound; lia|apply Z.mod_le; lia]. }
    destruct (tmax_w (w, sg) a) as [Hw Hw']; [lia|].
    assert (n = a mod b).
    { eapply arith_exact; eauto. unfold tmin. destruct (snd (w, sg)) eqn:Hs; [|lia].
      assert (0 < 2 ^ (8 * fst (w, sg) - 1)) by (apply Z.pow_pos_nonneg; specialize (Hw' eq_refl); lia). lia. }
    destruct (Z.eqb_spec b 0); [lia|]. subst n. split; [apply Hmod; lia|]. intros _. lia.
  - apply mkint_inv in Hc as [Hc Ht]. rewrite Ht in *. split; [|intros [|]; discriminate].
    inversion Hc; subst n.
    assert (Hlow : forall x y, 0 <= y -> y <= tmax (w, sg) -> y < L -> small_or_imm y ->
      Z.land (wrap x) (wrap y) = Z.land (conv (w, sg) x) (conv (w, sg) y) mod L).
    { intros x y H1 H2 H3 H4. rewrite (conv_id _ y) by lia. destruct (tmax_w (w, sg) y) as [Hw Hw']; [lia|].
      assert (Hy : y < 2 ^ (8 * fst (w, sg))).
      { unfold tmax in H2. destruct (snd (w, sg)); [|lia]. specialize (Hw' eq_refl).
        assert (2 ^ (8 * fst (w, sg) - 1) <= 2 ^ (8 * fst (w, sg))) by (apply Z.pow_le_mono_r; lia). lia. }
      rewrite <- (land_low (8 * fst (w, sg)) (conv (w, sg) x) y) by lia.
      rewrite conv_cong by assumption. rewrite land_low by lia.
      rewrite (HabM y) by auto. unfold wrap. rewrite M64_pow, land_low by lia. apply Hmod.
      rewrite <- (land_low 64 x y) by lia.
      pose proof (land_le y (x mod 2 ^ 64) ltac:(lia) ltac:(apply Z.mod_pos_bound; lia)) as Hle.
      rewrite Z.land_comm in Hle. lia. }
    apply orb_prop in Hok as [Hok|Hok]; [apply orb_prop in Hok as [Hok|Hok]|]; bsplit Hok.
    + rewrite <- !Hcv by assumption. subst L. rewrite land_mod by lia. reflexivity.
    + apply Hlow; assumption.
    + rewrite Z.land_comm, (Z.land_comm (conv (w, sg) a)). apply Hlow; assumption.
  - apply mkint_inv in Hc as [Hc Ht]. rewrite Ht in *. split; [|intros [|]; discriminate].
    inversion Hc; subst n. apply orb_prop in Hok as [Hok|Hok]; bsplit Hok.
    + rewrite <- !Hcv by assumption. subst L. rewrite lor_mod by lia. reflexivity.
    + rewrite !conv_id in * by lia. rewrite !HabM by auto. apply Hmod.
      split; [apply Z.lor_nonneg; lia|assumption].
  - apply mkint_inv in Hc as [Hc Ht]. rewrite Ht in *. split; [|intros [|]; discriminate].
    inversion Hc; subst n. apply orb_prop in Hok as [Hok|Hok]; bsplit Hok.
    + rewrite <- !Hcv by assumption. subst L. rewrite lxor_mod by lia. reflexivity.
    + rewrite !conv_id in * by lia. rewrite !HabM by auto. apply Hmod.
      split; [apply Z.lxor_nonneg; split; intros; lia|assumption].
  - destruct ((b <? 0) || (8 * fst (promote ta) <=? b) || (snd (promote ta) && (conv (promote ta) a <? 0))); [discriminate|].
    apply mkint_inv in Hc as [Hc Ht]. rewrite Ht in *. bsplit Hok.
    rewrite conv_id in Hc by lia. rewrite (HabM a), (HabM b) by auto.
    rewrite Z.mod_small by lia.
    split; [exact (ring_correct _ _ _ _ _ Hb0 HL (fun _ _ => eq_refl) Hc)|]. intros [|]; discriminate.
  - destruct ((b <? 0) || (8 * fst (promote ta) <=? b)); [discriminate|].
    apply mkint_inv in Hc as [Hc Ht]. rewrite Ht in *. bsplit Hok.
    rewrite conv_id in Hc by lia. rewrite !HabM by auto.
    rewrite Z.mod_small by lia. inversion Hc; subst.
    split; [|intros [|]; discriminate]. apply Hmod.
    rewrite Z.shiftr_div_pow2 by lia. pose proof (Z.pow_pos_nonneg 2 b).
    split; [apply Z.div_pos; lia|]. eapply Z.le_lt_trans; [|exact Hb0].
    apply Z.div_le_upper_bound; nia.
Qed.

Lemma const_correct op a b ta tb n w sg :
  c_int_op op a b ta tb = Some (CInt n w sg) -> const_ok op a b (w, sg) = true ->
  fold_const op a b = Some n.
Proof.
  intros Hc Hok. unfold c_int_op in Hc.
  assert (Hring : forall y z, arith (w, sg) y = Some n ->
     (tmin (w, sg) <=? z) && (z <=? tmax (w, sg)) && (- 2 ^ 63 <=? z) && (z <? 2 ^ 63) = true ->
     (0 <= 8 * w -> (sg = true -> 0 < 8 * w) -> y mod 2 ^ (8 * w) = z mod 2 ^ (8 * w)) -> s64 z = n).
  { intros y z Hy Hz Hcg. bsplit Hz. rewrite s64_id by lia. symmetry.
    assert (Hw : 0 <= 8 * w /\ (sg = true -> 0 < 8 * w)).
    { unfold tmin, tmax in *. cbn [fst snd] in *. destruct sg.
      - destruct (Z.ltb_spec (8 * w - 1) 0); [rewrite (pow_neg0 (8 * w - 1)) in * by lia|]; lia.
      - destruct (Z.ltb_spec (8 * w) 0); [rewrite (pow_neg0 (8 * w)) in * by lia; lia|]. split; [lia|discriminate]. }
    destruct Hw. eapply arith_exact; eauto. }
  destruct op; cbn [const_ok fold_const] in *.
  - apply mkint_inv in Hc as [Hc Ht]. rewrite Ht in Hc. f_equal. eapply Hring; eauto.
    intros. apply (ring_cong_add (w, sg)); auto.
  - apply mkint_inv in Hc as [Hc Ht]. rewrite Ht in Hc. f_equal. eapply Hring; eauto.
    intros. apply (ring_cong_sub (w, sg)); auto.
  - apply mkint_inv in Hc as [Hc Ht]. rewrite Ht in Hc. f_equal. eapply Hring; eauto.
    intros. apply (ring_cong_mul (w, sg)); auto.
  - destruct (conv (common ta tb) b =? 0) eqn:Hz; [discriminate|].
    apply mkint_inv in Hc as [Hc Ht]. rewrite Ht in *. bsplit Hok.
    rewrite !conv_id in * by lia. 
    assert (Hq : Z.quot a b = a / b) by (apply Z.quot_div_nonneg; lia). rewrite Hq in *.
    assert (0 <= a / b <= a) by (split; [apply Z.div_pos; lia|apply Z.div_le_upper_bound; nia]).
    destruct (tmax_w (w, sg) a) as [Hw Hw']; [lia|].
    rewrite s64_id by lia. f_equal. symmetry. eapply arith_exact; eauto.
    unfold tmin. destruct (snd (w, sg)) eqn:Hs; [|lia].
    assert (0 < 2 ^ (8 * fst (w, sg) - 1)) by (apply Z.pow_pos_nonneg; specialize (Hw' eq_refl); lia). lia.
  - destruct (conv (common ta tb) b =? 0) eqn:Hz; [discriminate|].
    apply mkint_inv in Hc as [Hc Ht]. rewrite Ht in *. bsplit Hok.
    rewrite !conv_id in * by lia. 
    assert (Hq : Z.rem a b = a mod b) by (apply Z.rem_mod_nonneg; lia). rewrite Hq in *.
    assert (0 <= a mod b <= a).
    { split; [apply Z.mod_pos_bound; lia|apply Z.mod_le; lia]. }
    destruct (tmax_w (w, sg) a) as [Hw Hw']; [lia|].
    rewrite s64_id by lia. f_equal. symmetry. eapply arith_exact; eauto.
    unfold tmin. destruct (snd (w, sg)) eqn:Hs; [|lia].
    assert (0 < 2 ^ (8 * fst (w, sg) - 1)) by (apply Z.pow_pos_nonneg; specialize (Hw' eq_refl); lia). lia.
  - apply mkint_inv in Hc as [Hc Ht]. rewrite Ht in *. bsplit Hok. rewrite !conv_id in * by lia. exact Hc.
  - apply mkint_inv in Hc as [Hc Ht]. rewrite Ht in *. bsplit Hok. rewrite !conv_id in * by lia. exact Hc.
  - apply mkint_inv in Hc as [Hc Ht]. rewrite Ht in *. bsplit Hok. rewrite !conv_id in * by lia. exact Hc.
  - destruct ((b <? 0) || (8 * fst (promote ta) <=? b) || (snd (promote ta) && (conv (promote ta) a <? 0))); [discriminate|].
    apply mkint_inv in Hc as [Hc Ht]. rewrite Ht in *.
    apply andb_prop in Hok as [Hok Hr]. bsplit Hok. rewrite conv_id in Hc by lia.
    destruct (Z.ltb_spec b 0); [lia|]. destruct (Z.leb_spec 64 b); [lia|].
    f_equal. eapply Hring; eauto.
  - destruct ((b <? 0) || (8 * fst (promote ta) <=? b)); [discriminate|].
    apply mkint_inv in Hc as [Hc Ht]. rewrite Ht in *. bsplit Hok. rewrite conv_id in Hc by lia.
    destruct (Z.ltb_spec b 0); [lia|]. destruct (Z.leb_spec 64 b); [lia|]. exact Hc.
Qed.
