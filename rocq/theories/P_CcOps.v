(** * Correctness of the code emitted for each operator on evaluated operands. *)
From Coq Require Import ZArith List Bool Lia String.
From Verif Require Import M_Ebpf P_Ebpf M_CcNum M_Cc S_CSem S_CSup P_CcMach P_CcWalk P_CcNumr P_CcMat P_CcVal.
Import ListNotations.
Open Scope Z_scope.

Lemma pow_bound_bits z n : 0 <= n -> 0 <= z -> (forall i, n <= i -> Z.testbit z i = false) -> z < 2 ^ n.
Proof.
  intros Hn Hz Hb. destruct (Z.eq_dec z 0) as [->|Hz0]; [apply Z.pow_pos_nonneg; lia|].
  apply Z.log2_lt_pow2; [lia|]. destruct (Z.ltb_spec (Z.log2 z) n); [assumption|].
  specialize (Hb (Z.log2 z) ltac:(assumption)).
  rewrite (Z.bit_log2 z) in Hb by lia. discriminate.
Qed.
Lemma high_bits z n i : 0 <= z < 2 ^ n -> n <= i -> Z.testbit z i = false.
Proof.
  intros Hz Hi. destruct (Z.ltb_spec n 0). { rewrite Z.pow_neg_r in Hz by lia. lia. }
  destruct (Z.eq_dec z 0) as [->|]; [apply Z.bits_0|].
  apply Z.bits_above_log2; [lia|]. assert (Z.log2 z < n) by (apply Z.log2_lt_pow2; lia). lia.
Qed.
Lemma bitop_range (f : Z -> Z -> Z) (g : bool -> bool -> bool) a b n :
  (forall i, Z.testbit (f a b) i = g (Z.testbit a i) (Z.testbit b i)) -> g false false = false -> 0 <= n ->
  0 <= f a b -> 0 <= a < 2 ^ n -> 0 <= b < 2 ^ n -> 0 <= f a b < 2 ^ n.
Proof.
  intros Hf Hg Hn H0 Ha Hb. split; [assumption|]. apply pow_bound_bits; try assumption.
  intros i Hi. rewrite Hf, (high_bits a n), (high_bits b n) by assumption. assumption.
Qed.
Lemma s64_range z : - 2 ^ 63 <= s64 z < 2 ^ 63.
Proof.
  unfold s64, sgn. pose proof (Z.mod_pos_bound z (2 ^ 64) ltac:(lia)).
  change (64 - 1) with 63. destruct (Z.ltb_spec (z mod 2 ^ 64) (2 ^ 63)); lia.
Qed.
Lemma fold_const_range op a b n ct : fold_const op a b = Some n -> const_ok op a b ct = true ->
  - 2 ^ 63 <= a < 2 ^ 63 -> - 2 ^ 63 <= b < 2 ^ 63 -> - 2 ^ 63 <= n < 2 ^ 63.
Proof.
  intros Hf Hc Ha Hb. destruct op; cbn [fold_const const_ok] in *.
  1-5: inversion Hf; subst; apply s64_range.
  - inversion Hf; subst. bsplit Hc.
    destruct (bitop_range Z.land andb a b 63 ltac:(intros; apply Z.land_spec) eq_refl); try lia.
    apply Z.land_nonneg; lia.
  - inversion Hf; subst. bsplit Hc.
    destruct (bitop_range Z.lor orb a b 63 ltac:(intros; apply Z.lor_spec) eq_refl); try lia.
    apply Z.lor_nonneg; lia.
  - inversion Hf; subst. bsplit Hc.
    destruct (bitop_range Z.lxor xorb a b 63 ltac:(intros; apply Z.lxor_spec) eq_refl); try lia.
    apply Z.lxor_nonneg; lia.
  - destruct (b <? 0); [discriminate|]. destruct (64 <=? b); inversion Hf; subst; [lia|apply s64_range].
  - bsplit Hc. destruct (b <? 0); [discriminate|].
    destruct (Z.leb_spec 64 b); [lia|]. inversion Hf; subst. rewrite Z.shiftr_div_pow2 by lia.
    assert (0 < 2 ^ b) by (apply Z.pow_pos_nonneg; lia).
    assert (0 <= a / 2 ^ b) by (apply Z.div_pos; lia).
    assert (a / 2 ^ b <= a) by (apply Z.div_le_upper_bound; nia). lia.
Qed.

Section Ops.
  Variables (K : cfg) (C : cenv) (m : mach) (A : Z).
  Hypothesis Hmap : forall a, ce_map C a = true -> mapped m a = true.
  Hypothesis HE : ce_bt C = cf_env K.
  Hypothesis Hslot : forall i, (i < List.length (cf_vars K))%nat ->
    Z.of_nat i * 8 < 2 ^ 15 /\ rd C (A + Z.of_nat i * 8) 8 = Some (ce_slot C i).
  Notation E := (cf_env K).
  Notation walk := (walk K C).
  Notation bval := (bval C).
  Notation bok := (bok K).
  Notation mval := (mval K C).
  Notation lim := (lim K).
  Notation vrel := (vrel K C).
  Notation ptr_inv := (ptr_inv K).
  Notation adj_ok := (adj_ok K).
  Notation nowr := (nowr K).
  Notation Sok := (Sok K).
  Notation pre := (pre C A).

  Definition keep (U : reg -> bool) (s : cst) : Prop := forall r, U r = true -> c_regs s r = true.
  Definition keepv (U : reg -> bool) (s : cst) (v : value) : Prop :=
    forall r, In r (vregs v) -> c_regs s r = true /\ U r = false.

  Lemma nowr_l a b : nowr (a ++ b) -> nowr a. Proof. intros H. apply nowr_app in H. tauto. Qed.
  Lemma nowr_r a b : nowr (a ++ b) -> nowr b. Proof. intros H. apply nowr_app in H. tauto. Qed.

  Lemma Sok_free s r : Sok s -> r <> 9%nat -> Sok (cfree s r).
  Proof.
    intros (H9 & Hle & Hlo) Hr. unfold cfree, free, P_CcMat.Sok. cbn [c_regs].
    destruct (Nat.leb r 9); [|auto]. repeat split.
    - rewrite upd_neq by auto. assumption.
    - intros x. destruct (Nat.eq_dec x r) as [->|]; [rewrite upd_eq; discriminate|].
      rewrite upd_neq by assumption. auto.
    - intros Hm x. destruct (Nat.eq_dec x r) as [->|]; [rewrite upd_eq; discriminate|].
      rewrite upd_neq by assumption. auto.
  Qed.
  Lemma free_keep s r x : x <> r -> c_regs s x = true -> c_regs (cfree s r) x = true.
  Proof.
    intros Hx H. unfold cfree, free. cbn [c_regs]. destruct (Nat.leb r 9); [|assumption].
    rewrite upd_neq by assumption. assumption.
  Qed.
  Lemma keep_free U s r : keep U s -> U r = false -> keep U (cfree s r).
  Proof. intros H Hr x Hx. apply free_keep; [congruence|auto]. Qed.
  Lemma Sok_emit s l : Sok (emit s l) <-> Sok s.
  Proof. reflexivity. Qed.

  Lemma mat1 U s v v' s' : materialize K s v = ROk v' s' -> keep U s -> keepv U s v -> U 9%nat = true ->
    exists r d, v' = VMat r (v_btf v) (v_mem v) /\ c_code s' = c_code s ++ d /\
      keep U s' /\ c_regs s' r = true /\ U r = false /\ (In r (vregs v) \/ c_regs s r = false) /\
      (forall x, c_regs s x = true -> c_regs s' x = true) /\
      (nowr d -> Sok s -> Sok s' /\ r <> RFP /\ forall ms n, pre ms -> mval ms v n ->
         exists ms', exec m d 0 ms = FFall 0 ms' /\ frame (c_regs s) ms ms' /\ rg ms' r = n).
  Proof.
    intros H Hk Hkv H9. destruct (mat_ok K C m A Hmap Hslot _ _ _ _ H) as (r & d & H1 & H2 & H3 & H4).
    exists r, d. split; [assumption|]. split; [assumption|].
    destruct H3 as [[Hin ->]|(Hfr & Hr8 & Hu)].
    - destruct (Hkv r Hin) as [Ha Hb]. do 5 (split; [solve [auto]|]). intros Hn Hs.
      destruct (H4 Hn Hs) as [Hs' Hx]. split; [assumption|]. split; [|assumption].
      intros ->. destruct Hs as (_ & Hle & _). apply Hle in Ha. unfold RFP in Ha. lia.
    - rewrite Hu. assert (HUr : U r = false).
      { destruct (U r) eqn:Hq; [|reflexivity]. apply Hk in Hq. congruence. }
      split. { intros x Hx. rewrite Hu. destruct (Nat.eq_dec x r) as [->|]; [apply upd_eq|].
               rewrite upd_neq by assumption. auto. }
      split; [apply upd_eq|]. split; [assumption|]. split; [right; assumption|].
      split. { intros x Hx. destruct (Nat.eq_dec x r) as [->|]; [apply upd_eq|].
               rewrite upd_neq by assumption. auto. }
      intros Hn Hs. destruct (H4 Hn Hs) as [Hs' Hsem]. split; [assumption|].
      split; [unfold RFP; lia|assumption].
  Qed.

  Lemma mat2 U s l r lv rv s1 s2 : materialize K s l = ROk lv s1 -> materialize K s1 r = ROk rv s2 ->
    keep U s -> keepv U s l -> keepv U s r -> (forall x, In x (vregs l) -> ~ In x (vregs r)) -> U 9%nat = true ->
    exists r1 r2 d, lv = VMat r1 (v_btf l) (v_mem l) /\ rv = VMat r2 (v_btf r) (v_mem r) /\
      c_code s2 = c_code s ++ d /\ keep U s2 /\ c_regs s2 r1 = true /\ c_regs s2 r2 = true /\
      U r1 = false /\ U r2 = false /\ r1 <> r2 /\
      (nowr d -> Sok s -> Sok s2 /\ r1 <> RFP /\ r2 <> RFP /\ forall ms n1 n2, pre ms -> mval ms l n1 -> mval ms r n2 ->
         exists ms', exec m d 0 ms = FFall 0 ms' /\ frame U ms ms' /\ rg ms' r1 = n1 /\ rg ms' r2 = n2).
  Proof.
    intros Hl Hr Hk Hkl Hkr Hdis H9.
    destruct (mat1 U _ _ _ _ Hl Hk Hkl H9) as (r1 & d1 & -> & Hc1 & Hk1 & Hu1 & HU1 & Hfr1 & Hmono1 & Hsem1).
    assert (Hkr1 : keepv U s1 r).
    { intros x Hx. destruct (Hkr x Hx) as [Ha Hb]. auto. }
    destruct (mat1 U _ _ _ _ Hr Hk1 Hkr1 H9) as (r2 & d2 & -> & Hc2 & Hk2 & Hu2 & HU2 & Hfr2 & Hmono2 & Hsem2).
    exists r1, r2, (d1 ++ d2). split; [reflexivity|]. split; [reflexivity|]. split; [rewrite Hc2, Hc1, app_assoc; reflexivity|]. do 5 (split; [solve [auto]|]).
    split.
    { intros ->. destruct Hfr2 as [Hin2|Hf2]; [|congruence].
      destruct Hfr1 as [Hin1|Hf1]; [apply (Hdis r2); assumption|].
      destruct (Hkr r2 Hin2); congruence. }
    intros Hnw Hs. destruct (Hsem1 (nowr_l _ _ Hnw) Hs) as (Hs1 & Hrf1 & Hs1').
    destruct (Hsem2 (nowr_r _ _ Hnw) Hs1) as (Hs2 & Hrf2 & Hs2').
    split; [assumption|]. split; [assumption|]. split; [assumption|].
    intros ms n1 n2 Hp Hm1 Hm2.
    destruct (Hs1' ms n1 Hp Hm1) as (ms1 & E1 & F1 & G1).
    assert (Hp1 : pre ms1) by (exact (pre_frame K C A s ms ms1 Hs F1 Hp)).
    assert (Hm2' : mval ms1 r n2).
    { eapply mval_frame; eauto. intros x Hx. apply Hkr. assumption. }
    destruct (Hs2' ms1 n2 Hp1 Hm2') as (ms2 & E2 & F2 & G2).
    exists ms2. rewrite exec_app, E1. split; [assumption|].
    split; [|split; [|assumption]].
    - eapply frame_trans; [eapply frame_mono; [|exact F1]; auto|eapply frame_mono; [|exact F2]; auto].
    - rewrite <- G1. apply F2. left; assumption.
  Qed.

  (** ** Operands *)
  Definition orel (ms : mst) (v : value) (o : opnd) : Prop :=
    match o with
    | ONum n t => v = VConst n t /\ - 2 ^ 63 <= n < 2 ^ 63
    | ORun n t l => mval ms v n /\ v_btf v = t /\ adj_ok v l /\ 0 <= n < 2 ^ 64 /\ runtime v = true /\ 0 < l
    end.
  Definition otype (o : opnd) := match o with ONum _ t => t | ORun _ t _ => t end.
  Definition onum (o : opnd) := match o with ONum n _ => n | ORun n _ _ => n end.

  Lemma resolve_vregs v1 v2 l r : resolve_enums v1 v2 = Some (l, r) -> vregs l = vregs v1 /\ vregs r = vregs v2.
  Proof.
    unfold resolve_enums. destruct v1 as [a ta|b1 f1 t1 m1|r1 t1 m1|x1 t1], v2 as [a' ta'|b2 f2 t2 m2|r2 t2 m2|x2 t2];
    cbn [runtime is_mat is_pend orb v_btf]; intros H;
    repeat match type of H with
      | context [extract_enum ?t ?n] => destruct (extract_enum t n)
      end; try discriminate; inversion H; subst; split; reflexivity.
  Qed.
  Lemma tracked_btf ms v c k : vrel ms v c k -> is_run k = true -> tracked c k = v_btf v /\ runtime v = true.
  Proof.
    destruct k as [t|x|prev off|off|t pend hop]; cbn [P_CcVal.vrel is_run]; try discriminate; intros H _.
    - destruct H as (b & offs & o & t & mm & a & bf & p & -> & -> & _). cbn. auto.
    - destruct H as (b & offs & o & t & mm & a & p & -> & -> & _). cbn. auto.
    - destruct H as (n & Hn & _ & H). destruct pend.
      + destruct H as (b & offs & mm & raw & -> & _). destruct c; cbn; auto.
      + destruct H as (r & -> & _). destruct c; cbn; auto.
  Qed.
  Lemma resolve_cases v1 v2 l r : resolve_enums v1 v2 = Some (l, r) ->
    match v1 with VEnum n _ => if runtime v2 then exists k, extract_enum (v_btf v2) n = Some k /\ l = VConst (s64 k) None else l = v1
                | _ => l = v1 end /\
    match v2 with VEnum n _ => if runtime v1 then exists k, extract_enum (v_btf v1) n = Some k /\ r = VConst (s64 k) None else r = v2
                | _ => r = v2 end.
  Proof.
    unfold resolve_enums. destruct v1 as [a ta|b1 f1 t1 m1|r1 t1 m1|x1 t1], v2 as [a' ta'|b2 f2 t2 m2|r2 t2 m2|x2 t2];
    cbn [runtime is_mat is_pend orb v_btf]; intros H;
    repeat match type of H with
      | context [extract_enum ?t ?n] => destruct (extract_enum t n) eqn:?
      end; try discriminate; inversion H; subst; split; try reflexivity; eexists; split; try reflexivity; assumption.
  Qed.
  (** The same for values of any sign, held by their remainders. *)
  Definition orelr (ms : mst) (v : value) (o : opnd) : Prop :=
    match o with
    | ONum n t => v = VConst n t /\ - 2 ^ 63 <= n < 2 ^ 63
    | ORun n t l => mval ms v (n mod l) /\ v_btf v = t /\ adj_ok v l /\ inrep l n /\ runtime v = true /\ 0 < l <= 2 ^ 64
    end.
  Lemma resolve_oner ms v1 c1 k1 v2 c2 k2 o1 l :
    vrel ms v1 c1 k1 -> vrel ms v2 c2 k2 -> operandr K C c1 k1 c2 k2 = Some o1 ->
    match v1 with VEnum n _ => if runtime v2 then exists k, extract_enum (v_btf v2) n = Some k /\ l = VConst (s64 k) None else l = v1
                | _ => l = v1 end ->
    orelr ms l o1 /\ (exists x, rval C c1 = Some x /\ num x = Some (onum o1) /\ ptr_inv x (otype o1) /\
       match o1 with ONum _ _ => exists w sg, x = CInt (onum o1) w sg | ORun _ _ _ => True end) /\
    match o1 with ORun n t lm => l = v1 /\ ldr K C c1 k1 = Some (n, t, lm) | ONum _ _ => True end.
  Proof.
    intros H1 H2 Ho Hl. unfold operandr in Ho.
    assert (Hrun : forall n t lm, ldr K C c1 k1 = Some (n, t, lm) -> orelr ms v1 (ORun n t lm) /\
        (exists x, rval C c1 = Some x /\ num x = Some n /\ ptr_inv x t) /\ is_pend v1 || is_mat v1 = true).
    { intros n t lm Hld. destruct (ldr_mval K C m Hmap HE _ _ _ _ _ _ _ H1 Hld) as (Q1 & Q2 & Q3 & Q4 & Q5 & Q6 & Q7 & Q8).
      split; [cbn [orelr]; auto 10|]. split; [assumption|]. unfold runtime in Q5. rewrite orb_comm. assumption. }
    destruct k1 as [t1|x1|prev off|off|t1 pend hop].
    - destruct H1 as (n & w & sg & -> & -> & Hn). cbn [operand_by] in Ho. inversion Ho; subst o1.
      subst l. cbn [orelr rval onum otype]. split; [auto|]. split; [|exact I].
      exists (CInt n w sg). split; [reflexivity|]. split; [reflexivity|]. split; [intros ? ? Hq; discriminate|eauto].
    - destruct H1 as (n & w & sg & -> & ->). cbn [operand_by] in Ho.
      destruct (is_run k2) eqn:Hr2; [|discriminate].
      destruct (tracked_btf _ _ _ _ H2 Hr2) as [Htr Hrt]. rewrite Htr in Ho. rewrite Hrt in Hl.
      destruct Hl as (k & Hk & ->). rewrite Hk in Ho.
      destruct ((k =? n) && (- 2 ^ 63 <=? n) && (n <? 2 ^ 63)) eqn:Hg; [|discriminate]. bsplit Hg.
      inversion Ho; subst o1 k. cbn [orelr rval onum otype]. rewrite s64_id by lia.
      split; [auto|]. split; [|exact I].
      exists (CInt n w sg). split; [reflexivity|]. split; [reflexivity|]. split; [intros ? ? Hq; discriminate|eauto].
    - cbn [operand_by] in Ho. destruct (ldr K C c1 (KLoc prev off)) as [[[n t] lm]|] eqn:Hld; [|destruct c1; discriminate].
      assert (o1 = ORun n t lm) by (destruct c1; congruence). subst o1.
      destruct (Hrun _ _ _ eq_refl) as (Q1 & (x & Q2 & Q3 & Q4) & Q5).
      assert (l = v1) by (destruct v1; try discriminate; assumption). subst l.
      split; [assumption|]. split; [exists x; auto|auto].
    - cbn [operand_by] in Ho. destruct (ldr K C c1 (KElem off)) as [[[n t] lm]|] eqn:Hld; [|destruct c1; discriminate].
      assert (o1 = ORun n t lm) by (destruct c1; congruence). subst o1.
      destruct (Hrun _ _ _ eq_refl) as (Q1 & (x & Q2 & Q3 & Q4) & Q5).
      assert (l = v1) by (destruct v1; try discriminate; assumption). subst l.
      split; [assumption|]. split; [exists x; auto|auto].
    - cbn [operand_by] in Ho. destruct (ldr K C c1 (KVal t1 pend hop)) as [[[n t] lm]|] eqn:Hld; [|destruct c1; discriminate].
      assert (o1 = ORun n t lm) by (destruct c1; congruence). subst o1.
      destruct (Hrun _ _ _ eq_refl) as (Q1 & (x & Q2 & Q3 & Q4) & Q5).
      assert (l = v1) by (destruct v1; try discriminate; assumption). subst l.
      split; [assumption|]. split; [exists x; auto|auto].
  Qed.
  (** Operands of non-negative value. *)
  Lemma operand_r c1 k1 c2 k2 o : operand K C c1 k1 c2 k2 = Some o -> operandr K C c1 k1 c2 k2 = Some o /\
    match o with ORun n t lm => ld K C c1 k1 = Some (n, t, lm) /\ 0 <= n | ONum _ _ => True end.
  Proof.
    unfold operand, operandr. intros H.
    assert (Hgo : forall q, match ld K C c1 k1 with Some (n, t, l) => Some (ORun n t l) | None => None end = Some q ->
      match ldr K C c1 k1 with Some (n, t, l) => Some (ORun n t l) | None => None end = Some q /\
      match q with ORun n t lm => ld K C c1 k1 = Some (n, t, lm) /\ 0 <= n | ONum _ _ => True end).
    { intros q Hq. destruct (ld K C c1 k1) as [[[n t] l]|] eqn:Hl; [|discriminate]. inversion Hq; subst q.
      destruct (ld_ldr K C _ _ _ _ _ Hl) as [-> Hn]. auto. }
    unfold operand_by in *.
    destruct k1 as [t1|x1|prev off|off|t1 pend hop]; try (apply Hgo; exact H).
    - destruct c1 as [n w sg| |]; [|apply Hgo; exact H|apply Hgo; exact H]. inversion H; subst. auto.
    - destruct c1 as [n w sg| |]; [|apply Hgo; exact H|apply Hgo; exact H]. split; [exact H|].
      destruct (is_run k2); [|discriminate]. destruct (extract_enum (tracked c2 k2) x1); [|discriminate].
      destruct (_ && _); [|discriminate]. inversion H; subst. exact I.
  Qed.
  Lemma resolve_one ms v1 c1 k1 v2 c2 k2 o1 l :
    vrel ms v1 c1 k1 -> vrel ms v2 c2 k2 -> operand K C c1 k1 c2 k2 = Some o1 ->
    match v1 with VEnum n _ => if runtime v2 then exists k, extract_enum (v_btf v2) n = Some k /\ l = VConst (s64 k) None else l = v1
                | _ => l = v1 end ->
    orel ms l o1 /\ (exists x, rval C c1 = Some x /\ num x = Some (onum o1) /\ ptr_inv x (otype o1) /\
       match o1 with ONum _ _ => exists w sg, x = CInt (onum o1) w sg | ORun _ _ _ => True end) /\
    match o1 with ORun n t lm => l = v1 /\ ld K C c1 k1 = Some (n, t, lm) | ONum _ _ => True end.
  Proof.
    intros H1 H2 Ho Hl. destruct (operand_r _ _ _ _ _ Ho) as [Hor Hn].
    destruct (resolve_oner _ _ _ _ _ _ _ _ _ H1 H2 Hor Hl) as (Q1 & Q2 & Q3).
    destruct o1 as [n t|n t lm]; [auto|]. destruct Hn as [Hld Hn0], Q3 as [-> _].
    split; [|split; [exact Q2|auto]]. cbn [orelr orel] in *. destruct Q1 as (A1 & A2 & A3 & [A4 A4'] & A5 & A6 & A7).
    rewrite Z.mod_small in A1 by lia. split; [exact A1|]. split; [exact A2|]. split; [exact A3|]. split; [lia|].
    split; [exact A5|lia].
  Qed.

  Definition obound (o : opnd) := match o with ONum _ _ => 2 ^ 64 | ORun _ _ l => l end.
  Lemma orelr_mval ms v o : orelr ms v o ->
    match o with ONum n _ => s32ok n = true | ORun _ _ _ => True end ->
    mval ms v (onum o mod obound o) /\ v_btf v = otype o /\ small_or_imm (onum o) /\ 0 <= onum o mod obound o < M64 /\
    inrep (obound o) (onum o).
  Proof.
    rewrite M64_pow. destruct o as [n t|n t l]; cbn [orelr onum otype obound].
    - intros [-> Hn] Hs. apply s32ok_spec in Hs. cbn [P_CcMat.mval v_btf]. unfold small_or_imm, inrep.
      pose proof (Z.mod_pos_bound n (2 ^ 64) ltac:(lia)). unfold wrap. rewrite M64_pow. split; [auto|]. split; [reflexivity|]. lia.
    - intros (Hm & Ht & _ & Hr & _ & Hl) _. pose proof (Z.mod_pos_bound n l ltac:(lia)).
      unfold small_or_imm, inrep in *. split; [exact Hm|]. split; [exact Ht|]. lia.
  Qed.
  Lemma lim_pow t : exists j, 0 <= j <= 64 /\ lim t = 2 ^ j.
  Proof.
    destruct (lim_cases K t) as [[_ Hq]|[[_ Hq]|[[_ Hq]|(_ & _ & _ & Hq)]]]; [exists 8|exists 16|exists 32|exists 64]; (split; [lia|exact Hq]).
  Qed.
  Lemma ldr_pow2 c k n t l : ldr K C c k = Some (n, t, l) -> exists j, 0 <= j <= 64 /\ l = 2 ^ j.
  Proof.
    destruct k as [t0|x|prev off|off|t0 pend hop]; cbn [ldr]; intros H; try (destruct c; discriminate).
    - destruct c as [| |a t0 bf]; try discriminate.
      destruct (readable K C a prev (Some t0) off) as [nb|]; [|discriminate].
      assert (Hb : match bf with
            | None => exists n0, Some (n0, Some t0, lim (Some t0)) = Some (n, t, l)
            | Some (st, b) => (0 <? b) = true /\ (b <? 32) = true /\ l = 2 ^ b
            end).
      { destruct (rval C (CLoc a t0 bf)) as [[z w sg|z u|]|]; try discriminate;
        (destruct (is_arr t0); [discriminate|]);
        (destruct bf as [[st b]|]; [|eauto]);
        destruct ((0 <=? st) && (st <? 8) && (0 <? b) && (b <? 32) && (st + b <=? 8 * Z.of_nat nb)) eqn:Hg; try discriminate;
        repeat match goal with Hq : _ && _ = true |- _ => apply andb_prop in Hq as [Hq ?] end; inversion H; auto. }
      destruct bf as [[st b]|].
      + destruct Hb as (Hb1 & Hb2 & ->). apply Z.ltb_lt in Hb1, Hb2. exists b. split; [lia|reflexivity].
      + destruct Hb as [n0 Hb]. inversion Hb; subst. apply lim_pow.
    - destruct c as [| |a t0 [|]]; try discriminate.
      destruct (is_arr t0 && (tw K (Some t0) =? 8)); [|discriminate]. inversion H; subst. exists 64. split; [lia|reflexivity].
    - assert (Hq : l = lim t0).
      { destruct c; try discriminate; (destruct ((- lim t0 <=? 2 * _) && _); [|discriminate]); congruence. }
      subst l. apply lim_pow.
  Qed.
  (** The representations of supported operands serve as 64-bit ones. *)
  Lemma wide_rep n l : wide n l = true -> inrep l n -> 0 < l <= 2 ^ 64 -> n mod l = wrap n.
  Proof.
    unfold wide, inrep, wrap. rewrite M64_pow. intros Hw [H1 H2] Hl. apply orb_prop in Hw as [Hw|Hw].
    - apply Z.leb_le in Hw. rewrite !Z.mod_small by lia. reflexivity.
    - apply Z.eqb_eq in Hw. subst l. reflexivity.
  Qed.

  Lemma pend_of_spec ms v c k n t l : vrel ms v c k -> ldr K C c k = Some (n, t, l) -> pend_of k = is_pend v.
  Proof.
    destruct k as [t0|x|prev off|off|t0 pend hop]; cbn [P_CcVal.vrel ldr pend_of]; intros H Hl.
    - destruct c; discriminate.
    - destruct c; discriminate.
    - destruct H as (b & offs & o & t1 & mm & a & bf & p & -> & _). reflexivity.
    - destruct H as (b & offs & o & t1 & mm & a & p & -> & _). reflexivity.
    - destruct H as (n0 & Hn & _ & H). destruct pend.
      + destruct H as (b & offs & mm & raw & -> & _). reflexivity.
      + destruct H as (r & -> & _). reflexivity.
  Qed.
  Lemma hop_spec ms b offs t0 mm c k n t l : vrel ms (VPend b offs t0 mm) c k -> ldr K C c k = Some (n, t, l) ->
    hop_of k && (n =? 0) = false -> bf_of c = false -> exists raw, bok ms b /\ is_bf mm = false /\
      walk (bval ms b) offs = Some raw /\ raw mod lim t = n mod lim t /\ t0 = t /\
      (ends_deref offs = true -> raw <> 0).
  Proof.
    intros Hv Hl Hh Hbc.
    destruct (ldr_mval K C m Hmap HE _ _ _ _ _ _ _ Hv Hl) as (Hm & Ht & _ & Hr & _ & _ & Hbf & _).
    cbn [v_mem v_btf] in *. subst t0.
    assert (Hb : is_bf mm = false) by (destruct (is_bf mm); [rewrite Hbf in Hbc by reflexivity; discriminate|reflexivity]).
    assert (Hlt : l = lim t).
    { destruct k as [t1|x|prev off|off|t1 pend hop]; cbn [ldr] in Hl; try (destruct c; discriminate).
      - destruct c as [| |a t1 bf]; try discriminate. destruct bf; [discriminate|].
        destruct (readable K C a prev (Some t1) off); [|discriminate].
        destruct (rval C (CLoc a t1 None)) as [[z w sg|z u|]|]; try discriminate;
        (destruct (is_arr t1); [discriminate|]); inversion Hl; reflexivity.
      - destruct c as [| |a t1 [|]]; try discriminate.
        destruct (is_arr t1 && (tw K (Some t1) =? 8)) eqn:Hq; [|discriminate]. inversion Hl; subst.
        apply andb_prop in Hq as [_ Hq]. apply Z.eqb_eq in Hq. unfold S_CSup.lim. rewrite Hq. reflexivity.
      - destruct c; try discriminate; (destruct ((- lim t1 <=? 2 * _) && _); [|discriminate]); congruence. }
    subst l. cbn [P_CcMat.mval] in Hm. destruct Hm as (Hbo & _ & raw & Hw & Hn).
    exists raw. split; [assumption|]. split; [assumption|]. split; [assumption|].
    assert (Hn' : n mod lim t = raw mod lim t) by (unfold tailf in Hn; destruct mm; [rewrite Hb in Hn|]; assumption).
    split; [symmetry; assumption|]. split; [reflexivity|]. intros He Hr0. subst raw.
    rewrite Z.mod_0_l in Hn' by (pose proof (lim_pos K t); lia).
    assert (Hn0 : (n =? 0) = true) by (rewrite <- (inr_zero _ _ Hr), Hn'; reflexivity).
    rewrite Hn0, andb_true_r in Hh.
    destruct k as [t1|x|prev off|off|t1 pend hop]; cbn [P_CcVal.vrel hop_of] in *.
    - destruct Hv as (? & ? & ? & _ & Hv & _). discriminate.
    - destruct Hv as (? & ? & ? & _ & Hv). discriminate.
    - discriminate.
    - destruct Hv as (b' & offs' & o & t1 & mm' & a & p & Hv & _ & _ & _ & _ & Hd & _).
      inversion Hv; subst. rewrite ends_deref_snoc, Hd in He. discriminate.
    - destruct Hv as (n0 & _ & _ & Hv). destruct pend.
      + destruct Hv as (b' & offs' & mm' & raw' & Hv & _ & _ & _ & _ & Hhop). inversion Hv; subst.
        rewrite Hhop in Hh by assumption. discriminate.
      + destruct Hv as (r & Hv & _). discriminate.
  Qed.

  (** ** Snippets *)
  Lemma reg2bool_ok J (b : bool) r ms : step1 m J ms = (ms, if b then CSkip 2 else CNext) -> r <> RFP ->
    exists ms', exec m (J :: reg2bool r) 0 ms = FFall 0 ms' /\ rg ms' r = b2z (negb b) /\
      forall U, U r = false -> frame U ms ms'.
  Proof.
    intros HJ Hr. cbn [exec]. rewrite HJ. destruct b.
    - cbn. eexists; split; [reflexivity|]. rewrite rg_setr_eq. split; [apply Z.lxor_nilpotent|].
      intros U HU. apply frame_setr; assumption.
    - cbn. eexists; split; [reflexivity|]. rewrite rg_setr_eq. split; [reflexivity|].
      intros U HU. apply frame_setr; assumption.
  Qed.

  (** Scaling of the right operand. *)
  Definition scl (t : option ty) (op : binop) (b : Z) : Z :=
    if op_ring op then (if 1 <? run_size K t then wrap (b * run_size K t) else b) else b.
  Lemma scale_ok t r ms : run_size K t < 2 ^ 31 -> r <> RFP ->
    exists ms', exec m (scale_code E t r) 0 ms = FFall 0 ms' /\ rg ms' r = scl t BAdd (rg ms r) /\
      (forall x, x <> r -> rg ms' x = rg ms x) /\ ker ms' = ker ms.
  Proof.
    intros Hsz Hr.
    assert (Hc : scale_code E t r = if 1 <? run_size K t then [IAluI AMul r (s32 (run_size K t))] else []).
    { unfold scale_code, run_size, optr, ptr_elt in *. destruct t as [u|]; [|reflexivity].
      destruct (under u); reflexivity. }
    rewrite Hc. unfold scl. cbn [op_ring]. destruct (Z.ltb_spec 1 (run_size K t)).
    - cbn [exec step1 alu_sem]. eexists; split; [reflexivity|]. rewrite rg_setr_eq.
      rewrite immv_s32' by lia. rewrite (wrap_small (run_size K t)) by (unfold M64; lia).
      split; [reflexivity|]. split; [intros; apply rg_setr_neq; assumption|reflexivity].
    - exists ms. cbn [exec]. auto.
  Qed.

  Definition run_ins (op : binop) (t : option ty) (a b : reg) : list insn :=
    match op with
    | BAdd => scale_code E t b ++ [IAluR AAdd a b]
    | BSub => scale_code E t b ++ [IAluR ASub a b]
    | BMul => [IAluR AMul a b]
    | BDiv => [IJmpI JNE b 0 2; IMovI a 0; IJa 1; IAluR ADiv a b]
    | BMod => [IJmpI JNE b 0 2; IMovI a 0; IJa 1; IAluR AMod a b]
    | BAnd => [IAluR AAnd a b]
    | BOr => [IAluR AOr a b]
    | BXor => [IAluR AXor a b]
    | BLsh => [IJmpI JLE b 0 1; IAluR ALsh a b]
    | BRsh => [IJmpI JLE b 0 1; IAluR ARsh a b]
    end.
  Lemma run_ins_ok op t r1 r2 ms : r1 <> r2 -> r1 <> RFP -> r2 <> RFP -> 0 <= rg ms r1 < M64 ->
    0 <= rg ms r2 < M64 ->
    run_size K t < 2 ^ 31 -> (op = BDiv \/ op = BMod -> rg ms r2 <> 0) ->
    exists ms', exec m (run_ins op t r1 r2) 0 ms = FFall 0 ms' /\
      rg ms' r1 = alu_sem (alu_of op) (rg ms r1) (scl t op (rg ms r2)) /\
      forall U, U r1 = false -> U r2 = false -> frame U ms ms'.
  Proof.
    intros H12 Hr1 Hr2 Hrng Hrng2 Hsz Hdiv.
    assert (Hsc : forall aop, exists ms', exec m (scale_code E t r2 ++ [IAluR aop r1 r2]) 0 ms = FFall 0 ms' /\
      rg ms' r1 = alu_sem aop (rg ms r1) (scl t BAdd (rg ms r2)) /\
      forall U, U r1 = false -> U r2 = false -> frame U ms ms').
    { intros aop. destruct (scale_ok t r2 ms Hsz Hr2) as (ms1 & E1 & G1 & F1 & K1).
      rewrite exec_app, E1. cbn [exec step1]. eexists; split; [reflexivity|]. rewrite rg_setr_eq.
      rewrite G1, F1 by assumption. split; [reflexivity|]. intros U HU1 HU2.
      split; [|exact K1]. intros x Hx. assert (x <> r1) by (destruct Hx; congruence).
      assert (x <> r2) by (destruct Hx; congruence). rewrite rg_setr_neq by assumption. auto. }
    destruct op; cbn [run_ins alu_of op_ring scl].
    - apply Hsc.
    - apply Hsc.
    - cbn [exec step1]. eexists; split; [reflexivity|]. rewrite rg_setr_eq. split; [reflexivity|].
      intros; apply frame_setr; assumption.
    - cbn [exec step1 jop_sem]. change (immv 0) with 0.
      destruct (Z.eqb_spec (rg ms r2) 0) as [Hz|Hz]; [exfalso; apply Hdiv; auto|]. cbn [negb Z.ltb Z.compare Z.to_nat].
      cbn [Pos.to_nat Pos.iter_op Nat.add exec step1].
      eexists; split; [reflexivity|]. rewrite rg_setr_eq. split; [reflexivity|].
      intros; apply frame_setr; assumption.
    - cbn [exec step1 jop_sem]. change (immv 0) with 0.
      destruct (Z.eqb_spec (rg ms r2) 0) as [Hz|Hz]; [exfalso; apply Hdiv; auto|]. cbn [negb Z.ltb Z.compare Z.to_nat].
      cbn [Pos.to_nat Pos.iter_op Nat.add exec step1].
      eexists; split; [reflexivity|]. rewrite rg_setr_eq. split; [reflexivity|].
      intros; apply frame_setr; assumption.
    - cbn [exec step1]. eexists; split; [reflexivity|]. rewrite rg_setr_eq. split; [reflexivity|].
      intros; apply frame_setr; assumption.
    - cbn [exec step1]. eexists; split; [reflexivity|]. rewrite rg_setr_eq. split; [reflexivity|].
      intros; apply frame_setr; assumption.
    - cbn [exec step1]. eexists; split; [reflexivity|]. rewrite rg_setr_eq. split; [reflexivity|].
      intros; apply frame_setr; assumption.
    - cbn [exec step1 jop_sem]. change (immv 0) with 0.
      destruct (Z.leb_spec (rg ms r2) 0) as [Hz|Hz]; cbn.
      + exists ms. split; [reflexivity|]. split; [|intros; apply frame_refl].
        replace (rg ms r2) with 0 by lia. change (0 mod 64) with 0. rewrite Z.shiftl_0_r, wrap_small by assumption. reflexivity.
      + eexists; split; [reflexivity|]. rewrite rg_setr_eq. split; [reflexivity|].
        intros; apply frame_setr; assumption.
    - cbn [exec step1 jop_sem]. change (immv 0) with 0.
      destruct (Z.leb_spec (rg ms r2) 0) as [Hz|Hz]; cbn.
      + exists ms. split; [reflexivity|]. split; [|intros; apply frame_refl].
        replace (rg ms r2) with 0 by lia. change (0 mod 64) with 0. rewrite Z.shiftr_0_r. reflexivity.
      + eexists; split; [reflexivity|]. rewrite rg_setr_eq. split; [reflexivity|].
        intros; apply frame_setr; assumption.
  Qed.

  Definition imm_ins (op : binop) (a : reg) (n : Z) : list insn :=
    match op with
    | BMod => if n =? 1 then [IMovI a 0] else [IAluI AMod a (s32 n)]
    | _ => [IAluI (alu_of op) a (s32 n)]
    end.
  Lemma imm_ins_ok op r n ms : s32ok n = true -> r <> RFP ->
    exists ms', exec m (imm_ins op r n) 0 ms = FFall 0 ms' /\
      rg ms' r = alu_sem (alu_of op) (rg ms r) (wrap n) /\
      forall U, U r = false -> frame U ms ms'.
  Proof.
    intros Hn Hr. apply s32ok_spec in Hn.
    assert (H : exists ms', exec m [IAluI (alu_of op) r (s32 n)] 0 ms = FFall 0 ms' /\
      rg ms' r = alu_sem (alu_of op) (rg ms r) (wrap n) /\
      forall U, U r = false -> frame U ms ms').
    { cbn [exec step1]. eexists; split; [reflexivity|]. rewrite rg_setr_eq, immv_s32' by assumption.
      split; [reflexivity|]. intros; apply frame_setr; assumption. }
    destruct op; try exact H. cbn [imm_ins]. destruct (Z.eqb_spec n 1) as [->|]; [|exact H].
    cbn [exec step1]. eexists; split; [reflexivity|]. rewrite rg_setr_eq. cbn [alu_of alu_sem].
    change (wrap 1) with 1. cbn [Z.eqb Pos.eqb]. rewrite Z.mod_1_r. split; [reflexivity|].
    intros; apply frame_setr; assumption.
  Qed.

  (** ** Values of binary operators *)
  Definition res_guard (op : binop) (t : option ty) (a b : Z) (x y res : cv) : Prop :=
    match res, optr t with
    | CPtr _ _, Some _ => match x, y with CPtr _ _, CInt _ _ _ => True | _, _ => False end /\
                          op_ring op = true /\ run_size K t < 2 ^ 31
    | CInt _ w sg, None => arith_ok op a b (w, sg) (lim t) = true
    | _, _ => False
    end.
  Lemma step_run t u k : ptr_elt t = Some u -> step_size C u = Some k ->
    (1 < run_size K (Some t) -> k = run_size K (Some t)) /\ (run_size K (Some t) <= 1 -> k = 1).
  Proof.
    unfold run_size, optr, step_size. intros -> H. rewrite HE in H.
    assert (Hc : match sizeof E u with Some n => if 0 <? n then Some n else None | None => None end = Some k \/
                 under u = TVoid /\ k = 1).
    { destruct (under u); try (left; exact H). right. split; [reflexivity|congruence]. }
    unfold sizeof0. destruct Hc as [Hc|[Hu ->]].
    - destruct (sizeof E u) as [n|]; [|discriminate]. destruct (Z.ltb_spec 0 n); [|discriminate].
      inversion Hc; subst. lia.
    - rewrite (sizeof_under E u), Hu. cbn [sizeof]. lia.
  Qed.
  Lemma res_ok op t a b x y res : c_bin C op x y = Some res -> num x = Some a -> num y = Some b -> ptr_inv x t ->
    small_or_imm a -> small_or_imm b -> res_guard op t a b x y res ->
    exists n', num res = Some n' /\ ptr_inv res t /\
      alu_sem (alu_of op) (wrap a) (scl t op (wrap b)) = n' mod lim t /\ (op = BDiv \/ op = BMod -> wrap b <> 0) /\
      run_size K t < 2 ^ 31.
  Proof.
    intros Hc Hx Hy Hpi Ha Hb Hg. unfold res_guard in Hg.
    destruct res as [n w sg|p u|]; [| |contradiction].
    - destruct (optr t) eqn:Hot; [contradiction|].
      assert (Hxi : exists wa sa, x = CInt a wa sa).
      { destruct x as [a' wa sa|a' ua|]; cbn [num] in Hx; [| |discriminate].
        - inversion Hx; subst; eauto.
        - exfalso. destruct (Hpi _ _ eq_refl) as (tt & -> & Hel & _). cbn [optr] in Hot. congruence. }
      destruct Hxi as (wa & sa & ->).
      assert (Hyi : exists wb sb, y = CInt b wb sb).
      { destruct y as [b' wb sb|b' ub|]; cbn [num] in Hy; [| |discriminate].
        - inversion Hy; subst; eauto.
        - exfalso. destruct op; cbn [c_bin] in Hc; try discriminate.
          destruct (step_size C ub); discriminate. }
      destruct Hyi as (wb & sb & ->).
      assert (Hci : c_int_op op a b (wa, sa) (wb, sb) = Some (CInt n w sg)) by (destruct op; exact Hc).
      destruct (arith_correct _ _ _ _ _ _ _ _ _ Hci Hg (lim_pos K t) Ha Hb) as (H1 & H3).
      exists n. split; [reflexivity|]. split; [intros ? ? Hq; discriminate|].
      assert (Hrs : run_size K t = 0) by (unfold run_size; rewrite Hot; reflexivity).
      split; [|split; [assumption|lia]].
      unfold scl. rewrite Hrs. destruct (op_ring op); exact H1.
    - destruct (optr t) as [ot|] eqn:Hot; [|contradiction]. destruct Hg as (Hxy & Hop & Hsz).
      destruct x as [|a' ua|]; try contradiction. destruct y as [b' wb sb| |]; try contradiction.
      cbn [num] in Hx, Hy. inversion Hx; inversion Hy; subst a' b'. clear Hx Hy Hxy.
      destruct (Hpi _ _ eq_refl) as (tt & -> & Hel & Hlim).
      assert (Hst : exists k, step_size C ua = Some k /\ u = ua /\
                p = alu_sem (alu_of op) (wrap a) (wrap (b * k))).
      { destruct op; cbn [op_ring] in Hop; try discriminate; cbn [c_bin] in Hc;
        destruct (step_size C ua) as [k|]; try discriminate; inversion Hc; subst; exists k;
        (split; [reflexivity|]; split; [reflexivity|]); cbn [alu_of alu_sem].
        - rewrite wrap_add_l, wrap_add_r. reflexivity.
        - rewrite wrap_sub_l, wrap_sub_r. reflexivity. }
      destruct Hst as (k & Hk & -> & Hp).
      exists p. split; [reflexivity|]. split; [intros a0 u0 Hq; inversion Hq; subst; eauto|].
      assert (Hpr : 0 <= p < M64).
      { rewrite Hp. destruct op; cbn [op_ring] in Hop; try discriminate; cbn [alu_of alu_sem]; apply wrap_range. }
      rewrite Hlim. rewrite M64_pow in Hpr. rewrite (Z.mod_small p) by assumption.
      split; [|split; [intros [->| ->]; discriminate|assumption]].
      rewrite Hp. symmetry. f_equal. unfold scl. rewrite Hop. destruct (step_run _ _ _ Hel Hk) as [Hk1 Hk2].
      destruct (Z.ltb_spec 1 (run_size K (Some tt))).
      + rewrite (Hk1 H). rewrite wrap_mul_l. reflexivity.
      + rewrite (Hk2 ltac:(lia)), Z.mul_1_r. reflexivity.
  Qed.

  (** Adding a constant to a pending value. *)
  Lemma add_const_spec b offs t mm c v : add_const_pending E b offs t mm c = Some v -> c <> 0 ->
    exists o, v = VPend b (offs ++ [o]) t None /\ o_deref o = false /\
      forall st, const_step K t = Some st -> - 2 ^ 31 <= c * st < 2 ^ 31 -> o_off o = c * st.
  Proof.
    unfold add_const_pending, const_step. intros H Hc.
    destruct (Z.eqb_spec c 0); [contradiction|].
    assert (H1 : forall st, Some 1 = Some st -> - 2 ^ 31 <= c * st < 2 ^ 31 -> c = c * st).
    { intros st Hs. inversion Hs; lia. }
    assert (Hs : forall sz st, (if sz =? 0 then None else Some sz) = Some st -> - 2 ^ 31 <= c * st < 2 ^ 31 ->
                 s64 (c * sz) = c * st).
    { intros sz st Hq Hr. destruct (sz =? 0); [discriminate|]. inversion Hq; subst. apply s64_id. lia. }
    destruct t as [u|]; [|inversion H; subst; eexists; split; [reflexivity|split; [reflexivity|exact H1]]].
    destruct (under u) as [|w sg|w vals|tgt|el k|tag|tag|u'|o];
      try (inversion H; subst; eexists; split; [reflexivity|split; [reflexivity|exact H1]]).
    - assert (Hd : under tgt = TVoid \/ under tgt <> TVoid) by (destruct (under tgt); auto; right; discriminate).
      destruct Hd as [Hd|Hd].
      + rewrite Hd in *. inversion H; subst; eexists; split; [reflexivity|split; [reflexivity|exact H1]].
      + assert (H' : (if sizeof0 E (Some tgt) =? 0 then None else
          Some (VPend b (offs ++ [{| o_off := s64 (c * sizeof0 E (Some tgt)); o_deref := false; o_btf := Some u;
                                              o_prev := prev_btf offs; o_inarr := false;
                                              o_bf := false |}]) (Some u) None)) = Some v).
        { destruct (under tgt); try exact H. contradiction. }
        specialize (Hs (sizeof0 E (Some tgt))).
        destruct (sizeof0 E (Some tgt) =? 0); [discriminate|].
        inversion H'; subst; eexists; split; [reflexivity|split; [reflexivity|]].
        intros st Hst. apply Hs. destruct (under tgt); try exact Hst. contradiction.
    - specialize (Hs (sizeof0 E (Some el))). destruct (sizeof0 E (Some el) =? 0); [discriminate|].
      inversion H; subst; eexists; split; [reflexivity|split; [reflexivity|]]. exact Hs.
  Qed.

  Definition add_guard (v : cv) (k : tk) (n : Z) (t : option ty) (c : Z) (res : cv) (sub : bool) (k' : tk) : Prop :=
    sup_add_const K v k n t c res sub = Some k'.
  Lemma const_step_ptr t u k st : ptr_elt t = Some u -> step_size C u = Some k -> const_step K (Some t) = Some st -> st = k.
  Proof.
    unfold ptr_elt, step_size, const_step. rewrite HE. intros Hp Hk Hs.
    destruct (under t) as [| | |tgt|el n| | | |]; try discriminate; inversion Hp; subst u.
    - assert (Hd : under tgt = TVoid \/ under tgt <> TVoid) by (destruct (under tgt); auto; right; discriminate).
      destruct Hd as [Hd|Hd]; [rewrite Hd in *; congruence|].
      assert (H1 : (if sizeof0 E (Some tgt) =? 0 then None else Some (sizeof0 E (Some tgt))) = Some st)
        by (destruct (under tgt); try exact Hs; contradiction).
      assert (H2 : match sizeof E tgt with Some n => if 0 <? n then Some n else None | None => None end = Some k)
        by (destruct (under tgt); try exact Hk; contradiction).
      unfold sizeof0 in H1. destruct (sizeof E tgt) as [n|]; [|discriminate].
      destruct (0 <? n), (n =? 0); congruence.
    - unfold sizeof0 in Hs.
      destruct (under el) eqn:Hu;
        try (destruct (sizeof E el) as [n'|]; [|discriminate]; destruct (0 <? n'), (n' =? 0); congruence).
      rewrite (sizeof_under E el), Hu in Hs. discriminate.
  Qed.

  Lemma add_const_rel ms b offs t0 mm c1 k1 n t l c res (sub : bool) k v' x :
    vrel ms (VPend b offs t0 mm) c1 k1 -> ldr K C c1 k1 = Some (n, t, l) ->
    rval C c1 = Some x -> num x = Some n -> ptr_inv x t ->
    (exists w sg, c_bin C (if sub then BSub else BAdd) x (CInt c w sg) = Some res) \/
    (sub = false /\ exists w sg, c_bin C BAdd (CInt c w sg) x = Some res) ->
    sup_add_const K c1 k1 n t c res sub = Some k ->
    add_const_pending E b offs t0 mm (if sub then s64 (- c) else c) = Some v' ->
    vrel ms v' res k /\ vregs v' = vregs (VPend b offs t0 mm).
  Proof.
    intros Hv Hl Hx Hnx Hpi Hres Hs Ha. unfold sup_add_const in Hs.
    destruct (bf_of c1 || (c =? 0) || negb (s32ok c) || (hop_of k1 && (n =? 0))) eqn:Hg; [discriminate|].
    apply orb_false_iff in Hg as [Hg Hhop]. apply orb_false_iff in Hg as [Hg Hs32].
    apply orb_false_iff in Hg as [Hbf Hc0]. apply negb_false_iff, s32ok_spec in Hs32. apply Z.eqb_neq in Hc0.
    destruct (const_step K t) as [st|] eqn:Hst; [|discriminate].
    destruct (negb (s32ok (c * st)) || negb (s32ok (- (c * st)))) eqn:Hg2; [discriminate|].
    apply orb_false_iff in Hg2 as [Hq1 Hq2]. apply negb_false_iff in Hq1, Hq2.
    pose proof (s32ok_spec _ Hq1) as Hr1. pose proof (s32ok_spec _ Hq2) as Hr2.
    destruct (hop_spec _ _ _ _ _ _ _ _ _ _ Hv Hl Hhop Hbf) as (raw & Hbo & Hmm & Hw & Hn & -> & Hnz).
    remember (if sub then s64 (- c) else c) as c' eqn:Hc'.
    assert (Hc2 : c' = if sub then - c else c) by (rewrite Hc'; destruct sub; [apply s64_id; lia|reflexivity]).
    clear Hc'. rename Hc2 into Hc'.
    destruct (add_const_spec _ _ _ _ _ _ Ha) as (o & -> & Hd & Hoff).
    { rewrite Hc'. destruct sub; lia. }
    assert (Hsc : c' * st = if sub then - (c * st) else c * st) by (rewrite Hc'; destruct sub; lia).
    specialize (Hoff st Hst). rewrite Hsc in Hoff. specialize (Hoff ltac:(destruct sub; lia)).
    assert (Hw' : walk (bval ms b) (offs ++ [o]) = Some (wrap (raw + (if sub then - (c * st) else c * st)))).
    { rewrite walk_snoc, Hw, Hd, Hoff. cbn [negb].
      replace (s32ok (if sub then - (c * st) else c * st)) with true by (destruct sub; auto).
      destruct (ends_deref offs) eqn:He; cbn [andb]; [|reflexivity].
      destruct (Z.eqb_spec raw 0); [exfalso; apply Hnz; auto|reflexivity]. }
    assert (Hraw : 0 <= raw < 2 ^ 64).
    { rewrite <- M64_pow. eapply walk_range; eauto. eapply bval_range; eauto. }
    split; [|cbn [vregs]; reflexivity].
    destruct res as [n' w sg|p u|]; [| |destruct (optr t); discriminate].
    - destruct (optr t) as [|] eqn:Hot; [discriminate|].
      destruct (ring_ok (if sub then n - c else n + c) (w, sg) (lim t) || (tw K t <=? w)) eqn:Hring; [|discriminate].
      inversion Hs; subst k. cbn [P_CcVal.vrel].
      assert (Hst1 : st = 1).
      { unfold const_step in Hst. unfold optr, ptr_elt in Hot. destruct t as [u|]; [|congruence].
        destruct (under u); congruence. }
      subst st.
      assert (Hxi : exists wa sa, x = CInt n wa sa).
      { destruct x as [a' wa sa|a' ua|]; cbn [num] in Hnx; [| |discriminate].
        - inversion Hnx; subst; eauto.
        - exfalso. destruct (Hpi _ _ eq_refl) as (tt & -> & Hel & _). cbn [optr] in Hot. congruence. }
      destruct Hxi as (wa & sa & ->).
      assert (Har : exists y, arith (w, sg) y = Some n' /\
        (0 <= 8 * w -> (sg = true -> 0 < 8 * w) -> y mod 2 ^ (8 * w) = (if sub then n - c else n + c) mod 2 ^ (8 * w))).
      { destruct Hres as [(wb & sb & Hr)|(-> & wb & sb & Hr)].
        - destruct sub; cbn [c_bin c_int_op] in Hr; apply mkint_inv in Hr as [Hr Ht]; rewrite Ht in Hr;
            (eexists; split; [exact Hr|]); intros Hw0 Hw1.
          + apply (ring_cong_sub (w, sg)); assumption.
          + apply (ring_cong_add (w, sg)); assumption.
        - cbn [c_bin c_int_op] in Hr; apply mkint_inv in Hr as [Hr Ht]; rewrite Ht in Hr;
            (eexists; split; [exact Hr|]); intros Hw0 Hw1. rewrite (Z.add_comm n c).
          apply (ring_cong_add (w, sg)); assumption. }
      destruct Har as (y & Hy & Hcong).
      exists n'. split; [reflexivity|]. split; [intros ? ? Hq; discriminate|].
      exists b, (offs ++ [o]), None, (wrap (raw + (if sub then - (c * 1) else c * 1))).
      split; [reflexivity|]. split; [reflexivity|]. split; [assumption|]. split; [assumption|].
      split; [|rewrite ends_deref_snoc, Hd; discriminate].
      intros _.
      assert (Hnz' : n' mod lim t = (if sub then n - c else n + c) mod lim t).
      { apply orb_prop in Hring as [Hring|Hring].
        - pose proof (ring_correct (w, sg) y n' _ _ Hring (lim_pos K t) Hcong Hy) as Hnw.
          destruct (lim_pow t) as (j & Hj & Hlj). rewrite Hlj in *.
          rewrite <- (mod_pow_le (if sub then n - c else n + c) j 64) by lia.
          rewrite <- M64_pow. fold (wrap (if sub then n - c else n + c)). rewrite Hnw.
          symmetry. apply Z.mod_mod. apply Z.pow_nonzero; lia.
        - apply Z.leb_le in Hring.
          assert (0 < tw K t) by (unfold tw; destruct ((sizeof0 E t =? 1) || (sizeof0 E t =? 2) || (sizeof0 E t =? 4)) eqn:Hq; [|lia];
            repeat (apply orb_prop in Hq as [Hq|Hq]); apply Z.eqb_eq in Hq; rewrite Hq; lia).
          unfold S_CSup.lim. apply (arith_cong (w, sg) y); cbn [fst snd]; [lia|exact Hcong|lia|exact Hy]. }
      rewrite Hnz'. destruct (lim_pow t) as (j & Hj & Hlj). rewrite Hlj in *.
      unfold wrap. rewrite M64_pow. rewrite mod_pow_le by lia.
      destruct sub.
      + replace (raw + - (c * 1)) with (raw - c) by lia. rewrite Zminus_mod, Hn. symmetry. apply Zminus_mod.
      + replace (raw + c * 1) with (raw + c) by lia. rewrite Zplus_mod, Hn. symmetry. apply Zplus_mod.
    - destruct (optr t) as [ot|] eqn:Hot; [|discriminate]. inversion Hs; subst k. cbn [P_CcVal.vrel].
      assert (Hxi : x = CPtr n u /\ exists k, step_size C u = Some k /\ p = wrap (if sub then n - c * k else n + c * k)).
      { destruct Hres as [(wb & sb & Hr)|(-> & wb & sb & Hr)].
        - destruct x as [a' wa sa|a' ua|]; cbn [num] in Hnx; [| |discriminate]; inversion Hnx; subst a'.
          + exfalso. destruct sub; cbn [c_bin c_int_op] in Hr; unfold mkint in Hr; destruct (arith _ _); discriminate.
          + destruct sub; cbn [c_bin] in Hr; destruct (step_size C ua) as [k|] eqn:Hk; try discriminate;
            inversion Hr; subst u p; eauto.
        - destruct x as [a' wa sa|a' ua|]; cbn [num] in Hnx; [| |discriminate]; inversion Hnx; subst a'.
          + exfalso. cbn [c_bin c_int_op] in Hr; unfold mkint in Hr; destruct (arith _ _); discriminate.
          + cbn [c_bin] in Hr; destruct (step_size C ua) as [k|] eqn:Hk; try discriminate;
            inversion Hr; subst u p; eauto. }
      destruct Hxi as (-> & k & Hk & Hp).
      destruct (Hpi _ _ eq_refl) as (tt & -> & Hel & Hlim).
      rewrite (const_step_ptr _ _ _ _ Hel Hk Hst) in *.
      rewrite Hlim in Hn.
      exists p. split; [reflexivity|]. split; [intros a0 u0 Hq; inversion Hq; subst; eauto|].
      eexists b, (offs ++ [o]), None, _.
      split; [reflexivity|]. split; [reflexivity|]. split; [assumption|]. split; [exact Hw'|].
      split; [|rewrite ends_deref_snoc, Hd; discriminate].
      intros _. rewrite Hlim. rewrite <- M64_pow. change (wrap (wrap (raw + (if sub then - (c * k) else c * k))) = wrap p).
      assert (Hnw : wrap raw = wrap n) by (unfold wrap; rewrite M64_pow; exact Hn).
      rewrite wrap_wrap, Hp, wrap_wrap, <- wrap_add_l, Hnw, wrap_add_l. f_equal. destruct sub; lia.
  Qed.

  (** ** Binary operators *)
  Definition bpost (U : reg -> bool) (s : cst) (l0 r0 v : value) (s' : cst)
      (sem : cv -> tk -> cv -> tk -> cv -> tk -> Prop) : Prop :=
    exists d, c_code s' = c_code s ++ d /\ keep U s' /\ keepv U s' v /\
      (Z.of_nat (List.length d) < 2 ^ 15 -> nowr d -> Sok s -> Sok s' /\
       forall ms c1 k1 c2 k2 res k, pre ms -> vrel ms l0 c1 k1 -> vrel ms r0 c2 k2 -> sem c1 k1 c2 k2 res k ->
       exists ms', exec m d 0 ms = FFall 0 ms' /\ frame U ms ms' /\ vrel ms' v res k).

  Lemma binrt_ok U s l r ins v s' : bin_runtime K s l r ins = ROk v s' ->
    keep U s -> keepv U s l -> keepv U s r -> (forall x, In x (vregs l) -> ~ In x (vregs r)) -> U 9%nat = true ->
    exists r1 r2 d, v = VMat r1 (v_btf l) None /\ c_code s' = c_code s ++ d ++ ins r1 r2 /\
      keep U s' /\ keepv U s' v /\ r1 <> r2 /\ U r1 = false /\ U r2 = false /\
      (nowr (d ++ ins r1 r2) -> Sok s -> Sok s' /\ r1 <> RFP /\ r2 <> RFP /\
        forall ms n1 n2, pre ms -> mval ms l n1 -> mval ms r n2 ->
         exists ms', exec m d 0 ms = FFall 0 ms' /\ frame U ms ms' /\ rg ms' r1 = n1 /\ rg ms' r2 = n2).
  Proof.
    unfold bin_runtime. intros H Hk Hkl Hkr Hdis H9.
    destruct (materialize K s l) as [lv s1| |] eqn:Hl; cbn [bind] in H; try discriminate.
    destruct (materialize K s1 r) as [rv s2| |] eqn:Hr; cbn [bind] in H; try discriminate.
    destruct (mat2 U _ _ _ _ _ _ _ Hl Hr Hk Hkl Hkr Hdis H9)
      as (r1 & r2 & d & -> & -> & Hc & Hk2 & Hu1 & Hu2 & HU1 & HU2 & H12 & Hsem).
    cbn [vreg v_btf] in H. inversion H; subst v s'; clear H.
    exists r1, r2, d. split; [reflexivity|]. split; [cbn [cfree emit c_code]; rewrite Hc, <- app_assoc; reflexivity|].
    split; [apply keep_free; [exact Hk2|assumption]|].
    split.
    { intros x [<-|[]]. split; [|assumption]. apply free_keep; [assumption|exact Hu1]. }
    split; [assumption|]. split; [assumption|]. split; [assumption|].
    intros Hn Hs. destruct (Hsem (nowr_l _ _ Hn) Hs) as (Hs2 & Hr1 & Hr2 & Hx).
    split; [apply Sok_free; [exact Hs2|congruence]|]. auto.
  Qed.

  (** A register holding the result of an operation on kept registers. *)
  Lemma vrel_mat ms r t c n : num c = Some n -> ptr_inv c t -> 0 <= n < lim t -> rg ms r = n ->
    vrel ms (VMat r t None) c (KVal t false false).
  Proof.
    intros Hn Hp Hr Hg. cbn [P_CcVal.vrel]. exists n. split; [assumption|]. split; [assumption|].
    exists r. split; [reflexivity|]. pose proof (lim_pos K t).
    split; [intros _; rewrite Hg; symmetry; apply Z.mod_small; assumption|]. rewrite Hg, M64_pow. lia.
  Qed.

  Lemma vrel_matr ms r t c n : num c = Some n -> ptr_inv c t -> rg ms r = n mod lim t ->
    vrel ms (VMat r t None) c (KVal t false false).
  Proof.
    intros Hn Hp Hg. cbn [P_CcVal.vrel]. exists n. split; [assumption|]. split; [assumption|].
    exists r. split; [reflexivity|]. pose proof (lim_pos K t). split; [intros _; exact Hg|].
    pose proof (Z.mod_pos_bound n (lim t) ltac:(lia)). rewrite Hg, M64_pow. lia.
  Qed.

  Definition sem_bin (op : binop) c1 k1 c2 k2 res k : Prop :=
    exists x y, rval C c1 = Some x /\ rval C c2 = Some y /\ c_bin C op x y = Some res /\
      sup_bin K C op c1 k1 c2 k2 res = Some k.

  (** The operands of a supported operation. *)
  Lemma sup_bin_operands op c1 k1 c2 k2 res k : sup_bin K C op c1 k1 c2 k2 res = Some k ->
    exists o1 o2, operandr K C c1 k1 c2 k2 = Some o1 /\ operandr K C c2 k2 c1 k1 = Some o2.
  Proof.
    unfold sup_bin. destruct (operandr K C c1 k1 c2 k2) as [[|]|]; [| |discriminate];
    destruct (operandr K C c2 k2 c1 k1) as [[|]|]; try discriminate; eauto.
  Qed.

  Definition is_addc (op : binop) (l r : value) : bool :=
    match op, l, r with
    | BAdd, VPend _ _ _ _, VConst _ _ | BAdd, VConst _ _, VPend _ _ _ _ | BSub, VPend _ _ _ _, VConst _ _ => true
    | _, _, _ => false
    end.

  (** Run-time operations (neither constant folding nor an offset). *)
  Lemma reps_sem op t a la b lb : reps_ok op a la b lb = true ->
    (exists j, 0 <= j <= 64 /\ la = 2 ^ j) -> (exists j, 0 <= j <= 64 /\ lb = 2 ^ j) -> inrep la a -> inrep lb b ->
    alu_sem (alu_of op) (a mod la) (scl t op (b mod lb)) = alu_sem (alu_of op) (wrap a) (scl t op (wrap b)) /\
    (op = BDiv \/ op = BMod -> b mod lb = wrap b).
  Proof.
    intros Hr (j1 & Hj1 & H1) (j2 & Hj2 & H2) Ha Hb.
    assert (Hl1 : 0 < la <= 2 ^ 64) by (subst la; split; [apply Z.pow_pos_nonneg; lia|apply Z.pow_le_mono_r; lia]).
    assert (Hl2 : 0 < lb <= 2 ^ 64) by (subst lb; split; [apply Z.pow_pos_nonneg; lia|apply Z.pow_le_mono_r; lia]).
    unfold reps_ok in Hr. apply orb_prop in Hr as [Hr|Hr].
    - apply andb_prop in Hr as [Hw1 Hw2]. rewrite (wide_rep _ _ Hw1 Ha Hl1), (wide_rep _ _ Hw2 Hb Hl2). auto.
    - destruct op; try discriminate. split; [|intros [|]; discriminate]. cbn [alu_of alu_sem]. unfold scl. cbn [op_ring].
      unfold wrap. rewrite M64_pow. unfold inrep in *. apply orb_prop in Hr as [Hr|Hr]; bsplit Hr.
      + rewrite !(Z.mod_small b) by lia. rewrite H1, land_low by lia. rewrite land_low by lia. reflexivity.
      + rewrite !(Z.mod_small a) by lia. rewrite !(Z.land_comm a). rewrite H2, land_low by lia. rewrite land_low by lia. reflexivity.
  Qed.

  Lemma bin_run_sem op ms v1 c1 k1 v2 c2 k2 l r res k x y :
    vrel ms v1 c1 k1 -> vrel ms v2 c2 k2 -> resolve_enums v1 v2 = Some (l, r) ->
    rval C c1 = Some x -> rval C c2 = Some y -> c_bin C op x y = Some res ->
    sup_bin K C op c1 k1 c2 k2 res = Some k -> is_const l && is_const r = false -> is_addc op l r = false ->
    exists m1 m2 n', mval ms l m1 /\ mval ms r m2 /\ k = KVal (v_btf l) false false /\
      num res = Some n' /\ ptr_inv res (v_btf l) /\ (0 <= m1 < M64 /\ 0 <= m2 < M64) /\
      alu_sem (alu_of op) m1 (scl (v_btf l) op m2) = n' mod lim (v_btf l) /\
      (op = BDiv \/ op = BMod -> m2 <> 0) /\ run_size K (v_btf l) < 2 ^ 31 /\
      (forall c t, r = VConst c t -> m2 = wrap c /\ s32ok c = true /\ (shift_op op = true -> c <> 0)).
  Proof.
    intros Hv1 Hv2 Hres Hx Hy Hc Hs Hnc Hna.
    destruct (sup_bin_operands _ _ _ _ _ _ _ Hs) as (o1 & o2 & Ho1 & Ho2).
    destruct (resolve_cases _ _ _ _ Hres) as [Hl Hr].
    destruct (resolve_oner _ _ _ _ _ _ _ _ _ Hv1 Hv2 Ho1 Hl) as (Hol & (x' & Hx' & Hnx & Hpx & Hox) & He1).
    destruct (resolve_oner _ _ _ _ _ _ _ _ _ Hv2 Hv1 Ho2 Hr) as (Hor & (y' & Hy' & Hny & Hpy & Hoy) & He2).
    rewrite Hx in Hx'. inversion Hx'; subst x'; clear Hx'. rewrite Hy in Hy'. inversion Hy'; subst y'; clear Hy'.
    unfold sup_bin in Hs. rewrite Ho1, Ho2 in Hs.
    assert (Hgo : (k = KVal (otype o1) false false /\ res_guard op (otype o1) (onum o1) (onum o2) x y res /\
        reps_ok op (onum o1) (obound o1) (onum o2) (obound o2) = true) /\
        (match o1 with ONum n _ => s32ok n = true | _ => True end) /\
        (match o2 with ONum n _ => s32ok n = true /\ (shift_op op = true -> n <> 0) | _ => True end)).
    { destruct o1 as [a ta|a ta la], o2 as [b tb|b tb lb]; cbn [otype onum obound] in *.
      - destruct Hol as [-> _], Hor as [-> _]. discriminate.
      - destruct Hol as [-> _]. destruct He2 as [-> Hld2].
        pose proof (pend_of_spec _ _ _ _ _ _ _ Hv2 Hld2) as Hpend.
        assert (Hs' : (if negb (s32ok a) || negb (reps_ok op a (2 ^ 64) b lb) then None else
            match res, optr ta with
            | CInt _ w sg, None => if arith_ok op a b (w, sg) (lim ta)
                                   then Some (KVal ta false false) else None
            | _, _ => None
            end) = Some k).
        { destruct op; try exact Hs. rewrite Hpend in Hs. destruct v2; try exact Hs. discriminate. }
        clear Hs. destruct (s32ok a) eqn:Hsa; [|discriminate]. cbn [negb orb] in Hs'.
        destruct (reps_ok op a (2 ^ 64) b lb) eqn:Hrep; [|discriminate]. cbn [negb] in Hs'.
        unfold res_guard. destruct res as [n w sg|p u|]; try (destruct (optr ta); discriminate).
        destruct (optr ta); [discriminate|]. destruct (arith_ok op a b (w, sg) (lim ta)) eqn:Hao; [|discriminate].
        inversion Hs'; auto.
      - destruct Hor as [-> _]. destruct He1 as [-> Hld1].
        pose proof (pend_of_spec _ _ _ _ _ _ _ Hv1 Hld1) as Hpend.
        assert (Hs' : (if negb (s32ok b) || (shift_op op && (b =? 0)) || negb (reps_ok op a la b (2 ^ 64)) then None else
            match res, optr ta with
            | CPtr _ _, Some _ =>
                if (op_ring op) && (run_size K ta <? 2 ^ 31) then Some (KVal ta false false) else None
            | CInt _ w sg, None => if arith_ok op a b (w, sg) (lim ta)
                                   then Some (KVal ta false false) else None
            | _, _ => None
            end) = Some k).
        { destruct op; try exact Hs; (rewrite Hpend in Hs; destruct v1; try exact Hs; discriminate). }
        clear Hs. destruct (s32ok b) eqn:Hsb; [|discriminate]. cbn [negb orb] in Hs'.
        destruct (shift_op op && (b =? 0)) eqn:Hsh; [discriminate|]. cbn [orb] in Hs'.
        destruct (reps_ok op a la b (2 ^ 64)) eqn:Hrep; [|discriminate]. cbn [negb] in Hs'.
        destruct Hoy as (wb & sb & ->). cbn [onum] in *.
        assert (Hsh' : shift_op op = true -> b <> 0).
        { intros Hq. rewrite Hq in Hsh. cbn [andb] in Hsh. apply Z.eqb_neq in Hsh. assumption. }
        unfold res_guard. destruct res as [n w sg|p u|].
        + destruct (optr ta); [discriminate|]. destruct (arith_ok op a b (w, sg) (lim ta)) eqn:Hao; [|discriminate].
          inversion Hs'; auto.
        + destruct (optr ta) as [ot|] eqn:Hot; [|discriminate]. destruct (op_ring op) eqn:Hring; [|discriminate].
          cbn [andb] in Hs'. destruct (Z.ltb_spec (run_size K ta) (2 ^ 31)); [|discriminate].
          inversion Hs'; subst k. split; [|auto]. split; [reflexivity|]. split; [|reflexivity]. split; [|auto].
          destruct x as [a' wa sa|a' ua|]; [|exact I|discriminate].
          exfalso. assert (Hci : c_int_op op a' b (wa, sa) (wb, sb) = Some (CPtr p u)) by (destruct op; exact Hc).
          destruct op; try discriminate; cbn [c_int_op] in Hci; unfold mkint in Hci; destruct (arith _ _); discriminate.
        + destruct (optr ta); discriminate.
      - assert (Hs' : (if negb (reps_ok op a la b lb) then None else match res, optr ta with
        | CPtr _ _, Some _ =>
            match rval C c1, rval C c2 with
            | Some (CPtr _ _), Some (CInt _ _ _) =>
                if (op_ring op) && (run_size K ta <? 2 ^ 31) then Some (KVal ta false false) else None
            | _, _ => None
            end
        | CInt _ w sg, None => if arith_ok op a b (w, sg) (lim ta)
                               then Some (KVal ta false false) else None
        | _, _ => None
        end) = Some k) by (destruct op; exact Hs).
        clear Hs. destruct (reps_ok op a la b lb) eqn:Hrep; [|discriminate]. cbn [negb] in Hs'. rewrite Hx, Hy in Hs'. unfold res_guard. destruct res as [n w sg|p u|].
        + destruct (optr ta); [discriminate|]. destruct (arith_ok op a b (w, sg) (lim ta)) eqn:Hao; [|discriminate].
          inversion Hs'; auto.
        + destruct (optr ta); [|discriminate]. destruct x as [|ax ux|]; try discriminate. destruct y as [by' wy sy| |]; try discriminate.
          destruct (op_ring op); [|discriminate]. cbn [andb] in Hs'.
          destruct (Z.ltb_spec (run_size K ta) (2 ^ 31)); [|discriminate]. inversion Hs'; subst k. auto 10.
        + destruct (optr ta); discriminate. }
    destruct Hgo as ((Hk & Hg & Hrep) & Hs1 & Hs2).
    destruct (orelr_mval _ _ _ Hol Hs1) as (Hm1 & Ht1 & Hsm1 & Hrm1 & Hin1).
    destruct (orelr_mval _ _ _ Hor) as (Hm2 & Ht2 & Hsm2 & Hrm2 & Hin2). { destruct o2; [apply Hs2|exact I]. }
    destruct (res_ok _ _ _ _ _ _ _ Hc Hnx Hny Hpx Hsm1 Hsm2 Hg) as (n' & R1 & R2 & R4 & R5 & R6).
    assert (Hp1 : exists j, 0 <= j <= 64 /\ obound o1 = 2 ^ j).
    { destruct o1; cbn [obound]; [exists 64; split; [lia|reflexivity]|]. destruct He1 as [_ Hld]. eapply ldr_pow2; exact Hld. }
    assert (Hp2 : exists j, 0 <= j <= 64 /\ obound o2 = 2 ^ j).
    { destruct o2; cbn [obound]; [exists 64; split; [lia|reflexivity]|]. destruct He2 as [_ Hld]. eapply ldr_pow2; exact Hld. }
    destruct (reps_sem op (otype o1) (onum o1) (obound o1) (onum o2) (obound o2) Hrep Hp1 Hp2 Hin1 Hin2) as [Hsem Hdv].
    rewrite <- Hsem in R4. rewrite <- Ht1 in *.
    exists (onum o1 mod obound o1), (onum o2 mod obound o2), n'. split; [assumption|]. split; [assumption|]. split; [assumption|].
    split; [assumption|]. split; [assumption|]. split; [split; assumption|]. split; [assumption|].
    split; [intros Hd; rewrite (Hdv Hd); auto|].
    split; [assumption|]. intros c t ->. destruct o2 as [b tb|b tb lb]; cbn [orelr onum obound] in *.
    - destruct Hor as [Hq _]. inversion Hq; subst. destruct Hs2. split; [unfold wrap; rewrite M64_pow; reflexivity|auto].
    - destruct Hor as (_ & _ & _ & _ & Hq & _). discriminate.
  Qed.

  Lemma mat_btf s v v' s' : materialize K s v = ROk v' s' -> v_btf v' = v_btf v /\ v_mem v' = v_mem v.
  Proof.
    intros H. destruct (mat_ok K C m A Hmap Hslot _ _ _ _ H) as (r & d & -> & _). auto.
  Qed.

  Lemma bin_ok op U s l0 r0 v s' : bin_values K op s l0 r0 = ROk v s' ->
    keep U s -> keepv U s l0 -> keepv U s r0 -> (forall x, In x (vregs l0) -> ~ In x (vregs r0)) -> U 9%nat = true ->
    bpost U s l0 r0 v s' (sem_bin op).
  Proof.
    intros H Hk Hkl0 Hkr0 Hdis0 H9. unfold bin_values in H.
    destruct (resolve_enums l0 r0) as [[l r]|] eqn:Hres; [|discriminate].
    destruct (resolve_vregs _ _ _ _ Hres) as [Hvl Hvr].
    assert (Hkl : keepv U s l) by (intros x Hx; apply Hkl0; rewrite <- Hvl; assumption).
    assert (Hkr : keepv U s r) by (intros x Hx; apply Hkr0; rewrite <- Hvr; assumption).
    assert (Hdis : forall x, In x (vregs l) -> ~ In x (vregs r)) by (rewrite Hvl, Hvr; assumption).
    cbv zeta in H.
    destruct (match op, r with (BDiv | BMod), VConst 0 _ => true | _, _ => false end); [discriminate|].
    destruct (is_const l && is_const r) eqn:Hcc.
    { (* constant folding *)
      destruct l as [a ta| | |]; try discriminate. destruct r as [b tb| | |]; try discriminate.
      destruct (fold_const op a b) as [n|] eqn:Hf; [|discriminate]. inversion H; subst v s'; clear H.
      exists []. rewrite app_nil_r. split; [reflexivity|]. split; [assumption|]. split; [intros x []|].
      intros _ _ Hs. split; [assumption|].
      intros ms c1 k1 c2 k2 res k Hp Hv1 Hv2 (x & y & Hx & Hy & Hc & Hsup).
      destruct (sup_bin_operands _ _ _ _ _ _ _ Hsup) as (o1 & o2 & Ho1 & Ho2).
      destruct (resolve_cases _ _ _ _ Hres) as [Hl Hr].
      destruct (resolve_oner _ _ _ _ _ _ _ _ _ Hv1 Hv2 Ho1 Hl) as (Hol & (x' & Hx' & Hnx & Hpx & Hox) & He1).
      destruct (resolve_oner _ _ _ _ _ _ _ _ _ Hv2 Hv1 Ho2 Hr) as (Hor & (y' & Hy' & Hny & Hpy & Hoy) & He2).
      rewrite Hx in Hx'. inversion Hx'; subst x'; clear Hx'. rewrite Hy in Hy'. inversion Hy'; subst y'; clear Hy'.
      destruct o1 as [a' ta'|? ? ?]; cbn [orelr] in Hol; [|destruct Hol as (_ & _ & _ & _ & Hq & _); discriminate].
      destruct o2 as [b' tb'|? ? ?]; cbn [orelr] in Hor; [|destruct Hor as (_ & _ & _ & _ & Hq & _); discriminate].
      destruct Hol as [Hq1 Hra], Hor as [Hq2 Hrb]. inversion Hq1; inversion Hq2; subst a' ta' b' tb'. clear Hq1 Hq2.
      unfold sup_bin in Hsup. rewrite Ho1, Ho2 in Hsup. cbn [onum] in *.
      destruct Hox as (w1 & s1 & ->). destruct Hoy as (w2 & s2 & ->).
      assert (Hci : c_int_op op a b (w1, s1) (w2, s2) = Some res) by (destruct op; exact Hc).
      destruct res as [nr w sg| |]; try discriminate.
      destruct (const_ok op a b (w, sg)) eqn:Hco; [|discriminate]. inversion Hsup; subst k.
      pose proof (const_correct _ _ _ _ _ _ _ _ Hci Hco) as Hfc. rewrite Hf in Hfc. inversion Hfc; subst nr.
      exists ms. split; [reflexivity|]. split; [apply frame_refl|]. cbn [P_CcVal.vrel].
      exists n, w, sg. split; [reflexivity|]. split; [reflexivity|].
      (* range of a folded constant *)
      eapply fold_const_range; eauto. }
    assert (H' : (if negb (operands_ok l r) then RErr else
          match op with
          | BAdd =>
              match l, r with
              | VPend b offs t m, VConst n _ => of_opt (add_const_pending E b offs t m n) s
              | VConst n _, VPend b offs t m => of_opt (add_const_pending E b offs t m n) s
              | _, _ => bin_runtime K s l r (run_ins BAdd (v_btf l))
              end
          | BSub =>
              match l, r with
              | VPend b offs t m, VConst n _ => of_opt (add_const_pending E b offs t m (s64 (- n))) s
              | _, _ => bin_runtime K s l r (run_ins BSub (v_btf l))
              end
          | BMul => bin_runtime K s l r (run_ins BMul (v_btf l))
          | _ =>
              match r with
              | VConst n _ =>
                  let* lv, s1 := materialize K s l in
                  if shift_op op && (n <? 0) then RErr
                  else if shift_op op && (n =? 0) then ROk lv s1
                  else ROk (VMat (vreg lv) (v_btf lv) None) (emit s1 (imm_ins op (vreg lv) n))
              | _ => bin_runtime K s l r (run_ins op (v_btf l))
              end
          end) = ROk v s').
    { assert (Hz : match l, r with VConst _ _, VConst _ _ => False | _, _ => True end)
        by (destruct l, r; try exact I; discriminate).
      assert (Hbr : forall aop, (aop = AAdd \/ aop = ASub) ->
        (let* lv, s1 := materialize K s l in
         let* rv, s2 := materialize K s1 r in
         let s3 := emit s2 (scale_code E (v_btf lv) (vreg rv) ++ [IAluR aop (vreg lv) (vreg rv)]) in
         ROk (VMat (vreg lv) (v_btf lv) None) (cfree s3 (vreg rv))) =
        bin_runtime K s l r (fun a b => scale_code E (v_btf l) b ++ [IAluR aop a b])).
      { intros aop _. unfold bin_runtime. destruct (materialize K s l) as [lv s1| |] eqn:Hml; cbn [bind]; try reflexivity.
        destruct (mat_btf _ _ _ _ Hml) as [-> _]. reflexivity. }
      rewrite <- H. destruct l as [a ta|b1 f1 t1 m1|r1 t1 m1|x1 t1] eqn:El, r as [a' ta'|b2 f2 t2 m2|r2 t2 m2|x2 t2] eqn:Er; try contradiction;
      destruct (operands_ok _ _); cbn [negb]; try reflexivity; destruct op; cbn [shift_op andb imm_ins run_ins];
      try reflexivity; try (symmetry; apply Hbr; auto). }
    clear H. destruct (operands_ok l r); [|discriminate]. cbn [negb] in H'.
    (* the four ways to emit code *)
    assert (Hadd : forall b offs t mm c (sub : bool),
       (l = VPend b offs t mm /\ (exists tc, r = VConst c tc) /\ op = (if sub then BSub else BAdd)) \/
       (r = VPend b offs t mm /\ (exists tc, l = VConst c tc) /\ op = BAdd /\ sub = false) ->
       of_opt (add_const_pending E b offs t mm (if sub then s64 (- c) else c)) s = ROk v s' ->
       bpost U s l0 r0 v s' (sem_bin op)).
    { intros b offs t mm c sub Hcase Hadd.
      destruct (add_const_pending E b offs t mm (if sub then s64 (- c) else c)) as [v'|] eqn:Hap; [|discriminate].
      cbn [of_opt] in Hadd. inversion Hadd; subst v' s'; clear Hadd.
      assert (Hvv : vregs v = vregs (VPend b offs t mm)).
      { unfold add_const_pending in Hap. destruct (_ =? 0); [inversion Hap; reflexivity|].
        destruct t as [u|]; [|inversion Hap; reflexivity].
        destruct (under u) as [| | |tgt|el k| | | |]; try (inversion Hap; reflexivity).
        - destruct (under tgt); try (inversion Hap; reflexivity);
          (destruct (sizeof0 E (Some tgt) =? 0); [discriminate|inversion Hap; reflexivity]).
        - destruct (sizeof0 E (Some el) =? 0); [discriminate|inversion Hap; reflexivity]. }
      exists []. rewrite app_nil_r. split; [reflexivity|]. split; [assumption|].
      split.
      { intros q Hq. rewrite Hvv in Hq. destruct Hcase as [(-> & _)|(-> & _)]; auto. }
      intros _ _ Hs. split; [assumption|].
      intros ms c1 k1 c2 k2 res k Hp Hv1 Hv2 (x & y & Hx & Hy & Hc & Hsup).
      destruct (sup_bin_operands _ _ _ _ _ _ _ Hsup) as (o1 & o2 & Ho1 & Ho2).
      destruct (resolve_cases _ _ _ _ Hres) as [Hl Hr].
      destruct (resolve_oner _ _ _ _ _ _ _ _ _ Hv1 Hv2 Ho1 Hl) as (Hol & (x' & Hx' & Hnx & Hpx & Hox) & He1).
      destruct (resolve_oner _ _ _ _ _ _ _ _ _ Hv2 Hv1 Ho2 Hr) as (Hor & (y' & Hy' & Hny & Hpy & Hoy) & He2).
      rewrite Hx in Hx'. inversion Hx'; subst x'; clear Hx'. rewrite Hy in Hy'. inversion Hy'; subst y'; clear Hy'.
      unfold sup_bin in Hsup. rewrite Ho1, Ho2 in Hsup.
      exists ms. split; [reflexivity|]. split; [apply frame_refl|].
      destruct Hcase as [(-> & (tc & ->) & Hop)|(-> & (tc & ->) & -> & ->)].
      - destruct o1 as [? ?|n t1 l1]; cbn [orelr] in Hol; [destruct Hol; discriminate|].
        destruct o2 as [b' tb'|? ? ?]; cbn [orelr] in Hor; [|destruct Hor as (_ & _ & _ & _ & Hq & _); discriminate].
        destruct Hor as [Hq2 Hrb]. inversion Hq2; subst b' tb'. destruct He1 as [Hlv Hld].
        pose proof (pend_of_spec _ _ _ _ _ _ _ Hv1 Hld) as Hpend. rewrite <- Hlv in Hpend. cbn [is_pend] in Hpend.
        rewrite Hpend in Hsup. cbn [onum otype] in *. destruct Hoy as (wb & sb & ->).
        refine (proj1 (add_const_rel ms b offs t mm c1 k1 n t1 l1 c res sub k v x _ Hld Hx Hnx Hpx _ _ Hap)).
        + rewrite Hlv. assumption.
        + left. exists wb, sb. rewrite <- Hop. assumption.
        + rewrite Hop in Hsup. destruct sub; exact Hsup.
      - destruct o2 as [? ?|n t1 l1]; cbn [orelr] in Hor; [destruct Hor; discriminate|].
        destruct o1 as [b' tb'|? ? ?]; cbn [orelr] in Hol; [|destruct Hol as (_ & _ & _ & _ & Hq & _); discriminate].
        destruct Hol as [Hq2 Hrb]. inversion Hq2; subst b' tb'. destruct He2 as [Hlv Hld].
        pose proof (pend_of_spec _ _ _ _ _ _ _ Hv2 Hld) as Hpend. rewrite <- Hlv in Hpend. cbn [is_pend] in Hpend.
        rewrite Hpend in Hsup. cbn [onum otype] in *. destruct Hox as (wb & sb & ->).
        refine (proj1 (add_const_rel ms b offs t mm c2 k2 n t1 l1 c res false k v y _ Hld Hy Hny Hpy _ _ Hap)).
        + rewrite Hlv. assumption.
        + right. split; [reflexivity|]. exists wb, sb. assumption.
        + exact Hsup. }
    assert (Hrun : is_addc op l r = false -> bin_runtime K s l r (run_ins op (v_btf l)) = ROk v s' ->
       bpost U s l0 r0 v s' (sem_bin op)).
    { intros Hna Hrt.
      destruct (binrt_ok U _ _ _ _ _ _ Hrt Hk Hkl Hkr Hdis H9) as (r1 & r2 & d & -> & Hc & Hk' & Hkv' & H12 & HU1 & HU2 & Hsem).
      eexists; split; [exact Hc|]. split; [assumption|]. split; [assumption|].
      intros _ Hn Hs. destruct (Hsem Hn Hs) as (Hs' & Hr1 & Hr2 & Hx). split; [assumption|].
      intros ms c1 k1 c2 k2 res k Hp Hv1 Hv2 (x & y & Hx1 & Hy1 & Hcb & Hsup).
      destruct (bin_run_sem _ _ _ _ _ _ _ _ _ _ _ _ _ _ Hv1 Hv2 Hres Hx1 Hy1 Hcb Hsup Hcc Hna)
        as (n1 & n2 & n' & M1 & M2 & -> & Hnr & Hpr & Hrg & Hval & Hdiv & Hsz & _).
      destruct (Hx ms _ _ Hp M1 M2) as (ms1 & E1 & F1 & G1 & G2).
      destruct (run_ins_ok op (v_btf l) r1 r2 ms1 H12 Hr1 Hr2) as (ms2 & E2 & G3 & F2).
      { rewrite G1. apply Hrg. } { rewrite G2. apply Hrg. } { assumption. }
      { rewrite G2. assumption. }
      exists ms2. rewrite exec_app, E1. split; [assumption|].
      split; [eapply frame_trans; [exact F1|]; apply F2; assumption|].
      eapply vrel_matr; eauto. rewrite G3, G1, G2. assumption. }
    assert (Himm : forall n tn, r = VConst n tn -> op_ring op = false ->
       (let* lv, s1 := materialize K s l in
        if shift_op op && (n <? 0) then RErr
        else if shift_op op && (n =? 0) then ROk lv s1
        else ROk (VMat (vreg lv) (v_btf lv) None) (emit s1 (imm_ins op (vreg lv) n))) = ROk v s' ->
       bpost U s l0 r0 v s' (sem_bin op)).
    { intros n tn -> Hring Hrt.
      destruct (materialize K s l) as [lv s1| |] eqn:Hml; cbn [bind] in Hrt; try discriminate.
      destruct (mat1 U _ _ _ _ Hml Hk Hkl H9) as (r1 & d & -> & Hc & Hk1 & Hu1 & HU1 & _ & Hmono & Hsem).
      cbn [vreg v_btf] in Hrt. destruct (shift_op op && (n <? 0)); [discriminate|].
      destruct (shift_op op && (n =? 0)) eqn:Hsh0.
      - inversion Hrt; subst v s'. exists d. split; [assumption|]. split; [assumption|].
        split; [intros x [<-|[]]; auto|]. intros _ Hn Hs. destruct (Hsem Hn Hs) as (Hs' & Hrf & _).
        split; [assumption|]. intros ms c1 k1 c2 k2 res k Hp Hv1 Hv2 (x & y & Hx1 & Hy1 & Hcb & Hsup).
        exfalso. destruct (bin_run_sem _ _ _ _ _ _ _ _ _ _ _ _ _ _ Hv1 Hv2 Hres Hx1 Hy1 Hcb Hsup Hcc)
          as (n1 & n2 & n' & _ & _ & _ & _ & _ & _ & _ & _ & _ & Hlast).
        { destruct op; try discriminate; destruct l; reflexivity. }
        destruct (Hlast _ _ eq_refl) as (_ & _ & Hq). apply andb_prop in Hsh0 as [Hq1 Hq2].
        apply Z.eqb_eq in Hq2. apply Hq; assumption.
      - inversion Hrt; subst v s'. exists (d ++ imm_ins op r1 n).
        split; [cbn [emit c_code]; rewrite Hc, app_assoc; reflexivity|]. split; [exact Hk1|].
        split; [intros x [<-|[]]; auto|]. intros _ Hn Hs. destruct (Hsem (nowr_l _ _ Hn) Hs) as (Hs' & Hrf & Hx).
        split; [exact Hs'|]. intros ms c1 k1 c2 k2 res k Hp Hv1 Hv2 (x & y & Hx1 & Hy1 & Hcb & Hsup).
        destruct (bin_run_sem _ _ _ _ _ _ _ _ _ _ _ _ _ _ Hv1 Hv2 Hres Hx1 Hy1 Hcb Hsup Hcc)
          as (n1 & n2 & n' & M1 & M2 & -> & Hnr & Hpr & Hrg & Hval & Hdiv & Hsz & Hlast).
        { destruct op; try discriminate; destruct l; reflexivity. }
        destruct (Hlast _ _ eq_refl) as (-> & Hs32 & _).
        destruct (Hx ms _ Hp M1) as (ms1 & E1 & F1 & G1).
        destruct (imm_ins_ok op r1 n ms1 Hs32 Hrf) as (ms2 & E2 & G2 & F2).
        exists ms2. rewrite exec_app, E1. split; [assumption|].
        split; [eapply frame_trans; [eapply frame_mono; [exact Hk|exact F1]|]; apply F2; assumption|].
        eapply vrel_matr; eauto. rewrite G2, G1, <- Hval. unfold scl. rewrite Hring. reflexivity. }
    destruct op.
    - destruct l as [a ta|b1 f1 t1 m1|r1 t1 m1|x1 t1], r as [a' ta'|b2 f2 t2 m2|r2 t2 m2|x2 t2];
        try (apply Hrun; [reflexivity|exact H']).
      + apply (Hadd b2 f2 t2 m2 a false); [right; eauto 10|exact H'].
      + apply (Hadd b1 f1 t1 m1 a' false); [left; eauto 10|exact H'].
    - destruct l as [a ta|b1 f1 t1 m1|r1 t1 m1|x1 t1], r as [a' ta'|b2 f2 t2 m2|r2 t2 m2|x2 t2];
        try (apply Hrun; [reflexivity|exact H']).
      apply (Hadd b1 f1 t1 m1 a' true); [left; eauto 10|exact H'].
    - apply Hrun; [destruct l, r; reflexivity|exact H'].
    - destruct r as [a' ta'|b2 f2 t2 m2|r2 t2 m2|x2 t2]; [eapply Himm; [reflexivity|reflexivity|exact H']| | |];
        (apply Hrun; [destruct l; reflexivity|exact H']).
    - destruct r as [a' ta'|b2 f2 t2 m2|r2 t2 m2|x2 t2]; [eapply Himm; [reflexivity|reflexivity|exact H']| | |];
        (apply Hrun; [destruct l; reflexivity|exact H']).
    - destruct r as [a' ta'|b2 f2 t2 m2|r2 t2 m2|x2 t2]; [eapply Himm; [reflexivity|reflexivity|exact H']| | |];
        (apply Hrun; [destruct l; reflexivity|exact H']).
    - destruct r as [a' ta'|b2 f2 t2 m2|r2 t2 m2|x2 t2]; [eapply Himm; [reflexivity|reflexivity|exact H']| | |];
        (apply Hrun; [destruct l; reflexivity|exact H']).
    - destruct r as [a' ta'|b2 f2 t2 m2|r2 t2 m2|x2 t2]; [eapply Himm; [reflexivity|reflexivity|exact H']| | |];
        (apply Hrun; [destruct l; reflexivity|exact H']).
    - destruct r as [a' ta'|b2 f2 t2 m2|r2 t2 m2|x2 t2]; [eapply Himm; [reflexivity|reflexivity|exact H']| | |];
        (apply Hrun; [destruct l; reflexivity|exact H']).
    - destruct r as [a' ta'|b2 f2 t2 m2|r2 t2 m2|x2 t2]; [eapply Himm; [reflexivity|reflexivity|exact H']| | |];
        (apply Hrun; [destruct l; reflexivity|exact H']).
  Qed.
End Ops.
