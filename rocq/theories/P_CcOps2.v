(** * Comparisons, logical operators, unary operators and conditionals. *)
From Coq Require Import ZArith List Bool Lia String.
From Verif Require Import M_Ebpf P_Ebpf M_CcNum M_Cc S_CSem S_CSup P_CcMach P_CcWalk P_CcNumr P_CcMat P_CcVal P_CcOps.
Import ListNotations.
Open Scope Z_scope.

Lemma conv_range_id t a : tmin t <= a <= tmax t -> conv t a = a.
Proof.
  intros H. destruct (Z.ltb_spec a 0) as [Hn|Hn]; [|apply conv_id; lia].
  unfold tmin, tmax, conv in *. destruct t as [w sg]. cbn [fst snd] in *. destruct sg; [|lia].
  destruct (Z.ltb_spec (8 * w - 1) 0). { rewrite (pow_neg0 (8 * w - 1)) in * by lia. lia. }
  apply sgn_id; lia.
Qed.
Lemma common_w a b : 4 <= fst (common a b).
Proof.
  assert (Hp : forall t, 4 <= fst (promote t)).
  { intros t. unfold promote. destruct (Z.ltb_spec (fst t) 4); cbn [fst]; lia. }
  unfold common. pose proof (Hp a) as Ha. pose proof (Hp b) as Hb.
  destruct (promote a) as [wa sa], (promote b) as [wb sb]. cbn [fst] in *.
  destruct (wa =? wb); [exact Ha|]. destruct (wa <? wb); assumption.
Qed.
Lemma tmax_ge t : 4 <= fst t -> 2 ^ 31 - 1 <= tmax t.
Proof.
  intros H. unfold tmax. destruct (snd t).
  - assert (2 ^ 31 <= 2 ^ (8 * fst t - 1)) by (apply Z.pow_le_mono_r; lia). lia.
  - assert (2 ^ 31 <= 2 ^ (8 * fst t)) by (apply Z.pow_le_mono_r; lia). lia.
Qed.
Lemma rel_inv op a b : negb (jop_sem (inv_jop op) a b) = c_rel op a b.
Proof.
  destruct op; cbn [inv_jop jop_sem c_rel]; try reflexivity; try (rewrite negb_involutive; reflexivity).
  - rewrite Z.leb_antisym, negb_involutive. reflexivity.
  - rewrite Z.ltb_antisym, negb_involutive. reflexivity.
  - rewrite Z.leb_antisym, negb_involutive. reflexivity.
  - rewrite Z.ltb_antisym, negb_involutive. reflexivity.
Qed.
Lemma patch_app a i b off : patch (a ++ i :: b) (List.length a) off = a ++ set_off i off :: b.
Proof. induction a as [|x a IH]; cbn [app List.length patch]; [reflexivity|]. rewrite IH. reflexivity. Qed.

Section Ops2.
  Variables (K : cfg) (C : cenv) (m : mach) (A : Z).
  Hypothesis Hmap : forall a, ce_map C a = true -> mapped m a = true.
  Hypothesis HE : ce_bt C = cf_env K.
  Hypothesis Hslot : forall i, (i < List.length (cf_vars K))%nat ->
    Z.of_nat i * 8 < 2 ^ 15 /\ rd C (A + Z.of_nat i * 8) 8 = Some (ce_slot C i).
  Notation E := (cf_env K).
  Notation walk := (walk K C).
  Notation bval := (bval C).
  Notation bok := (bok K).
  Notation mval := (mval K C).
  Notation lim := (lim K).
  Notation vrel := (vrel K C).
  Notation ptr_inv := (ptr_inv K).
  Notation adj_ok := (adj_ok K).
  Notation nowr := (nowr K).
  Notation Sok := (Sok K).
  Notation pre := (pre C A).
  Notation bpost := (bpost K C m A).
  Notation orel := (orel K C).
  Notation orelr := (orelr K C).
  Notation resolve_one := (resolve_one K C m Hmap HE).
  Notation resolve_oner := (resolve_oner K C m Hmap HE).
  Notation mat1 := (mat1 K C m A Hmap Hslot).
  Notation mat2 := (mat2 K C m A Hmap Hslot).
  Notation binrt_ok := (binrt_ok K C m A Hmap Hslot).

  Lemma int_bool_rel ms r t b : rg ms r = b2z b -> vrel ms (VMat r t None) (int_bool b) (KVal t false false).
  Proof.
    intros H. apply (vrel_mat K C ms r t (int_bool b) (b2z b)).
    - destruct b; reflexivity.
    - intros a u Hq. destruct b; discriminate.
    - destruct (lim_cases K t) as [[_ ->]|[[_ ->]|[[_ ->]|(_ & _ & _ & ->)]]]; destruct b; cbn [b2z]; lia.
    - exact H.
  Qed.
  Lemma const_bool_rel ms b : vrel ms (VConst (b2z b) None) (int_bool b) (KNum None).
  Proof. cbn [P_CcVal.vrel]. exists (b2z b), 4, true. destruct b; cbn [b2z int_bool]; repeat split; lia. Qed.

  (** ** Comparisons *)
  Definition sem_cmp (op : cmpop) c1 k1 c2 k2 res k : Prop :=
    exists x y, rval C c1 = Some x /\ rval C c2 = Some y /\ c_cmp op x y = Some res /\
      sup_cmp K C op c1 k1 c2 k2 = Some k.

  Lemma adjust_vregs l r l' r' : adjust_nums E l r = (l', r') ->
    vregs l' = vregs l /\ vregs r' = vregs r /\ is_const l' = is_const l /\ is_const r' = is_const r /\
    v_btf l' = v_btf l.
  Proof.
    unfold adjust_nums. destruct l, r; cbn [runtime is_mat is_pend orb]; intros H; inversion H; subst; auto.
  Qed.
  Definition cct (x y : cv) : ity :=
    match x, y with CInt _ w1 s1, CInt _ w2 s2 => common (w1, s1) (w2, s2) | _, _ => (8, false) end.
  Lemma cmp_value op x y res a b : c_cmp op x y = Some res -> num x = Some a -> num y = Some b ->
    tmin (cct x y) <= a <= tmax (cct x y) -> tmin (cct x y) <= b <= tmax (cct x y) ->
    res = int_bool (c_rel op a b).
  Proof.
    intros Hc Hx Hy Ha Hb.
    assert (H8 : forall z, tmin (8, false) <= z <= tmax (8, false) -> wrap z = z).
    { intros z Hz. apply wrap_small. unfold tmin, tmax in Hz. cbn [fst snd] in Hz. unfold M64. lia. }
    destruct x as [a' wa sa|a' ua|], y as [b' wb sb|b' ub|]; cbn [num] in *; try discriminate;
      inversion Hx; inversion Hy; subst a' b'; cbn [c_cmp cct] in *; inversion Hc; subst res; clear Hc.
    - rewrite !conv_range_id by assumption. reflexivity.
    - rewrite (H8 a) by assumption. reflexivity.
    - rewrite (H8 b) by assumption. reflexivity.
    - reflexivity.
  Qed.
  Lemma tmin_le0 t : 4 <= fst t -> tmin t <= 0.
  Proof. intros H. unfold tmin. destruct (snd t); [|lia]. assert (0 < 2 ^ (8 * fst t - 1)) by (apply Z.pow_pos_nonneg; lia). lia. Qed.
  Lemma cct_w x y : 4 <= fst (cct x y).
  Proof. destruct x, y; cbn [cct fst]; try lia. apply common_w. Qed.

  Lemma rel_repr op a la b lb : is_eq op = true -> eq_ok a la b lb = true -> inrep la a -> inrep lb b ->
    0 < la -> 0 < lb -> c_rel op (a mod la) (b mod lb) = c_rel op a b.
  Proof.
    intros Hop Heq [Ha1 Ha2] [Hb1 Hb2] Hla Hlb.
    assert (H : (a mod la =? b mod lb) = (a =? b)).
    { assert (Hmod : forall n l, 0 < l -> - l <= 2 * n -> n < l -> n mod l = n \/ (n < 0 /\ n mod l = n + l)).
      { intros n l Hl H1 H2. destruct (Z.ltb_spec n 0) as [Hn|Hn].
        - right. split; [assumption|]. symmetry. apply Z.mod_unique_pos with (q := -1); lia.
        - left. apply Z.mod_small. lia. }
      assert (Hmod2 : forall n l, 0 < l -> 0 <= n -> n < l -> n mod l = n) by (intros; apply Z.mod_small; lia).
      unfold eq_ok in Heq. apply orb_prop in Heq as [Heq|Heq]; [apply orb_prop in Heq as [Heq|Heq]|]; bsplit Heq.
      - assert (la = lb) as <- by lia.
        pose proof (Hmod a la Hla Ha1 Ha2). pose proof (Hmod b la Hla Hb1 Hb2).
        destruct (Z.eqb_spec (a mod la) (b mod la)), (Z.eqb_spec a b); try reflexivity; exfalso; [lia|subst b; auto].
      - destruct (Hmod a la Hla Ha1 Ha2) as [?|[_ Hq]]; [pose proof (Z.mod_pos_bound a la Hla); lia|].
        rewrite Hq, (Hmod2 b lb) by lia.
        destruct (Z.eqb_spec (a + la) b), (Z.eqb_spec a b); try reflexivity; exfalso; lia.
      - destruct (Hmod b lb Hlb Hb1 Hb2) as [?|[_ Hq]]; [pose proof (Z.mod_pos_bound b lb Hlb); lia|].
        rewrite Hq, (Hmod2 a la) by lia.
        destruct (Z.eqb_spec a (b + lb)), (Z.eqb_spec a b); try reflexivity; exfalso; lia. }
    destruct op; try discriminate; cbn [c_rel]; rewrite H; reflexivity.
  Qed.
  Lemma imm_inr b l : imm_ok b l = true -> inrep l b.
  Proof.
    unfold imm_ok. intros H. do 3 (apply andb_prop in H; let H2 := fresh in destruct H as [H H2]).
    unfold inrep. lia.
  Qed.
  Lemma adj_mval ms v l n t : adj_ok v l -> 0 < l <= 2 ^ 64 -> inrep l n -> (0 <= n < 2 ^ 31 \/ imm_ok n l = true) ->
    mval ms (VConst (adjust_num E n (v_btf v) (v_mem v)) t) (n mod l).
  Proof.
    intros Hadj Hl [Hi1 Hi2] Hn. cbn [P_CcMat.mval].
    assert (Hs : - 2 ^ 31 <= n < 2 ^ 31 /\ (0 <= n \/ l <= 2 ^ 31 \/ l = 2 ^ 64)).
    { destruct Hn as [Hn|Hn]; [lia|]. unfold imm_ok in Hn.
      do 3 (apply andb_prop in Hn; let H2 := fresh in destruct Hn as [Hn H2]).
      apply s32ok_spec in Hn. lia. }
    destruct Hs as [Hs1 Hs2]. destruct Hadj as [[-> Ha]|[Hl32 Ha]]; rewrite Ha.
    - split; [assumption|]. unfold wrap. rewrite M64_pow. reflexivity.
    - pose proof (Z.mod_pos_bound n l ltac:(lia)). 
      assert (Hb : 0 <= n mod l < 2 ^ 31).
      { destruct (Z.ltb_spec n 0); [lia|]. rewrite Z.mod_small by lia. lia. }
      split; [lia|]. symmetry. apply wrap_small. unfold M64. lia.
  Qed.

  Lemma cmp_ok op U s l0 r0 v s' : cmp_values K op s l0 r0 = ROk v s' ->
    keep U s -> keepv U s l0 -> keepv U s r0 -> (forall x, In x (vregs l0) -> ~ In x (vregs r0)) -> U 9%nat = true ->
    bpost U s l0 r0 v s' (sem_cmp op).
  Proof.
    intros H Hk Hkl0 Hkr0 Hdis0 H9. unfold cmp_values in H.
    destruct (resolve_enums l0 r0) as [[l1 r1]|] eqn:Hres; [|discriminate].
    destruct (resolve_vregs _ _ _ _ Hres) as [Hvl1 Hvr1].
    destruct (adjust_nums E l1 r1) as [l r] eqn:Hadj.
    destruct (adjust_vregs _ _ _ _ Hadj) as (Hvl & Hvr & Hcl & Hcr & Htl).
    assert (Hkl : keepv U s l) by (intros x Hx; apply Hkl0; congruence).
    assert (Hkr : keepv U s r) by (intros x Hx; apply Hkr0; congruence).
    assert (Hdis : forall x, In x (vregs l) -> ~ In x (vregs r)) by (rewrite Hvl, Hvr, Hvl1, Hvr1; assumption).
    (* semantic content *)
    assert (Hsem : forall ms c1 k1 c2 k2 res k, vrel ms l0 c1 k1 -> vrel ms r0 c2 k2 -> sem_cmp op c1 k1 c2 k2 res k ->
      exists a b, res = int_bool (c_rel op a b) /\
       ((exists ta tb, l = VConst a ta /\ r = VConst b tb /\ k = KNum None) \/
        (is_const l && is_const r = false /\ mval ms l a /\ mval ms r b /\ k = KVal (v_btf l) false false))).
    { intros ms c1 k1 c2 k2 res k Hv1 Hv2 (x & y & Hx & Hy & Hc & Hsup).
      unfold sup_cmp in Hsup. rewrite Hx, Hy in Hsup. fold (cct x y) in Hsup.
      replace (match x with CInt _ w1 s1 => match y with CInt _ w2 s2 => common (w1, s1) (w2, s2) | _ => (8, false) end | _ => (8, false) end)
        with (cct x y) in Hsup by (destruct x, y; reflexivity).
      cbv zeta in Hsup.
      destruct (operandr K C c1 k1 c2 k2) as [o1|] eqn:Ho1; [|destruct (operandr K C c2 k2 c1 k1) as [[|]|]; discriminate].
      destruct (operandr K C c2 k2 c1 k1) as [o2|] eqn:Ho2; [|destruct o1; discriminate].
      destruct (resolve_cases _ _ _ _ Hres) as [Hl Hr].
      destruct (resolve_oner _ _ _ _ _ _ _ _ _ Hv1 Hv2 Ho1 Hl) as (Hol & (x' & Hx' & Hnx & Hpx & Hox) & He1).
      destruct (resolve_oner _ _ _ _ _ _ _ _ _ Hv2 Hv1 Ho2 Hr) as (Hor & (y' & Hy' & Hny & Hpy & Hoy) & He2).
      rewrite Hx in Hx'. inversion Hx'; subst x'; clear Hx'. rewrite Hy in Hy'. inversion Hy'; subst y'; clear Hy'.
      pose proof (tmax_ge _ (cct_w x y)) as Htm. pose proof (tmin_le0 _ (cct_w x y)) as Htn.
      set (ct := cct x y) in *.
      assert (Hcv : forall a b, num x = Some a -> num y = Some b -> tmin ct <= a <= tmax ct -> tmin ct <= b <= tmax ct ->
        res = int_bool (c_rel op a b)) by (intros; eapply cmp_value; eauto).
      destruct o1 as [a ta|a ta la], o2 as [b tb|b tb lb]; cbn [onum otype P_CcOps.orelr] in *.
      - destruct ((tmin ct <=? a) && (a <=? tmax ct) && (tmin ct <=? b) && (b <=? tmax ct)) eqn:Hg; [|discriminate].
        bsplit Hg. inversion Hsup; subst k. exists a, b. split; [apply Hcv; auto; lia|].
        left. destruct Hol as [-> _], Hor as [-> _]. cbn in Hadj. inversion Hadj; subst. eauto 10.
      - match type of Hsup with (if ?g then _ else _) = _ => destruct g eqn:Hg; [|discriminate] end.
        inversion Hsup; subst k; clear Hsup. destruct Hol as [-> Ha63]. destruct Hor as (Hm & Ht & Hadjok & Hrb & Hrt & Hlb).
        exists (a mod lb), (b mod lb).
        assert (Hq : l = VConst (adjust_num E a (v_btf r1) (v_mem r1)) ta /\ r = r1).
        { unfold adjust_nums in Hadj. rewrite Hrt in Hadj.
          destruct r1; try discriminate; inversion Hadj; subst; auto. }
        destruct Hq as [-> ->].
        assert (Hca : inrep lb a /\ res = int_bool (c_rel op (a mod lb) (b mod lb)) /\ (0 <= a < 2 ^ 31 \/ imm_ok a lb = true)).
        { apply orb_prop in Hg as [Hg|Hg].
          - bsplit Hg. destruct Hrb. split; [unfold inrep; lia|]. rewrite !Z.mod_small by lia.
            split; [apply Hcv; auto; lia|left; lia].
          - do 3 (apply andb_prop in Hg; let Hg2 := fresh in destruct Hg as [Hg Hg2]).
            match goal with Hi : imm_ok a lb = true, He : eq_ok a lb b lb = true, Hf : _ && _ = true |- _ =>
              rename Hi into Himm; rename He into Heq; rename Hf into Hfit end.
            bsplit Hfit. pose proof (imm_inr _ _ Himm) as Hia. split; [exact Hia|].
            rewrite (Hcv a b) by (auto; lia). split; [|auto]. f_equal. symmetry. apply rel_repr; auto; lia. }
        destruct Hca as (Hia & Hrs & Him). split; [exact Hrs|]. right.
        split; [destruct r1; [discriminate| | |]; reflexivity|].
        split; [apply (adj_mval ms r1 lb); assumption|]. split; [assumption|]. reflexivity.
      - match type of Hsup with (if ?g then _ else _) = _ => destruct g eqn:Hg; [|discriminate] end.
        inversion Hsup; subst k; clear Hsup. destruct Hor as [-> Hb63]. destruct Hol as (Hm & Ht & Hadjok & Hra & Hrt & Hla).
        exists (a mod la), (b mod la).
        assert (Hq : r = VConst (adjust_num E b (v_btf l1) (v_mem l1)) tb /\ l = l1).
        { unfold adjust_nums in Hadj. rewrite Hrt in Hadj.
          destruct l1; try discriminate; inversion Hadj; subst; auto. }
        destruct Hq as [-> ->].
        assert (Hca : inrep la b /\ res = int_bool (c_rel op (a mod la) (b mod la)) /\ (0 <= b < 2 ^ 31 \/ imm_ok b la = true)).
        { apply orb_prop in Hg as [Hg|Hg].
          - bsplit Hg. destruct Hra. split; [unfold inrep; lia|]. rewrite !Z.mod_small by lia.
            split; [apply Hcv; auto; lia|left; lia].
          - do 3 (apply andb_prop in Hg; let Hg2 := fresh in destruct Hg as [Hg Hg2]).
            match goal with Hi : imm_ok b la = true, He : eq_ok a la b la = true, Hf : _ && _ = true |- _ =>
              rename Hi into Himm; rename He into Heq; rename Hf into Hfit end.
            bsplit Hfit. pose proof (imm_inr _ _ Himm) as Hia. split; [exact Hia|].
            rewrite (Hcv a b) by (auto; lia). split; [|auto]. f_equal. symmetry. apply rel_repr; auto; lia. }
        destruct Hca as (Hia & Hrs & Him). split; [exact Hrs|]. right.
        split; [destruct l1; [discriminate| | |]; reflexivity|].
        split; [assumption|]. split; [apply (adj_mval ms l1 la); assumption|]. congruence.
      - match type of Hsup with (if ?g then _ else _) = _ => destruct g eqn:Hg; [|discriminate] end.
        inversion Hsup; subst k; clear Hsup. destruct Hol as (Hm1 & Ht1 & _ & Hra & Hrt1 & Hla).
        destruct Hor as (Hm2 & Ht2 & _ & Hrb & Hrt2 & Hlb).
        exists (a mod la), (b mod lb). split.
        { apply orb_prop in Hg as [Hg|Hg].
          - bsplit Hg. destruct Hra, Hrb. rewrite !Z.mod_small by lia. apply Hcv; auto; lia.
          - do 2 (apply andb_prop in Hg; let Hg2 := fresh in destruct Hg as [Hg Hg2]).
            match goal with He : eq_ok a la b lb = true, Hf : _ && _ = true |- _ =>
              rename He into Heq; rename Hf into Hfit end.
            bsplit Hfit. rewrite (Hcv a b) by (auto; lia). f_equal. symmetry. apply rel_repr; auto; lia. }
        right.
        assert (Hq : l = l1 /\ r = r1).
        { unfold adjust_nums in Hadj. destruct l1, r1; try discriminate; inversion Hadj; auto. }
        destruct Hq as [-> ->]. split; [destruct l1; [discriminate| | |]; reflexivity|].
        split; [assumption|]. split; [assumption|]. congruence. }
    destruct (is_const l && is_const r) eqn:Hcc.
    { destruct l as [a ta| | |]; try discriminate. destruct r as [b tb| | |]; try discriminate.
      inversion H; subst v s'; clear H. exists []. rewrite app_nil_r. split; [reflexivity|]. split; [assumption|].
      split; [intros x []|]. intros _ _ Hs. split; [assumption|].
      intros ms c1 k1 c2 k2 res k Hp Hv1 Hv2 Hsm.
      destruct (Hsem _ _ _ _ _ _ _ Hv1 Hv2 Hsm) as (a' & b' & -> & [(ta' & tb' & Hq1 & Hq2 & ->)|(Hq & _)]); [|discriminate].
      inversion Hq1; inversion Hq2; subst. exists ms. split; [reflexivity|]. split; [apply frame_refl|].
      replace (cmp_const op a' b') with (c_rel op a' b') by (destruct op; reflexivity). apply const_bool_rel. }
    assert (H' : (if negb (operands_ok l r) then RErr else
          let* lv, s1 := materialize K s l in
          match r with
          | VConst n _ =>
              ROk (VMat (vreg lv) (v_btf lv) None)
                  (emit s1 (IJmpI (inv_jop op) (vreg lv) n 2 :: reg2bool (vreg lv)))
          | _ =>
              let* rv, s2 := materialize K s1 r in
              let s3 := emit s2 (IJmpR (inv_jop op) (vreg lv) (vreg rv) 2 :: reg2bool (vreg lv)) in
              ROk (VMat (vreg lv) (v_btf lv) None) (cfree s3 (vreg rv))
          end) = ROk v s').
    { destruct l, r; try discriminate; exact H. }
    clear H. destruct (operands_ok l r); [|discriminate]. cbn [negb] in H'.
    destruct (is_const r) eqn:Hrc.
    - destruct r as [n tn| | |]; try discriminate.
      destruct (materialize K s l) as [lv s1| |] eqn:Hml; cbn [bind] in H'; try discriminate.
      destruct (mat1 U _ _ _ _ Hml Hk Hkl H9) as (q & d & -> & Hc & Hk1 & Hu1 & HU1 & _ & Hmono & Hms).
      cbn [vreg v_btf] in H'. inversion H'; subst v s'; clear H'.
      exists (d ++ IJmpI (inv_jop op) q n 2 :: reg2bool q).
      split; [cbn [emit c_code]; rewrite Hc, app_assoc; reflexivity|]. split; [exact Hk1|].
      split; [intros x [<-|[]]; auto|]. intros _ Hn Hs. destruct (Hms (nowr_l _ _ _ Hn) Hs) as (Hs' & Hrf & Hx).
      split; [exact Hs'|]. intros ms c1 k1 c2 k2 res k Hp Hv1 Hv2 Hsm.
      destruct (Hsem _ _ _ _ _ _ _ Hv1 Hv2 Hsm) as (a & b & -> & [(ta' & tb' & -> & _)|(_ & M1 & M2 & ->)]); [discriminate|].
      destruct M2 as [Hnr ->].
      destruct (Hx ms _ Hp M1) as (ms1 & E1 & F1 & G1).
      destruct (reg2bool_ok m (IJmpI (inv_jop op) q n 2) (jop_sem (inv_jop op) a (wrap n)) q ms1) as (ms2 & E2 & G2 & F2).
      { cbn [step1]. rewrite G1, (immv_s32 n) by assumption. reflexivity. } { assumption. }
      exists ms2. rewrite exec_app, E1. split; [assumption|].
      split; [eapply frame_trans; [eapply frame_mono; [exact Hk|exact F1]|]; apply F2; assumption|].
      apply int_bool_rel. rewrite G2, rel_inv. reflexivity.
    - assert (H : bin_runtime K s l r (fun a b => IJmpR (inv_jop op) a b 2 :: reg2bool a) = ROk v s').
      { unfold bin_runtime. destruct (materialize K s l); cbn [bind] in *; try discriminate.
        destruct r; [discriminate| | |]; exact H'. }
      clear H'. destruct (binrt_ok U _ _ _ _ _ _ H Hk Hkl Hkr Hdis H9) as (q1 & q2 & d & -> & Hc & Hk' & Hkv' & H12 & HU1 & HU2 & Hrt).
      eexists; split; [exact Hc|]. split; [assumption|]. split; [assumption|].
      intros _ Hn Hs. destruct (Hrt Hn Hs) as (Hs' & Hr1 & Hr2 & Hx). split; [assumption|].
      intros ms c1 k1 c2 k2 res k Hp Hv1 Hv2 Hsm.
      destruct (Hsem _ _ _ _ _ _ _ Hv1 Hv2 Hsm) as (a & b & -> & [(ta' & tb' & -> & -> & _)|(_ & M1 & M2 & ->)]); [discriminate|].
      destruct (Hx ms _ _ Hp M1 M2) as (ms1 & E1 & F1 & G1 & G2).
      destruct (reg2bool_ok m (IJmpR (inv_jop op) q1 q2 2) (jop_sem (inv_jop op) a b) q1 ms1) as (ms2 & E2 & G3 & F2).
      { cbn [step1]. rewrite G1, G2. reflexivity. } { assumption. }
      exists ms2. rewrite exec_app, E1. split; [assumption|].
      split; [eapply frame_trans; [exact F1|]; apply F2; assumption|].
      apply int_bool_rel. rewrite G3, rel_inv. reflexivity.
  Qed.

  (** ** Logical operators *)
  Definition sem_logic (f : bool -> bool -> bool) (decides : Z -> bool) c1 k1 c2 k2 res k : Prop :=
    (forall x y a b, rval C c1 = Some x -> rval C c2 = Some y -> num x = Some a -> num y = Some b ->
        res = int_bool (f (negb (a =? 0)) (negb (b =? 0)))) /\
    sup_logic K C c1 k1 c2 k2 decides = Some k.

  Lemma tobool_ok U s x v s' : to_bool K s x = ROk v s' -> keep U s -> keepv U s x -> U 9%nat = true ->
    exists r d, v = VMat r (v_btf x) None /\ c_code s' = c_code s ++ d /\ keep U s' /\ keepv U s' v /\
      (nowr d -> Sok s -> Sok s' /\ forall ms n, pre ms -> mval ms x n ->
         exists ms', exec m d 0 ms = FFall 0 ms' /\ frame U ms ms' /\ rg ms' r = b2z (negb (n =? 0))).
  Proof.
    unfold to_bool. intros H Hk Hkx H9.
    destruct (materialize K s x) as [xv s1| |] eqn:Hm; cbn [bind] in H; try discriminate.
    destruct (mat1 U _ _ _ _ Hm Hk Hkx H9) as (q & d & -> & Hc & Hk1 & Hu1 & HU1 & _ & Hmono & Hms).
    cbn [vreg v_btf] in H. inversion H; subst v s'; clear H.
    exists q, (d ++ IJmpI JEq q 0 2 :: reg2bool q). split; [reflexivity|].
    split; [cbn [emit c_code]; rewrite Hc, app_assoc; reflexivity|]. split; [exact Hk1|].
    split; [intros z [<-|[]]; auto|]. intros Hn Hs. destruct (Hms (nowr_l _ _ _ Hn) Hs) as (Hs' & Hrf & Hx).
    split; [exact Hs'|]. intros ms n Hp M1.
    destruct (Hx ms _ Hp M1) as (ms1 & E1 & F1 & G1).
    destruct (reg2bool_ok m (IJmpI JEq q 0 2) (n =? 0) q ms1) as (ms2 & E2 & G2 & F2).
    { cbn [step1 jop_sem]. rewrite G1. reflexivity. } { assumption. }
    exists ms2. rewrite exec_app, E1. split; [assumption|].
    split; [eapply frame_trans; [eapply frame_mono; [exact Hk|exact F1]|]; apply F2; assumption|assumption].
  Qed.

  Lemma logic_operands ms l0 r0 l r c1 k1 c2 k2 res k f decides :
    vrel ms l0 c1 k1 -> vrel ms r0 c2 k2 -> resolve_enums l0 r0 = Some (l, r) ->
    sem_logic f decides c1 k1 c2 k2 res k ->
    exists o1 o2, orelr ms l o1 /\ orelr ms r o2 /\
      res = int_bool (f (negb (onum o1 =? 0)) (negb (onum o2 =? 0))) /\
      match o1, o2 with
      | ONum _ _, ONum _ _ => Some (KNum None)
      | ONum a _, ORun _ t _ => if decides a then Some (KNum None) else Some (KVal t false false)
      | ORun _ t _, ONum b _ => if decides b then Some (KNum None) else Some (KVal t false false)
      | ORun _ t _, ORun _ _ _ => Some (KVal t false false)
      end = Some k.
  Proof.
    intros Hv1 Hv2 Hres [Hf Hsup]. unfold sup_logic in Hsup.
    destruct (operandr K C c1 k1 c2 k2) as [o1|] eqn:Ho1; [|destruct (operandr K C c2 k2 c1 k1) as [[|]|]; discriminate].
    destruct (operandr K C c2 k2 c1 k1) as [o2|] eqn:Ho2; [|destruct o1; discriminate].
    destruct (resolve_cases _ _ _ _ Hres) as [Hl Hr].
    destruct (resolve_oner _ _ _ _ _ _ _ _ _ Hv1 Hv2 Ho1 Hl) as (Hol & (x' & Hx' & Hnx & Hpx & Hox) & He1).
    destruct (resolve_oner _ _ _ _ _ _ _ _ _ Hv2 Hv1 Ho2 Hr) as (Hor & (y' & Hy' & Hny & Hpy & Hoy) & He2).
    exists o1, o2. split; [assumption|]. split; [assumption|]. split; [eapply Hf; eauto|].
    destruct o1, o2; exact Hsup.
  Qed.
  Lemma runtime_dec v : runtime v = true \/ is_const v = true \/ (exists x t, v = VEnum x t).
  Proof. destruct v; cbn; eauto. Qed.

  (** Shared by && (f = andb, decided by 0) and || (f = orb, decided by non-zero). *)
  Lemma logic_ok (f : bool -> bool -> bool) (decides : Z -> bool) (dv : bool) ins U s l0 r0 v s' :
    (forall a b, decides a = true -> f (negb (a =? 0)) b = dv /\ f b (negb (a =? 0)) = dv) ->
    (forall a b, decides a = false -> f (negb (a =? 0)) b = b /\ f b (negb (a =? 0)) = b) ->
    (forall r1 r2 ms, r1 <> r2 -> r1 <> RFP -> exists ms', exec m (ins r1 r2) 0 ms = FFall 0 ms' /\
       rg ms' r1 = b2z (f (negb (rg ms r1 =? 0)) (negb (rg ms r2 =? 0))) /\ forall U, U r1 = false -> frame U ms ms') ->
    match resolve_enums l0 r0 with
    | None => RErr
    | Some (l, r) =>
        match l, r with
        | VConst a _, VConst b _ => ROk (VConst (b2z (f (negb (a =? 0)) (negb (b =? 0)))) None) s
        | _, _ =>
            if negb (operands_ok l r) then RErr else
            match l, r with
            | VConst a _, _ => if decides a then ROk (VConst (b2z dv) None) s else to_bool K s r
            | _, VConst b _ => if decides b then ROk (VConst (b2z dv) None) (free_if_mat s l) else to_bool K s l
            | _, _ => bin_runtime K s l r ins
            end
        end
    end = ROk v s' ->
    keep U s -> keepv U s l0 -> keepv U s r0 -> (forall x, In x (vregs l0) -> ~ In x (vregs r0)) -> U 9%nat = true ->
    bpost U s l0 r0 v s' (sem_logic f decides).
  Proof.
    intros Hd1 Hd2 Hins H Hk Hkl0 Hkr0 Hdis0 H9.
    destruct (resolve_enums l0 r0) as [[l r]|] eqn:Hres; [|discriminate].
    destruct (resolve_vregs _ _ _ _ Hres) as [Hvl Hvr].
    assert (Hkl : keepv U s l) by (intros x Hx; apply Hkl0; congruence).
    assert (Hkr : keepv U s r) by (intros x Hx; apply Hkr0; congruence).
    assert (Hdis : forall x, In x (vregs l) -> ~ In x (vregs r)) by (rewrite Hvl, Hvr; assumption).
    destruct (is_const l) eqn:Hlc; [destruct l as [a ta| | |]; try discriminate|].
    - destruct (is_const r) eqn:Hrc; [destruct r as [b tb| | |]; try discriminate|].
      + inversion H; subst v s'; clear H. exists []. rewrite app_nil_r. split; [reflexivity|]. split; [assumption|].
        split; [intros x []|]. intros _ _ Hs. split; [assumption|].
        intros ms c1 k1 c2 k2 res k Hp Hv1 Hv2 Hsm.
        destruct (logic_operands _ _ _ _ _ _ _ _ _ _ _ _ _ Hv1 Hv2 Hres Hsm) as (o1 & o2 & Ho1 & Ho2 & -> & Hkk).
        destruct o1 as [a' ta'|? ? ?]; cbn [P_CcOps.orelr] in Ho1; [|destruct Ho1 as (_ & _ & _ & _ & Hq & _); discriminate].
        destruct o2 as [b' tb'|? ? ?]; cbn [P_CcOps.orelr] in Ho2; [|destruct Ho2 as (_ & _ & _ & _ & Hq & _); discriminate].
        destruct Ho1 as [Hq1 _], Ho2 as [Hq2 _]. inversion Hq1; inversion Hq2; subst. inversion Hkk; subst k.
        exists ms. split; [reflexivity|]. split; [apply frame_refl|]. apply const_bool_rel.
      + assert (H' : (if decides a then ROk (VConst (b2z dv) None) s else to_bool K s r) = ROk v s').
        { destruct r; [discriminate| | |]; destruct (operands_ok _ _); try discriminate; exact H. }
        clear H. destruct (decides a) eqn:Hda.
        * inversion H'; subst v s'; clear H'. exists []. rewrite app_nil_r. split; [reflexivity|]. split; [assumption|].
          split; [intros x []|]. intros _ _ Hs. split; [assumption|].
          intros ms c1 k1 c2 k2 res k Hp Hv1 Hv2 Hsm.
          destruct (logic_operands _ _ _ _ _ _ _ _ _ _ _ _ _ Hv1 Hv2 Hres Hsm) as (o1 & o2 & Ho1 & Ho2 & -> & Hkk).
          destruct o1 as [a' ta'|? ? ?]; cbn [P_CcOps.orelr] in Ho1; [|destruct Ho1 as (_ & _ & _ & _ & Hq & _); discriminate].
          destruct Ho1 as [Hq1 _]. inversion Hq1; subst a' ta'. cbn [onum].
          destruct o2 as [b' tb'|? ? ?]; cbn [P_CcOps.orelr] in Ho2; [destruct Ho2 as [-> _]; discriminate|].
          rewrite Hda in Hkk. inversion Hkk; subst k.
          destruct (Hd1 a (negb (onum (ORun n t l) =? 0)) Hda) as [-> _].
          exists ms. split; [reflexivity|]. split; [apply frame_refl|]. apply const_bool_rel.
        * destruct (tobool_ok U _ _ _ _ H' Hk Hkr H9) as (q & d & -> & Hc & Hk' & Hkv' & Hx).
          exists d. split; [assumption|]. split; [assumption|]. split; [assumption|]. intros _ Hn Hs.
          destruct (Hx Hn Hs) as [Hs' Hx']. split; [assumption|].
          intros ms c1 k1 c2 k2 res k Hp Hv1 Hv2 Hsm.
          destruct (logic_operands _ _ _ _ _ _ _ _ _ _ _ _ _ Hv1 Hv2 Hres Hsm) as (o1 & o2 & Ho1 & Ho2 & -> & Hkk).
          destruct o1 as [a' ta'|? ? ?]; cbn [P_CcOps.orelr] in Ho1; [|destruct Ho1 as (_ & _ & _ & _ & Hq & _); discriminate].
          destruct Ho1 as [Hq1 _]. inversion Hq1; subst a' ta'. cbn [onum].
          destruct o2 as [b' tb'|n t lm]; cbn [P_CcOps.orelr] in Ho2; [destruct Ho2 as [-> _]; discriminate|].
          rewrite Hda in Hkk. inversion Hkk; subst k. destruct Ho2 as (M2 & Ht & _ & Hin & _). cbn [onum].
          destruct (Hx' ms _ Hp M2) as (ms1 & E1 & F1 & G1). rewrite (inr_zero _ _ Hin) in G1. exists ms1. split; [assumption|]. split; [assumption|].
          destruct (Hd2 a (negb (n =? 0)) Hda) as [-> _]. rewrite Ht. apply int_bool_rel. assumption.
    - destruct (is_const r) eqn:Hrc; [destruct r as [b tb| | |]; try discriminate|].
      + assert (H' : (if decides b then ROk (VConst (b2z dv) None) (free_if_mat s l) else to_bool K s l) = ROk v s').
        { destruct l; [discriminate| | |]; destruct (operands_ok _ _); try discriminate; exact H. }
        clear H. destruct (decides b) eqn:Hdb.
        * inversion H'; subst v s'; clear H'. exists []. rewrite app_nil_r.
          split; [destruct l; reflexivity|].
          split. { destruct l as [| |q tq mq|]; try exact Hk. apply keep_free; [assumption|]. apply Hkl. left; reflexivity. }
          split; [intros x []|]. intros _ _ Hs. split.
          { destruct l as [| |q tq mq|]; try exact Hs. apply Sok_free; [assumption|].
            intros ->. destruct (Hkl 9%nat (or_introl eq_refl)). congruence. }
          intros ms c1 k1 c2 k2 res k Hp Hv1 Hv2 Hsm.
          destruct (logic_operands _ _ _ _ _ _ _ _ _ _ _ _ _ Hv1 Hv2 Hres Hsm) as (o1 & o2 & Ho1 & Ho2 & -> & Hkk).
          destruct o2 as [b' tb'|? ? ?]; cbn [P_CcOps.orelr] in Ho2; [|destruct Ho2 as (_ & _ & _ & _ & Hq & _); discriminate].
          destruct Ho2 as [Hq1 _]. inversion Hq1; subst b' tb'. cbn [onum].
          destruct o1 as [a' ta'|n t lm]; cbn [P_CcOps.orelr] in Ho1; [destruct Ho1 as [-> _]; discriminate|].
          rewrite Hdb in Hkk. inversion Hkk; subst k.
          destruct (Hd1 b (negb (onum (ORun n t lm) =? 0)) Hdb) as [_ ->].
          exists ms. split; [reflexivity|]. split; [apply frame_refl|]. apply const_bool_rel.
        * destruct (tobool_ok U _ _ _ _ H' Hk Hkl H9) as (q & d & -> & Hc & Hk' & Hkv' & Hx).
          exists d. split; [assumption|]. split; [assumption|]. split; [assumption|]. intros _ Hn Hs.
          destruct (Hx Hn Hs) as [Hs' Hx']. split; [assumption|].
          intros ms c1 k1 c2 k2 res k Hp Hv1 Hv2 Hsm.
          destruct (logic_operands _ _ _ _ _ _ _ _ _ _ _ _ _ Hv1 Hv2 Hres Hsm) as (o1 & o2 & Ho1 & Ho2 & -> & Hkk).
          destruct o2 as [b' tb'|? ? ?]; cbn [P_CcOps.orelr] in Ho2; [|destruct Ho2 as (_ & _ & _ & _ & Hq & _); discriminate].
          destruct Ho2 as [Hq1 _]. inversion Hq1; subst b' tb'. cbn [onum].
          destruct o1 as [a' ta'|n t lm]; cbn [P_CcOps.orelr] in Ho1; [destruct Ho1 as [-> _]; discriminate|].
          rewrite Hdb in Hkk. inversion Hkk; subst k. destruct Ho1 as (M2 & Ht & _ & Hin & _). cbn [onum].
          destruct (Hx' ms _ Hp M2) as (ms1 & E1 & F1 & G1). rewrite (inr_zero _ _ Hin) in G1. exists ms1. split; [assumption|]. split; [assumption|].
          destruct (Hd2 b (negb (n =? 0)) Hdb) as [_ ->]. rewrite Ht. apply int_bool_rel. assumption.
      + assert (H' : bin_runtime K s l r ins = ROk v s').
        { destruct l; [discriminate| | |]; (destruct r; [discriminate| | |]); destruct (operands_ok _ _); try discriminate; exact H. }
        clear H. destruct (binrt_ok U _ _ _ _ _ _ H' Hk Hkl Hkr Hdis H9) as (q1 & q2 & d & -> & Hc & Hk' & Hkv' & H12 & HU1 & HU2 & Hrt).
        eexists; split; [exact Hc|]. split; [assumption|]. split; [assumption|].
        intros _ Hn Hs. destruct (Hrt Hn Hs) as (Hs' & Hr1 & Hr2 & Hx). split; [assumption|].
        intros ms c1 k1 c2 k2 res k Hp Hv1 Hv2 Hsm.
        destruct (logic_operands _ _ _ _ _ _ _ _ _ _ _ _ _ Hv1 Hv2 Hres Hsm) as (o1 & o2 & Ho1 & Ho2 & -> & Hkk).
        destruct o1 as [a' ta'|n1 t1 lm1]; cbn [P_CcOps.orelr] in Ho1; [destruct Ho1 as [-> _]; discriminate|].
        destruct o2 as [b' tb'|n2 t2 lm2]; cbn [P_CcOps.orelr] in Ho2; [destruct Ho2 as [-> _]; discriminate|].
        inversion Hkk; subst k. destruct Ho1 as (M1 & Ht1 & _ & Hin1 & _). destruct Ho2 as (M2 & _ & _ & Hin2 & _). cbn [onum].
        destruct (Hx ms _ _ Hp M1 M2) as (ms1 & E1 & F1 & G1 & G2).
        destruct (Hins q1 q2 ms1 H12 Hr1) as (ms2 & E2 & G3 & F2).
        exists ms2. rewrite exec_app, E1. split; [assumption|].
        split; [eapply frame_trans; [exact F1|]; apply F2; assumption|].
        rewrite Ht1. apply int_bool_rel. rewrite G3, G1, G2, (inr_zero _ _ Hin1), (inr_zero _ _ Hin2). reflexivity.
  Qed.

  Lemma andand_ok U s l0 r0 v s' : andand_values K s l0 r0 = ROk v s' ->
    keep U s -> keepv U s l0 -> keepv U s r0 -> (forall x, In x (vregs l0) -> ~ In x (vregs r0)) -> U 9%nat = true ->
    bpost U s l0 r0 v s' (sem_logic andb (fun n => n =? 0)).
  Proof.
    intros H. apply (logic_ok andb (fun n => n =? 0) false (fun a b => [IJmpI JEq a 0 3; IJmpI JEq b 0 2] ++ reg2bool a)).
    - intros a b Ha. rewrite Ha. cbn [negb andb]. split; [reflexivity|apply andb_false_r].
    - intros a b Ha. rewrite Ha. cbn [negb andb]. split; [reflexivity|apply andb_true_r].
    - intros r1 r2 ms H12 Hr1. cbn [app reg2bool exec step1 jop_sem]. change (immv 0) with 0.
      destruct (Z.eqb_spec (rg ms r1) 0) as [Hz|Hz]; [|destruct (Z.eqb_spec (rg ms r2) 0) as [Hz2|Hz2]]; cbn;
        eexists; (split; [reflexivity|]); rewrite rg_setr_eq; (split; [solve [reflexivity|apply Z.lxor_nilpotent]|]);
        intros; apply frame_setr; assumption.
    - exact H.
  Qed.
  Lemma oror_ok U s l0 r0 v s' : oror_values K s l0 r0 = ROk v s' ->
    keep U s -> keepv U s l0 -> keepv U s r0 -> (forall x, In x (vregs l0) -> ~ In x (vregs r0)) -> U 9%nat = true ->
    bpost U s l0 r0 v s' (sem_logic orb (fun n => negb (n =? 0))).
  Proof.
    intros H. apply (logic_ok orb (fun n => negb (n =? 0)) true
       (fun a b => [IJmpI JNE a 0 3; IJmpI JNE b 0 2; IAluR AXor a a; IJa 1; IMovI a 1])).
    - intros a b Ha. rewrite Ha. cbn [negb orb]. split; [reflexivity|apply orb_true_r].
    - intros a b Ha. rewrite Ha. cbn [negb orb]. split; [reflexivity|apply orb_false_r].
    - intros r1 r2 ms H12 Hr1. cbn [exec step1 jop_sem]. change (immv 0) with 0.
      destruct (Z.eqb_spec (rg ms r1) 0) as [Hz|Hz]; [destruct (Z.eqb_spec (rg ms r2) 0) as [Hz2|Hz2]|]; cbn;
        eexists; (split; [reflexivity|]); rewrite rg_setr_eq; (split; [solve [reflexivity|apply Z.lxor_nilpotent]|]);
        intros; apply frame_setr; assumption.
    - exact H.
  Qed.

  (** ** Unary operators *)
  Definition upost (U : reg -> bool) (s : cst) (l0 v : value) (s' : cst)
      (sem : cv -> tk -> cv -> tk -> Prop) : Prop :=
    exists d, c_code s' = c_code s ++ d /\ keep U s' /\ keepv U s' v /\
      (Z.of_nat (List.length d) < 2 ^ 15 -> nowr d -> Sok s -> Sok s' /\
       forall ms c1 k1 res k, pre ms -> vrel ms l0 c1 k1 -> sem c1 k1 res k ->
       exists ms', exec m d 0 ms = FFall 0 ms' /\ frame U ms ms' /\ vrel ms' v res k).

  Lemma unary_ok (sem : cv -> tk -> cv -> tk -> Prop) kf chk ins U s v0 v s' :
    unary K s v0 kf chk ins = ROk v s' -> keep U s -> keepv U s v0 -> U 9%nat = true ->
    (forall ms c k res k', vrel ms v0 c k -> sem c k res k' ->
       (exists n t w sg n', c = CInt n w sg /\ k = KNum t /\ k' = KNum None /\ n' = kf n /\
           num res = Some n' /\ (exists w sg, res = CInt n' w sg) /\ - 2 ^ 63 <= n' < 2 ^ 63) \/
       (exists n t l, ldr K C c k = Some (n, t, l) /\ k' = KVal t false false /\
          forall r ms1, rg ms1 r = n mod l -> inrep l n -> r <> RFP -> exists ms2 n', exec m (ins r) 0 ms1 = FFall 0 ms2 /\
            (forall U, U r = false -> frame U ms1 ms2) /\ rg ms2 r = n' /\ num res = Some n' /\
            ptr_inv res t /\ 0 <= n' < lim t)) ->
    upost U s v0 v s' sem.
  Proof.
    intros H Hk Hkv H9 Hsem. unfold unary in H.
    destruct (is_const v0) eqn:Hc0.
    - destruct v0 as [n0 t0| | |]; try discriminate. inversion H; subst v s'; clear H.
      exists []. rewrite app_nil_r. split; [reflexivity|]. split; [assumption|]. split; [intros x []|].
      intros _ _ Hs. split; [assumption|]. intros ms c k res k' Hp Hv Hsm.
      exists ms. split; [reflexivity|]. split; [apply frame_refl|].
      destruct (Hsem _ _ _ _ _ Hv Hsm) as [(n & t & w & sg & n' & -> & -> & -> & Hn' & Hnr & (w' & sg' & ->) & Hr)|(n & t & l & Hl & _)].
      + destruct Hv as (n1 & w1 & sg1 & Hq1 & Hq2 & _). inversion Hq1; inversion Hq2; subst.
        cbn [P_CcVal.vrel]. eauto 10.
      + exfalso. destruct (ldr_mval K C m Hmap HE _ _ _ _ _ _ _ Hv Hl) as (_ & _ & _ & _ & Hq & _). discriminate.
    - assert (H' : (let* x, s1 := materialize K s v0 in
        ROk (VMat (vreg x) (v_btf x) None) (emit s1 (ins (vreg x)))) = ROk v s').
      { destruct v0; [discriminate| | |]; destruct (_ && _); try discriminate; exact H. }
      clear H. destruct (materialize K s v0) as [xv s1| |] eqn:Hm; cbn [bind] in H'; try discriminate.
      destruct (mat1 U _ _ _ _ Hm Hk Hkv H9) as (q & d & -> & Hc & Hk1 & Hu1 & HU1 & _ & Hmono & Hms).
      cbn [vreg v_btf] in H'. inversion H'; subst v s'; clear H'.
      exists (d ++ ins q). split; [cbn [emit c_code]; rewrite Hc, app_assoc; reflexivity|]. split; [exact Hk1|].
      split; [intros z [<-|[]]; auto|]. intros _ Hn Hs. destruct (Hms (nowr_l _ _ _ Hn) Hs) as (Hs' & Hrf & Hx).
      split; [exact Hs'|]. intros ms c k res k' Hp Hv Hsm.
      destruct (Hsem _ _ _ _ _ Hv Hsm) as [(n & t & w & sg & n' & -> & -> & _)|(n & t & l & Hl & -> & Hi)].
      { exfalso. destruct Hv as (n1 & w1 & sg1 & _ & -> & _). discriminate. }
      destruct (ldr_mval K C m Hmap HE _ _ _ _ _ _ _ Hv Hl) as (M1 & Ht & _ & Hin & _).
      destruct (Hx ms _ Hp M1) as (ms1 & E1 & F1 & G1).
      destruct (Hi q ms1 G1 Hin Hrf) as (ms2 & n' & E2 & F2 & G2 & Hnr & Hpi & Hr).
      exists ms2. rewrite exec_app, E1. split; [assumption|].
      split; [eapply frame_trans; [eapply frame_mono; [exact Hk|exact F1]|]; apply F2; assumption|].
      rewrite Ht. eapply vrel_mat; eauto.
  Qed.

  (** ** Conditionals *)
  Lemma branch_ok U s v rc s' : cond_branch K s v rc = ROk tt s' -> keep U s -> keepv U s v -> U 9%nat = true ->
    U rc = true ->
    exists d, c_code s' = c_code s ++ d /\ keep U s' /\
      (forall x, c_regs s x = true -> ~ In x (vregs v) -> c_regs s' x = true) /\
      (nowr d -> Sok s -> Sok s' /\ (rc <> RFP -> forall ms n, pre ms ->
         (match v with VConst c _ => 0 <= c < 2 ^ 31 /\ n = c | _ => mval ms v n end) ->
         exists ms', exec m d 0 ms = FFall 0 ms' /\ rg ms' rc = n /\
           forall U', (forall x, U' x = true -> U x = true) -> U' rc = false -> frame U' ms ms')).
  Proof.
    intros H Hk Hkv H9 Hrc. unfold cond_branch in H.
    destruct (is_const v) eqn:Hcv.
    - destruct v as [c t| | |]; try discriminate. inversion H; subst s'; clear H.
      exists [IMovI rc (s32 c)]. split; [reflexivity|]. split; [assumption|]. split; [auto|].
      intros _ Hs. split; [exact Hs|]. intros Hrf ms n Hp [Hc ->].
      cbn [exec step1]. eexists; split; [reflexivity|]. rewrite rg_setr_eq.
      split; [rewrite immv_s32' by lia; apply wrap_small; unfold M64; lia|].
      intros U' _ HU'. apply frame_setr; assumption.
    - assert (H' : (let* x, s1 := materialize K s v in
         ROk tt (cfree (emit s1 [IMovR rc (vreg x)]) (vreg x))) = ROk tt s').
      { destruct v; [discriminate| | |]; exact H. }
      clear H. destruct (materialize K s v) as [xv s1| |] eqn:Hm; cbn [bind] in H'; try discriminate.
      destruct (mat1 U _ _ _ _ Hm Hk Hkv H9) as (q & d & -> & Hc & Hk1 & Hu1 & HU1 & Hfr & Hmono & Hms).
      cbn [vreg] in H'. inversion H'; subst s'; clear H'.
      exists (d ++ [IMovR rc q]). split; [cbn [cfree emit c_code]; rewrite Hc, app_assoc; reflexivity|].
      split; [apply keep_free; assumption|].
      split. { intros x Hx Hnx. apply free_keep; [|apply Hmono; assumption].
               intros ->. destruct Hfr as [Hfr|Hfr]; [contradiction|congruence]. }
      intros Hn Hs. destruct (Hms (nowr_l _ _ _ Hn) Hs) as (Hs' & Hrf & Hx).
      split; [apply Sok_free; [exact Hs'|congruence]|]. intros Hrcf ms n Hp M.
      assert (M' : mval ms v n) by (destruct v; [discriminate| | |]; exact M).
      destruct (Hx ms _ Hp M') as (ms1 & E1 & F1 & G1).
      rewrite exec_app, E1. cbn [exec step1]. eexists; split; [reflexivity|]. rewrite rg_setr_eq.
      split; [assumption|]. intros U' Hsub HU'.
      eapply frame_trans; [|apply frame_setr; [exact HU'|exact Hrcf]].
      eapply frame_mono; [|exact F1]. intros z Hz. apply Hk, Hsub. assumption.
  Qed.

  Definition sem_cond cc kc c1 k1 c2 k2 res k : Prop := sup_cond K C cc kc c1 k1 c2 k2 res = Some k.
  Definition disj (a b : value) : Prop := forall x, In x (vregs a) -> ~ In x (vregs b).

  Definition br_val (v : value) (ms : mst) (n : Z) : Prop :=
    match v with VConst c _ => 0 <= c < 2 ^ 31 /\ n = c | _ => mval ms v n end.
  Lemma sup_branch_spec ms v c k tc res k' : vrel ms v c k -> sup_branch K C tc c k res = Some k' ->
    exists n w sg, res = CInt n w sg /\ 0 <= n < lim tc /\ k' = KVal tc false false /\ br_val v ms n.
  Proof.
    intros Hv Hs. unfold sup_branch in Hs. destruct res as [n' w sg| |]; try discriminate.
    destruct k as [t|x|prev off|off|t pend hop].
    - destruct Hv as (n & w0 & sg0 & -> & -> & _).
      destruct ((n' =? n) && (0 <=? n) && (n <? 2 ^ 31) && (n <? lim tc)) eqn:Hg; [|discriminate].
      bsplit Hg. inversion Hs; subst. exists n, w, sg. cbn [br_val]. repeat split; lia.
    - discriminate.
    - destruct (ld K C c (KLoc prev off)) as [[[n t] l]|] eqn:Hl; [|discriminate].
      destruct ((n' =? n) && (n <? lim tc)) eqn:Hg; [|discriminate]. bsplit Hg. inversion Hs; subst.
      destruct (ld_mval K C m Hmap HE _ _ _ _ _ _ _ Hv Hl) as (M1 & Ht & _ & Hr & Hrt & _).
      exists n, w, sg. split; [reflexivity|]. split; [lia|]. split; [reflexivity|].
      destruct v; try discriminate; exact M1.
    - destruct (ld K C c (KElem off)) as [[[n t] l]|] eqn:Hl; [|discriminate].
      destruct ((n' =? n) && (n <? lim tc)) eqn:Hg; [|discriminate]. bsplit Hg. inversion Hs; subst.
      destruct (ld_mval K C m Hmap HE _ _ _ _ _ _ _ Hv Hl) as (M1 & Ht & _ & Hr & Hrt & _).
      exists n, w, sg. split; [reflexivity|]. split; [lia|]. split; [reflexivity|].
      destruct v; try discriminate; exact M1.
    - destruct (ld K C c (KVal t pend hop)) as [[[n t'] l]|] eqn:Hl; [|discriminate].
      destruct ((n' =? n) && (n <? lim tc)) eqn:Hg; [|discriminate]. bsplit Hg. inversion Hs; subst.
      destruct (ld_mval K C m Hmap HE _ _ _ _ _ _ _ Hv Hl) as (M1 & Ht & _ & Hr & Hrt & _).
      exists n, w, sg. split; [reflexivity|]. split; [lia|]. split; [reflexivity|].
      destruct v; try discriminate; exact M1.
  Qed.

  Lemma cond_ok U s c0 l0 r0 v s' : cond_values K s c0 l0 r0 = ROk v s' ->
    keep U s -> keepv U s c0 -> keepv U s l0 -> keepv U s r0 -> disj c0 l0 -> disj c0 r0 -> disj l0 r0 ->
    U 9%nat = true ->
    exists d, c_code s' = c_code s ++ d /\ keep U s' /\ keepv U s' v /\
      (Z.of_nat (List.length d) < 2 ^ 15 -> nowr d -> Sok s -> Sok s' /\
       forall ms cc kc c1 k1 c2 k2 res k, pre ms -> vrel ms c0 cc kc -> vrel ms l0 c1 k1 -> vrel ms r0 c2 k2 ->
       sem_cond cc kc c1 k1 c2 k2 res k ->
       exists ms', exec m d 0 ms = FFall 0 ms' /\ frame U ms ms' /\ vrel ms' v res k).
  Proof.
    intros H Hk Hkc Hkl Hkr Dcl Dcr Dlr H9. unfold cond_values in H.
    destruct (negb (operands_ok c0 c0 && operands_ok l0 r0)); [discriminate|].
    destruct (is_const c0) eqn:Hcc.
    - destruct c0 as [n0 t0| | |]; try discriminate.
      assert (Hv : v = (if negb (n0 =? 0) then l0 else r0) /\ s' = s).
      { destruct (negb (n0 =? 0)); inversion H; auto. }
      destruct Hv as [-> ->]. clear H.
      exists []. rewrite app_nil_r. split; [reflexivity|]. split; [assumption|].
      split; [destruct (negb (n0 =? 0)); assumption|]. intros _ _ Hs. split; [assumption|].
      intros ms cc kc c1 k1 c2 k2 res k Hp Hvc Hv1 Hv2 Hsm. exists ms. split; [reflexivity|]. split; [apply frame_refl|].
      assert (Hkc' : exists t n w sg, kc = KNum t /\ cc = CInt n w sg /\ n = n0).
      { destruct kc as [t|x|prev off|off|t pend hop]; cbn [P_CcVal.vrel] in Hvc.
        - destruct Hvc as (n & w & sg & -> & Hq & _). inversion Hq; subst. eauto 10.
        - destruct Hvc as (n & w & sg & -> & Hq). discriminate.
        - destruct Hvc as (? & ? & ? & ? & ? & ? & ? & ? & Hq & _). discriminate.
        - destruct Hvc as (? & ? & ? & ? & ? & ? & ? & Hq & _). discriminate.
        - destruct Hvc as (n & _ & _ & Hq). destruct pend.
          + destruct Hq as (? & ? & ? & ? & Hq & _). discriminate.
          + destruct Hq as (? & Hq & _). discriminate. }
      destruct Hkc' as (t & n & w & sg & -> & -> & ->). unfold sem_cond, sup_cond in Hsm.
      assert (Hgen : forall v c kk, vrel ms v c kk ->
         match kk, c, res with
         | (KNum _ | KVal _ _ _), CInt m _ _, CInt m' _ _ => if m =? m' then Some kk else None
         | _, _, _ => None end = Some k -> vrel ms v res k).
      { intros v c kk Hv Hq. destruct kk as [t1|x|prev off|off|t1 pend hop]; try discriminate.
        - destruct c as [m0 w0 sg0| |]; try discriminate. destruct res as [m1 w1 sg1| |]; try discriminate.
          destruct (Z.eqb_spec m0 m1) as [->|]; [|discriminate]. inversion Hq; subst k.
          destruct Hv as (n & w' & sg' & Hq1 & -> & Hr). inversion Hq1; subst. cbn [P_CcVal.vrel]. eauto 10.
        - destruct c as [m0 w0 sg0| |]; try discriminate. destruct res as [m1 w1 sg1| |]; try discriminate.
          destruct (Z.eqb_spec m0 m1) as [->|]; [|discriminate]. inversion Hq; subst k.
          destruct Hv as (n & Hn & Hpi & Hr). cbn [num] in Hn. inversion Hn; subst n.
          cbn [P_CcVal.vrel]. exists m1. split; [reflexivity|]. split; [intros ? ? Hq1; discriminate|exact Hr]. }
      destruct (negb (n0 =? 0)); eapply Hgen; eauto.
    - assert (H' : (let* cv, s1 := materialize K s c0 in
      let rc := vreg cv in
      let jidx := clen s1 in
      let s2 := emit s1 [IJmpI JEq rc 0 2] in
      let* _u1, s3 := cond_branch K s2 l0 rc in
      let jaidx := clen s3 in
      let s4 := emit s3 [IJa 1] in
      let s5 := cpatch s4 jidx (s16 (Z.of_nat (clen s4) - Z.of_nat jidx - 1)) in
      let* _u2, s6 := cond_branch K s5 r0 rc in
      let s7 := cpatch s6 jaidx (s16 (Z.of_nat (clen s6) - Z.of_nat jaidx - 1)) in
      ROk (VMat rc (v_btf cv) None) s7) = ROk v s').
      { destruct c0; [discriminate| | |]; exact H. }
      clear H. destruct (materialize K s c0) as [cv1 s1| |] eqn:Hm; cbn [bind] in H'; try discriminate.
      destruct (mat1 U _ _ _ _ Hm Hk Hkc H9) as (rc & d & -> & Hc & Hk1 & Hu1 & HU1 & Hfr & Hmono & Hms).
      cbn [vreg v_btf] in H'. cbv zeta in H'.
      set (U1 := fun x => U x || Nat.eqb x rc).
      assert (HU1s : forall x, U x = true -> U1 x = true) by (intros x Hx; unfold U1; rewrite Hx; reflexivity).
      assert (HU1rc : U1 rc = true) by (unfold U1; rewrite Nat.eqb_refl; apply orb_true_r).
      assert (Hk1' : keep U1 s1).
      { intros x Hx. unfold U1 in Hx. apply orb_prop in Hx as [Hx|Hx]; [auto|]. apply Nat.eqb_eq in Hx. subst. assumption. }
      assert (Hnrc : forall w, keepv U s w -> disj c0 w -> keepv U1 s1 w /\ ~ In rc (vregs w)).
      { intros w Hkw Hdw. assert (Hnr : ~ In rc (vregs w)).
        { intros Hin. destruct Hfr as [Hfr|Hfr]; [apply (Hdw rc); assumption|]. destruct (Hkw rc Hin). congruence. }
        split; [|assumption]. intros x Hx. destruct (Hkw x Hx) as [Ha Hb]. split; [auto|].
        unfold U1. rewrite Hb. cbn [orb]. apply Nat.eqb_neq. congruence. }
      destruct (Hnrc _ Hkl Dcl) as [Hkl1 Hnl]. destruct (Hnrc _ Hkr Dcr) as [Hkr1 Hnr].
      destruct (cond_branch K (emit s1 [IJmpI JEq rc 0 2]) l0 rc) as [[] s3| |] eqn:Hb1; cbn [bind] in H'; try discriminate.
      destruct (branch_ok U1 _ _ _ _ Hb1) as (dl & Hc3 & Hk3 & Hm3 & Hs3); auto.
      match type of H' with context [cond_branch K ?s5 r0 rc] => set (s5v := s5) in * end.
      destruct (cond_branch K s5v r0 rc) as [[] s6| |] eqn:Hb2; cbn [bind] in H'; try discriminate.
      assert (Hkr5 : keepv U1 s5v r0).
      { intros x Hx. destruct (Hkr1 x Hx) as [Ha Hb]. split; [|assumption].
        apply Hm3; [exact Ha|]. intros Hin. apply (Dlr x); assumption. }
      destruct (branch_ok U1 s5v _ _ _ Hb2) as (dr & Hc6 & Hk6 & Hm6 & Hs6); auto.
      inversion H'; subst v s'; clear H'.
      set (J1 := IJmpI JEq rc 0 (s16 (Z.of_nat (List.length dl) + 1))).
      set (J2 := IJa (s16 (Z.of_nat (List.length dr)))).
      assert (Hcode5 : c_code s5v = c_code s ++ d ++ J1 :: dl ++ [IJa 1]).
      { unfold s5v, cpatch. cbn [c_code emit]. unfold clen. rewrite Hc3. cbn [emit c_code]. rewrite Hc.
        rewrite <- !app_assoc. cbn [app]. rewrite app_assoc. rewrite patch_app. cbn [set_off]. rewrite <- app_assoc.
        unfold J1.
        match goal with |- _ ++ _ ++ IJmpI JEq rc 0 (s16 ?a) :: _ = _ => replace a with (Z.of_nat (List.length dl) + 1); [reflexivity|] end.
        rewrite ?app_length; cbn [List.length]; rewrite ?app_length; cbn [List.length]; rewrite ?app_length; cbn [List.length]; rewrite Hc3; cbn [emit c_code]; rewrite Hc; rewrite ?app_length; cbn [List.length]; lia. }
      assert (Hcode : c_code (cpatch s6 (clen s3) (s16 (Z.of_nat (clen s6) - Z.of_nat (clen s3) - 1))) =
         c_code s ++ (d ++ J1 :: dl ++ J2 :: dr)).
      { unfold cpatch. cbn [c_code]. unfold clen. rewrite Hc6, Hcode5.
        assert (Hl3 : List.length (c_code s3) = List.length (c_code s ++ d ++ J1 :: dl)).
        { rewrite Hc3. cbn [emit c_code]. rewrite Hc. rewrite !app_length. cbn [List.length]. lia. }
        rewrite Hl3.
        replace ((c_code s ++ d ++ J1 :: dl ++ [IJa 1]) ++ dr) with ((c_code s ++ d ++ J1 :: dl) ++ IJa 1 :: dr)
          by (rewrite <- !app_assoc; cbn [app]; rewrite <- !app_assoc; reflexivity).
        rewrite patch_app. cbn [set_off]. rewrite <- !app_assoc. cbn [app]. unfold J2.
        match goal with |- context [IJa (s16 ?a) :: _ = _] => idtac | |- context [IJa (s16 (?a - ?b - 1))] =>
           replace (a - b - 1) with (Z.of_nat (List.length dr)); [reflexivity|] end.
        rewrite ?app_length; cbn [List.length]; rewrite ?app_length; cbn [List.length]; rewrite ?app_length; cbn [List.length]; lia. }
      eexists. split; [exact Hcode|].
      split; [intros x Hx; apply Hk6, HU1s; assumption|].
      split; [intros x [<-|[]]; split; [apply Hk6; assumption|assumption]|].
      intros Hlen Hnw Hs.
      assert (Hnd : nowr d) by (apply nowr_l in Hnw; assumption).
      assert (Hndl : nowr dl /\ nowr dr).
      { apply nowr_r in Hnw. change (J1 :: dl ++ J2 :: dr) with ([J1] ++ dl ++ [J2] ++ dr) in Hnw.
        apply nowr_r in Hnw. split; [apply nowr_l in Hnw; assumption|]. apply nowr_r, nowr_r in Hnw. assumption. }
      destruct Hndl as [Hndl Hndr].
      destruct (Hms Hnd Hs) as (Hs1 & Hrf & Hx). destruct (Hs3 Hndl Hs1) as [Hs3' Hx3].
      destruct (Hs6 Hndr Hs3') as [Hs6' Hx6].
      split; [exact Hs6'|].
      intros ms cc kc c1 k1 c2 k2 res k Hp Hvc Hv1 Hv2 Hsm. unfold sem_cond, sup_cond in Hsm.
      assert (Hsm' : match ldr K C cc kc with
        | Some (n, t, _) =>
            if not_enum k1 && not_enum k2 then
              (if negb (n =? 0) then sup_branch K C t c1 k1 res else sup_branch K C t c2 k2 res)
            else None
        | None => None
        end = Some k).
      { destruct kc; try exact Hsm; destruct cc; try exact Hsm.
        destruct Hvc as (n0 & w0 & sg0 & _ & -> & _). discriminate. }
      clear Hsm. destruct (ldr K C cc kc) as [[[n t] lm]|] eqn:Hld; [|discriminate].
      destruct (not_enum k1 && not_enum k2); [|discriminate].
      destruct (ldr_mval K C m Hmap HE _ _ _ _ _ _ _ Hvc Hld) as (M1 & Ht & _ & Hin & _).
      destruct (Hx ms _ Hp M1) as (ms1 & E1 & F1 & G1).
      assert (Hp1 : pre ms1) by (exact (pre_frame K C A s ms ms1 Hs F1 Hp)).
      assert (HF1 : frame U ms ms1) by (eapply frame_mono; [exact Hk|exact F1]).
      rewrite app_length in Hlen. cbn [List.length] in Hlen. rewrite app_length in Hlen. cbn [List.length] in Hlen.
      assert (Hj1 : s16 (Z.of_nat (List.length dl) + 1) = Z.of_nat (List.length dl) + 1) by (apply s16_id; lia).
      assert (Hj2 : s16 (Z.of_nat (List.length dr)) = Z.of_nat (List.length dr)) by (apply s16_id; lia).
      rewrite exec_app, E1. unfold J1, J2. cbn [exec step1 jop_sem]. rewrite G1. change (immv 0) with 0. rewrite (inr_zero _ _ Hin), Hj1.
      destruct (Z.eqb_spec n 0) as [Hn0|Hn0]; cbn [negb] in Hsm'.
      + destruct (Z.ltb_spec (Z.of_nat (List.length dl) + 1) 0); [lia|].
        replace (Z.to_nat (Z.of_nat (List.length dl) + 1)) with (List.length dl + 1)%nat by lia.
        rewrite exec_app, exec_skip. cbn [exec].
        assert (Hv2' : vrel ms1 r0 c2 k2) by (eapply vrel_frame; [exact F1| |exact Hv2]; intros x Hx0; apply Hkr; assumption).
        destruct (sup_branch_spec _ _ _ _ _ _ _ Hv2' Hsm') as (n' & w & sg & -> & Hr' & -> & Hbr).
        destruct (Hx6 Hrf ms1 n' Hp1 Hbr) as (ms2 & E2 & G2 & F2).
        exists ms2. split; [exact E2|]. split; [eapply frame_trans; [exact HF1|apply F2; assumption]|].
        rewrite Ht. eapply vrel_mat; [reflexivity|intros ? ? Hq; discriminate|exact Hr'|exact G2].
      + assert (Hv1' : vrel ms1 l0 c1 k1) by (eapply vrel_frame; [exact F1| |exact Hv1]; intros x Hx0; apply Hkl; assumption).
        destruct (sup_branch_spec _ _ _ _ _ _ _ Hv1' Hsm') as (n' & w & sg & -> & Hr' & -> & Hbr).
        destruct (Hx3 Hrf ms1 n' Hp1 Hbr) as (ms2 & E2 & G2 & F2).
        rewrite exec_app, E2. cbn [exec step1]. rewrite Hj2.
        destruct (Z.ltb_spec (Z.of_nat (List.length dr)) 0); [lia|]. rewrite Nat2Z.id, exec_skip0.
        exists ms2. split; [reflexivity|]. split; [eapply frame_trans; [exact HF1|apply F2; assumption]|].
        rewrite Ht. eapply vrel_mat; [reflexivity|intros ? ? Hq; discriminate|exact Hr'|exact G2].
  Qed.
End Ops2.
