(** * Relation between compiler values and C values. *)
From Coq Require Import ZArith List Bool Lia String.
From Verif Require Import M_Ebpf P_Ebpf M_CcNum M_Cc S_CSem S_CSup P_CcMach P_CcWalk P_CcNumr P_CcMat.
Import ListNotations.
Open Scope Z_scope.

Lemma sizeof_under E t : sizeof E t = sizeof E (under t).
Proof. induction t; cbn [sizeof under]; auto. Qed.
Lemma shiftr_mod_sub raw st b N : 0 <= st -> 0 <= b -> st + b <= N ->
  Z.shiftr (raw mod 2 ^ N) st mod 2 ^ b = Z.shiftr raw st mod 2 ^ b.
Proof.
  intros Hs Hb HN. apply Z.bits_inj'. intros i Hi.
  destruct (Z.ltb_spec i b).
  - rewrite !Z.mod_pow2_bits_low by lia. rewrite !Z.shiftr_spec by lia.
    rewrite Z.mod_pow2_bits_low by lia. reflexivity.
  - rewrite !Z.mod_pow2_bits_high by lia. reflexivity.
Qed.
Lemma land_ones_small x b : 0 <= b -> 0 <= x < 2 ^ b -> Z.land x (2 ^ b - 1) = x.
Proof.
  intros Hb Hx. replace (2 ^ b - 1) with (Z.ones b) by (rewrite Z.ones_equiv; lia).
  rewrite Z.land_ones by assumption. apply Z.mod_small. assumption.
Qed.

(** Values that a representation modulo l can stand for. *)
Definition inrep (l n : Z) : Prop := - l <= 2 * n /\ n < l.
Lemma inr_mod l n : inrep l n -> n mod l = if n <? 0 then n + l else n.
Proof.
  intros [H1 H2]. destruct (Z.ltb_spec n 0) as [Hn|Hn]; [|apply Z.mod_small; lia].
  rewrite <- (Z.mod_add n 1 l) by lia. rewrite Z.mul_1_l. apply Z.mod_small. lia.
Qed.
Lemma inr_nonneg l n : 0 <= n < l -> inrep l n /\ n mod l = n.
Proof. intros H. split; [unfold inrep; lia|apply Z.mod_small; lia]. Qed.
Lemma inr_zero l n : inrep l n -> (n mod l =? 0) = (n =? 0).
Proof.
  intros H. rewrite (inr_mod _ _ H). destruct H as [H1 H2]. destruct (Z.ltb_spec n 0); [|reflexivity].
  destruct (Z.eqb_spec (n + l) 0), (Z.eqb_spec n 0); try reflexivity; lia.
Qed.
Lemma sgn_inr N raw : 0 < N -> inrep (2 ^ N) (sgn N raw) /\ sgn N raw mod 2 ^ N = raw mod 2 ^ N.
Proof.
  intros HN. unfold sgn. cbv zeta.
  assert (Hp : 2 ^ N = 2 * 2 ^ (N - 1)) by (rewrite <- Z.pow_succ_r by lia; f_equal; lia).
  assert (H0 : 0 < 2 ^ (N - 1)) by (apply Z.pow_pos_nonneg; lia).
  pose proof (Z.mod_pos_bound raw (2 ^ N) ltac:(lia)) as Hr.
  destruct (Z.ltb_spec (raw mod 2 ^ N) (2 ^ (N - 1))).
  - split; [unfold inrep; lia|apply Z.mod_small; lia].
  - split; [unfold inrep; lia|]. rewrite <- (Z.mod_add _ 1) by lia. rewrite Z.mul_1_l.
    replace (raw mod 2 ^ N - 2 ^ N + 2 ^ N) with (raw mod 2 ^ N) by lia. apply Z.mod_mod. lia.
Qed.

Definition isnum (c : cv) (n : Z) : Prop := num c = Some n.

Section Val.
  Variables (K : cfg) (C : cenv) (m : mach) (A : Z).
  Hypothesis Hmap : forall a, ce_map C a = true -> mapped m a = true.
  Hypothesis HE : ce_bt C = cf_env K.
  Hypothesis Hslot : forall i, (i < List.length (cf_vars K))%nat ->
    Z.of_nat i * 8 < 2 ^ 15 /\ rd C (A + Z.of_nat i * 8) 8 = Some (ce_slot C i).
  Notation E := (cf_env K).
  Notation walk := (walk K C).
  Notation bval := (bval C).
  Notation bok := (bok K).
  Notation mval := (mval K C).
  Notation lim := (lim K).
  Notation tw := (tw K).

  (** Representations. *)
  Lemma tw_ptr t u : under t = TPtr u -> lim (Some t) = 2 ^ 64.
  Proof.
    intros H. unfold lim, tw, sizeof0. rewrite sizeof_under, H. reflexivity.
  Qed.
  Lemma modinr l raw : 0 < l -> inrep l (raw mod l) /\ (raw mod l) mod l = raw mod l.
  Proof. intros H. pose proof (Z.mod_pos_bound raw l H). split; [unfold inrep; lia|apply Z.mod_mod; lia]. Qed.
  Lemma of_raw_num t raw c : of_raw t raw = Some c -> exists n, num c = Some n /\
    (inrep (lim (Some t)) n /\ n mod lim (Some t) = raw mod lim (Some t)) /\
    (forall a u, c = CPtr a u -> ptr_elt t = Some u /\ lim (Some t) = 2 ^ 64) /\
    (forall n w sg, c = CInt n w sg -> w <= 8).
  Proof.
    unfold of_raw, ptr_elt. unfold lim, tw, sizeof0. rewrite sizeof_under.
    destruct (under t) as [|w sg|w vals|u|u k|tag|tag|u|o] eqn:Hu; cbn [sizeof]; try discriminate.
    - destruct (Z.eqb_spec w 1) as [->|]; [|destruct (Z.eqb_spec w 2) as [->|]; [|
        destruct (Z.eqb_spec w 4) as [->|]; [|destruct (Z.eqb_spec w 8) as [->|]; [|discriminate]]]];
      cbn [orb]; intros H; inversion H; subst; cbn [num]; eexists; (split; [reflexivity|]);
      (split; [|split; [intros; discriminate|intros ? ? ? Hc; inversion Hc; lia]]);
      (destruct sg; [apply sgn_inr; lia|apply modinr; reflexivity]).
    - destruct (Z.eqb_spec w 4) as [->|]; [|destruct (Z.eqb_spec w 8) as [->|]; [|discriminate]];
      cbn [orb]; intros H; inversion H; subst; cbn [num]; eexists; (split; [reflexivity|]);
      (split; [apply modinr; reflexivity|split; [intros; discriminate|intros ? ? ? Hc; inversion Hc; lia]]).
    - intros H; inversion H; subst; cbn [num]. eexists; split; [reflexivity|].
      split; [apply (modinr (2 ^ 64) raw); reflexivity|]. split; [intros a0 u0 Hc; inversion Hc; auto|intros; discriminate].
  Qed.
  Lemma of_raw_width t raw c : of_raw t raw = Some c ->
    exists w, sizeof E t = Some w /\ (w = 1 \/ w = 2 \/ w = 4 \/ w = 8).
  Proof.
    unfold of_raw. rewrite sizeof_under.
    destruct (under t) as [|w sg|w vals|u|u k|tag|tag|u|o] eqn:Hu; cbn [sizeof]; try discriminate.
    - intros H. exists w. split; [reflexivity|].
      destruct (Z.eqb_spec w 1); [lia|]. destruct (Z.eqb_spec w 2); [lia|].
      destruct (Z.eqb_spec w 4); [lia|]. destruct (Z.eqb_spec w 8); [lia|discriminate].
    - intros H. exists w. split; [reflexivity|].
      destruct (Z.eqb_spec w 4); [lia|]. destruct (Z.eqb_spec w 8); [lia|discriminate].
    - intros _. exists 8. auto.
  Qed.
  Lemma lim_sz t w : sizeof E t = Some w -> w = 1 \/ w = 2 \/ w = 4 \/ w = 8 -> lim (Some t) = 2 ^ (8 * w).
  Proof. intros H Hw. unfold lim, tw, sizeof0. rewrite H. destruct Hw as [->|[->|[->| ->]]]; reflexivity. Qed.

  Definition bfrel (mm : option member) (bf : option (Z * Z)) : Prop :=
    match bf with
    | None => is_bf mm = false
    | Some (st, b) => exists x, mm = Some x /\ m_bits x = b /\ b <> 0 /\ st = m_bitoff x mod 8
    end.

  Definition ptr_inv (c : cv) (t : option ty) : Prop :=
    forall a u, c = CPtr a u -> exists tt, t = Some tt /\ ptr_elt tt = Some u /\ lim t = 2 ^ 64.

  Definition vrel (ms : mst) (v : value) (c : cv) (k : tk) : Prop :=
    match k with
    | KNum t => exists n w sg, c = CInt n w sg /\ v = VConst n t /\ - 2 ^ 63 <= n < 2 ^ 63
    | KEnum x => exists n w sg, c = CInt n w sg /\ v = VEnum x None
    | KLoc prev off => exists b offs o t mm a bf p,
        v = VPend b (offs ++ [o]) (Some t) mm /\ c = CLoc a t bf /\ bok ms b /\
        walk (bval ms b) offs = Some p /\ (ends_deref offs = true -> p <> 0) /\
        o_deref o = true /\ o_off o = off /\ o_prev o = prev /\ o_btf o = Some t /\
        a = p + off /\ bfrel mm bf /\ small off = true
    | KElem off => exists b offs o t mm a p,
        v = VPend b (offs ++ [o]) (Some t) mm /\ c = CLoc a t None /\ bok ms b /\
        walk (bval ms b) offs = Some p /\ (ends_deref offs = true -> p <> 0) /\
        o_deref o = false /\ o_off o = off /\ small off = true /\
        a = p + off /\ is_bf mm = false
    | KVal t pend hop => exists n, num c = Some n /\ ptr_inv c t /\
        if pend then exists b offs mm raw, v = VPend b offs t mm /\ is_bf mm = false /\ bok ms b /\
               walk (bval ms b) offs = Some raw /\ (inrep (lim t) n -> raw mod lim t = n mod lim t) /\
               (ends_deref offs = true -> hop = true)
        else exists r, v = VMat r t None /\ (inrep (lim t) n -> rg ms r = n mod lim t) /\ 0 <= rg ms r < M64
    end.

  Lemma bok_frame u ms ms' b : frame u ms ms' -> (forall r, b = PReg r -> u r = true) ->
    bok ms b -> bok ms' b /\ bval ms' b = bval ms b.
  Proof.
    intros [Hf _] Hu. destruct b as [i|n|r]; cbn [P_CcMat.bok P_CcMat.bval]; auto.
    rewrite (Hf r) by (left; apply Hu; reflexivity). auto.
  Qed.
  Lemma vrel_frame u ms ms' v c k : frame u ms ms' -> (forall r, In r (vregs v) -> u r = true) ->
    vrel ms v c k -> vrel ms' v c k.
  Proof.
    intros Hf Hu. destruct k as [t|x|prev off|off|t pend hop]; cbn [vrel]; auto.
    - intros (b & offs & o & t & mm & a & bf & p & H1 & H2 & H3 & H4 & H).
      destruct (bok_frame _ _ _ b Hf) as [Hb Hv]; [|assumption|].
      { intros r ->. apply Hu. subst v. left; reflexivity. }
      exists b, offs, o, t, mm, a, bf, p. rewrite Hv. auto.
    - intros (b & offs & o & t & mm & a & p & H1 & H2 & H3 & H4 & H).
      destruct (bok_frame _ _ _ b Hf) as [Hb Hv]; [|assumption|].
      { intros r ->. apply Hu. subst v. left; reflexivity. }
      exists b, offs, o, t, mm, a, p. rewrite Hv. auto.
    - intros (n & Hn & Hp & H). exists n. split; [assumption|]. split; [assumption|]. destruct pend.
      + destruct H as (b & offs & mm & raw & H1 & H2 & H3 & H4 & H).
        destruct (bok_frame _ _ _ b Hf) as [Hb Hv]; [|assumption|].
        { intros r ->. apply Hu. subst v. left; reflexivity. }
        exists b, offs, mm, raw. rewrite Hv. auto.
      + destruct H as (r & H1 & H2 & H3). exists r. destruct Hf as [Hf _].
        rewrite (Hf r); [auto|]. left. apply Hu. subst v. left; reflexivity.
  Qed.

  (** Bits of a readable object. *)
  Lemma readable_rd a prev t off nb p o : readable K C a prev t off = Some nb -> a = p + off ->
    o_off o = off -> o_prev o = prev -> o_btf o = t ->
    exists raw, hopread K C p o = Some raw /\ rd C a nb = Some raw /\ 0 <= off < 2 ^ 15 /\ nbytes K prev t off = Some nb.
  Proof.
    unfold readable, hopread. intros H -> -> -> ->.
    destruct ((0 <=? off) && (off <? 2 ^ 15)) eqn:Hr; [|discriminate]. bsplit Hr.
    destruct (nbytes K prev t off) as [n|] eqn:Hn; [|discriminate].
    destruct (rd C (p + off) n) as [raw|] eqn:Hrd; [|discriminate].
    inversion H; subst. exists raw. auto.
  Qed.
  Lemma nbytes_ge prev t off nb w : nbytes K prev (Some t) off = Some nb -> sizeof E t = Some w ->
    w = 1 \/ w = 2 \/ w = 4 \/ w = 8 -> w <= Z.of_nat nb.
  Proof.
    unfold nbytes, ld_size. intros H Hw Hc. rewrite Hw in H.
    assert (H8 : forall x, Some 8%nat = Some x -> w <= Z.of_nat x) by (intros x Hx; inversion Hx; lia).
    destruct (cf_mode K); auto.
    destruct (can_cast K prev) as [[id|]|]; [| |discriminate].
    - destruct (can_read_cast (Some t)).
      + destruct Hc as [->|[->|[->| ->]]]; cbn in H; inversion H; lia.
      + destruct (off =? 0); [auto|discriminate].
    - destruct (off =? 0); [auto|discriminate].
  Qed.

  (** The mask put on constants compared with v. *)
  Definition adj_ok (v : value) (l : Z) : Prop :=
    (l = 2 ^ 64 /\ forall x, adjust_num E x (v_btf v) (v_mem v) = x) \/
    (l <= 2 ^ 32 /\ forall x, adjust_num E x (v_btf v) (v_mem v) = x mod l).
  Lemma adj_id v l x : adj_ok v l -> 0 <= x < l -> adjust_num E x (v_btf v) (v_mem v) = x.
  Proof. intros [[_ H]|[_ H]] Hx; rewrite H; [reflexivity|]. apply Z.mod_small. exact Hx. Qed.
  Lemma land_mask x b : 0 <= b -> Z.land x (2 ^ b - 1) = x mod 2 ^ b.
  Proof.
    intros Hb. replace (2 ^ b - 1) with (Z.ones b) by (rewrite Z.ones_equiv; lia). apply Z.land_ones. exact Hb.
  Qed.
  Lemma adj_lim v : is_bf (v_mem v) = false -> adj_ok v (lim (v_btf v)).
  Proof.
    intros Hb.
    assert (H : forall x, adjust_num E x (v_btf v) (v_mem v) =
        let k := sizeof0 E (v_btf v) in
            if k =? 1 then Z.land x 255 else if k =? 2 then Z.land x 65535
            else if k =? 4 then Z.land x 4294967295 else x).
    { intros x. unfold adjust_num. destruct (v_mem v) as [y|]; [|reflexivity]. rewrite Hb. reflexivity. }
    unfold adj_ok. cbv zeta in H.
    destruct (lim_cases K (v_btf v)) as [[Hs Hl]|[[Hs Hl]|[[Hs Hl]|(H1 & H2 & H4 & Hl)]]]; rewrite Hl.
    - right. split; [lia|]. intros x. rewrite H, Hs. exact (land_mask x 8 ltac:(lia)).
    - right. split; [lia|]. intros x. rewrite H, Hs. exact (land_mask x 16 ltac:(lia)).
    - right. split; [lia|]. intros x. rewrite H, Hs. exact (land_mask x 32 ltac:(lia)).
    - left. split; [reflexivity|]. intros x. rewrite H.
      destruct (Z.eqb_spec (sizeof0 E (v_btf v)) 1); [contradiction|].
      destruct (Z.eqb_spec (sizeof0 E (v_btf v)) 2); [contradiction|].
      destruct (Z.eqb_spec (sizeof0 E (v_btf v)) 4); [contradiction|]. reflexivity.
  Qed.

  Lemma ldr_mval ms v c k n t l : vrel ms v c k -> ldr K C c k = Some (n, t, l) ->
    mval ms v (n mod l) /\ v_btf v = t /\ adj_ok v l /\ inrep l n /\ runtime v = true /\
    (exists x, rval C c = Some x /\ num x = Some n /\ ptr_inv x t) /\
    (is_bf (v_mem v) = true -> bf_of c = true) /\ 0 < l <= 2 ^ 64.
  Proof.
    destruct k as [t0|x|prev off|off|t0 pend hop]; cbn [vrel ldr]; intros Hv Hl.
    - destruct c; discriminate.
    - destruct c; discriminate.
    - destruct Hv as (b & offs & o & t1 & mm & a & bf & p & -> & -> & Hb & Hw & Hnz & Hd & Ho & Hp & Hob & Ha & Hbf & _).
      destruct (readable K C a prev (Some t1) off) as [nb|] eqn:Hrd; [|discriminate].
      destruct (readable_rd _ _ _ _ _ p o Hrd Ha Ho Hp Hob) as (raw & Hhop & Hraw & Hoff & Hnb).
      assert (Hwalk : walk (bval ms b) (offs ++ [o]) = Some raw).
      { rewrite walk_snoc, Hw, Hd. cbn [negb].
        destruct (ends_deref offs) eqn:He; cbn [andb]; [|assumption].
        destruct (Z.eqb_spec p 0) as [Hp0|]; [specialize (Hnz eq_refl); contradiction|assumption]. }
      pose proof (rd_range m C Hmap _ _ _ Hraw) as Hrr.
      assert (Hnb8 : (nb <= 8)%nat) by (eapply nbytes_le8; eauto).
      assert (Hr64 : 0 <= raw < 2 ^ 64).
      { assert (2 ^ (8 * Z.of_nat nb) <= 2 ^ 64) by (apply Z.pow_le_mono_r; lia). lia. }
      destruct (rval C (CLoc a t1 bf)) as [x|] eqn:Hrv; [|discriminate].
      assert (Hx : exists n0, num x = Some n0 /\ is_arr t1 = false /\
         match bf with
            | None => Some (n0, Some t1, lim (Some t1))
            | Some (st, b) =>
                if (0 <=? st) && (st <? 8) && (0 <? b) && (b <? 32) && (st + b <=? 8 * Z.of_nat nb)
                then Some (n0, Some t1, 2 ^ b) else None
            end = Some (n, t, l)).
      { destruct x as [n0 w sg|n0 u|]; [| |discriminate]; exists n0; cbn [num];
        (destruct (is_arr t1); [discriminate|]; auto). }
      destruct Hx as (n0 & Hnum & Harr & Hl'). clear Hl.
      destruct bf as [[st bb]|].
      + (* bit-field *)
        destruct ((0 <=? st) && (st <? 8) && (0 <? bb) && (bb <? 32) && (st + bb <=? 8 * Z.of_nat nb)) eqn:Hg; [|discriminate].
        bsplit Hg. inversion Hl'; subst n0 t l. clear Hl'.
        destruct Hbf as (mb & -> & Hmb & Hnb0 & Hst).
        cbn [rval] in Hrv.
        destruct (rd C a (Z.to_nat ((st + bb + 7) / 8))) as [raw2|] eqn:Hr2; [|discriminate].
        destruct (of_raw t1 0) as [[n1 w1 sg1| |]|] eqn:Hor; try discriminate.
        assert (Hk : (Z.to_nat ((st + bb + 7) / 8) <= nb)%nat).
        { assert ((st + bb + 7) / 8 <= Z.of_nat nb); [|lia].
          assert ((st + bb + 7) / 8 < Z.of_nat nb + 1); [|lia]. apply Z.div_lt_upper_bound; lia. }
        rewrite (rd_sub C _ _ _ _ Hraw Hk) in Hr2. apply (f_equal (fun z => match z with Some q => q | None => 0 end)) in Hr2. cbv beta iota in Hr2. subst raw2.
        assert (Hf : Z.shiftr (raw mod 2 ^ (8 * Z.of_nat (Z.to_nat ((st + bb + 7) / 8)))) st mod 2 ^ bb =
                     Z.shiftr raw st mod 2 ^ bb).
        { apply shiftr_mod_sub; [lia|lia|]. pose proof (Z.div_mod (st + bb + 7) 8 ltac:(lia)).
          pose proof (Z.mod_pos_bound (st + bb + 7) 8 ltac:(lia)).
          rewrite Z2Nat.id by (apply Z.div_pos; lia). lia. }
        cbv zeta in Hrv. rewrite Hf in Hrv. set (f := Z.shiftr raw st mod 2 ^ bb) in *.
        assert (Hfr : 0 <= f < 2 ^ bb) by (apply Z.mod_pos_bound; apply Z.pow_pos_nonneg; lia).
        assert (Hnf : inrep (2 ^ bb) n /\ n mod 2 ^ bb = f).
        { destruct sg1; inversion Hrv; subst x; cbn [num] in Hnum; inversion Hnum; subst n.
          - destruct (sgn_inr bb f ltac:(lia)) as [Hi Hm]. split; [exact Hi|]. rewrite Hm. apply Z.mod_small. assumption.
          - apply inr_nonneg. assumption. }
        destruct Hnf as [Hinr Hnf]. assert (H2b : 2 ^ bb <= 2 ^ 32) by (apply Z.pow_le_mono_r; lia).
        assert (Hisbf : is_bf (Some mb) = true).
        { cbn [is_bf]. destruct (Z.eqb_spec (m_bits mb) 0); [lia|reflexivity]. }
        split; [|split; [reflexivity|split; [|split; [exact Hinr|split; [reflexivity|split; [|split]]]]]].
        * cbn [P_CcMat.mval]. split; [assumption|]. split; [cbn [bfok]; intros _; lia|].
          exists raw. split; [assumption|]. unfold tailf. rewrite Hisbf, <- Hst, Hmb, Hnf. reflexivity.
        * right. split; [exact H2b|]. intros y. cbn [v_btf v_mem adjust_num]. rewrite Hisbf, Hmb.
          rewrite Z.shiftl_1_l. assert (0 < 2 ^ bb) by (apply Z.pow_pos_nonneg; lia).
          rewrite (s64_id (2 ^ bb)) by lia. rewrite s64_id by lia. apply land_mask; lia.
        * exists x. split; [reflexivity|]. split; [assumption|].
          intros a' u' ->. discriminate.
        * reflexivity.
        * assert (0 < 2 ^ bb) by (apply Z.pow_pos_nonneg; lia). lia.
      + (* plain object *)
        inversion Hl'; subst n0 t l; clear Hl'. cbn [bfrel] in Hbf.
        cbn [rval] in Hrv. rewrite HE in Hrv.
        assert (Hrv' : match sizeof E t1 with
             | Some w => match rd C a (Z.to_nat w) with Some raw => of_raw t1 raw | None => None end
             | None => None end = Some x).
        { unfold is_arr in Harr. destruct (under t1); try discriminate; exact Hrv. }
        destruct (sizeof E t1) as [w|] eqn:Hw1; [|discriminate].
        destruct (rd C a (Z.to_nat w)) as [raw2|] eqn:Hr2; [|discriminate].
        destruct (of_raw_width _ _ _ Hrv') as (w' & Hw' & Hwc). assert (w' = w) by congruence. subst w'.
        pose proof (nbytes_ge _ _ _ _ _ Hnb Hw1 Hwc) as Hge.
        rewrite (rd_sub C _ _ _ _ Hraw) in Hr2 by lia. apply (f_equal (fun z => match z with Some q => q | None => 0 end)) in Hr2. cbv beta iota in Hr2. subst raw2.
        rewrite Z2Nat.id in Hrv' by lia.
        destruct (of_raw_num _ _ _ Hrv') as (n1 & Hn1 & Hm1 & Hp1 & _).
        assert (n1 = n) by congruence. subst n1. destruct Hm1 as [Hinr Hm1].
        rewrite (lim_sz _ _ Hw1 Hwc) in *.
        rewrite Z.mod_mod in Hm1 by (apply Z.pow_nonzero; lia).
        assert (H64 : 2 ^ (8 * w) <= 2 ^ 64) by (apply Z.pow_le_mono_r; lia).
        split; [|split; [reflexivity|split; [|split; [exact Hinr|split; [reflexivity|split; [|split]]]]]].
        * cbn [P_CcMat.mval]. split; [assumption|]. split.
          { unfold bfok. destruct mm; [|exact I]. rewrite Hbf. discriminate. }
          exists raw. split; [assumption|]. unfold tailf. rewrite (lim_sz _ _ Hw1 Hwc).
          destruct mm; [rewrite Hbf|]; assumption.
        * rewrite <- (lim_sz _ _ Hw1 Hwc). apply (adj_lim (VPend b (offs ++ [o]) (Some t1) mm)). exact Hbf.
        * exists x. split; [reflexivity|]. split; [assumption|].
          intros a' u' Hx. destruct (Hp1 _ _ Hx) as [Hp2 Hp3]. exists t1.
          rewrite (lim_sz _ _ Hw1 Hwc). auto.
        * cbn [v_mem]. rewrite Hbf. discriminate.
        * assert (0 < 2 ^ (8 * w)) by (apply Z.pow_pos_nonneg; lia). lia.
    - destruct Hv as (b & offs & o & t1 & mm & a & p & -> & -> & Hb & Hw & Hnz & Hd & Ho & Hsm & Ha & Hbf).
      destruct (is_arr t1) eqn:Harr; [|discriminate].
      destruct (Z.eqb_spec (tw (Some t1)) 8) as [Htw|]; [|discriminate]. cbn [andb] in Hl.
      injection Hl as <- <- <-.
      assert (Hlim : lim (Some t1) = 2 ^ 64) by (unfold lim, S_CSup.lim; rewrite Htw; reflexivity).
      assert (Hwalk : walk (bval ms b) (offs ++ [o]) = Some (wrap a)).
      { rewrite walk_snoc, Hw, Hd. cbn [negb].
        unfold small in Hsm. bsplit Hsm.
        replace (s32ok (o_off o)) with true.
        2:{ symmetry. unfold s32ok. rewrite Ho. apply andb_true_iff. split; [apply Z.leb_le|apply Z.ltb_lt]; lia. }
        subst a. rewrite Ho.
        destruct (ends_deref offs) eqn:He; cbn [andb]; [|reflexivity].
        destruct (Z.eqb_spec p 0) as [Hp0|]; [specialize (Hnz eq_refl); contradiction|reflexivity]. }
      pose proof (wrap_range a) as Hwr. rewrite M64_pow in Hwr.
      split; [|split; [reflexivity|split; [|split; [apply inr_nonneg; assumption|split; [reflexivity|split; [|split]]]]]].
      * cbn [P_CcMat.mval]. split; [assumption|]. split.
        { unfold bfok. destruct mm; [|exact I]. rewrite Hbf. discriminate. }
        exists (wrap a). split; [assumption|]. unfold tailf. rewrite Hlim.
        destruct mm; [rewrite Hbf|]; reflexivity.
      * change (adj_ok (VPend b (offs ++ [o]) (Some t1) mm) (2 ^ 64)).
        rewrite <- Hlim. apply (adj_lim (VPend b (offs ++ [o]) (Some t1) mm)). exact Hbf.
      * unfold is_arr in Harr. cbn [rval]. destruct (under t1) as [| | | |el k| | | |] eqn:Hu; try discriminate.
        exists (CPtr (wrap a) el). split; [reflexivity|]. split; [reflexivity|].
        intros a' u' Hx. inversion Hx; subst. exists t1. unfold ptr_elt. rewrite Hu. auto.
      * cbn [v_mem]. rewrite Hbf. discriminate.
      * lia.
    - destruct Hv as (n0 & Hn0 & Hpi & Hv).
      assert (Hl' : inrep (lim t0) n0 /\ n0 = n /\ t0 = t /\ lim t = l).
      { destruct c as [a w sg|a u|]; [| |discriminate]; cbn [num] in Hn0; inversion Hn0; subst a;
        destruct ((- lim t0 <=? 2 * n0) && (n0 <? lim t0)) eqn:Hg; try discriminate;
        apply andb_prop in Hg as [Hg1 Hg2]; apply Z.leb_le in Hg1; apply Z.ltb_lt in Hg2;
        inversion Hl; subst; unfold inrep; auto. }
      destruct Hl' as (Hrng & -> & -> & <-). pose proof (lim_pos K t) as Hlp.
      assert (Hrv : exists x, rval C c = Some x /\ num x = Some n /\ ptr_inv x t).
      { exists c. destruct c; [| |discriminate]; cbn [rval]; auto. }
      destruct pend.
      + destruct Hv as (b & offs & mm & raw & -> & Hbf & Hb & Hw & Hmod & Hhop).
        split; [|split; [reflexivity|split; [|split; [exact Hrng|split; [reflexivity|split; [assumption|split]]]]]].
        * cbn [P_CcMat.mval]. split; [assumption|]. split.
          { unfold bfok. destruct mm; [|exact I]. rewrite Hbf. discriminate. }
          exists raw. split; [assumption|]. unfold tailf.
          destruct mm; [rewrite Hbf|]; rewrite Hmod by assumption; reflexivity.
        * apply (adj_lim (VPend b offs t mm)). exact Hbf.
        * cbn [v_mem]. rewrite Hbf. discriminate.
        * lia.
      + destruct Hv as (r & -> & Hr & Hrr).
        split; [|split; [reflexivity|split; [|split; [exact Hrng|split; [reflexivity|split; [assumption|split]]]]]].
        * cbn [P_CcMat.mval]. auto.
        * apply (adj_lim (VMat r t None)). reflexivity.
        * discriminate.
        * lia.
  Qed.
  Lemma ld_ldr c k n t l : ld K C c k = Some (n, t, l) -> ldr K C c k = Some (n, t, l) /\ 0 <= n.
  Proof.
    unfold ld. destruct (ldr K C c k) as [[[n' t'] l']|]; [|discriminate].
    destruct (Z.ltb_spec n' 0); [discriminate|]. intros H1. inversion H1; subst. auto.
  Qed.
  Lemma ld_mval ms v c k n t l : vrel ms v c k -> ld K C c k = Some (n, t, l) ->
    mval ms v n /\ v_btf v = t /\ adj_ok v l /\ 0 <= n < 2 ^ 64 /\ runtime v = true /\
    (exists x, rval C c = Some x /\ num x = Some n /\ ptr_inv x t) /\
    (is_bf (v_mem v) = true -> bf_of c = true) /\ 0 < l.
  Proof.
    intros Hv Hl. destruct (ld_ldr _ _ _ _ _ Hl) as [Hl' Hn].
    destruct (ldr_mval _ _ _ _ _ _ _ Hv Hl') as (H1 & H2 & H3 & H4 & H5 & H6 & H7 & H8).
    rewrite Z.mod_small in H1 by (destruct H4; lia). destruct H4.
    split; [exact H1|]. split; [exact H2|]. split; [exact H3|]. split; [lia|]. split; [exact H5|]. split; [exact H6|].
    split; [exact H7|lia].
  Qed.

  (** A followed pointer. *)
  Lemma ptrval_spec ms v c k p t : vrel ms v c k -> ptrval K C c k = Some (p, t) ->
    v_btf v = Some t /\ lim (Some t) = 2 ^ 64 /\ 0 <= p < 2 ^ 64 /\ is_bf (v_mem v) = false /\
    (exists u, rval C c = Some (CPtr p u) /\ ptr_elt t = Some u) /\
    ((exists b offs mm, v = VPend b offs (Some t) mm /\ bok ms b /\ walk (bval ms b) offs = Some p /\
        (ends_deref offs = true -> p <> 0)) \/
     (exists r, v = VMat r (Some t) None /\ rg ms r = p)).
  Proof.
    unfold ptrval. intros Hv H. destruct (ld K C c k) as [[[n [t0|]] l]|] eqn:Hl; try discriminate.
    destruct (ptr_elt t0) as [u0|] eqn:Hpe; [|discriminate].
    destruct (rval C c) as [[| |]|] eqn:Hrv; try discriminate. rename a into pa, t1 into u.
    destruct (hop_of k && (n =? 0)) eqn:Hh; [discriminate|]. inversion H; subst n t0; clear H.
    destruct (ld_mval _ _ _ _ _ _ _ Hv Hl) as (Hm & Hbt & _ & Hrng & Hrun & (x & Hx & Hnx & Hpi) & Hbfc & _).
    rewrite Hrv in Hx. inversion Hx; subst x; clear Hx. cbn [num] in Hnx. inversion Hnx; subst pa; clear Hnx.
    destruct (Hpi _ _ eq_refl) as (tt' & Htt & Hel & Hlim). inversion Htt; subst tt'; clear Htt.
    assert (Hnb : bf_of c = false).
    { destruct c as [| |a t1 [[st bb]|]]; try reflexivity. exfalso. cbn [rval] in Hrv.
      destruct (rd C a _); [|discriminate]. destruct (of_raw t1 0) as [[| |]|]; discriminate. }
    assert (Hbf : is_bf (v_mem v) = false).
    { destruct (is_bf (v_mem v)) eqn:Hq; [|reflexivity]. rewrite Hbfc in Hnb by reflexivity. discriminate. }
    split; [assumption|]. split; [assumption|]. split; [assumption|]. split; [assumption|].
    split; [exists u; auto|].
    destruct v as [n0 t0|b offs t0 mm|r t0 mm|x0 t0]; cbn [runtime is_mat is_pend orb] in Hrun; try discriminate.
    - left. cbn [v_btf] in Hbt. subst t0. exists b, offs, mm. split; [reflexivity|].
      cbn [P_CcMat.mval] in Hm. destruct Hm as (Hb & _ & raw & Hw & Hn). split; [assumption|].
      pose proof (walk_range K C m Hmap _ _ _ (bval_range K C m A Hmap Hslot ms b Hb) Hw) as Hrw.
      rewrite M64_pow in Hrw.
      assert (raw = p).
      { unfold tailf in Hn. cbn [v_mem] in Hbf. fold lim in Hn. rewrite Hlim in Hn.
        destruct mm; [rewrite Hbf in Hn|]; rewrite Z.mod_small in Hn by assumption; auto. }
      subst raw. split; [assumption|].
      intros He. intros Hp0. subst p. rewrite Z.eqb_refl, andb_true_r in Hh.
      destruct k as [|x|prev off|off|t1 pend hop]; cbn [vrel hop_of] in *.
      + destruct Hv as (? & ? & ? & _ & Hv & _). discriminate.
      + destruct Hv as (? & ? & ? & _ & Hv). discriminate.
      + discriminate.
      + destruct Hv as (b' & offs' & o & t1 & mm' & a & p & Hv & _ & _ & _ & _ & Hd & _).
        inversion Hv; subst. rewrite ends_deref_snoc, Hd in He. discriminate.
      + destruct Hv as (n0 & _ & _ & Hv). destruct pend.
        * destruct Hv as (b' & offs' & mm' & raw & Hv & _ & _ & _ & _ & Hhop). inversion Hv; subst.
          rewrite Hhop in Hh by assumption. discriminate.
        * destruct Hv as (r & Hv & _). discriminate.
    - right. cbn [v_btf] in Hbt. subst t0. exists r. cbn [P_CcMat.mval] in Hm.
      assert (mm = None).
      { destruct k as [|x|prev off|off|t1 pend hop]; cbn [vrel] in *.
        - destruct Hv as (? & ? & ? & _ & Hv & _). discriminate.
        - destruct Hv as (? & ? & ? & _ & Hv). discriminate.
        - destruct Hv as (? & ? & ? & ? & ? & ? & ? & ? & Hv & _). discriminate.
        - destruct Hv as (? & ? & ? & ? & ? & ? & ? & Hv & _). discriminate.
        - destruct Hv as (n0 & _ & _ & Hv). destruct pend.
          + destruct Hv as (? & ? & ? & ? & Hv & _). discriminate.
          + destruct Hv as (r' & Hv & _). congruence. }
      subst mm. auto.
  Qed.
End Val.
