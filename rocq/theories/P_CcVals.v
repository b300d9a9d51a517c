(** * Exact results of `l op constant` filters (no sign or range condition on the operands). *)
From Coq Require Import ZArith List Bool Lia String.
From Verif Require Import M_Ebpf P_Ebpf M_CcNum M_Cc S_CSem S_CSup P_CcMach P_CcWalk P_CcNumr P_CcMat P_CcVal P_CcOps P_CcOps2 P_CcSim P_CcSim2 P_CcTop.
Import ListNotations.
Open Scope Z_scope.

Section Vals.
  Variables (K : cfg) (C : cenv) (m : mach) (A : Z).
  Hypothesis Hmap : forall a, ce_map C a = true -> mapped m a = true.
  Hypothesis HE : ce_bt C = cf_env K.
  Hypothesis HV : ce_vars C = cf_vars K.
  Hypothesis Hslot : forall i, (i < List.length (cf_vars K))%nat ->
    Z.of_nat i * 8 < 2 ^ 15 /\ rd C (A + Z.of_nat i * 8) 8 = Some (ce_slot C i).
  Notation E := (cf_env K).

  (** The left operand leaves a value [n] to be materialized; [c'] is the constant after masking. *)
  Definition lspec (l : expr) (c n c' : Z) : Prop :=
    forall v s', evaluate K l filter_init = ROk v s' ->
    exists d, c_code s' = c_code filter_init ++ d /\
      (Z.of_nat (List.length d) < 2 ^ 15 -> nowr K d -> Sok K s' /\ forall ms, pre C A ms ->
       exists ms', exec m d 0 ms = FFall 0 ms' /\ pre C A ms' /\
         runtime v = true /\ mval K C ms' v n /\ adjust_num E c (v_btf v) (v_mem v) = c').

  Lemma Sok_init : Sok K filter_init.
  Proof.
    unfold Sok, filter_init, init_regs. cbn [c_regs]. split; [reflexivity|].
    split; intros; [|]; match goal with H : Nat.eqb _ 9 = true |- _ => apply Nat.eqb_eq in H end; lia.
  Qed.
  Lemma jop_rel op n c : jop_sem (inv_jop op) n c = negb (c_rel op n c).
  Proof.
    destruct op; cbn [inv_jop jop_sem c_rel]; rewrite ?negb_involutive; try reflexivity;
      first [apply Z.leb_antisym | apply Z.ltb_antisym].
  Qed.

  Lemma pend_cmp op l r c tc n c' p ms :
    (forall s, evaluate K r s = ROk (VConst c tc) s) -> lspec l c n c' ->
    compile_filter K (ECmp op l r) = inl (Some p) ->
    Z.of_nat (List.length (code p)) < 2 ^ 15 ->
    (cf_mode K <> MDirect -> Forall (fun i => dest i <> Some 5%nat) (code p)) ->
    rg ms R1 = A -> kagree C (ker ms) ->
    forall fuel, (List.length (code p) <= fuel)%nat ->
    exists ms', run fuel m p 0 ms = Done (if c_rel op n (immv c') then 1 else 0) ms'.
  Proof.
    intros Hr Hl Hcp Hlen Hr5 HA Hker fuel Hfuel. unfold compile_filter in Hcp. cbn [top_op_ok negb] in Hcp.
    cbn [evaluate] in Hcp. destruct (evaluate K l filter_init) as [v s1| |] eqn:Hev; cbn [bind] in Hcp; try discriminate.
    rewrite Hr in Hcp. cbn [bind] in Hcp.
    destruct (Hl v s1 Hev) as (d & Hd & Hx).
    unfold cmp_values in Hcp.
    destruct (runtime v) eqn:Hrt.
    2:{ exfalso. destruct v as [a ta|b offs t mm|q t mm|x t]; try discriminate; cbn in Hcp; discriminate. }
    assert (Hre : resolve_enums v (VConst c tc) = Some (v, VConst c tc)) by (destruct v; try discriminate; reflexivity).
    rewrite Hre in Hcp.
    assert (Hadj : adjust_nums E v (VConst c tc) = (v, VConst (adjust_num E c (v_btf v) (v_mem v)) tc)).
    { destruct v; try discriminate; reflexivity. }
    rewrite Hadj in Hcp. set (c1 := adjust_num E c (v_btf v) (v_mem v)) in *.
    assert (Hcp' : match (if negb (operands_ok v (VConst c1 tc)) then RErr else
       bind (materialize K s1 v) (fun lv s2 => ROk (VMat (vreg lv) (v_btf lv) None)
          (emit s2 (IJmpI (inv_jop op) (vreg lv) c1 2 :: reg2bool (vreg lv))))) with
       | ROk w s => w = w /\ inl (Some {| code := c_code s ++ (if Nat.eqb (vreg w) 0 then [] else [IMovR R0 (vreg w)]) ++ [IExit];
                   label := if c_lab s then Some (List.length (c_code s) - 1)%nat else None |}) = inl (B:=unit) (Some p)
       | _ => False end).
    { destruct v; try discriminate; destruct (negb (operands_ok _ _)); try discriminate;
        destruct (materialize K s1 _) as [lv s2| |]; cbn [bind] in *; try discriminate; split; [reflexivity|exact Hcp|reflexivity|exact Hcp]. }
    clear Hcp. destruct (negb (operands_ok v (VConst c1 tc))); [destruct Hcp'|].
    destruct (materialize K s1 v) as [lv s2| |] eqn:Hm; cbn [bind] in Hcp'; [|destruct Hcp'|destruct Hcp'].
    destruct Hcp' as [_ Hp]. injection Hp as Hp. 
    destruct (mat_ok K C m A Hmap Hslot _ _ _ _ Hm) as (rr & d2 & -> & Hc2 & Hs2 & Hx2).
    cbn [vreg emit c_code] in Hp. rewrite Hc2, Hd in Hp.
    assert (Hcode : code p = [IMovR R9 R1] ++ d ++ d2 ++ (IJmpI (inv_jop op) rr c1 2 :: reg2bool rr) ++
                             (if Nat.eqb rr 0 then [] else [IMovR R0 rr]) ++ [IExit]).
    { rewrite <- Hp. cbn [code filter_init c_code]. rewrite <- !app_assoc. reflexivity. }
    assert (Hl1 : Z.of_nat (List.length d) < 2 ^ 15) by (rewrite Hcode, !app_length in Hlen; lia).
    assert (Hnn : nowr K d /\ nowr K d2).
    { unfold nowr. destruct (cf_mode K) eqn:Hmd; [| |split; left; reflexivity];
      (assert (Hf : Forall (fun i => dest i <> Some 5%nat) (code p)) by (apply Hr5; discriminate);
       rewrite Hcode in Hf; apply Forall_app in Hf as [_ Hf]; apply Forall_app in Hf as [Hf1 Hf]; apply Forall_app in Hf as [Hf2 _];
       split; right; assumption). }
    destruct Hnn as [Hn1 Hn2]. destruct (Hx Hl1 Hn1) as [Hs1 Hx1].
    set (ms1 := setr ms R9 (rg ms R1)).
    assert (Hpre : pre C A ms1). { split; [unfold ms1; rewrite rg_setr_eq; exact HA|exact Hker]. }
    destruct (Hx1 ms1 Hpre) as (ms2 & E2 & P2 & _ & V2 & Ha). fold c1 in Ha.
    destruct (Hx2 Hn2 Hs1) as [_ Hx3]. destruct (Hx3 ms2 n P2 V2) as (ms3 & E3 & _ & R3').
    assert (Hex : exists ms', exec m (code p) 0 ms = FExit ms' /\ rg ms' R0 = b2z (c_rel op n (immv c'))).
    { rewrite Hcode. cbn [app exec step1]. fold ms1. rewrite exec_app, E2, exec_app, E3.
      cbn [app exec step1 reg2bool]. rewrite R3', Ha, jop_rel.
      destruct (c_rel op n (immv c')); cbn [negb b2z].
      - destruct (Nat.eqb_spec rr 0) as [Hr0|Hr0]; cbn [app exec step1 Z.ltb Z.compare Z.to_nat Pos.to_nat Pos.iter_op Nat.add].
        + eexists. split; [reflexivity|]. unfold R0. rewrite <- Hr0, rg_setr_eq. reflexivity.
        + eexists. split; [reflexivity|]. rewrite rg_setr_eq, rg_setr_eq. reflexivity.
      - cbn [Z.ltb Z.compare Z.to_nat Pos.to_nat Pos.iter_op Nat.add].
        destruct (Nat.eqb_spec rr 0) as [Hr0|Hr0]; cbn [app exec step1 Z.ltb Z.compare Z.to_nat Pos.to_nat Pos.iter_op Nat.add].
        + eexists. split; [reflexivity|]. unfold R0. rewrite <- Hr0, rg_setr_eq. cbn [alu_sem]. apply Z.lxor_nilpotent.
        + eexists. split; [reflexivity|]. rewrite rg_setr_eq, rg_setr_eq. cbn [alu_sem]. apply Z.lxor_nilpotent. }
    destruct Hex as (ms' & Hexe & HR0).
    destruct (run_exec m p [] (code p) 0 ms eq_refl) as (j & Hj & Hrun); [rewrite Hexe; discriminate|].
    exists ms'. specialize (Hrun (fuel - j)%nat). rewrite Hexe in Hrun.
    replace (j + (fuel - j))%nat with fuel in Hrun by lia. cbn [List.length Nat.add Z.of_nat] in Hrun.
    rewrite Hrun, HR0. reflexivity.
  Qed.

  (** The constant after masking for a w-byte operand. *)
  Definition mask_w (w c : Z) : Z := if w =? 8 then c else c mod 2 ^ (8 * w).
  Definition width (w : Z) : Prop := w = 1 \/ w = 2 \/ w = 4 \/ w = 8.
  Lemma adjust_w c t mm w : sizeof E t = Some w -> width w -> is_bf mm = false ->
    adjust_num E c (Some t) mm = mask_w w c.
  Proof.
    intros Hs Hw Hb. assert (H : (let k := sizeof0 E (Some t) in
        if k =? 1 then Z.land c 255 else if k =? 2 then Z.land c 65535 else if k =? 4 then Z.land c 4294967295 else c) = mask_w w c).
    { unfold sizeof0. rewrite Hs. destruct Hw as [->|[->|[->| ->]]]; cbn [Z.eqb Pos.eqb mask_w].
      - apply (Z.land_ones c 8); lia.
      - apply (Z.land_ones c 16); lia.
      - apply (Z.land_ones c 32); lia.
      - reflexivity. }
    unfold adjust_num. destruct mm as [x|]; [|exact H]. rewrite Hb. exact H.
  Qed.
  Lemma adjust_bf c t x b : m_bits x = b -> 0 < b < 32 -> adjust_num E c t (Some x) = c mod 2 ^ b.
  Proof.
    intros Hb Hr. unfold adjust_num. assert (Hbf : is_bf (Some x) = true) by (cbn [is_bf]; destruct (Z.eqb_spec (m_bits x) 0); [lia|reflexivity]).
    rewrite Hbf, Hb, Z.shiftl_1_l. assert (0 < 2 ^ b) by (apply Z.pow_pos_nonneg; lia).
    assert (2 ^ b <= 2 ^ 32) by (apply Z.pow_le_mono_r; lia).
    rewrite (s64_id (2 ^ b)) by lia. rewrite s64_id by lia. rewrite Z.sub_1_r, <- Z.ones_equiv. apply Z.land_ones; lia.
  Qed.

  Lemma loc_walk l a t bf prev off nb raw : csem C (cc2btf E) l = Some (CLoc a t bf) -> sup K C l = Some (KLoc prev off) ->
    readable K C a prev (Some t) off = Some nb -> rd C a nb = Some raw ->
    forall v s', evaluate K l filter_init = ROk v s' ->
    exists d, c_code s' = c_code filter_init ++ d /\
      (Z.of_nat (List.length d) < 2 ^ 15 -> nowr K d -> Sok K s' /\ forall ms, pre C A ms ->
       exists ms' b offs mm, exec m d 0 ms = FFall 0 ms' /\ pre C A ms' /\
         v = VPend b offs (Some t) mm /\ bok K ms' b /\ walk K C (bval C ms' b) offs = Some raw /\ bfrel mm bf /\ nbytes K prev (Some t) off = Some nb).
  Proof.
    intros Hsem Hsup Hrd Hraw v s' Hev.
    destruct (sim_eval K C m A Hmap HE HV Hslot l _ _ _ Hev eq_refl) as (d & Hc & _ & _ & Hx).
    exists d. split; [exact Hc|]. intros Hl Hn. destruct (Hx Hl Hn Sok_init) as [Hs Hx']. split; [exact Hs|].
    intros ms Hp. destruct (Hx' ms _ _ Hp Hsem Hsup) as (ms' & E1 & F1 & V1). cbn [vrel] in V1.
    destruct V1 as (b & offs & o & t0 & mm & a0 & bf0 & p & -> & Hcl & Hb & Hw & Hnz & Hd & Ho & Hpv & Hob & Ha & Hbf & _).
    injection Hcl as -> -> ->.
    destruct (readable_rd K C _ _ _ _ _ p o Hrd Ha Ho Hpv Hob) as (raw' & Hhop & Hraw' & Hoff & Hnb).
    assert (raw' = raw) by congruence. subst raw'.
    exists ms', b, (offs ++ [o]), mm. split; [exact E1|]. split; [exact (pre_frame K C A filter_init ms ms' Sok_init F1 Hp)|].
    split; [reflexivity|]. split; [exact Hb|]. split; [|split; [exact Hbf|exact Hnb]].
    rewrite walk_snoc, Hw, Hd. cbn [negb].
    destruct (ends_deref offs) eqn:He; cbn [andb]; [|assumption].
    destruct (Z.eqb_spec p 0) as [Hp0|]; [specialize (Hnz eq_refl); contradiction|assumption].
  Qed.
  Lemma loc_lspec l a t prev off nb w u c : csem C (cc2btf E) l = Some (CLoc a t None) -> sup K C l = Some (KLoc prev off) ->
    readable K C a prev (Some t) off = Some nb -> sizeof E t = Some w -> width w -> rd C a (Z.to_nat w) = Some u ->
    lspec l c u (mask_w w c).
  Proof.
    intros Hsem Hsup Hrd Hsz Hw Hu v s' Hev.
    assert (Hraw : exists raw, rd C a nb = Some raw).
    { unfold readable in Hrd. destruct (_ && _); [|discriminate]. destruct (nbytes _ _ _ _) as [n0|]; [|discriminate].
      destruct (rd C a n0) as [raw|] eqn:Hr; [|discriminate]. injection Hrd as ->. eauto. }
    destruct Hraw as [raw Hraw].
    destruct (loc_walk _ _ _ _ _ _ _ _ Hsem Hsup Hrd Hraw v s' Hev) as (d & Hc & Hx).
    exists d. split; [exact Hc|]. intros Hl Hn. destruct (Hx Hl Hn) as [Hs Hx']. split; [exact Hs|].
    intros ms Hp. destruct (Hx' ms Hp) as (ms' & b & offs & mm & E1 & P1 & -> & Hb & Hwk & Hbf & Hnb).
    exists ms'. split; [exact E1|]. split; [exact P1|]. split; [reflexivity|]. cbn [bfrel] in Hbf.
    split; [|cbn [v_btf v_mem]; apply adjust_w; assumption].
    cbn [mval]. split; [exact Hb|]. split; [destruct mm; cbn [bfok]; [rewrite Hbf; discriminate|exact I]|].
    exists raw. split; [exact Hwk|].
    assert (Hge : w <= Z.of_nat nb) by (exact (nbytes_ge K _ _ _ _ _ Hnb Hsz Hw)).
    rewrite (rd_sub C _ _ _ _ Hraw) in Hu by lia. apply (f_equal (fun z => match z with Some q => q | None => 0 end)) in Hu; cbv beta iota in Hu; subst u.
    assert (Hlim : lim K (Some t) = 2 ^ (8 * w)) by (apply (lim_sz K); assumption).
    rewrite Z2Nat.id by (destruct Hw as [->|[->|[->| ->]]]; lia).
    unfold tailf. destruct mm as [x|]; [rewrite Hbf|]; rewrite Hlim; reflexivity.
  Qed.
  Lemma bf_lspec l a t st b prev off nb u c : csem C (cc2btf E) l = Some (CLoc a t (Some (st, b))) -> sup K C l = Some (KLoc prev off) ->
    readable K C a prev (Some t) off = Some nb -> 0 < b < 32 -> st + b <= 8 * Z.of_nat nb -> rd C a (Z.to_nat ((st + b + 7) / 8)) = Some u ->
    lspec l c (Z.shiftr u st mod 2 ^ b) (c mod 2 ^ b).
  Proof.
    intros Hsem Hsup Hrd Hb0 Hst Hu v s' Hev.
    assert (Hraw : exists raw, rd C a nb = Some raw).
    { unfold readable in Hrd. destruct (_ && _); [|discriminate]. destruct (nbytes _ _ _ _) as [n0|]; [|discriminate].
      destruct (rd C a n0) as [raw|] eqn:Hr; [|discriminate]. injection Hrd as ->. eauto. }
    destruct Hraw as [raw Hraw].
    destruct (loc_walk _ _ _ _ _ _ _ _ Hsem Hsup Hrd Hraw v s' Hev) as (d & Hc & Hx).
    exists d. split; [exact Hc|]. intros Hl Hn. destruct (Hx Hl Hn) as [Hs Hx']. split; [exact Hs|].
    intros ms Hp. destruct (Hx' ms Hp) as (ms' & bb & offs & mm & E1 & P1 & -> & Hb & Hwk & Hbf & Hnb).
    destruct Hbf as (x & -> & Hmb & Hnz & Hst8).
    exists ms'. split; [exact E1|]. split; [exact P1|]. split; [reflexivity|].
    split; [|cbn [v_btf v_mem]; apply adjust_bf; assumption].
    cbn [mval]. split; [exact Hb|]. split; [cbn [bfok]; intros _; lia|]. exists raw. split; [exact Hwk|].
    pose proof (Z.mod_pos_bound (m_bitoff x) 8 ltac:(lia)) as Hm8.
    assert (Hk : (Z.to_nat ((st + b + 7) / 8) <= nb)%nat).
    { assert ((st + b + 7) / 8 < Z.of_nat nb + 1); [|lia]. apply Z.div_lt_upper_bound; lia. }
    rewrite (rd_sub C _ _ _ _ Hraw Hk) in Hu. apply (f_equal (fun z => match z with Some q => q | None => 0 end)) in Hu; cbv beta iota in Hu; subst u.
    assert (Hisbf : is_bf (Some x) = true) by (cbn [is_bf]; destruct (Z.eqb_spec (m_bits x) 0); [lia|reflexivity]).
    unfold tailf. rewrite Hisbf, <- Hst8, Hmb. apply shiftr_mod_sub; [lia|lia|].
    pose proof (Z.div_mod (st + b + 7) 8 ltac:(lia)). pose proof (Z.mod_pos_bound (st + b + 7) 8 ltac:(lia)).
    rewrite Z2Nat.id by (apply Z.div_pos; lia). lia.
  Qed.

  (** Literals. *)
  Fixpoint lit (e : expr) : option Z :=
    match e with
    | ENum t => match parse_unsigned t with inl n => Some n | inr _ => None end
    | EMinus a => match lit a with Some n => Some (- n) | None => None end
    | EParen a => lit a
    | _ => None
    end.
  Lemma s64_neg' n : s64 (- s64 n) = s64 (- n).
  Proof.
    unfold s64 at 1 3, sgn. assert (H : (- s64 n) mod 2 ^ 64 = (- n) mod 2 ^ 64); [|rewrite H; reflexivity].
    rewrite <- (Z.sub_0_l (s64 n)), <- (Z.sub_0_l n).
    rewrite <- Zminus_mod_idemp_r. unfold s64. rewrite sgn_mod by lia. rewrite Zminus_mod_idemp_r. reflexivity.
  Qed.
  Lemma lit_eval e : forall n, lit e = Some n -> forall s, evaluate K e s = ROk (VConst (s64 n) None) s.
  Proof.
    induction e; cbn [lit]; intros n H st; try discriminate.
    - destruct (parse_unsigned text) as [k|] eqn:Hp; [|discriminate]. injection H as <-. cbn [evaluate].
      rewrite (parse_number_unsigned _ _ Hp). reflexivity.
    - cbn [evaluate]. apply IHe. exact H.
    - destruct (lit e) as [k|]; [|discriminate]. injection H as <-. cbn [evaluate]. rewrite (IHe k eq_refl). cbn [bind unary].
      rewrite s64_neg'. reflexivity.
  Qed.

  (** Parameters. *)
  Definition plain_name (x : string) : bool := negb (String.eqb x "NULL" || String.eqb x "false" || String.eqb x "true").
  Lemma name_lspec x i t w c : plain_name x = true -> lookup_var (cf_vars K) x 0 = Some (i, t) -> sizeof E t = Some w -> width w ->
    lspec (EName x) c (ce_slot C i mod 2 ^ (8 * w)) (mask_w w c).
  Proof.
    intros Hx Hlk Hs Hw v s' Hev. cbn [evaluate] in Hev. unfold eval_name, plain_name in *.
    destruct (String.eqb x "NULL" || String.eqb x "false"); [discriminate|]. destruct (String.eqb x "true"); [discriminate|].
    change (var_index (cf_vars K) x 0) with (lookup_var (cf_vars K) x 0) in Hev. rewrite Hlk in Hev. injection Hev as <- <-.
    exists []. split; [rewrite app_nil_r; reflexivity|]. intros _ _. split; [exact Sok_init|].
    intros ms Hp. exists ms. split; [reflexivity|]. split; [exact Hp|]. split; [reflexivity|].
    split; [|cbn [v_btf v_mem]; apply adjust_w; [assumption|assumption|reflexivity]].
    cbn [mval]. split; [|split; [exact I|]].
    - cbn [bok]. assert (Hgen : forall vs k j u, lookup_var vs x k = Some (j, u) -> (k <= j < k + List.length vs)%nat).
      { induction vs as [|[y ty] vs IH]; cbn [lookup_var]; intros k j u Hj; [discriminate|].
        destruct (String.eqb x y); [injection Hj as <- _; cbn [List.length]; lia|]. apply IH in Hj. cbn [List.length]. lia. }
      apply Hgen in Hlk. lia.
    - exists (ce_slot C i). split; [reflexivity|]. unfold tailf.
      rewrite (lim_sz K _ _ Hs Hw). reflexivity.
  Qed.

  Lemma name_compiles op x i t r c : plain_name x = true -> lookup_var (cf_vars K) x 0 = Some (i, t) -> can_calc (Some t) = true ->
    (forall s, evaluate K r s = ROk (VConst c None) s) ->
    exists p, compile_filter K (ECmp op (EName x) r) = inl (Some p) /\ (List.length (code p) <= 10)%nat /\
      Forall (fun i => dest i <> Some 5%nat) (code p).
  Proof.
    intros Hx Hlk Hcc Hr. unfold compile_filter. cbn [top_op_ok negb evaluate]. unfold eval_name, plain_name in *.
    destruct (String.eqb x "NULL" || String.eqb x "false"); [discriminate|]. destruct (String.eqb x "true"); [discriminate|].
    change (var_index (cf_vars K) x 0) with (lookup_var (cf_vars K) x 0). rewrite Hlk. cbn [bind]. rewrite Hr. cbn [bind].
    unfold cmp_values. cbn [resolve_enums adjust_nums runtime is_mat is_pend orb]. unfold operands_ok.
    cbn [is_pend v_btf andb]. rewrite Hcc. cbn [negb andb]. cbn [materialize]. unfold mat_pending.
    change (calloc filter_init) with (ROk R8 {| c_regs := upd init_regs R8 true; c_code := c_code filter_init; c_lab := false |}).
    cbn [bind]. unfold adjust_size. 
    destruct (sizeof0 E (Some t) =? 1); [|destruct (sizeof0 E (Some t) =? 2); [|destruct (sizeof0 E (Some t) =? 4)]];
      (eexists; split; [reflexivity|]; split; [cbn; lia|]; cbn; repeat (constructor; [cbn; discriminate|]); constructor).
  Qed.
End Vals.
