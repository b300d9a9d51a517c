(** * Addresses of members and elements. *)
From Coq Require Import ZArith List Bool Lia String.
From Verif Require Import M_Ebpf P_Ebpf M_CcNum M_Cc S_CSem S_CSup P_CcMach P_CcWalk P_CcNumr P_CcMat P_CcVal P_CcOps P_CcOps2 P_CcSim P_CcSim2 P_CcTop P_CcVals S_Path.
Import ListNotations.
Open Scope Z_scope.

Section Addr.
  Variables (K : cfg) (C : cenv) (m : mach) (A : Z).
  Hypothesis Hmap : forall a, ce_map C a = true -> mapped m a = true.
  Hypothesis HE : ce_bt C = cf_env K.
  Hypothesis HV : ce_vars C = cf_vars K.
  Hypothesis Hslot : forall i, (i < List.length (cf_vars K))%nat ->
    Z.of_nat i * 8 < 2 ^ 15 /\ rd C (A + Z.of_nat i * 8) 8 = Some (ce_slot C i).
  Notation E := (cf_env K).

  Lemma kval_lspec l c0 t h n w c : csem C (cc2btf E) l = Some c0 -> sup K C l = Some (KVal (Some t) true h) -> num c0 = Some n ->
    0 <= n < lim K (Some t) -> sizeof E t = Some w -> width w -> lspec K C m A l c n (mask_w w c).
  Proof.
    intros Hsem Hsup Hn0 Hn Hsz Hw v s' Hev.
    destruct (sim_eval K C m A Hmap HE HV Hslot l _ _ _ Hev eq_refl) as (d & Hc & _ & _ & Hx).
    exists d. split; [exact Hc|]. intros Hl Hnw. destruct (Hx Hl Hnw (Sok_init K)) as [Hs Hx']. split; [exact Hs|].
    intros ms Hp. destruct (Hx' ms _ _ Hp Hsem Hsup) as (ms' & E1 & F1 & V1). cbn [vrel] in V1.
    destruct V1 as (n1 & Hn1 & _ & b & offs & mm & raw & -> & Hbf & Hb & Hw1 & Hraw & _).
    assert (n1 = n) by congruence. subst n1.
    exists ms'. split; [exact E1|]. split; [exact (pre_frame K C A filter_init ms ms' (Sok_init K) F1 Hp)|]. split; [reflexivity|].
    split; [|cbn [v_btf v_mem]; apply adjust_w; assumption].
    cbn [mval]. split; [exact Hb|]. split; [destruct mm; cbn [bfok]; [rewrite Hbf; discriminate|exact I]|].
    exists raw. split; [exact Hw1|]. rewrite <- (Z.mod_small n _ Hn), <- Hraw by (unfold inrep; lia). unfold tailf. destruct mm as [x|]; [rewrite Hbf|]; reflexivity.
  Qed.

  Lemma ld_elem a t off : is_arr t = true -> (tw K (Some t) =? 8) = true ->
    ld K C (CLoc a t None) (KElem off) = Some (wrap a, Some t, 2 ^ 64).
  Proof.
    intros H1 H2. unfold ld, ldr. rewrite H1, H2. cbn [andb].
    pose proof (wrap_range a). destruct (Z.ltb_spec (wrap a) 0); [lia|reflexivity].
  Qed.
  Lemma ld_ptr n u p pend hop : lim K (Some p) = 2 ^ 64 -> 0 <= n < 2 ^ 64 ->
    ld K C (CPtr n u) (KVal (Some p) pend hop) = Some (n, Some p, 2 ^ 64).
  Proof.
    intros Hl Hn. unfold ld, ldr. rewrite Hl.
    destruct (Z.leb_spec (- 2 ^ 64) (2 * n)); [|lia]. destruct (Z.ltb_spec n (2 ^ 64)); [|lia]. cbn [andb].
    destruct (Z.ltb_spec n 0); [lia|reflexivity].
  Qed.
  Lemma addr_lspec l a t k c : csem C (cc2btf E) l = Some (CLoc a t None) -> sup K C l = Some k -> pend_of k = true -> (forall t b h, k <> KVal t b h) ->
    lspec K C m A (EAddr l) c (a mod 2 ^ 64) c.
  Proof.
    intros Hsem Hsup Hk Hk2.
    assert (H1 : csem C (cc2btf E) (EAddr l) = Some (CPtr (wrap a) t)) by (cbn [csem]; rewrite Hsem; reflexivity).
    assert (H2 : sup K C (EAddr l) = Some (KVal (Some (TPtr t)) true false)).
    { cbn [sup]. rewrite Hsem, Hsup. destruct k; try discriminate; try reflexivity. exfalso. exact (Hk2 _ _ _ eq_refl). }
    exact (kval_lspec _ _ (TPtr t) false (wrap a) 8 c H1 H2 eq_refl (wrap_range a) eq_refl ltac:(unfold width; auto)).
  Qed.

  Lemma elem_lspec l a t off w c : csem C (cc2btf E) l = Some (CLoc a t None) -> sup K C l = Some (KElem off) ->
    sizeof E t = Some w -> width w -> lspec K C m A l c (a mod 2 ^ (8 * w)) (mask_w w c).
  Proof.
    intros Hsem Hsup Hsz Hw v s' Hev.
    destruct (sim_eval K C m A Hmap HE HV Hslot l _ _ _ Hev eq_refl) as (d & Hc & _ & _ & Hx).
    exists d. split; [exact Hc|]. intros Hl Hnw. destruct (Hx Hl Hnw (Sok_init K)) as [Hs Hx']. split; [exact Hs|].
    intros ms Hp. destruct (Hx' ms _ _ Hp Hsem Hsup) as (ms' & E1 & F1 & V1). cbn [vrel] in V1.
    destruct V1 as (b & offs & o & t0 & mm & a0 & p & -> & Hcl & Hb & Hwk & Hnz & Hd & Ho & Hsm & Ha & Hbf).
    injection Hcl as -> ->.
    exists ms'. split; [exact E1|]. split; [exact (pre_frame K C A filter_init ms ms' (Sok_init K) F1 Hp)|]. split; [reflexivity|].
    split; [|cbn [v_btf v_mem]; apply adjust_w; assumption].
    cbn [mval]. split; [exact Hb|]. split; [destruct mm; cbn [bfok]; [rewrite Hbf; discriminate|exact I]|].
    exists (wrap a0). split.
    - rewrite walk_snoc, Hwk, Hd. cbn [negb].
      assert (Hs32 : s32ok off = true).
      { unfold small in Hsm. unfold s32ok. apply andb_true_iff in Hsm as [H1 H2]. apply Z.leb_le in H1. apply Z.ltb_lt in H2.
        apply andb_true_iff. split; [apply Z.leb_le|apply Z.ltb_lt]; lia. }
      rewrite Ho, Hs32, <- Ha.
      destruct (ends_deref offs) eqn:He; cbn [andb]; [|reflexivity].
      destruct (Z.eqb_spec p 0) as [Hp0|]; [specialize (Hnz eq_refl); contradiction|reflexivity].
    - unfold tailf. assert (Hm : wrap a0 mod 2 ^ (8 * w) = a0 mod 2 ^ (8 * w)) by (unfold wrap; change M64 with (2 ^ 64); apply mod_pow_le; destruct Hw as [->|[->|[->| ->]]]; lia).
      rewrite (lim_sz K _ _ Hsz Hw), Hm. destruct mm as [x|]; [rewrite Hbf|]; reflexivity.
  Qed.

  Notation path_off := (path_off K).
  Notation path_ok := (path_ok K).

  Definition locish (k : tk) (o : Z) (t : ty) : Prop :=
    match k with KLoc _ o' => 0 <= o' <= o /\ is_arr t = false | KElem o' => 0 <= o' <= o | _ => False end.
  Lemma is_arr_under t u k : under t = TArr u k -> is_arr t = true.
  Proof. intros H. unfold is_arr. rewrite H. reflexivity. Qed.
  Lemma path_sup l : forall e a t o k d u, csem C (cc2btf E) e = Some (CLoc a t None) -> sup K C e = Some k -> locish k o t ->
    path_ok t o l -> path_off t l = Some (d, u) ->
    exists a' k', csem C (cc2btf E) (path e l) = Some (CLoc a' u None) /\ a' mod 2 ^ 64 = (a + d) mod 2 ^ 64 /\
      sup K C (path e l) = Some k' /\ pend_of k' = true /\ (forall t b h, k' <> KVal t b h).
  Proof.
    induction l as [|s l IH]; intros e a t o k d u Hsem Hsup Hk Hok Hoff.
    - cbn in Hoff. injection Hoff as <- <-. exists a, k. cbn [path List.fold_left]. rewrite Z.add_0_r.
      split; [exact Hsem|]. split; [reflexivity|]. split; [exact Hsup|]. destruct k; try destruct Hk; (split; [reflexivity|discriminate]).
    - cbn [path List.fold_left]. change (List.fold_left add_step l (add_step e s)) with (path (add_step e s) l).
      cbn [path_ok] in Hok. destruct Hok as [Ho Hok]. destruct s as [f|i]; cbn [add_step path_off] in *.
      + destruct (find_member E (under t) f) as [[x off]|] eqn:Hf; [|discriminate]. destruct Hok as [Hoff0 Hok].
        destruct (Z.eqb_spec (m_bits x) 0) as [Hb|]; [|discriminate].
        destruct (path_off (m_ty x) l) as [[o1 u1]|] eqn:Hp; [|discriminate]. injection Hoff as <- <-.
        assert (Hb2 : 0 <= o + off < 2 ^ 15) by (destruct l; destruct Hok; assumption).
        assert (H1 : csem C (cc2btf E) (EDot e f) = Some (CLoc (a + off) (m_ty x) None)).
        { cbn [csem]. rewrite Hsem. unfold c_member. rewrite HE. unfold find_member in Hf. rewrite Hf, Hb. reflexivity. }
        assert (H2 : exists k', sup K C (EDot e f) = Some k' /\ locish k' (o + off) (m_ty x)).
        { cbn [sup]. rewrite Hsem, Hsup. destruct k as [|?|prev o'|o'|]; cbn [locish] in Hk; try contradiction.
          - rewrite Hf. destruct Hk as [H0 H1']. destruct (is_arr (m_ty x)) eqn:Ha.
            + rewrite Hb. assert (Hsm : small (o' + off) = true) by (unfold small; apply andb_true_iff; split; [apply Z.leb_le|apply Z.ltb_lt]; lia).
              rewrite Hsm. cbn [andb Z.eqb]. eexists. split; [reflexivity|]. cbn [locish]. lia.
            + assert (Hsm : (0 <=? o' + off) && (o' + off <? 2 ^ 15) = true) by (apply andb_true_iff; split; [apply Z.leb_le|apply Z.ltb_lt]; lia).
              rewrite Hsm. eexists. split; [reflexivity|]. cbn [locish]. split; [lia|assumption].
          - rewrite Hf, Hb. assert (Hsm : small (o' + off) = true) by (unfold small; apply andb_true_iff; split; [apply Z.leb_le|apply Z.ltb_lt]; lia).
            rewrite Hsm. cbn [andb Z.eqb]. eexists. split; [reflexivity|]. cbn [locish]. lia. }
        destruct H2 as (k' & H2 & Hk'). destruct (IH _ _ _ _ _ _ _ H1 H2 Hk' Hok Hp) as (a' & k2 & R1 & R2 & R3).
        exists a', k2. split; [exact R1|]. split; [rewrite R2; f_equal; lia|exact R3].
      + destruct (under t) as [| | | |el cnt| | | |] eqn:Hu; try destruct Hok.
        destruct (parse_unsigned i) as [n|] eqn:Hpi; [|destruct Hok].
        destruct Hok as (Hs1 & Hs2 & Hs4 & Hn & Hok).
        destruct (sizeof E el) as [kz|] eqn:Hsz; [|discriminate]. destruct (path_off el l) as [[o1 u1]|] eqn:Hp; [|discriminate].
        destruct (Z.ltb_spec 0 kz) as [Hkz|]; [|discriminate]. injection Hoff as <- <-.
        assert (Hs0 : sizeof0 E (Some el) = kz) by (unfold sizeof0; rewrite Hsz; reflexivity). rewrite Hs0 in Hok.
        assert (Hb2 : 0 <= o + n * kz < 2 ^ 15) by (destruct l; destruct Hok; assumption).
        assert (Hnb : n < 2 ^ 15) by nia.
        assert (Harr : is_arr t = true) by (eapply is_arr_under; exact Hu).
        destruct k as [|?|prev o'|o'|]; cbn [locish] in Hk; try contradiction; [destruct Hk; congruence|].
        assert (Hvn : under el = TVoid -> False) by (intros Hv; rewrite sizeof_under, Hv in Hsz; injection Hsz as <-; lia).
        assert (H1 : csem C (cc2btf E) (EIndex e (ENum i)) = Some (CLoc (wrap a + n * kz) el None)).
        { cbn [csem]. rewrite Hsem. cbn [rval]. rewrite Hu, Hpi.
          assert (Hl : lit_type i n = (4, true)) by (unfold lit_type; destruct (Z.ltb_spec n (2 ^ 31)); [reflexivity|lia]).
          rewrite Hl. cbn [mkint rval]. unfold step_size. rewrite HE, Hsz.
          assert (Hkt : (0 <? kz) = true) by (apply Z.ltb_lt; lia). rewrite Hkt.
          destruct (under el) eqn:Hue; try reflexivity. exfalso. apply Hvn. reflexivity. }
        assert (H2 : sup K C (EIndex e (ENum i)) = Some (KElem (n * kz))).
        { cbn [sup]. rewrite Hsem, Hsup. unfold ptrval.
          assert (Htw : tw K (Some t) =? 8 = true).
          { unfold tw, sizeof0. destruct (sizeof E t) as [z|]; [|reflexivity].
            destruct (Z.eqb_spec z 1); [congruence|]. destruct (Z.eqb_spec z 2); [congruence|]. destruct (Z.eqb_spec z 4); [congruence|]. reflexivity. }
          rewrite ld_elem by assumption. unfold ptr_elt. rewrite Hu. cbn [rval]. rewrite Hu. cbn [hop_of andb]. rewrite Hpi. rewrite ?Hu. cbv zeta. rewrite Hs0.
          assert (Hsm : small (n * kz) && (n <? 2 ^ 63) = true).
          { unfold small. apply andb_true_iff. split; [apply andb_true_iff; split; [apply Z.leb_le; nia|apply Z.ltb_lt; lia]|apply Z.ltb_lt; lia]. }
          rewrite Hsm. reflexivity. }
        assert (Hk' : locish (KElem (n * kz)) (o + n * kz) el) by (cbn [locish]; split; nia).
        destruct (IH _ _ _ _ _ _ _ H1 H2 Hk' Hok Hp) as (a' & k2 & R1 & R2 & R3).
        exists a', k2. split; [exact R1|]. split; [|exact R3].
        rewrite R2. replace (wrap a + n * kz + o1) with (wrap a + (n * kz + o1)) by lia.
        exact (wrap_add_l a (n * kz + o1)).
  Qed.

  (** Path starting at a pointer parameter: x->f, then members and elements. *)
  Lemma arrow_path x i p t f l d u c : plain_name x = true -> lookup_var (cf_vars K) x 0 = Some (i, p) -> under p = TPtr t ->
    path_ok t 0 (SDot f :: l) -> path_off t (SDot f :: l) = Some (d, u) ->
    lspec K C m A (EAddr (path (EArrow (EName x) f) l)) c ((ce_slot C i + d) mod 2 ^ 64) c.
  Proof.
    intros Hx Hlk Hp Hok Hoff. cbn [path_ok path_off] in *. destruct Hok as [_ Hok].
    destruct (find_member E (under t) f) as [[x0 off]|] eqn:Hf; [|discriminate]. destruct Hok as [Hoff0 Hok].
    destruct (Z.eqb_spec (m_bits x0) 0) as [Hb|]; [|discriminate].
    destruct (path_off (m_ty x0) l) as [[o1 u1]|] eqn:Hpo; [|discriminate]. injection Hoff as <- <-.
    rewrite Z.add_0_l in Hok. assert (Hb2 : 0 <= off < 2 ^ 15) by (destruct l; destruct Hok; assumption).
    unfold plain_name in Hx. apply negb_true_iff in Hx.
    assert (Hx2 : String.eqb x "NULL" || String.eqb x "false" = false) by (destruct (String.eqb x "NULL"), (String.eqb x "false"); try reflexivity; discriminate).
    assert (Hx3 : String.eqb x "true" = false) by (destruct (String.eqb x "true"); [rewrite orb_true_r in Hx; discriminate|reflexivity]).
    assert (Hrange : 0 <= ce_slot C i < M64).
    { assert (Hgen : forall vs k j u, lookup_var vs x k = Some (j, u) -> (k <= j < k + List.length vs)%nat).
      { induction vs as [|[y ty] vs IH]; cbn [lookup_var]; intros k j v Hj; [discriminate|].
        destruct (String.eqb x y); [injection Hj as <- _; cbn [List.length]; lia|]. apply IH in Hj. cbn [List.length]. lia. }
      apply Hgen in Hlk. assert (Hi : (i < List.length (cf_vars K))%nat) by lia.
      apply (bval_range K C m A Hmap Hslot {| rg := fun _ => 0; stk := fun _ => 0; ker := fun _ => 0; ncall := 0 |} (PVar i)). exact Hi. }
    assert (Hn : csem C (cc2btf E) (EName x) = Some (CPtr (ce_slot C i) t)).
    { cbn [csem]. rewrite Hx2, Hx3, HV, Hlk. unfold of_raw. rewrite Hp. rewrite wrap_small by exact Hrange. reflexivity. }
    assert (Hns : sup K C (EName x) = Some (KVal (Some p) true false)) by (cbn [sup]; rewrite Hx, Hlk; reflexivity).
    assert (Hlim : lim K (Some p) = 2 ^ 64) by (eapply tw_ptr; exact Hp).
    assert (H1 : csem C (cc2btf E) (EArrow (EName x) f) = Some (CLoc (ce_slot C i + off) (m_ty x0) None)).
    { change (csem C (cc2btf E) (EArrow (EName x) f)) with
        (match (match csem C (cc2btf E) (EName x) with Some v => rval C v | None => None end) with Some (CPtr p t) => c_member C p t f | _ => None end).
      rewrite Hn. cbn [rval]. unfold c_member. rewrite HE. unfold find_member in Hf. rewrite Hf, Hb. reflexivity. }
    assert (H2 : exists k, sup K C (EArrow (EName x) f) = Some k /\ locish k off (m_ty x0)).
    { change (sup K C (EArrow (EName x) f)) with
        (match csem C (cc2btf E) (EName x), sup K C (EName x) with
         | Some v, Some k => match ptrval K C v k with Some (_, t) => match ptr_elt t with Some u => sup_member K (Some t) u f | None => None end | None => None end
         | _, _ => None end).
      rewrite Hn, Hns. unfold ptrval.
      rewrite ld_ptr by (assumption || apply Hrange). unfold ptr_elt at 1. rewrite Hp. cbn [rval hop_of andb]. unfold ptr_elt. rewrite Hp. unfold sup_member. rewrite Hf.
      destruct (is_arr (m_ty x0)) eqn:Ha.
      - assert (Hsm : small off && (m_bits x0 =? 0) = true) by (unfold small; rewrite Hb; apply andb_true_iff; split; [apply andb_true_iff; split; [apply Z.leb_le|apply Z.ltb_lt]; lia|reflexivity]).
        rewrite Hsm. eexists. split; [reflexivity|]. cbn [locish]. lia.
      - assert (Hsm : (0 <=? off) && (off <? 2 ^ 15) = true) by (apply andb_true_iff; split; [apply Z.leb_le|apply Z.ltb_lt]; lia).
        rewrite Hsm. eexists. split; [reflexivity|]. cbn [locish]. split; [lia|assumption]. }
    destruct H2 as (k & H2 & Hk).
    destruct (path_sup _ _ _ _ _ _ _ _ H1 H2 Hk Hok Hpo) as (a' & k' & R1 & R2 & R3 & R4 & R5).
    replace (ce_slot C i + (off + o1)) with (ce_slot C i + off + o1) by lia. rewrite <- R2.
    exact (addr_lspec _ _ _ _ c R1 R3 R4 R5).
  Qed.

  (** `x[i]` for a pointer parameter. *)
  Lemma index_lspec x i p t txt n w c : plain_name x = true -> lookup_var (cf_vars K) x 0 = Some (i, p) -> under p = TPtr t ->
    parse_unsigned txt = inl n -> 0 <= n -> sizeof E t = Some w -> width w -> n * w < 2 ^ 31 ->
    lspec K C m A (EIndex (EName x) (ENum txt)) c ((ce_slot C i + n * w) mod 2 ^ (8 * w)) (mask_w w c).
  Proof.
    intros Hx Hlk Hp Hn Hn0 Hsz Hw Hb.
    unfold plain_name in Hx. apply negb_true_iff in Hx.
    assert (Hx2 : String.eqb x "NULL" || String.eqb x "false" = false) by (destruct (String.eqb x "NULL"), (String.eqb x "false"); try reflexivity; discriminate).
    assert (Hx3 : String.eqb x "true" = false) by (destruct (String.eqb x "true"); [rewrite orb_true_r in Hx; discriminate|reflexivity]).
    assert (Hrange : 0 <= ce_slot C i < M64).
    { assert (Hgen : forall vs k j u, lookup_var vs x k = Some (j, u) -> (k <= j < k + List.length vs)%nat).
      { induction vs as [|[y ty] vs IH]; cbn [lookup_var]; intros k j v Hj; [discriminate|].
        destruct (String.eqb x y); [injection Hj as <- _; cbn [List.length]; lia|]. apply IH in Hj. cbn [List.length]. lia. }
      apply Hgen in Hlk. assert (Hi : (i < List.length (cf_vars K))%nat) by lia.
      apply (bval_range K C m A Hmap Hslot {| rg := fun _ => 0; stk := fun _ => 0; ker := fun _ => 0; ncall := 0 |} (PVar i)). exact Hi. }
    assert (Hnn : csem C (cc2btf E) (EName x) = Some (CPtr (ce_slot C i) t)).
    { cbn [csem]. rewrite Hx2, Hx3, HV, Hlk. unfold of_raw. rewrite Hp. rewrite wrap_small by exact Hrange. reflexivity. }
    assert (Hns : sup K C (EName x) = Some (KVal (Some p) true false)) by (cbn [sup]; rewrite Hx, Hlk; reflexivity).
    assert (Hlim : lim K (Some p) = 2 ^ 64) by (eapply tw_ptr; exact Hp).
    assert (Hw0 : 0 < w) by (destruct Hw as [->|[->|[->| ->]]]; lia).
    assert (Hnb : n < 2 ^ 31) by nia.
    assert (H1 : csem C (cc2btf E) (EIndex (EName x) (ENum txt)) = Some (CLoc (ce_slot C i + n * w) t None)).
    { change (csem C (cc2btf E) (EIndex (EName x) (ENum txt))) with
        (match (match csem C (cc2btf E) (EName x) with Some v => rval C v | None => None end),
               (match csem C (cc2btf E) (ENum txt) with Some v => rval C v | None => None end) with
         | Some (CPtr p t), Some (CInt n _ _) => match step_size C t with Some k => Some (CLoc (p + n * k) t None) | None => None end
         | _, _ => None end).
      rewrite Hnn. cbn [csem]. rewrite Hn. assert (Hl : lit_type txt n = (4, true)) by (unfold lit_type; destruct (Z.ltb_spec n (2 ^ 31)); [reflexivity|lia]).
      rewrite Hl. cbn [mkint rval]. unfold step_size. rewrite HE, Hsz. assert (Hkt : (0 <? w) = true) by (apply Z.ltb_lt; lia). rewrite Hkt.
      destruct (under t) eqn:Hue; try reflexivity. exfalso. rewrite sizeof_under, Hue in Hsz. injection Hsz as <-. lia. }
    assert (H2 : sup K C (EIndex (EName x) (ENum txt)) = Some (KElem (n * w))).
    { change (sup K C (EIndex (EName x) (ENum txt))) with
        (match csem C (cc2btf E) (EName x), sup K C (EName x) with
         | Some v, Some k => match ptrval K C v k, parse_unsigned txt with
            | Some (_, t), inl n => match ptr_elt t with Some u => let off := n * sizeof0 E (Some u) in if small off && (n <? 2 ^ 63) then Some (KElem off) else None | None => None end
            | _, _ => None end
         | _, _ => None end).
      rewrite Hnn, Hns. unfold ptrval.
      rewrite ld_ptr by (assumption || apply Hrange). unfold ptr_elt at 1. rewrite Hp. cbn [rval hop_of andb]. rewrite Hn. unfold ptr_elt. rewrite Hp.
      unfold sizeof0. rewrite Hsz. cbv zeta.
      assert (Hsm : small (n * w) && (n <? 2 ^ 63) = true) by (unfold small; apply andb_true_iff; split; [apply andb_true_iff; split; [apply Z.leb_le; nia|apply Z.ltb_lt; lia]|apply Z.ltb_lt; lia]).
      rewrite Hsm. reflexivity. }
    exact (elem_lspec _ _ _ _ _ c H1 H2 Hsz Hw).
  Qed.
End Addr.
