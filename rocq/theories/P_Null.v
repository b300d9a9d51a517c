(** * NULL exits: a chain that meets a NULL pointer jumps to the label. *)
From Coq Require Import ZArith List Bool Lia String.
From Verif Require Import M_Ebpf P_Ebpf M_CcNum M_Cc S_CSem S_CSup S_Null P_CcMach P_CcWalk P_CcNumr P_CcMat P_CcVal P_CcOps P_CcSim P_CcSim2 P_CcSafe P_CcSafe2 P_CcSafe3.
Import ListNotations.
Open Scope Z_scope.

Section Null.
  Variables (K : cfg) (C : cenv) (m : mach) (A : Z).
  Hypothesis Hmap : forall a, ce_map C a = true -> mapped m a = true.
  Hypothesis HE : ce_bt C = cf_env K.
  Hypothesis HV : ce_vars C = cf_vars K.
  Hypothesis Hslot : forall i, (i < List.length (cf_vars K))%nat ->
    Z.of_nat i * 8 < 2 ^ 15 /\ rd C (A + Z.of_nat i * 8) 8 = Some (ce_slot C i).
  Notation E := (cf_env K).
  Notation walk := (walk K C).
  Notation hopread := (hopread K C).
  Notation nowr := (nowr K).
  Notation Sok := (Sok K).
  Notation pre := (pre C A).

  Definition checked (o : poff) : bool :=
    match cf_mode K with
    | MCore => match can_cast K (o_prev o) with Some (Some _) => can_read_cast (o_btf o) | _ => false end
    | _ => true
    end.
  Fixpoint wnull (v : Z) (l : list poff) : bool :=
    match l with
    | [] => false
    | o :: rest =>
        if negb (o_deref o) then s32ok (o_off o) && wnull (wrap (v + o_off o)) rest
        else match hopread v o with
             | Some p => match rest with
                         | [] => false
                         | _ => if p =? 0 then checked o else wnull p rest
                         end
             | None => false
             end
    end.
  Lemma wnull_app v l x : wnull v l = true -> wnull v (l ++ x) = true.
  Proof.
    revert v; induction l as [|o l IH]; intros v; cbn [app wnull]; [discriminate|].
    destruct (negb (o_deref o)).
    - intros H. apply andb_prop in H as [H1 H2]. rewrite H1, (IH _ H2). reflexivity.
    - destruct (hopread v o) as [p|]; [|discriminate]. destruct l as [|o' l]; [discriminate|].
      cbn [app]. destruct (p =? 0); [auto|]. intros H. apply (IH _ H).
  Qed.
  Lemma wnull_upd_last f v l : wnull v (upd_last f l) = wnull v l.
  Proof.
    revert v; induction l as [|o l IH]; intros v; [reflexivity|].
    destruct l as [|o' l].
    - cbn [upd_last wnull]. rewrite !andb_false_r.
      destruct (negb (o_deref (f o))), (negb (o_deref o)); try reflexivity; destruct (hopread v (f o)), (hopread v o); reflexivity.
    - change (upd_last f (o :: o' :: l)) with (o :: upd_last f (o' :: l)).
      assert (Hne : exists q l', upd_last f (o' :: l) = q :: l') by (destruct l; cbn [upd_last]; eauto).
      destruct Hne as (q & l' & Hu). rewrite Hu in *.
      change (wnull v (o :: q :: l')) with (if negb (o_deref o) then s32ok (o_off o) && wnull (wrap (v + o_off o)) (q :: l')
        else match hopread v o with Some p => if p =? 0 then checked o else wnull p (q :: l') | None => false end).
      change (wnull v (o :: o' :: l)) with (if negb (o_deref o) then s32ok (o_off o) && wnull (wrap (v + o_off o)) (o' :: l)
        else match hopread v o with Some p => if p =? 0 then checked o else wnull p (o' :: l) | None => false end).
      destruct (negb (o_deref o)); [rewrite IH; reflexivity|]. destruct (hopread v o); [|reflexivity]. rewrite IH. reflexivity.
  Qed.
  (** a path ending in a checked NULL pointer, followed further *)
  Lemma wnull_end v l o x : walk v l = Some x -> (ends_deref l = true -> x <> 0) -> o_deref o = true -> hopread x o = Some 0 -> checked o = true ->
    forall q, wnull v (l ++ o :: [q]) = true.
  Proof.
    intros Hw He Hd Hh Hc q. revert v Hw He; induction l as [|o1 l IH]; intros v Hw He; cbn [app wnull walk] in *.
    - injection Hw as <-. rewrite Hd. cbn [negb]. rewrite Hh. exact Hc.
    - destruct (negb (o_deref o1)) eqn:Hd1.
      + destruct (s32ok (o_off o1)); [|discriminate]. cbn [andb]. apply IH; [exact Hw|].
        intros Hq. apply He. destruct l as [|o2 l]; [discriminate|]. rewrite ends_deref_cons. exact Hq.
      + destruct (hopread v o1) as [p|]; [|discriminate].
        destruct l as [|o2 l].
        * injection Hw as ->. cbn [app]. assert (Hx : x <> 0).
          { apply He. unfold ends_deref. cbn [rev app]. destruct (o_deref o1); [reflexivity|discriminate]. }
          apply Z.eqb_neq in Hx. rewrite Hx. apply IH; [reflexivity|discriminate].
        * cbn [app]. destruct (p =? 0); [discriminate|]. apply IH; [exact Hw|]. rewrite ends_deref_cons in He. exact He.
  Qed.

  Lemma direct_null r l : cf_mode K = MDirect -> r <> RFP -> forall ms v,
    rg ms r = v -> 0 <= v < M64 -> kagree C (ker ms) -> wnull v l = true ->
    exists ms', exec m (fst (direct_read r l)) 0 ms = FLabel ms' /\ (forall x, x <> r -> rg ms' x = rg ms x) /\ ker ms' = ker ms.
  Proof.
    intros HM Hr. induction l as [|o l IH]; intros ms v Hv Hrange Hk Hw; [discriminate|].
    cbn [direct_read wnull] in *. destruct (direct_read r l) as [c u] eqn:Hd. cbn [fst] in IH.
    destruct (negb (o_deref o)) eqn:Hde.
    - apply andb_prop in Hw as [Hs Hw]. cbn [fst].
      subst v. destruct (exec_addi m r (o_off o) ms Hr Hs Hrange) as (ms1 & H1 & H2 & H3 & H4 & _).
      rewrite exec_app, H1.
      destruct (IH ms1 _ H2 (wrap_range _) ltac:(kagr) Hw) as (ms2 & H5 & H7 & H8).
      exists ms2. rewrite H5. split; [reflexivity|]. split; [|congruence]. intros x Hx. rewrite H7, H3; auto.
    - destruct (hopread v o) as [q|] eqn:Hq; [|discriminate]. pose proof (hopread_range K C m Hmap _ _ _ Hq) as Hqr.
      unfold P_CcWalk.hopread, nbytes in Hq. rewrite HM in Hq.
      destruct ((0 <=? o_off o) && (o_off o <? 2 ^ 15)) eqn:Hoff; [|discriminate].
      apply andb_prop in Hoff as [Ho1 Ho2]. apply Z.leb_le in Ho1. apply Z.ltb_lt in Ho2.
      assert (Hld : load m ms r (s16 (o_off o)) 8 = q).
      { unfold load. rewrite s16_id by lia. destruct (Nat.eqb_spec r RFP); [contradiction|]. rewrite Hv. eapply rd_kread; eauto. }
      destruct l as [|o' l']; [discriminate|]. cbn [fst]. cbn [exec step1]. rewrite Hld.
      cbn [jop_sem]. rewrite rg_setr_eq. change (immv 0) with 0.
      destruct (q =? 0) eqn:Hq0.
      + eexists. split; [reflexivity|]. split; [|reflexivity]. intros x Hx. apply rg_setr_neq; assumption.
      + destruct (IH (setr ms r q) q (rg_setr_eq _ _ _) Hqr Hk Hw) as (ms2 & H5 & H7 & H8).
        exists ms2. rewrite H5. split; [reflexivity|]. split; [|exact H8]. intros x Hx. rewrite H7 by auto. apply rg_setr_neq; auto.
  Qed.

  Lemma probe_null r l : cf_mode K = MProbe -> (6 <= r)%nat -> r <> RFP -> forall ms v,
    rg ms R3 = v -> 0 <= v < M64 -> kagree C (ker ms) -> wnull v l = true ->
    exists ms', exec m (fst (probe_read r l)) 0 ms = FLabel ms' /\ ksave r ms ms'.
  Proof.
    intros HM H6 Hr. induction l as [|o l IH]; intros ms v Hv Hrange Hk Hw; [discriminate|].
    cbn [probe_read wnull] in *. destruct (probe_read r l) as [c u] eqn:Hd. cbn [fst] in IH.
    destruct (negb (o_deref o)) eqn:Hde.
    - apply andb_prop in Hw as [Hs Hw]. cbn [fst].
      subst v. destruct (exec_addi m R3 (o_off o) ms ltac:(discriminate) Hs Hrange) as (ms1 & H1 & H2 & H3 & H4 & _).
      rewrite exec_app, H1.
      assert (Hks : ksave r ms ms1) by (split; [intros x Hx _; apply H3; unfold R3; lia|assumption]).
      destruct l as [|o' l']; [discriminate|]. cbn [andb app].
      destruct (IH ms1 _ H2 (wrap_range _) ltac:(kagr) Hw) as (ms2 & H5 & H7).
      exists ms2. rewrite H5. split; [reflexivity|]. eapply ksave_trans; [exact Hks|exact H7].
    - destruct (hopread v o) as [q|] eqn:Hq; [|discriminate]. pose proof (hopread_range K C m Hmap _ _ _ Hq) as Hqr.
      unfold P_CcWalk.hopread, nbytes in Hq. rewrite HM in Hq.
      destruct ((0 <=? o_off o) && (o_off o <? 2 ^ 15)) eqn:Hoff; [|discriminate].
      apply andb_prop in Hoff as [Ho1 Ho2]. apply Z.leb_le in Ho1. apply Z.ltb_lt in Ho2.
      assert (Hs : s32ok (o_off o) = true).
      { unfold s32ok. apply andb_true_intro; split; [apply Z.leb_le|apply Z.ltb_lt]; lia. }
      subst v. destruct (exec_addi m R3 (o_off o) ms ltac:(discriminate) Hs Hrange) as (ms1 & H1 & H2 & H3 & H4 & _).
      assert (Hks : ksave r ms ms1) by (split; [intros x Hx _; apply H3; unfold R3; lia|assumption]).
      assert (Hrd : rd C (wrap (rg ms R3 + o_off o)) 8 = Some q).
      { rewrite rd_wrap. exact Hq. }
      destruct (probe_call_ok C m Hmap ms1 _ q H2 Hrd ltac:(kagr)) as (ms2 & H5 & H6' & H7 & H8).
      assert (Hks2 : ksave r ms ms2).
      { eapply ksave_trans; [exact Hks|]. split; [intros; auto|assumption]. }
      destruct l as [|o' l']; [discriminate|]. cbn [fst].
      rewrite exec_app, H1, exec_app, H5. cbn [app exec step1].
      set (ms3 := setr ms2 R3 _).
      assert (Hl : rg ms3 R3 = q) by (unfold ms3; rewrite rg_setr_eq; exact H6').
      assert (Hks3 : ksave r ms ms3).
      { eapply ksave_trans; [exact Hks2|]. apply ksave_setr; unfold R3; lia. }
      cbn [jop_sem]. change (immv 0) with 0. rewrite Hl. destruct (q =? 0) eqn:Hq0.
      + exists ms3. split; [reflexivity|exact Hks3].
      + destruct (IH ms3 q Hl Hqr ltac:(destruct Hks3 as [_ ->]; kagr) Hw) as (ms4 & H9 & H11).
        exists ms4. rewrite H9. split; [reflexivity|]. eapply ksave_trans; [exact Hks3|exact H11].
  Qed.

  Lemma core_null r l : cf_mode K = MCore -> (6 <= r)%nat -> r <> RFP ->
    forall c u, core_read K r l = Some (c, u) -> forall ms v,
    rg ms R1 = v -> 0 <= v < M64 -> kagree C (ker ms) -> wnull v l = true ->
    exists ms', exec m c 0 ms = FLabel ms' /\ ksave r ms ms'.
  Proof.
    intros HM H6 Hr. assert (HrR1 : Nat.eqb r R1 = false) by (apply Nat.eqb_neq; unfold R1; lia).
    induction l as [|o l IH]; intros c u Hcr ms v Hv Hrange Hk Hw; [discriminate|].
    cbn [core_read wnull] in *.
    destruct l as [|o' l'].
    { exfalso. destruct (negb (o_deref o)); [rewrite andb_false_r in Hw; discriminate|]. destruct (hopread v o); discriminate. }
    match type of Hcr with match ?h with _ => _ end = _ => set (hd := h) in *; destruct hd as [[c1 u1]|] eqn:Hh end; [|discriminate].
    destruct (core_read K r (o' :: l')) as [[c2 u2]|] eqn:Hrest; [|discriminate]. injection Hcr as <- <-.
    subst hd. cbn [andb negb] in Hh. rewrite exec_app.
    assert (NEXT : forall ms1 q, exec m c1 0 ms = FFall 0 ms1 -> rg ms1 R1 = q -> ksave r ms ms1 -> 0 <= q < M64 -> wnull q (o' :: l') = true ->
      exists ms', match exec m c1 0 ms with FFall k s1 => exec m c2 k s1 | o => o end = FLabel ms' /\ ksave r ms ms').
    { intros ms1 q E1 R1q Hks Hq0 Hwq. rewrite E1.
      destruct (IH _ _ eq_refl ms1 q R1q Hq0 ltac:(destruct Hks as [_ ->]; assumption) Hwq) as (ms2 & E2 & Hks2).
      exists ms2. split; [exact E2|]. eapply ksave_trans; eauto. }
    destruct (negb (o_deref o)) eqn:Hde.
    - apply andb_prop in Hw as [Hs Hw]. injection Hh as <- <-.
      subst v. destruct (exec_addi m R1 (o_off o) ms ltac:(discriminate) Hs Hrange) as (ms1 & H1 & H2 & H3 & H4 & _).
      assert (Hks : ksave r ms ms1) by (split; [intros x Hx _; apply H3; unfold R1; lia|assumption]).
      rewrite app_nil_r in NEXT |- *. apply (NEXT ms1 _ H1 H2 Hks (wrap_range _) Hw).
    - destruct (hopread v o) as [q|] eqn:Hq; [|discriminate]. pose proof (hopread_range K C m Hmap _ _ _ Hq) as Hqr.
      unfold P_CcWalk.hopread, nbytes in Hq. rewrite HM in Hq.
      destruct ((0 <=? o_off o) && (o_off o <? 2 ^ 15)) eqn:Hoff; [|discriminate].
      apply andb_prop in Hoff as [Ho1 Ho2]. apply Z.leb_le in Ho1. apply Z.ltb_lt in Ho2.
      unfold checked in Hw. rewrite HM in Hw.
      destruct (can_cast K (o_prev o)) as [[id|]|] eqn:Hcc; [| |discriminate].
      + destruct (ld_size E (o_btf o)) as [sz|]; [|discriminate].
        destruct (can_read_cast (o_btf o)) eqn:Hcr2; cbn [negb] in Hh.
        * injection Hh as <- <-. cbn [app] in NEXT |- *. cbn [exec step1] in NEXT |- *.
          change (rg (setr ms R2 (immv (s32 id))) R1) with (rg ms R1) in *.
          set (ms1 := clobber m (setr ms R2 (immv (s32 id))) (if cf_fast K then 2 else 5) (rg ms R1)) in *.
          assert (Hks : ksave r ms ms1).
          { split; [|reflexivity]. intros x Hx _. unfold ms1. cbn [clobber rg].
            destruct (Nat.eqb_spec x 0); [lia|].
            destruct (Nat.leb_spec x (if cf_fast K then 2 else 5)%nat); [destruct (cf_fast K); lia|].
            apply rg_setr_neq. unfold R2; lia. }
          assert (H0 : rg ms1 R0 = v) by (unfold ms1; cbn; assumption).
          assert (Hk1 : kagree C (ker ms1)) by (destruct Hks as [_ ->]; assumption).
          assert (Hld : load m ms1 R0 (s16 (o_off o)) sz = q).
          { unfold load. cbn [Nat.eqb R0 RFP]. rewrite H0, s16_id by lia. eapply rd_kread; eauto. }
          rewrite Hld in *. cbn [jop_sem] in *. rewrite rg_setr_eq in *. change (immv 0) with 0 in *.
          destruct (q =? 0) eqn:Hq0.
          -- eexists; split; [reflexivity|]. eapply ksave_trans; [exact Hks|]. apply ksave_setr; unfold R1; lia.
          -- apply (NEXT _ q eq_refl); [apply rg_setr_eq| |exact Hqr|exact Hw].
             eapply ksave_trans; [exact Hks|]. apply ksave_setr; unfold R1; lia.
        * destruct (Z.eqb_spec (o_off o) 0) as [Hz|]; [|discriminate].
          rewrite Hz, Z.add_0_r in Hq. injection Hh as <- <-.
          destruct (core_probe_ok C m Hmap r false ms v q H6 Hr Hv Hq Hk) as (ms1 & E1 & R1q & Hks).
          destruct (q =? 0); [discriminate|]. apply (NEXT ms1 q E1 R1q Hks Hqr Hw).
      + destruct (Z.eqb_spec (o_off o) 0) as [Hz|]; [|discriminate].
        rewrite Hz, Z.add_0_r in Hq. injection Hh as <- <-.
        destruct (core_probe_ok C m Hmap r false ms v q H6 Hr Hv Hq Hk) as (ms1 & E1 & R1q & Hks).
        destruct (q =? 0); [discriminate|]. apply (NEXT ms1 q E1 R1q Hks Hqr Hw).
  Qed.

  Lemma wnull_not_addr v l : wnull v l = true -> all_addr l = false.
  Proof.
    revert v; induction l as [|o l IH]; intros v; cbn [wnull all_addr forallb]; [discriminate|].
    destruct (negb (o_deref o)); [|reflexivity]. intros H. apply andb_prop in H as [_ H]. cbn [andb]. apply (IH _ H).
  Qed.
  Lemma chain_null s l r s' : emit_chain K s l r = ROk tt s' ->
    exists d, c_code s' = c_code s ++ d /\ c_regs s' = c_regs s /\
    ((cf_mode K <> MDirect -> (6 <= r)%nat /\ forall x, c_regs s x = true -> (6 <= x)%nat) ->
     r <> RFP -> forall ms v, rg ms r = v -> 0 <= v < M64 -> kagree C (ker ms) -> wnull v l = true ->
     exists ms', exec m d 0 ms = FLabel ms' /\
       (forall x, x <> r -> cf_mode K = MDirect \/ (6 <= x)%nat -> rg ms' x = rg ms x) /\ ker ms' = ker ms).
  Proof.
    intros H. unfold emit_chain in H. destruct (all_addr l) eqn:Ha.
    { inversion H; subst. eexists; split; [reflexivity|]. split; [reflexivity|].
      intros _ Hr ms v Hv Hvr Hk Hw. apply wnull_not_addr in Hw. congruence. }
    destruct (cf_mode K) eqn:HM.
    - inversion H; subst s'; clear H. unfold emit_probe_read.
      destruct (probe_read r l) as [c u] eqn:Hp.
      exists (push_regs (cf_resv K) (c_regs s) 5 ++ (if Nat.eqb r R3 then [] else [IMovR R3 r]) ++ c ++
              pop_regs (cf_resv K) (c_regs s) 5).
      split; [destruct u; reflexivity|]. split; [destruct u; reflexivity|].
      intros Hlow Hr ms v Hv Hvr Hk Hw. destruct (Hlow ltac:(discriminate)) as [Hr6 Hlo].
      rewrite push_nil, pop_nil by (auto; lia). cbn [app]. rewrite app_nil_r.
      destruct (Nat.eqb_spec r R3); [unfold R3 in *; lia|].
      cbn [app exec step1].
      destruct (probe_null r l HM Hr6 Hr (setr ms R3 (rg ms r)) v) as (ms' & H1 & H3 & H4).
      + rewrite rg_setr_eq. assumption. + assumption. + assumption. + assumption.
      + rewrite Hp in H1. cbn [fst] in H1. exists ms'. rewrite H1. split; [reflexivity|].
        split; [|assumption]. intros x Hx [Hd|Hx6]; [discriminate|]. rewrite H3 by assumption.
        apply rg_setr_neq. unfold R3; lia.
    - unfold emit_core_read in H. destruct (core_read K r l) as [[c u]|] eqn:Hp; [|discriminate].
      inversion H; subst s'; clear H.
      exists (push_regs (cf_resv K) (c_regs s) (if cf_fast K then 2 else 5) ++ (if Nat.eqb r R1 then [] else [IMovR R1 r]) ++ c ++
              pop_regs (cf_resv K) (c_regs s) (if cf_fast K then 2 else 5)).
      split; [destruct u; reflexivity|]. split; [destruct u; reflexivity|].
      intros Hlow Hr ms v Hv Hvr Hk Hw. destruct (Hlow ltac:(discriminate)) as [Hr6 Hlo].
      rewrite push_nil, pop_nil by (auto; destruct (cf_fast K); lia). cbn [app]. rewrite app_nil_r.
      destruct (Nat.eqb_spec r R1); [unfold R1 in *; lia|].
      cbn [app exec step1].
      destruct (core_null r l HM Hr6 Hr c u Hp (setr ms R1 (rg ms r)) v) as (ms' & H1 & H3 & H4).
      + rewrite rg_setr_eq. assumption. + assumption. + assumption. + assumption.
      + exists ms'. rewrite H1. split; [reflexivity|].
        split; [|assumption]. intros x Hx [Hd|Hx6]; [discriminate|]. rewrite H3 by assumption.
        apply rg_setr_neq. unfold R1; lia.
    - destruct (direct_read r l) as [c u] eqn:Hp. exists c. inversion H; subst s'; clear H.
      split; [destruct u; reflexivity|]. split; [destruct u; reflexivity|].
      intros _ Hr ms v Hv Hvr Hk Hw.
      destruct (direct_null r l HM Hr ms v Hv Hvr Hk Hw) as (ms' & H1 & H3 & H4).
      rewrite Hp in H1. exists ms'. auto.
  Qed.

  (** Values whose materialization meets NULL; the base is not a register. *)
  Definition bstat (b : pbase) : Prop := match b with PVar i => (i < List.length (cf_vars K))%nat | PUptr n => 0 < n < 2 ^ 31 \/ 2 ^ 64 - 2 ^ 31 <= n < 2 ^ 64 | PReg _ => False end.
  Definition bst (b : pbase) : Z := match b with PVar i => ce_slot C i | PUptr n => n | PReg _ => 0 end.
  Definition vnull (v : value) : Prop :=
    exists b offs t mm, v = VPend b offs t mm /\ bstat b /\ wnull (bst b) offs = true.

  Lemma mat_null s v v' s' : materialize K s v = ROk v' s' -> vnull v ->
    exists d, c_code s' = c_code s ++ d /\
      (nowr d -> Sok s -> forall ms, pre ms -> exists ms', exec m d 0 ms = FLabel ms' /\ frame (c_regs s) ms ms').
  Proof.
    intros H (b & offs & t & mm & -> & Hb & Hw). cbn [materialize] in H. unfold mat_pending in H.
    destruct (calloc s) as [r s1| |] eqn:Hal; cbn [bind] in H; try discriminate.
    apply calloc_spec in Hal as (Hfr & Hr8 & Hhi & Hrg1 & Hc1).
    destruct offs as [|o offs']; [discriminate|].
    destruct (emit_chain K (emit s1 (base_code b r)) (o :: offs') r) as [[] s3| |] eqn:Hch; cbn [bind] in H; try discriminate.
    injection H as <- <-. destruct (chain_null _ _ _ _ Hch) as (d & Hd1 & Hd2 & Hd3).
    cbn [emit c_code c_regs] in Hd1, Hd2, Hd3. rewrite Hc1 in Hd1. rewrite Hrg1 in Hd2, Hd3.
    eexists (base_code b r ++ d ++ _). split; [cbn [emit c_code]; rewrite Hd1, <- !app_assoc; reflexivity|].
    intros Hnw Hs ms Hpre.
    assert (Hr6 : cf_mode K <> MDirect -> (6 <= r)%nat).
    { intros Hm. apply (alloc_high K s); auto. eapply nowr_dest; eauto.
      destruct (base_dest b r) as (i & Hi & Hdi). exists i. rewrite Hi. split; [left; reflexivity|assumption]. }
    assert (Hbok : bok K ms b) by (destruct b; [exact Hb|exact Hb|destruct Hb]).
    assert (Hbv : bval C ms b = bst b) by (destruct b; [reflexivity|reflexivity|destruct Hb]).
    rewrite exec_app, (base_ok K C m A Hmap Hslot ms b r Hpre Hbok Hr8).
    assert (Hlo : cf_mode K <> MDirect -> (6 <= r)%nat /\ forall x, upd (c_regs s) r true x = true -> (6 <= x)%nat).
    { intros Hm. split; [auto|]. intros x. destruct (Nat.eq_dec x r) as [->|]; [auto|].
      rewrite upd_neq by assumption. apply Hs; assumption. }
    pose proof (bval_range K C m A Hmap Hslot ms b Hbok) as Hbr.
    destruct (Hd3 Hlo ltac:(unfold RFP; lia) (setr ms r (bval C ms b)) (bval C ms b)) as (ms1 & E1 & F1 & K1).
    { apply rg_setr_eq. } { exact Hbr. } { apply Hpre. } { rewrite Hbv. exact Hw. }
    rewrite exec_app, E1. exists ms1. split; [reflexivity|]. split; [|rewrite K1; reflexivity].
    intros x Hx. assert (Hxr : x <> r).
    { intros ->. destruct Hx as [Hx|Hx]; [congruence|unfold RFP in Hx; lia]. }
    assert (Hxm : cf_mode K = MDirect \/ (6 <= x)%nat).
    { destruct Hx as [Hx|Hx]; [|right; unfold RFP in Hx; lia].
      destruct (cf_mode K) eqn:HM; [right|right|left; reflexivity];
        (destruct Hs as (_ & _ & Hs3); apply Hs3; [congruence|assumption]). }
    rewrite F1 by assumption. apply rg_setr_neq. assumption.
  Qed.
End Null.
