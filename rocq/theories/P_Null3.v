(** * NULL met in a conditional, and the induction over expressions. *)
From Coq Require Import ZArith List Bool Lia String.
From Verif Require Import M_Ebpf P_Ebpf M_CcNum M_Cc S_CSem S_CSup S_Null S_Short P_CcMach P_CcWalk P_CcNumr P_CcMat P_CcVal P_CcOps P_CcOps2 P_CcSim P_CcSim2 P_CcSafe P_CcSafe2 P_CcSafe3 P_Null P_Null2 P_CcShort.
Import ListNotations.
Open Scope Z_scope.

Section Null3.
  Variables (K : cfg) (C : cenv) (m : mach) (A : Z).
  Hypothesis Hmap : forall a, ce_map C a = true -> mapped m a = true.
  Hypothesis HE : ce_bt C = cf_env K.
  Hypothesis HV : ce_vars C = cf_vars K.
  Hypothesis Hslot : forall i, (i < List.length (cf_vars K))%nat ->
    Z.of_nat i * 8 < 2 ^ 15 /\ rd C (A + Z.of_nat i * 8) 8 = Some (ce_slot C i).
  Notation nowr := (nowr K).
  Notation Sok := (Sok K).
  Notation pre := (pre C A).
  Notation vnull := (vnull K C).
  Notation sp := (sp K).
  Notation N := (N K C m A).
  Notation dec := (dec K C).

  Lemma ev_NC e s v s' : evaluate K e s = ROk v s' -> NC K s -> NC K s'.
  Proof. intros H Hn Hm. exact (ev_nc K Hm e _ _ _ H (Hn Hm)). Qed.

  Lemma branch_null s v rc s' : cond_branch K s v rc = ROk tt s' -> vnull v ->
    exists d, c_code s' = c_code s ++ d /\
      (nowr d -> Sok s -> forall ms, pre ms -> exists ms', exec m d 0 ms = FLabel ms').
  Proof.
    intros H Hv. pose proof Hv as (b & offs & t & mm & -> & _). unfold cond_branch in H.
    destruct (materialize K s (VPend b offs t mm)) as [x s1| |] eqn:Hm; cbn [bind] in H; try discriminate.
    injection H as <-. destruct (mat_null K C m A Hmap Hslot _ _ _ _ Hm Hv) as (d & Hd & Hx).
    exists (d ++ [IMovR rc (vreg x)]). split; [cbn [cfree emit c_code]; rewrite Hd, <- app_assoc; reflexivity|].
    intros Hn Hs ms Hp. destruct (Hx (nowr_l _ _ _ Hn) Hs ms Hp) as (ms' & E & _). exists ms'. rewrite exec_app, E. reflexivity.
  Qed.

  Lemma cond_null U s c0 l0 r0 v s' : cond_values K s c0 l0 r0 = ROk v s' ->
    keep U s -> keepv U s c0 -> keepv U s l0 -> keepv U s r0 -> disj c0 l0 -> disj c0 r0 -> disj l0 r0 ->
    le9 s -> U 9%nat = true ->
    forall D, c_code s' = c_code s ++ D -> Z.of_nat (List.length D) < 2 ^ 15 -> nowr D -> Sok s -> forall ms, pre ms ->
    vnull c0 \/ (vnull l0 /\ vnull r0) \/ (dec true ms c0 /\ vnull l0) \/ (dec false ms c0 /\ vnull r0) ->
    (exists ms', exec m D 0 ms = FLabel ms') \/ vnull v.
  Proof.
    intros H Hk Hkc Hkl Hkr Dcl Dcr Dlr Hle H9 D HD HDl HDn Hsok ms Hpre Hcase. unfold cond_values in H.
    destruct (negb (operands_ok c0 c0 && operands_ok l0 r0)); [discriminate|].
    destruct (is_const c0) eqn:Hcc.
    { destruct c0 as [n0 t0| | |]; try discriminate. right. cbn [P_CcShort.dec] in Hcase.
      destruct (negb (n0 =? 0)); injection H as <- <-;
        (destruct Hcase as [(? & ? & ? & ? & Hq & _)|[[? ?]|[[? ?]|[? ?]]]]; [discriminate Hq|assumption|try discriminate; assumption|try discriminate; assumption]). }
    assert (H' : (let* cv, s1 := materialize K s c0 in
      let rc := vreg cv in
      let jidx := clen s1 in
      let s2 := emit s1 [IJmpI JEq rc 0 2] in
      let* _u1, s3 := cond_branch K s2 l0 rc in
      let jaidx := clen s3 in
      let s4 := emit s3 [IJa 1] in
      let s5 := cpatch s4 jidx (s16 (Z.of_nat (clen s4) - Z.of_nat jidx - 1)) in
      let* _u2, s6 := cond_branch K s5 r0 rc in
      let s7 := cpatch s6 jaidx (s16 (Z.of_nat (clen s6) - Z.of_nat jaidx - 1)) in
      ROk (VMat rc (v_btf cv) None) s7) = ROk v s').
    { destruct c0; [discriminate| | |]; exact H. }
    clear H. destruct (materialize K s c0) as [cv1 s1| |] eqn:Hm; cbn [bind] in H'; try discriminate.
    destruct (mat_safe K U s c0 cv1 s1 Hm Hk Hkc Hle H9) as (rc & d & -> & Hc & Hlab1 & Hk1 & Hmono & Hle1 & Hu1 & HU1 & Hfr & HrF & Hlin & Hms).
    cbn [vreg v_btf] in H'. cbv zeta in H'.
    set (U1 := fun x => U x || Nat.eqb x rc).
    assert (HU1s : forall x, U x = true -> U1 x = true) by (intros x Hx; unfold U1; rewrite Hx; reflexivity).
    assert (HU1rc : U1 rc = true) by (unfold U1; rewrite Nat.eqb_refl; apply orb_true_r).
    assert (Hk1' : keep U1 s1).
    { intros x Hx. unfold U1 in Hx. apply orb_prop in Hx as [Hx|Hx]; [auto|]. apply Nat.eqb_eq in Hx. subst. assumption. }
    assert (Hnrc : forall w, keepv U s w -> disj c0 w -> keepv U1 s1 w /\ ~ In rc (vregs w)).
    { intros w Hkw Hdw. assert (Hnr : ~ In rc (vregs w)).
      { intros Hin. destruct Hfr as [Hfr|Hfr]; [apply (Hdw rc); assumption|]. destruct (Hkw rc Hin). congruence. }
      split; [|assumption]. intros x Hx. destruct (Hkw x Hx) as [Ha Hb]. split; [auto|].
      unfold U1. rewrite Hb. cbn [orb]. apply Nat.eqb_neq. congruence. }
    destruct (Hnrc _ Hkl Dcl) as [Hkl1 Hnl]. destruct (Hnrc _ Hkr Dcr) as [Hkr1 Hnr].
    destruct (cond_branch K (emit s1 [IJmpI JEq rc 0 2]) l0 rc) as [[] s3| |] eqn:Hb1; cbn [bind] in H'; try discriminate.
    destruct (branch_safe K U1 _ _ _ _ Hb1) as (dl & Hc3 & Hlab3 & Hk3 & Hle3 & Hm3 & Hlin3 & Hs3); auto.
    match type of H' with context [cond_branch K ?s5 r0 rc] => set (s5v := s5) in * end.
    destruct (cond_branch K s5v r0 rc) as [[] s6| |] eqn:Hb2; cbn [bind] in H'; try discriminate.
    assert (Hkr5 : keepv U1 s5v r0).
    { intros x Hx. destruct (Hkr1 x Hx) as [Ha Hb]. split; [|assumption].
      apply Hm3; [exact Ha|]. intros Hin. apply (Dlr x); assumption. }
    destruct (branch_safe K U1 s5v _ _ _ Hb2) as (dr & Hc6 & Hlab6 & Hk6 & Hle6 & Hm6 & Hlin6 & Hs6); auto.
    injection H' as <- <-.
    set (J1 := IJmpI JEq rc 0 (s16 (Z.of_nat (List.length dl) + 1))).
    set (J2 := IJa (s16 (Z.of_nat (List.length dr)))).
    assert (Hcode5 : c_code s5v = c_code s ++ d ++ J1 :: dl ++ [IJa 1]).
    { unfold s5v, cpatch. cbn [c_code emit]. unfold clen. rewrite Hc3. cbn [emit c_code]. rewrite Hc.
      rewrite <- !app_assoc. cbn [app]. rewrite app_assoc. rewrite patch_app. cbn [set_off]. rewrite <- app_assoc.
      unfold J1.
      match goal with |- _ ++ _ ++ IJmpI JEq rc 0 (s16 ?a) :: _ = _ => replace a with (Z.of_nat (List.length dl) + 1); [reflexivity|] end.
      rewrite ?app_length; cbn [List.length]; rewrite ?app_length; cbn [List.length]; rewrite ?app_length; cbn [List.length]; rewrite Hc3; cbn [emit c_code]; rewrite Hc; rewrite ?app_length; cbn [List.length]; lia. }
    assert (Hcode : c_code (cpatch s6 (clen s3) (s16 (Z.of_nat (clen s6) - Z.of_nat (clen s3) - 1))) =
       c_code s ++ (d ++ J1 :: dl ++ J2 :: dr)).
    { unfold cpatch. cbn [c_code]. unfold clen. rewrite Hc6, Hcode5.
      assert (Hl3 : List.length (c_code s3) = List.length (c_code s ++ d ++ J1 :: dl)).
      { rewrite Hc3. cbn [emit c_code]. rewrite Hc. rewrite !app_length. cbn [List.length]. lia. }
      rewrite Hl3.
      replace ((c_code s ++ d ++ J1 :: dl ++ [IJa 1]) ++ dr) with ((c_code s ++ d ++ J1 :: dl) ++ IJa 1 :: dr)
        by (rewrite <- !app_assoc; cbn [app]; rewrite <- !app_assoc; reflexivity).
      rewrite patch_app. cbn [set_off]. rewrite <- !app_assoc. cbn [app]. unfold J2.
      match goal with |- context [IJa (s16 ?a) :: _ = _] => idtac | |- context [IJa (s16 (?a - ?b - 1))] =>
         replace (a - b - 1) with (Z.of_nat (List.length dr)); [reflexivity|] end.
      rewrite ?app_length; cbn [List.length]; rewrite ?app_length; cbn [List.length]; rewrite ?app_length; cbn [List.length]; lia. }
    assert (D = d ++ J1 :: dl ++ J2 :: dr) as -> by (apply (app_inv_head (c_code s)); rewrite <- HD; exact Hcode).
    clear HD. left.
    assert (Hnd : nowr d) by (apply nowr_l in HDn; assumption).
    assert (Hndl : nowr dl /\ nowr dr).
    { apply nowr_r in HDn. change (J1 :: dl ++ J2 :: dr) with ([J1] ++ dl ++ [J2] ++ dr) in HDn.
      apply nowr_r in HDn. split; [apply nowr_l in HDn; assumption|]. apply nowr_r, nowr_r in HDn. assumption. }
    destruct Hndl as [Hndl Hndr].
    destruct (Hms Hnd Hsok) as (Hs1 & Hd1). destruct (Hs3 Hndl Hs1) as [Hs3' _].
    rewrite app_length in HDl. cbn [List.length] in HDl. rewrite app_length in HDl. cbn [List.length] in HDl.
    assert (Hj1 : s16 (Z.of_nat (List.length dl) + 1) = Z.of_nat (List.length dl) + 1) by (apply s16_id; lia).
    destruct (Hcase) as [Hvc|Hcase'].
    { destruct (mat_null K C m A Hmap Hslot _ _ _ _ Hm Hvc) as (d' & Hd' & Hx). assert (d' = d) as -> by (apply (app_inv_head (c_code s)); congruence).
      destruct (Hx Hnd Hsok ms Hpre) as (ms' & E & _). exists ms'. rewrite exec_app, E. reflexivity. }
    assert (Hgo : (exists ms', exec m d 0 ms = FLabel ms') \/ exists ms1, exec m d 0 ms = FFall 0 ms1 /\ pre ms1 /\
       (rg ms1 rc <> 0 -> vnull l0) /\ (rg ms1 rc = 0 -> vnull r0)).
    { destruct Hcase' as [[V1 V2]|Hdec].
      - destruct (safe_keeps m (c_regs s) (cf_resv K) d ms (lin_safe _ _ Hlin) Hd1) as (ms1 & [E|E] & Hkp); [right|left; eauto].
        exists ms1. split; [exact E|]. split; [|auto]. eapply keeps_pre; [|exact Hkp|exact Hpre]. apply Hk; exact H9.
      - right. assert (Hdv : exists dv, dec dv ms c0 /\ (if dv then vnull l0 else vnull r0)) by (destruct Hdec as [[? ?]|[? ?]]; [exists true|exists false]; auto).
        destruct Hdv as (dv & Hd & Hv). destruct (dec_run K C _ _ _ Hd Hcc) as (_ & n & Hmv & Hn).
        destruct (mat1 K C m A Hmap Hslot U _ _ _ _ Hm Hk Hkc H9) as (q & d' & Hq & Hc' & _ & _ & _ & _ & _ & Hx).
        injection Hq as <-. assert (d' = d) as -> by (apply (app_inv_head (c_code s)); congruence).
        destruct (Hx Hnd Hsok) as (_ & _ & Hx'). destruct (Hx' ms n Hpre Hmv) as (ms1 & E & F & G).
        exists ms1. split; [exact E|]. split; [exact (pre_frame K C A s ms ms1 Hsok F Hpre)|]. rewrite G.
        destruct (Z.eqb_spec n 0); cbn [negb] in Hn; subst dv; split; intros; auto; contradiction. }
    destruct Hgo as [[ms' E]|(ms1 & E & Hp1 & Hv1 & Hv2)]; [exists ms'; rewrite exec_app, E; reflexivity|].
    rewrite exec_app, E. unfold J1. cbn [exec step1 jop_sem]. change (immv 0) with 0. rewrite Hj1.
    destruct (Z.eqb_spec (rg ms1 rc) 0) as [Hz|Hz].
    - destruct (Z.ltb_spec (Z.of_nat (List.length dl) + 1) 0); [lia|].
      replace (Z.to_nat (Z.of_nat (List.length dl) + 1)) with (List.length dl + 1)%nat by lia.
      rewrite exec_app, exec_skip. cbn [exec].
      destruct (branch_null _ _ _ _ Hb2 (Hv2 Hz)) as (d' & Hd' & Hx). assert (d' = dr) as -> by (apply (app_inv_head (c_code s5v)); congruence).
      exact (Hx Hndr Hs3' ms1 Hp1).
    - destruct (branch_null _ _ _ _ Hb1 (Hv1 Hz)) as (d' & Hd' & Hx). assert (d' = dl) as -> by (apply (app_inv_head (c_code (emit s1 [IJmpI JEq rc 0 2]))); congruence).
      destruct (Hx Hndl Hs1 ms1 Hp1) as (ms' & E'). exists ms'. rewrite exec_app, E'. reflexivity.
  Qed.

  Ltac inv_eval H v s1 Hev :=
    match type of H with
    | bind (evaluate K ?a ?s) _ = _ =>
        destruct (evaluate K a s) as [v s1| |] eqn:Hev; cbn [bind] in H; [|discriminate|discriminate]
    end.
  Ltac inv_opt H v Hv :=
    match type of H with
    | of_opt ?o _ = _ => destruct o as [v|] eqn:Hv; cbn [of_opt] in H; [|discriminate]; injection H as <- <-
    end.

  Theorem hits_ok e : forall s v s', evaluate K e s = ROk v s' -> c_regs s 9%nat = true -> le9 s -> NC K s -> hits_null K C e = true -> N s s' (vnull v).
  Proof.
    induction e as [x|txt|a IHa name|a IHa name|a IHa i IHi|a IHa|a IHa|ct a IHa|a IHa|op a IHa b IHb|op a IHa b IHb
      |a IHa b IHb|a IHa b IHb|a IHa|a IHa|a IHa|a IHa|a IHa|a IHa|c IHc a IHa b IHb|f IHf args|];
      intros s v s' H H9 Hle Hnc Hh; pose proof H as H0; cbn [hits_null] in Hh; apply orb_prop in Hh as [Hh|Hh];
      try (apply andb_prop in Hh as [Hh1 Hh2]; eapply (path_N K C m A Hmap HE HV Hslot); eauto; fail); try discriminate; cbn [evaluate] in H.
    - inv_eval H v0 s1 Hev. pose proof (ev_NC _ _ _ _ Hev ltac:(assumption)) as Hn_s1.
      assert (H' : of_opt (access_member K v0 name true) s1 = ROk v s') by (destruct v0; [exact H|exact H|exact H|discriminate]).
      clear H H0. inv_opt H' v2 Hac. eapply N_map; [eapply IHa; eauto|]. eapply acc_null; eauto.
    - inv_eval H v0 s1 Hev. pose proof (ev_NC _ _ _ _ Hev ltac:(assumption)) as Hn_s1.
      assert (H' : of_opt (access_member K v0 name false) s1 = ROk v s') by (destruct v0; [exact H|exact H|exact H|discriminate]).
      clear H H0. inv_opt H' v2 Hac. eapply N_map; [eapply IHa; eauto|]. eapply acc_null; eauto.
    - inv_eval H v0 s1 Hev. pose proof (ev_NC _ _ _ _ Hev ltac:(assumption)) as Hn_s1. destruct (is_bf (v_mem v0)) eqn:Hbf; [discriminate|].
      destruct i as [|txt| | | | | | | | | | | | | | | | | | | |]; try discriminate.
      destruct (parse_number txt) as [n|] eqn:Hpn; [|discriminate]. clear H0.
      inv_opt H v2 Hac. eapply N_map; [eapply IHa; eauto|]. eapply idx_null; eauto.
    - inv_eval H v0 s1 Hev. pose proof (ev_NC _ _ _ _ Hev ltac:(assumption)) as Hn_s1. clear H0. inv_opt H v2 Hac. eapply N_map; [eapply IHa; eauto|]. eapply indir_null; eauto.
    - inv_eval H v0 s1 Hev. pose proof (ev_NC _ _ _ _ Hev ltac:(assumption)) as Hn_s1. clear H0. inv_opt H v2 Hac. eapply N_map; [eapply IHa; eauto|]. eapply addr_null; eauto.
    - destruct (is_num a) eqn:Hna; [destruct a; discriminate|].
      rewrite (eval_cast K ct a s Hna) in H0. clear H. inv_eval H0 v0 s1 Hev. pose proof (ev_NC _ _ _ _ Hev ltac:(assumption)) as Hn_s1.
      destruct (cc2btf (cf_env K) ct) as [t|]; [|discriminate]. injection H0 as <- <-.
      eapply N_map; [eapply IHa; eauto|]. apply cast_null.
    - eapply IHa; eauto.
    - clear H0. inv_eval H l s1 Hl. pose proof (ev_NC _ _ _ _ Hl ltac:(assumption)) as Hn_s1. pose proof (ev_safe K a _ _ _ Hl H9 Hle) as Hsl. destruct (sp_keep _ _ _ _ _ Hsl) as (A1 & A2 & A3).
      inv_eval H r s2 Hr. pose proof (ev_NC _ _ _ _ Hr ltac:(assumption)) as Hn_s2. pose proof (ev_safe K b _ _ _ Hr (A1 _ H9) A3) as Hsr.
      destruct (pair_sp _ _ _ _ _ _ Hsl Hsr) as (P0 & P1 & P2 & P3 & P4 & P5).
      pose proof (sp_ext _ _ _ _ _ (bin_safe K op _ _ _ _ _ _ H P1 P2 P3 P4 P5 H9)) as Hex.
      apply orb_prop in Hh as [Hh|Hh].
      + eapply (N_bind K C m A (c_regs s) s r s2 s' (vnull l)); [exact P0|exact H9|exact Hex|
          eapply N_l; [eapply sp_ext; exact Hsl|eapply IHa; eauto|eapply sp_ext; exact Hsr]|].
        intros Hn. eapply (bin_null K C m A Hmap Hslot op s2 l r v s' (c_regs s)); eauto.
      + eapply (N_bind K C m A (c_regs s) s r s2 s' (vnull r)); [exact P0|exact H9|exact Hex|
          eapply (N_r K C m A (c_regs s)); [exact Hsl|exact H9|eapply sp_ext; exact Hsr|eapply IHb; eauto]|].
        intros Hn. eapply (bin_null K C m A Hmap Hslot op s2 l r v s' (c_regs s)); eauto.
    - clear H0. inv_eval H l s1 Hl. pose proof (ev_NC _ _ _ _ Hl ltac:(assumption)) as Hn_s1. pose proof (ev_safe K a _ _ _ Hl H9 Hle) as Hsl. destruct (sp_keep _ _ _ _ _ Hsl) as (A1 & A2 & A3).
      inv_eval H r s2 Hr. pose proof (ev_NC _ _ _ _ Hr ltac:(assumption)) as Hn_s2. pose proof (ev_safe K b _ _ _ Hr (A1 _ H9) A3) as Hsr.
      destruct (pair_sp _ _ _ _ _ _ Hsl Hsr) as (P0 & P1 & P2 & P3 & P4 & P5).
      pose proof (sp_ext _ _ _ _ _ (cmp_safe K op _ _ _ _ _ _ H P1 P2 P3 P4 P5 H9)) as Hex.
      apply orb_prop in Hh as [Hh|Hh].
      + eapply (N_bind K C m A (c_regs s) s r s2 s' (vnull l)); [exact P0|exact H9|exact Hex|
          eapply N_l; [eapply sp_ext; exact Hsl|eapply IHa; eauto|eapply sp_ext; exact Hsr]|].
        intros Hn. eapply (cmp_null K C m A Hmap Hslot op s2 l r v s' (c_regs s)); eauto.
      + eapply (N_bind K C m A (c_regs s) s r s2 s' (vnull r)); [exact P0|exact H9|exact Hex|
          eapply (N_r K C m A (c_regs s)); [exact Hsl|exact H9|eapply sp_ext; exact Hsr|eapply IHb; eauto]|].
        intros Hn. eapply (cmp_null K C m A Hmap Hslot op s2 l r v s' (c_regs s)); eauto.
    - clear H0. inv_eval H l s1 Hl. pose proof (ev_NC _ _ _ _ Hl ltac:(assumption)) as Hn_s1. pose proof (ev_safe K a _ _ _ Hl H9 Hle) as Hsl. destruct (sp_keep _ _ _ _ _ Hsl) as (A1 & A2 & A3).
      inv_eval H r s2 Hr. pose proof (ev_NC _ _ _ _ Hr ltac:(assumption)) as Hn_s2. pose proof (ev_safe K b _ _ _ Hr (A1 _ H9) A3) as Hsr.
      destruct (pair_sp _ _ _ _ _ _ Hsl Hsr) as (P0 & P1 & P2 & P3 & P4 & P5).
      assert (Hex : ext s2 s').
      { pose proof H as H2. unfold andand_values in H2.
        eapply sp_ext. eapply (logic_safe K (fun a => a =? 0) 0 _ _ _ _ _ _ _ _ H2 (ins2_and K)); eauto. }
      apply orb_prop in Hh as [Hh|Hh]; apply andb_prop in Hh as [Hh1 Hh2].
      + pose proof (rt_expr K C m A Hmap Hslot _ _ _ _ Hr Hh2) as Hrt.
        eapply (N_bind K C m A (c_regs s) s r s2 s' (vnull l)); [exact P0|exact H9|exact Hex|
          eapply N_l; [eapply sp_ext; exact Hsl|eapply IHa; eauto|eapply sp_ext; exact Hsr]|].
        intros Hn. eapply (logic_null K C m A Hmap Hslot s2 l r (andand_values K) v s' (c_regs s)); eauto.
      + pose proof (rt_expr K C m A Hmap Hslot _ _ _ _ Hl Hh1) as Hrt.
        eapply (N_bind K C m A (c_regs s) s r s2 s' (vnull r)); [exact P0|exact H9|exact Hex|
          eapply (N_r K C m A (c_regs s)); [exact Hsl|exact H9|eapply sp_ext; exact Hsr|eapply IHb; eauto]|].
        intros Hn. eapply (logic_null K C m A Hmap Hslot s2 l r (andand_values K) v s' (c_regs s)); eauto.
    - clear H0. inv_eval H l s1 Hl. pose proof (ev_NC _ _ _ _ Hl ltac:(assumption)) as Hn_s1. pose proof (ev_safe K a _ _ _ Hl H9 Hle) as Hsl. destruct (sp_keep _ _ _ _ _ Hsl) as (A1 & A2 & A3).
      inv_eval H r s2 Hr. pose proof (ev_NC _ _ _ _ Hr ltac:(assumption)) as Hn_s2. pose proof (ev_safe K b _ _ _ Hr (A1 _ H9) A3) as Hsr.
      destruct (pair_sp _ _ _ _ _ _ Hsl Hsr) as (P0 & P1 & P2 & P3 & P4 & P5).
      assert (Hex : ext s2 s').
      { pose proof H as H2. unfold oror_values in H2.
        eapply sp_ext. eapply (logic_safe K (fun a => negb (a =? 0)) 1 _ _ _ _ _ _ _ _ H2 (ins2_or K)); eauto. }
      apply orb_prop in Hh as [Hh|Hh]; apply andb_prop in Hh as [Hh1 Hh2].
      + pose proof (rt_expr K C m A Hmap Hslot _ _ _ _ Hr Hh2) as Hrt.
        eapply (N_bind K C m A (c_regs s) s r s2 s' (vnull l)); [exact P0|exact H9|exact Hex|
          eapply N_l; [eapply sp_ext; exact Hsl|eapply IHa; eauto|eapply sp_ext; exact Hsr]|].
        intros Hn. eapply (logic_null K C m A Hmap Hslot s2 l r (oror_values K) v s' (c_regs s)); eauto.
      + pose proof (rt_expr K C m A Hmap Hslot _ _ _ _ Hl Hh1) as Hrt.
        eapply (N_bind K C m A (c_regs s) s r s2 s' (vnull r)); [exact P0|exact H9|exact Hex|
          eapply (N_r K C m A (c_regs s)); [exact Hsl|exact H9|eapply sp_ext; exact Hsr|eapply IHb; eauto]|].
        intros Hn. eapply (logic_null K C m A Hmap Hslot s2 l r (oror_values K) v s' (c_regs s)); eauto.
    - clear H0. inv_eval H v0 s1 Hev. pose proof (ev_NC _ _ _ _ Hev ltac:(assumption)) as Hn_s1. pose proof (ev_safe K a _ _ _ Hev H9 Hle) as Hsp. destruct (sp_keep _ _ _ _ _ Hsp) as (A1 & A2 & A3).
      eapply (N_bind K C m A (c_regs s) s v0 s1 s' (vnull v0)); [exact Hsp|exact H9| |eapply IHa; eauto|eapply (unary_null K C m A Hmap Hslot); eauto].
      eapply sp_ext. eapply unary_safe; eauto using ins1_jmp.
    - clear H0. inv_eval H v0 s1 Hev. pose proof (ev_NC _ _ _ _ Hev ltac:(assumption)) as Hn_s1. pose proof (ev_safe K a _ _ _ Hev H9 Hle) as Hsp. destruct (sp_keep _ _ _ _ _ Hsp) as (A1 & A2 & A3).
      eapply (N_bind K C m A (c_regs s) s v0 s1 s' (vnull v0)); [exact Hsp|exact H9| |eapply IHa; eauto|eapply (unary_null K C m A Hmap Hslot); eauto].
      eapply sp_ext. eapply unary_safe; eauto using ins1_alu.
    - clear H0. inv_eval H v0 s1 Hev. pose proof (ev_NC _ _ _ _ Hev ltac:(assumption)) as Hn_s1. pose proof (ev_safe K a _ _ _ Hev H9 Hle) as Hsp. destruct (sp_keep _ _ _ _ _ Hsp) as (A1 & A2 & A3).
      eapply (N_bind K C m A (c_regs s) s v0 s1 s' (vnull v0)); [exact Hsp|exact H9| |eapply IHa; eauto|eapply (unary_null K C m A Hmap Hslot); eauto].
      eapply sp_ext. eapply unary_safe; eauto using ins1_neg.
    - eapply IHa; eauto.
    - clear H0. inv_eval H v0 s1 Hev. pose proof (ev_NC _ _ _ _ Hev ltac:(assumption)) as Hn_s1. pose proof (ev_safe K a _ _ _ Hev H9 Hle) as Hsp. destruct (sp_keep _ _ _ _ _ Hsp) as (A1 & A2 & A3).
      eapply (N_bind K C m A (c_regs s) s v0 s1 s' (vnull v0)); [exact Hsp|exact H9| |eapply IHa; eauto|eapply (unary_null K C m A Hmap Hslot); eauto].
      eapply sp_ext. eapply unary_safe; eauto using ins1_alu.
    - clear H0. inv_eval H v0 s1 Hev. pose proof (ev_NC _ _ _ _ Hev ltac:(assumption)) as Hn_s1. pose proof (ev_safe K a _ _ _ Hev H9 Hle) as Hsp. destruct (sp_keep _ _ _ _ _ Hsp) as (A1 & A2 & A3).
      eapply (N_bind K C m A (c_regs s) s v0 s1 s' (vnull v0)); [exact Hsp|exact H9| |eapply IHa; eauto|eapply (unary_null K C m A Hmap Hslot); eauto].
      eapply sp_ext. eapply unary_safe; eauto using ins1_alu.
    - clear H0.
      inv_eval H x s0 Hx. pose proof (ev_NC _ _ _ _ Hx ltac:(assumption)) as Hn_s0.
      pose proof (ev_safe K c _ _ _ Hx H9 Hle) as Hsx. destruct (sp_keep _ _ _ _ _ Hsx) as (X1 & X2 & X3).
      inv_eval H l s1 Hl. pose proof (ev_NC _ _ _ _ Hl ltac:(assumption)) as Hn_s1.
      pose proof (ev_safe K a _ _ _ Hl (X1 _ H9) X3) as Hsl. destruct (sp_keep _ _ _ _ _ Hsl) as (A1 & A2 & A3).
      inv_eval H r s2 Hr. pose proof (ev_NC _ _ _ _ Hr ltac:(assumption)) as Hn_s2.
      pose proof (ev_safe K b _ _ _ Hr (A1 _ (X1 _ H9)) A3) as Hsr. destruct (sp_keep _ _ _ _ _ Hsr) as (B1 & B2 & B3).
      destruct (pair_sp _ _ _ _ _ _ Hsx Hsl) as (Q0 & Q1 & Q2 & Q3 & Q4 & Q5).
      destruct (pair_sp _ _ _ _ _ _ Hsl Hsr) as (P0 & P1 & P2 & P3 & P4 & P5).
      assert (Hall : sp (c_regs s) s r s2) by (eapply sp_seq; [exact Q0|eapply sp_weak; [exact Hsr|exact Q1]]).
      assert (K1 : keep (c_regs s) s2) by (intros y Hy; apply B1, Q1, Hy).
      assert (K2 : keepv (c_regs s) s2 x) by (intros y Hy; destruct (Q2 y Hy); split; [apply B1; assumption|assumption]).
      assert (K3 : keepv (c_regs s) s2 l) by (intros y Hy; destruct (Q3 y Hy); split; [apply B1; assumption|assumption]).
      assert (K4 : keepv (c_regs s) s2 r).
      { intros y Hy. destruct (B2 y Hy) as [Ha Hb]. split; [assumption|]. destruct (c_regs s y) eqn:Hu; [|reflexivity]. apply Q1 in Hu. congruence. }
      assert (K5 : disj x r) by (intros y Ha Hb; destruct (Q2 y Ha), (B2 y Hb); congruence).
      assert (Hex : ext s2 s') by (eapply sp_ext; eapply (cond_safe K (c_regs s)); eauto).
      pose proof (cond_null (c_regs s) _ _ _ _ _ _ H K1 K2 K3 K4 Q4 K5 P4 B3 H9) as Hcn.
      assert (Hst : vnull x \/ (vnull l /\ vnull r) -> N s2 s' (vnull v)).
      { intros Hq d Hd Hl' Hn Hs ms Hp. apply (Hcn d Hd Hl' Hn Hs ms Hp). tauto. }
      destruct (hits_null K C c) eqn:Hhc.
      { eapply (N_bind K C m A (c_regs s) s r s2 s' (vnull x)); [exact Hall|exact H9|exact Hex| |auto].
        apply (N_l K C m A s s1 s2); [eapply sp_ext; exact Q0| |eapply sp_ext; exact Hsr].
        apply (N_l K C m A s s0 s1); [eapply sp_ext; exact Hsx|eapply IHc; eauto|eapply sp_ext; exact Hsl]. }
      cbn [orb] in Hh. destruct (hits_null K C a && hits_null K C b) eqn:Hab.
      { apply andb_prop in Hab as [Hha Hhb].
        eapply (N_bind K C m A (c_regs s) s r s2 s' (vnull l /\ vnull r)); [exact Hall|exact H9|exact Hex| |auto].
        eapply (N_bind K C m A (c_regs s) s l s1 s2 (vnull l)); [exact Q0|exact H9|eapply sp_ext; exact Hsr| |].
        - eapply (N_r K C m A (c_regs s)); [exact Hsx|exact H9|eapply sp_ext; exact Hsl|eapply IHa; eauto].
        - intros Hq. eapply N_map; [eapply IHb; eauto|auto]. }
      cbn [orb] in Hh. clear Hst Hab.
      assert (Hkn : exists dv, known K C dv c = true /\ (if dv then hits_null K C a else hits_null K C b) = true).
      { apply orb_prop in Hh as [Hh|Hh]; apply andb_prop in Hh as [Hh1 Hh2]; [exists true|exists false]; auto. }
      destruct Hkn as (dv & Hkn & Hhd).
      destruct (known_D K C m A Hmap HE HV Hslot dv c _ _ _ Hkn Hx H9) as (d1 & Hc1 & Hx1).
      destruct Hsx as (e1 & E1 & _ & _ & _ & _ & _ & Y1). assert (e1 = d1) as -> by (apply (app_inv_head (c_code s)); congruence).
      destruct Hsl as (d2 & Hc2 & _ & _ & _ & _ & W2 & Y2). destruct Hsr as (d3 & Hc3 & _ & _ & _ & _ & W3 & Y3).
      destruct Hex as [d4 Hc4].
      intros d Hd Hlen Hnw Hsok ms Hp.
      assert (d = d1 ++ d2 ++ d3 ++ d4) as ->.
      { apply (app_inv_head (c_code s)). rewrite <- Hd, Hc4, Hc3, Hc2, Hc1, <- !app_assoc. reflexivity. }
      rewrite !app_length in Hlen.
      pose proof (nowr_l _ _ _ Hnw) as N1. pose proof (nowr_r _ _ _ Hnw) as Hnw'. pose proof (nowr_l _ _ _ Hnw') as N2.
      pose proof (nowr_r _ _ _ Hnw') as Hnw2. pose proof (nowr_l _ _ _ Hnw2) as N3. pose proof (nowr_r _ _ _ Hnw2) as N4.
      destruct (Y1 N1 Hsok) as [Hs0 _]. destruct (Y2 N2 Hs0) as [Hs1 Hd2]. destruct (Y3 N3 Hs1) as [Hs2 Hd3].
      destruct W2 as [_ W2]; [lia|]. destruct W3 as [_ W3]; [lia|].
      destruct (Hx1 ltac:(lia) N1 Hsok Hnc ms Hp) as [[ms1 Ex]|(ms1 & Ex & F1 & D1)]; [left; exists ms1; rewrite exec_app, Ex; reflexivity|].
      assert (Hp1 : pre ms1) by (eapply pre_frame; [exact Hsok|exact F1|exact Hp]).
      destruct (safe_frame K m (c_regs s0) (cf_resv K) d2 ms1 W2 Hd2 (NC_d _ _ _ _ Hn_s1 Hc2) (Sok_lo _ _ Hs0)) as (ms2 & [Ex2|Ex2] & F2).
      2:{ left. exists ms2. rewrite exec_app, Ex, exec_app, Ex2. reflexivity. }
      assert (Hp2 : pre ms2) by (eapply pre_frame; [exact Hs0|exact F2|exact Hp1]).
      destruct (safe_frame K m (c_regs s1) (cf_resv K) d3 ms2 W3 Hd3 (NC_d _ _ _ _ Hn_s2 Hc3) (Sok_lo _ _ Hs1)) as (ms3 & [Ex3|Ex3] & F3).
      2:{ left. exists ms3. rewrite exec_app, Ex, exec_app, Ex2, exec_app, Ex3. reflexivity. }
      assert (Hp3 : pre ms3) by (eapply pre_frame; [exact Hs1|exact F3|exact Hp2]).
      assert (D3 : dec dv ms3 x).
      { eapply dec_frame; [eapply frame_mono; [exact A1|exact F3]|intros y Hy; apply X2; exact Hy|].
        eapply dec_frame; [exact F2|intros y Hy; apply X2; exact Hy|exact D1]. }
      assert (Hvn : if dv then vnull l else vnull r).
      { destruct dv.
        - destruct (IHa _ _ _ Hl (X1 _ H9) X3 Hn_s0 Hhd d2 Hc2 ltac:(lia) N2 Hs0 ms1 Hp1) as [[q Eq]|Hq]; [rewrite Eq in Ex2; discriminate|exact Hq].
        - destruct (IHb _ _ _ Hr (A1 _ (X1 _ H9)) A3 Hn_s1 Hhd d3 Hc3 ltac:(lia) N3 Hs1 ms2 Hp2) as [[q Eq]|Hq]; [rewrite Eq in Ex3; discriminate|exact Hq]. }
      destruct (Hcn d4 Hc4 ltac:(lia) N4 Hs2 ms3 Hp3) as [[ms4 Ex4]|Hq]; [destruct dv; auto| |right; exact Hq].
      left. exists ms4. rewrite exec_app, Ex, exec_app, Ex2, exec_app, Ex3. exact Ex4.
  Qed.
End Null3.
