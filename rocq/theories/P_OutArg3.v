(** * Proofs for M_OutArg: evaluation of the expression *)
From Coq Require Import ZArith List Bool Lia.
From Verif Require Import M_Go M_Ebpf P_Ebpf M_CcNum M_Cc M_Bytes M_FnArgs S_FnArgs S_CSem S_CSup S_Null M_OutArg S_OutArg.
From Verif Require Import P_CcMach P_CcWalk P_CcMat P_CcVal P_CcOps P_CcSim2 P_CcSafe P_CcSafe2 P_CcSafe3 P_CcTop2 P_CcReg P_Null P_Null2 P_CcShort P_Null3 P_FnArgs P_FnArgs2 P_OutArg P_OutArg2.
Import ListNotations.
Open Scope Z_scope.

Lemma split_subject e rt a off size : split_call e = inl (Some (rt, a, off, size)) -> a = subject e.
Proof.
  unfold split_call. destruct e; cbn [subject]; try (intros H; congruence).
  destruct e; try discriminate. destruct args as [|x rest]; [discriminate|].
  destruct (compile_func_call s x rest) as [c|] eqn:Hc; [|discriminate]. intros H. injection H as <- <- <- <-.
  revert Hc. unfold compile_func_call, mkcall.
  destruct (addr_size s) as [[? ?]|]; [|destruct (int_size s) as [[? ?]|]];
  repeat match goal with
  | |- (if ?b then _ else _) = _ -> _ => destruct b
  | |- match ?x with _ => _ end = _ -> _ => destruct x
  end; try discriminate; intros Hc; injection Hc as <-; reflexivity.
Qed.

Section Ev.
  Variables (K : cfg) (C : cenv) (m : mach) (A : Z).
  Hypothesis Hmap : forall a, ce_map C a = true -> mapped m a = true.
  Hypothesis HE : ce_bt C = cf_env K.
  Hypothesis HV : ce_vars C = cf_vars K.
  Hypothesis Hslot : forall i, (i < List.length (cf_vars K))%nat ->
    Z.of_nat i * 8 < 2 ^ 15 /\ rd C (A + Z.of_nat i * 8) 8 = Some (ce_slot C i).

  Lemma eval_le9 : le9 eval_init.
  Proof. intros r. cbn [eval_init c_regs]. intros H. apply orb_true_iff in H as [H|H]; apply Nat.eqb_eq in H; lia. Qed.
  Lemma eval_Sok : Sok K eval_init.
  Proof.
    unfold Sok. split; [reflexivity|]. split; [exact eval_le9|]. intros _ r. cbn [eval_init c_regs]. intros H.
    apply orb_true_iff in H as [H|H]; apply Nat.eqb_eq in H; lia.
  Qed.
  Lemma U89 (U : reg -> bool) : (forall r, c_regs eval_init r = true -> U r = true) -> U 8%nat = true /\ U 9%nat = true.
  Proof. intros H. split; apply H; reflexivity. Qed.

  Lemma compile_eval_inv e r : compile_eval K e = Some r -> exists rt off size v s w s',
    split_call e = inl (Some (rt, subject e, off, size)) /\ evaluate K (subject e) eval_init = ROk v s /\ is_const v = false /\
    materialize K s v = ROk w s' /\ post_check (cf_env K) rt (v_btf w) (v_mem w) off size = Some (r_btf r, r_off r, r_size r) /\
    r_type r = rt /\ r_code r = c_code s' /\ r_reg r = vreg w /\ r_lab r = c_lab s'.
  Proof.
    unfold compile_eval. destruct (split_call e) as [[[[[rt a] off] size]|]|[]] eqn:Hs; try discriminate.
    pose proof (split_subject _ _ _ _ _ Hs) as ->.
    destruct (evaluate K (subject e) eval_init) as [v s| |] eqn:Hev; try discriminate.
    intros H. assert (H' : is_const v = false /\ match materialize K s v with
          | ROk w s' => match post_check (cf_env K) rt (v_btf w) (v_mem w) off size with
              | Some (bt, o, n) => Some {| r_type := rt; r_code := c_code s'; r_reg := vreg w; r_lab := c_lab s'; r_btf := bt; r_off := o; r_size := n |}
              | None => None end
          | _ => None end = Some r) by (destruct v; try discriminate; split; try reflexivity; exact H).
    clear H. destruct H' as [Hc H]. destruct (materialize K s v) as [w s'| |] eqn:Hm; try discriminate.
    destruct (post_check _ _ _ _ _ _) as [[[bt o] n]|] eqn:Hp; try discriminate. injection H as <-.
    exists rt, off, size, v, s, w, s'. cbn. repeat split; auto.
  Qed.

  Lemma evals_ok e r o ms : compile_eval K e = Some r -> outcome K C e o ->
    Z.of_nat (List.length (r_code r)) < 2 ^ 15 -> nowr K (r_code r) ->
    rg ms R9 = A -> kagree C (ker ms) -> evals m (r_code r) (r_lab r) (r_reg r) ms o.
  Proof.
    intros H Ho Hl Hn HA Hk.
    destruct (compile_eval_inv e r H) as (rt & off & size & v & s & w & s' & Hsp & Hev & Hc & Hm & Hp & Hrt & Hcode & Hreg & Hlab).
    rewrite Hcode, Hreg, Hlab in *.
    pose proof (ev_safe K (subject e) _ _ _ Hev eq_refl eval_le9) as Sp1.
    destruct (sp_keep K _ _ _ _ Sp1) as (Hk1 & Hkv1 & Hle1).
    destruct (U89 _ Hk1) as [_ H91].
    pose proof (sp_ret K (c_regs eval_init) s v w s' Hm Hk1 Hkv1 Hle1 eq_refl) as Sp2.
    pose proof (sp_seq K _ _ _ _ _ _ Sp1 Sp2) as (d & Hd & Hlb & _ & Hkw & Hle & Hsafe & Hdst).
    cbn [eval_init c_code app] in Hd.
    pose proof Hd as Hcd. destruct Sp1 as (d1 & Hd1 & _ & _ & _ & _ & _ & Hs1). cbn [eval_init c_code app] in Hd1.
    rewrite Hd in Hl, Hn.
    destruct (Hdst Hn eval_Sok) as [_ Hdd]. destruct (Hsafe Hl) as [_ Hsf].
    assert (Hpre : pre C A ms) by (split; assumption).
    destruct o as [n|]; cbn [outcome] in Ho.
    - unfold value_of in Ho. destruct (csem C _ _) as [c|] eqn:Hcs; [|discriminate]. destruct (sup K C _) as [k|] eqn:Hsu; [|discriminate].
      destruct (ld K C c k) as [[[n' t] l]|] eqn:Hld; [|discriminate]. injection Ho as ->.
      destruct (sim_eval K C m A Hmap HE HV Hslot (subject e) _ _ _ Hev eq_refl) as (d1' & Hd1' & _ & _ & Hx).
      cbn [eval_init c_code app] in Hd1'. assert (Hq : d1' = d1) by congruence. clear Hd1'. subst d1'.
      destruct (mat1 K C m A Hmap Hslot (c_regs eval_init) s v w s' Hm Hk1 Hkv1 eq_refl) as (rr & d2 & -> & Hd2 & _ & Hr2 & HU2 & _ & _ & Hx2).
      assert (Hdd2 : d = d1 ++ d2) by congruence. rewrite Hdd2 in Hl, Hn. apply nowr_app in Hn as [Hn1 Hn2]. rewrite app_length in Hl.
      destruct (Hx ltac:(lia) Hn1 eval_Sok) as [Hsok Hsim]. destruct (Hsim ms c k Hpre Hcs Hsu) as (ms1 & E1 & F1 & V1).
      destruct (ld_mval K C m Hmap HE ms1 v c k n t l V1 Hld) as (Mv & _ & _ & Hr & _).
      destruct (Hx2 Hn2 Hsok) as (_ & HrF & Hx3). destruct (Hx3 ms1 n (pre_frame K C A _ _ _ eval_Sok F1 Hpre) Mv) as (ms2 & E2 & F2 & R2).
      exists ms2. rewrite Hd, Hdd2. split; [rewrite exec_app, E1; exact E2|]. cbn [vreg]. split.
      + split; [exact R2|]. split; [exact Hr|]. 
        assert (rr <= 9)%nat by (apply Hle; exact Hr2).
        destruct (Nat.eq_dec rr 8) as [->|]; [discriminate|]. destruct (Nat.eq_dec rr 9) as [->|]; [discriminate|]. lia.
      + destruct F1 as [F1 K1], F2 as [F2 K2]. split; [|congruence]. intros x Hx'.
        assert (Hx8 : c_regs eval_init x = true \/ x = RFP).
        { destruct (Nat.eq_dec x 8) as [->|]; [left; reflexivity|]. destruct (Nat.eq_dec x 9) as [->|]; [left; reflexivity|]. right. unfold RFP. lia. }
        rewrite F2, F1; [reflexivity|exact Hx8|]. destruct Hx8 as [Hx8| ->]; [left; apply Hk1; exact Hx8|right; reflexivity].
    - (* NULL exit *)
      assert (Hlabx : exists ms', exec m d 0 ms = FLabel ms').
      { assert (Hd1x : exists d2, d = d1 ++ d2).
        { destruct Sp2 as (d2 & Hd2 & _). exists d2. congruence. }
        destruct Hd1x as [d2 Hdd2].
        rewrite Hdd2 in Hl, Hn. apply nowr_app in Hn as [Hn1 Hn2]. rewrite app_length in Hl.
        destruct (hits_ok K C m A Hmap HE HV Hslot (subject e) _ _ _ Hev eq_refl eval_le9 ltac:(intros _; repeat constructor) Ho d1 ltac:(exact Hd1) ltac:(lia) Hn1 eval_Sok ms Hpre) as [[ms1 E1]|Hvn].
        - exists ms1. rewrite Hdd2, exec_app, E1. reflexivity.
        - destruct (mat_null K C m A Hmap Hslot s v w s' Hm Hvn) as (d2' & Hd2' & Hx2).
          assert (d2' = d2).
          { rewrite Hd2' in Hcd. rewrite Hdd2 in Hcd. rewrite Hd1 in Hcd. apply app_inv_head in Hcd. exact Hcd. } subst d2'.
          destruct (Hs1 Hn1 eval_Sok) as [Hsok Hds1].
          assert (Sp1' := ev_safe K (subject e) _ _ _ Hev eq_refl eval_le9). destruct Sp1' as (d1' & Hd1' & _ & _ & _ & _ & Hsf1 & _).
          cbn [eval_init c_code app] in Hd1'. assert (Hq : d1' = d1) by congruence. clear Hd1'. subst d1'.
          destruct (Hsf1 ltac:(lia)) as [_ Hsf1'].
          destruct (safe_keeps m (c_regs eval_init) _ d1 ms Hsf1' Hds1) as (ms1 & [E1|E1] & Hkp).
          + destruct (Hx2 Hn2 Hsok ms1 (keeps_pre C A _ _ _ eq_refl Hkp Hpre)) as (ms2 & E2 & _).
            exists ms2. rewrite Hdd2, exec_app, E1. exact E2.
          + exists ms1. rewrite Hdd2, exec_app, E1. reflexivity. }
      destruct Hlabx as [ms1 E1]. exists ms1. rewrite Hd. split; [exact E1|].
      split. { rewrite Hlb, (exec_label_uses m d 0 ms ms1 E1). apply orb_true_r. }
      destruct (safe_keeps m (c_regs eval_init) _ d ms Hsf Hdd) as (ms2 & E2 & K6 & KF & KK).
      assert (ms2 = ms1) by (destruct E2 as [E2|E2]; congruence). subst ms2. split; [|exact KK].
      intros x Hx. destruct (Nat.eq_dec x 8) as [->|]; [apply K6; [lia|reflexivity]|]. destruct (Nat.eq_dec x 9) as [->|]; [apply K6; [lia|reflexivity]|].
      replace x with RFP by (unfold RFP; lia). exact KF.
  Qed.

  (** what post_check says about kinds without an offset *)
  Lemma compile_eval_kind e r : compile_eval K e = Some r ->
    (r_type r = RDefault \/ r_type r = RDeref \/ is_sample (r_type r) = true -> r_off r = 0) /\
    (is_sample (r_type r) = true -> exists ni sg t, r_btf r = Some t /\ under t = TInt ni sg).
  Proof.
    intros H. destruct (compile_eval_inv e r H) as (rt & off & size & v & s & w & s' & _ & _ & _ & _ & Hp & <- & _).
    unfold post_check in Hp. destruct (r_type r) eqn:Ht;
      try (split; [intros [?|[?|?]]; discriminate|discriminate]).
    - injection Hp as _ <- _. split; [reflexivity|discriminate].
    - destruct (is_bf _); [discriminate|]. destruct (v_btf w) as [t|]; [|discriminate]. destruct (under t); try discriminate.
      destruct (_ =? 0); [discriminate|]. injection Hp as _ <- _. split; [reflexivity|discriminate].
    - destruct (is_bf _); [discriminate|]. destruct (v_btf w) as [t|]; [|discriminate]. destruct (under t) eqn:Hu; try discriminate.
      injection Hp as <- <- _. split; [reflexivity|]. intros _. do 3 eexists. split; [reflexivity|]. reflexivity.
    - destruct (is_bf _); [discriminate|]. destruct (v_btf w) as [t|]; [|discriminate]. destruct (under t) eqn:Hu; try discriminate.
      injection Hp as <- <- _. split; [reflexivity|]. intros _. do 3 eexists. split; [reflexivity|]. reflexivity.
  Qed.
End Ev.
