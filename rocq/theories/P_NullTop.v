(** * A filter that follows a NULL pointer returns 0. *)
From Coq Require Import ZArith List Bool Lia String.
From Verif Require Import M_Ebpf P_Ebpf M_CcNum M_Cc S_CSem S_CSup S_Null S_Run P_CcMach P_CcWalk P_CcMat P_CcVal P_CcOps P_CcSim2 P_CcSafe P_CcSafe2 P_CcSafe3 P_CcTop P_CcTop2 P_Null P_Null2 P_CcShort P_Null3.
Import ListNotations.
Open Scope Z_scope.

Section Top.
  Variables (K : cfg) (C : cenv) (m : mach) (A : Z).
  Hypothesis Hmap : forall a, ce_map C a = true -> mapped m a = true.
  Hypothesis HE : ce_bt C = cf_env K.
  Hypothesis HV : ce_vars C = cf_vars K.
  Hypothesis Hslot : forall i, (i < List.length (cf_vars K))%nat ->
    Z.of_nat i * 8 < 2 ^ 15 /\ rd C (A + Z.of_nat i * 8) 8 = Some (ce_slot C i).

  Lemma null_exit_label p l : forall pre k s s' fuel, code p = pre ++ l -> exec m l k s = FLabel s' -> (List.length l < fuel)%nat ->
    null_exit fuel m p (Z.of_nat (List.length pre + k)) s = true.
  Proof.
    induction l as [|i l IH]; intros pre k s s' fuel Hc H Hf; cbn [exec] in H; [discriminate|].
    assert (Hpre : code p = (pre ++ [i]) ++ l) by (rewrite <- app_assoc; exact Hc).
    assert (Hlen : List.length (pre ++ [i]) = (List.length pre + 1)%nat) by (rewrite app_length; reflexivity).
    cbn [List.length] in Hf. destruct k as [|k].
    - destruct fuel as [|fuel]; [lia|]. cbn [null_exit].
      destruct (Z.ltb_spec (Z.of_nat (List.length pre + 0)) 0); [lia|].
      rewrite Nat2Z.id, Hc, nth_error_pre. cbn [nth_error].
      destruct (step1 m i s) as [s1 [|off| |]].
      + replace (Z.of_nat (List.length pre + 0) + 1) with (Z.of_nat (List.length (pre ++ [i]) + 0)) by lia.
        eapply IH; eauto. lia.
      + destruct (Z.ltb_spec off 0); [discriminate|].
        replace (Z.of_nat (List.length pre + 0) + 1 + off) with (Z.of_nat (List.length (pre ++ [i]) + Z.to_nat off)) by lia.
        eapply IH; eauto. lia.
      + reflexivity.
      + discriminate.
    - replace (List.length pre + S k)%nat with (List.length (pre ++ [i]) + k)%nat by lia. eapply IH; eauto. lia.
  Qed.

  Lemma null_filter e p ms :
    compile_filter K e = inl (Some p) -> hits_null K C e = true ->
    Z.of_nat (List.length (code p)) < 2 ^ 15 ->
    (cf_mode K <> MDirect -> Forall (fun i => dest i <> Some 5%nat) (code p)) ->
    rg ms R1 = A -> kagree C (ker ms) -> exists fuel, null_exit fuel m p 0 ms = true.
  Proof.
    intros H Hh Hlen Hr5 HA Hker.
    destruct (compile_shape K e p H) as (r & t & d & s' & Hev & Ht & Hc & HrF & Hcs & _).
    assert (Hn : nowr K d).
    { unfold nowr. destruct (cf_mode K) eqn:Hmd; [right|right|left; reflexivity];
        (assert (Hf : Forall (fun i => dest i <> Some 5%nat) (code p)) by (apply Hr5; discriminate);
         rewrite Hc in Hf; inversion Hf as [|? ? _ Hf']; subst; apply Forall_app in Hf' as [Hf' _]; exact Hf'). }
    assert (Hd : Z.of_nat (List.length d) < 2 ^ 15) by (rewrite Hc in Hlen; cbn [List.length] in Hlen; rewrite app_length in Hlen; lia).
    assert (Hs : Sok K filter_init).
    { unfold Sok, filter_init, init_regs. cbn [c_regs]. split; [reflexivity|].
      split; intros; [|]; match goal with H : Nat.eqb _ 9 = true |- _ => apply Nat.eqb_eq in H end; lia. }
    assert (Hnc : NC K filter_init) by (intros _; repeat constructor).
    set (ms1 := setr ms R9 (rg ms R1)).
    assert (Hpre : pre C A ms1). { split; [unfold ms1; rewrite rg_setr_eq; exact HA|exact Hker]. }
    destruct (hits_ok K C m A Hmap HE HV Hslot e _ _ _ Hev eq_refl init_le9 Hnc Hh d Hcs Hd Hn Hs ms1 Hpre) as [[ms2 E2]|Hv].
    2:{ destruct Hv as (? & ? & ? & ? & Hv & _). discriminate. }
    exists (S (List.length (code p))). apply (null_exit_label p (code p) [] 0 ms ms2); [reflexivity| |lia].
    rewrite Hc. cbn [exec step1]. rewrite exec_app. fold ms1. rewrite E2. reflexivity.
  Qed.
End Top.
