(** * CompileFilterExpr on the supported fragment. *)
From Coq Require Import ZArith List Bool Lia String Ascii.
From Verif Require Import M_Ebpf P_Ebpf M_CcNum M_Cc S_CSem S_CSup P_CcMach P_CcWalk P_CcNumr P_CcMat P_CcVal P_CcOps P_CcOps2 P_CcSim P_CcSim2.
Import ListNotations.
Open Scope Z_scope.

Lemma sup_top K C e k : top_op_ok e = true -> sup K C e = Some k ->
  (exists t, k = KNum t) \/ (exists t, k = KVal t false false).
Proof.
  assert (Hl : forall v1 k1 v2 k2 f, sup_logic K C v1 k1 v2 k2 f = Some k ->
    (exists t, k = KNum t) \/ (exists t, k = KVal t false false)).
  { intros v1 k1 v2 k2 f. unfold sup_logic.
    destruct (operandr K C v1 k1 v2 k2) as [[? ?|? ? ?]|]; [| |discriminate];
      (destruct (operandr K C v2 k2 v1 k1) as [[? ?|? ? ?]|]; [| |discriminate]);
      try destruct (f _); intros H; inversion H; eauto. }
  destruct e; try discriminate; intros _; cbn [sup].
  - destruct (csem _ _ e1) as [v1|]; [|discriminate]. destruct (sup K C e1) as [k1|]; [|discriminate].
    destruct (csem _ _ e2) as [v2|]; [|discriminate]. destruct (sup K C e2) as [k2|]; [|discriminate].
    unfold sup_cmp. destruct (operandr K C v1 k1 v2 k2) as [[? ?|? ? ?]|]; [| |discriminate];
      (destruct (operandr K C v2 k2 v1 k1) as [[? ?|? ? ?]|]; [| |discriminate]);
      match goal with |- (if ?b then _ else _) = _ -> _ => destruct b; [|discriminate] end; intros H; inversion H; eauto.
  - destruct (csem _ _ e1) as [v1|]; [|discriminate]. destruct (sup K C e1) as [k1|]; [|discriminate].
    destruct (csem _ _ e2) as [v2|]; [|discriminate]. destruct (sup K C e2) as [k2|]; [|discriminate]. apply Hl.
  - destruct (csem _ _ e1) as [v1|]; [|discriminate]. destruct (sup K C e1) as [k1|]; [|discriminate].
    destruct (csem _ _ e2) as [v2|]; [|discriminate]. destruct (sup K C e2) as [k2|]; [|discriminate]. apply Hl.
  - destruct (csem _ _ e) as [v1|]; [|discriminate]. destruct (sup K C e) as [k1|]; [|discriminate].
    destruct k1; [intros H; inversion H; eauto|..];
      (destruct (ldr K C v1 _) as [[[? ?] ?]|]; [|discriminate]); intros H; inversion H; eauto.
Qed.
Lemma sem_top C tn e c : top_op_ok e = true -> csem C tn e = Some c -> exists b, c = int_bool b.
Proof.
  destruct e; try discriminate; intros _; cbn [csem].
  - destruct (match csem C tn e1 with Some v => rval C v | None => None end) as [x|]; [|discriminate].
    destruct (match csem C tn e2 with Some v => rval C v | None => None end) as [y|]; [|discriminate].
    unfold c_cmp. destruct x, y; try discriminate; intros H; inversion H; eauto.
  - destruct (match csem C tn e1 with Some v => rval C v | None => None end) as [x|]; [|discriminate].
    destruct (truth x) as [[|]|]; [|intros H; inversion H; eauto|discriminate].
    destruct (match csem C tn e2 with Some v => rval C v | None => None end) as [y|]; [|discriminate].
    destruct (truth y); cbn [option_map]; [|discriminate]. intros H; inversion H; eauto.
  - destruct (match csem C tn e1 with Some v => rval C v | None => None end) as [x|]; [|discriminate].
    destruct (truth x) as [[|]|]; [intros H; inversion H; eauto| |discriminate].
    destruct (match csem C tn e2 with Some v => rval C v | None => None end) as [y|]; [|discriminate].
    destruct (truth y); cbn [option_map]; [|discriminate]. intros H; inversion H; eauto.
  - destruct (match csem C tn e with Some v => rval C v | None => None end) as [x|]; [|discriminate].
    destruct (truth x); cbn [option_map]; [|discriminate]. intros H; inversion H; eauto.
Qed.

Section Top.
  Variables (K : cfg) (C : cenv) (m : mach) (A : Z).
  Hypothesis Hmap : forall a, ce_map C a = true -> mapped m a = true.
  Hypothesis HE : ce_bt C = cf_env K.
  Hypothesis HV : ce_vars C = cf_vars K.
  Hypothesis Hslot : forall i, (i < List.length (cf_vars K))%nat ->
    Z.of_nat i * 8 < 2 ^ 15 /\ rd C (A + Z.of_nat i * 8) 8 = Some (ce_slot C i).

  Lemma filter_correct e p c k ms :
    compile_filter K e = inl (Some p) ->
    csem C (cc2btf (cf_env K)) e = Some c -> sup K C e = Some k ->
    Z.of_nat (List.length (code p)) < 2 ^ 15 ->
    (cf_mode K <> MDirect -> Forall (fun i => dest i <> Some 5%nat) (code p)) ->
    rg ms R1 = A -> kagree C (ker ms) ->
    exists b, truth c = Some b /\ forall fuel, (List.length (code p) <= fuel)%nat ->
      exists ms', run fuel m p 0 ms = Done (b2z b) ms'.
  Proof.
    intros Hcp Hc Hk Hlen Hr5 HA Hker. unfold compile_filter in Hcp.
    destruct (top_op_ok e) eqn:Htop; cbn [negb] in Hcp; [|discriminate].
    destruct (evaluate K e filter_init) as [v s| |] eqn:Hev; [|discriminate|discriminate].
    destruct (sem_top _ _ _ _ Htop Hc) as [b ->]. exists b. split; [destruct b; reflexivity|].
    pose proof (sim_eval K C m A Hmap HE HV Hslot e _ _ _ Hev eq_refl) as (d & Hcode & _ & _ & Hx).
    cbn [filter_init c_code] in Hcode.
    assert (Hp : code p = [IMovR R9 R1] ++ d ++ (if Nat.eqb (vreg v) 0 then [] else [IMovR R0 (vreg v)]) ++ [IExit]).
    { destruct v; try discriminate; inversion Hcp; subst p; cbn [code]; rewrite Hcode, <- !app_assoc; reflexivity. }
    assert (Hd : Z.of_nat (List.length d) < 2 ^ 15) by (rewrite Hp, !app_length in Hlen; lia).
    assert (Hn : nowr K d).
    { unfold nowr. destruct (cf_mode K) eqn:Hmd; [right|right|left; reflexivity];
        (assert (Hf : Forall (fun i => dest i <> Some 5%nat) (code p)) by (apply Hr5; discriminate);
         rewrite Hp in Hf; apply Forall_app in Hf as [_ Hf]; apply Forall_app in Hf as [Hf _]; exact Hf). }
    assert (Hs : Sok K filter_init).
    { unfold Sok, filter_init, init_regs. cbn [c_regs]. split; [reflexivity|].
      split; intros; [|]; match goal with H : Nat.eqb _ 9 = true |- _ => apply Nat.eqb_eq in H end; lia. }
    destruct (Hx Hd Hn Hs) as [_ Hsim].
    set (ms1 := setr ms R9 (rg ms R1)).
    assert (Hpre : pre C A ms1). { split; [unfold ms1; rewrite rg_setr_eq; exact HA|exact Hker]. }
    destruct (Hsim ms1 _ _ Hpre Hc Hk) as (ms2 & E2 & F2 & V2).
    assert (Hreg : exists r t mm, v = VMat r t mm /\ rg ms2 r = b2z b).
    { destruct (sup_top _ _ _ _ Htop Hk) as [[t ->]|[t ->]].
      - destruct V2 as (n & w & sg & _ & -> & _). discriminate.
      - destruct V2 as (n & Hn' & _ & r & -> & Hr & _). exists r, t, None. split; [reflexivity|].
        assert (Hnb : n = b2z b) by (destruct b; cbn in Hn'; inversion Hn'; reflexivity). rewrite <- Hnb.
        assert (Hl : 0 <= n < lim K t).
        { pose proof (lim_cases K t) as Hl. rewrite Hnb.
          destruct Hl as [[_ ->]|[[_ ->]|[[_ ->]|(_ & _ & _ & ->)]]]; destruct b; cbn [b2z]; lia. }
        rewrite Hr by (unfold inrep; lia). apply Z.mod_small. exact Hl. }
    destruct Hreg as (r & t & mm & -> & Hrb). cbn [vreg] in Hp.
    assert (Hex : exists ms', exec m (code p) 0 ms = FExit ms' /\ rg ms' R0 = b2z b).
    { rewrite Hp. cbn [app exec step1]. fold ms1. rewrite exec_app, E2.
      destruct (Nat.eqb_spec r 0) as [Hr0|Hr0]; cbn [app exec step1].
      - exists ms2. split; [reflexivity|]. unfold R0. rewrite <- Hr0. exact Hrb.
      - eexists. split; [reflexivity|]. rewrite rg_setr_eq. exact Hrb. }
    destruct Hex as (ms' & Hexe & HR0).
    destruct (run_exec m p [] (code p) 0 ms eq_refl) as (j & Hj & Hrun); [rewrite Hexe; discriminate|].
    intros fuel Hf. exists ms'. specialize (Hrun (fuel - j)%nat). rewrite Hexe in Hrun.
    replace (j + (fuel - j))%nat with fuel in Hrun by lia. cbn [List.length Nat.add Z.of_nat] in Hrun.
    rewrite Hrun, HR0. reflexivity.
  Qed.
End Top.
