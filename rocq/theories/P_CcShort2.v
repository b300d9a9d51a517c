(** * Short-circuiting at the top of a filter. *)
From Coq Require Import ZArith List Bool Lia String.
From Verif Require Import M_Ebpf P_Ebpf M_CcNum M_Cc S_CSem S_CSup S_Null S_Short S_Run P_CcMach P_CcWalk P_CcNumr P_CcMat P_CcVal P_CcOps P_CcOps2 P_CcSim P_CcSim2 P_CcSafe P_CcSafe2 P_CcSafe3 P_CcTop P_CcTop2 P_Null P_Null2 P_CcShort P_Null3 P_NullTop.
Import ListNotations.
Open Scope Z_scope.

Lemma run_exit m p ms ms' : exec m (code p) 0 ms = FExit ms' -> forall fuel, (List.length (code p) <= fuel)%nat -> run fuel m p 0 ms = Done (rg ms' R0) ms'.
Proof.
  intros He fuel Hf. destruct (run_exec m p [] (code p) 0 ms eq_refl) as (j & Hj & Hrun); [rewrite He; discriminate|].
  specialize (Hrun (fuel - j)%nat). rewrite He in Hrun. replace (j + (fuel - j))%nat with fuel in Hrun by lia. exact Hrun.
Qed.

Section Top.
  Variables (K : cfg) (C : cenv) (m : mach) (A : Z).
  Hypothesis Hmap : forall a, ce_map C a = true -> mapped m a = true.
  Hypothesis HE : ce_bt C = cf_env K.
  Hypothesis HV : ce_vars C = cf_vars K.
  Hypothesis Hslot : forall i, (i < List.length (cf_vars K))%nat ->
    Z.of_nat i * 8 < 2 ^ 15 /\ rd C (A + Z.of_nat i * 8) 8 = Some (ce_slot C i).
  Notation sem := (csem C (cc2btf (cf_env K))).

(** The code of a `||` of two run-time values ends by setting the result to 1. *)
Lemma oror_last a b s v s' : evaluate K (EOrOr a b) s = ROk v s' -> runtime_expr K a = true -> runtime_expr K b = true ->
  exists r t body, v = VMat r t None /\ c_code s' = body ++ [IMovI r 1].
Proof.
  cbn [evaluate]. intros H Ha Hb.
  destruct (evaluate K a s) as [l s1| |] eqn:Ea; cbn [bind] in H; [|discriminate|discriminate].
  destruct (evaluate K b s1) as [r s2| |] eqn:Eb; cbn [bind] in H; [|discriminate|discriminate].
  pose proof (rt_expr K C m A Hmap Hslot a _ _ _ Ea Ha) as Rl. pose proof (rt_expr K C m A Hmap Hslot b _ _ _ Eb Hb) as Rr.
  unfold oror_values in H. destruct (resolve_enums l r) as [[l2 r2]|] eqn:Hres; [|discriminate].
  destruct (resolve_cases _ _ _ _ Hres) as [Hl Hr].
  assert (l2 = l) as -> by (destruct l; [exact Hl..|discriminate]). assert (r2 = r) as -> by (destruct r; [exact Hr..|discriminate]).
  assert (H' : bin_runtime K s2 l r (fun a b => [IJmpI JNE a 0 3; IJmpI JNE b 0 2; IAluR AXor a a; IJa 1; IMovI a 1]) = ROk v s').
  { destruct l; try discriminate Rl; destruct r; try discriminate Rr; destruct (negb (operands_ok _ _)); try discriminate H; exact H. }
  clear H. unfold bin_runtime in H'.
  destruct (materialize K s2 l) as [y s3| |]; cbn [bind] in H'; try discriminate.
  destruct (materialize K s3 r) as [z s4| |]; cbn [bind] in H'; try discriminate. injection H' as <- <-.
  exists (vreg y), (v_btf y), (c_code s4 ++ [IJmpI JNE (vreg y) 0 3; IJmpI JNE (vreg z) 0 2; IAluR AXor (vreg y) (vreg y); IJa 1]).
  split; [reflexivity|]. cbn [cfree emit c_code]. rewrite <- app_assoc. reflexivity.
Qed.

  Lemma top_setup e p ms : compile_filter K e = inl (Some p) -> Z.of_nat (List.length (code p)) < 2 ^ 15 ->
    (cf_mode K <> MDirect -> Forall (fun i => dest i <> Some 5%nat) (code p)) -> rg ms R1 = A -> kagree C (ker ms) ->
    exists r t d s', evaluate K e filter_init = ROk (VMat r t None) s' /\ code p = IMovR R9 R1 :: d ++ tailc r /\
      c_code s' = c_code filter_init ++ d /\ label p = (if uses_label d then Some (List.length d) else None) /\
      Z.of_nat (List.length d) < 2 ^ 15 /\ nowr K d /\ Sok K filter_init /\ NC K filter_init /\ pre C A (setr ms R9 (rg ms R1)).
  Proof.
    intros H Hlen Hr5 HA Hker.
    destruct (compile_shape K e p H) as (r & t & d & s' & Hev & Ht & Hc & HrF & Hcs & Hlab & _).
    exists r, t, d, s'. split; [exact Hev|]. split; [exact Hc|]. split; [exact Hcs|]. split; [exact Hlab|].
    split; [rewrite Hc in Hlen; cbn [List.length] in Hlen; rewrite app_length in Hlen; lia|].
    split. { unfold nowr. destruct (cf_mode K) eqn:Hmd; [right|right|left; reflexivity];
        (assert (Hf : Forall (fun i => dest i <> Some 5%nat) (code p)) by (apply Hr5; discriminate);
         rewrite Hc in Hf; inversion Hf as [|? ? _ Hf']; subst; apply Forall_app in Hf' as [Hf' _]; exact Hf'). }
    split. { unfold Sok, filter_init, init_regs. cbn [c_regs]. split; [reflexivity|].
      split; intros; [|]; match goal with H : Nat.eqb _ 9 = true |- _ => apply Nat.eqb_eq in H end; lia. }
    split; [intros _; repeat constructor|]. split; [rewrite rg_setr_eq; exact HA|exact Hker].
  Qed.

  Lemma refuted_filter a b p ms :
    compile_filter K (EAndAnd a b) = inl (Some p) -> refuted K C a || refuted K C b = true ->
    Z.of_nat (List.length (code p)) < 2 ^ 15 ->
    (cf_mode K <> MDirect -> Forall (fun i => dest i <> Some 5%nat) (code p)) ->
    rg ms R1 = A -> kagree C (ker ms) ->
    exists ms', forall fuel, (List.length (code p) + 3 <= fuel)%nat -> run fuel m p 0 ms = Done 0 ms'.
  Proof.
    intros H Hr Hlen Hr5 HA Hker.
    destruct (top_setup _ _ _ H Hlen Hr5 HA Hker) as (r & t & d & s' & Hev & Hc & Hcs & Hlab & Hd & Hn & Hs & Hnc & Hp).
    assert (Href : refuted K C (EAndAnd a b) = true) by (cbn [refuted]; rewrite Hr; apply orb_true_r).
    destruct (refuted_D K C m A Hmap HE HV Hslot _ _ _ _ Href Hev eq_refl init_le9) as (d' & Hcs' & Hx).
    assert (d' = d) as -> by (apply (app_inv_head (c_code filter_init)); congruence).
    destruct (Hx Hd Hn Hs Hnc _ Hp) as [[ms2 E2]|(ms2 & E2 & F2 & n & Hm & Hz)].
    - destruct (filter_run K _ _ H Hlen m ms) as (r0 & ms' & _ & Hrun & _ & Hor). exists ms'. intros fuel Hf. rewrite (Hrun fuel Hf).
      f_equal. destruct Hor as [Hno|[H0|[Ho _]]]; [|exact H0|discriminate].
      exfalso. specialize (Hno (S (List.length (code p)))).
      pose proof (null_exit_label m p (code p) [] 0 ms ms2 (S (List.length (code p))) eq_refl) as Hy.
      change (Z.of_nat (List.length (@nil insn) + 0)) with 0 in Hy. rewrite Hy in Hno; [discriminate| |lia].
      rewrite Hc. cbn [exec step1]. rewrite exec_app, E2. reflexivity.
    - destruct (exec_tail m r ms2) as (ms3 & E3 & R3 & _). cbn [P_CcMat.mval] in Hm.
      exists ms3. intros fuel Hf. rewrite (run_exit m p ms ms3); [|rewrite Hc; cbn [exec step1]; rewrite exec_app, E2; exact E3|lia].
      f_equal. rewrite R3, Hm. destruct (Z.eqb_spec n 0); [assumption|discriminate].
  Qed.

  (** A NULL exit of a `||` of two run-time values returns 1. *)
  Lemma oror_label a b p ms d r ms2 :
    runtime_expr K a = true -> runtime_expr K b = true ->
    (exists t s', evaluate K (EOrOr a b) filter_init = ROk (VMat r t None) s' /\ c_code s' = c_code filter_init ++ d) ->
    code p = IMovR R9 R1 :: d ++ tailc r -> label p = (if uses_label d then Some (List.length d) else None) ->
    exec m d 0 (setr ms R9 (rg ms R1)) = FLabel ms2 ->
    exists ms', forall fuel, (List.length (code p) + 3 <= fuel)%nat -> run fuel m p 0 ms = Done 1 ms'.
  Proof.
    intros Ha Hb (t & s' & Hev & Hcs) Hc Hlab E2.
    destruct (oror_last a b _ _ _ Hev Ha Hb) as (q & tq & body & Hq & Hb'). injection Hq as <- _.
    rewrite (exec_label_uses _ _ _ _ _ E2) in Hlab.
    assert (Hd : exists d', d = d' ++ [IMovI r 1]).
    { rewrite Hcs in Hb'. destruct body as [|i body]; [discriminate|]. cbn in Hb'. injection Hb' as _ Hb'. exists body. exact Hb'. }
    destruct Hd as [d' Hd].
    assert (Hcode : code p = (IMovR R9 R1 :: d') ++ ([IMovI r 1] ++ tailc r)) by (rewrite Hc, Hd, <- app_assoc; reflexivity).
    destruct (exec_tail m r (setr ms2 r 1)) as (ms3 & E3 & R3 & _). rewrite rg_setr_eq in R3.
    destruct (run_exec m p (IMovR R9 R1 :: d') ([IMovI r 1] ++ tailc r) 0 ms2 Hcode) as (j2 & Hj2 & Hrun2);
      rewrite exec_app in *; cbn [exec step1] in *; change (immv 1) with 1 in *; rewrite E3 in *; [discriminate|].
    assert (He : exec m (code p) 0 ms = FLabel ms2) by (rewrite Hc; cbn [exec step1]; rewrite exec_app, E2; reflexivity).
    destruct (run_exec m p [] (code p) 0 ms eq_refl) as (j & Hj & Hrun); [rewrite He; discriminate|].
    rewrite He, Hlab in Hrun. exists ms3. intros fuel Hf.
    assert (Hj3 : (j2 <= 3)%nat). { eapply Nat.le_trans; [exact Hj2|]. unfold tailc. destruct (Nat.eqb r 0); cbn; lia. }
    specialize (Hrun (fuel - j)%nat). replace (j + (fuel - j))%nat with fuel in Hrun by lia.
    change (Z.of_nat (@List.length insn [] + 0)) with 0 in Hrun. rewrite Hrun.
    specialize (Hrun2 (fuel - j - j2)%nat). replace (j2 + (fuel - j - j2))%nat with (fuel - j)%nat in Hrun2 by lia.
    rewrite R3 in Hrun2. rewrite <- Hrun2. f_equal. rewrite Hd, app_length. cbn [List.length]. lia.
  Qed.

  Lemma asserted_filter a b p ms :
    compile_filter K (EOrOr a b) = inl (Some p) -> asserted K C a || asserted K C b = true ->
    runtime_expr K a = true -> runtime_expr K b = true ->
    Z.of_nat (List.length (code p)) < 2 ^ 15 ->
    (cf_mode K <> MDirect -> Forall (fun i => dest i <> Some 5%nat) (code p)) ->
    rg ms R1 = A -> kagree C (ker ms) ->
    exists ms', forall fuel, (List.length (code p) + 3 <= fuel)%nat -> run fuel m p 0 ms = Done 1 ms'.
  Proof.
    intros H Hr Ha Hb Hlen Hr5 HA Hker.
    destruct (top_setup _ _ _ H Hlen Hr5 HA Hker) as (r & t & d & s' & Hev & Hc & Hcs & Hlab & Hd & Hn & Hs & Hnc & Hp).
    assert (Hlabel : forall ms2, exec m d 0 (setr ms R9 (rg ms R1)) = FLabel ms2 ->
      exists ms', forall fuel, (List.length (code p) + 3 <= fuel)%nat -> run fuel m p 0 ms = Done 1 ms').
    { intros ms2 E2. eapply (oror_label a b p ms d r ms2); eauto. }
    destruct (asserted_top K C m A Hmap HE HV Hslot _ _ _ _ _ Hr Hev eq_refl init_le9) as (d' & Hcs' & Hx).
    assert (d' = d) as -> by (apply (app_inv_head (c_code filter_init)); congruence).
    destruct (Hx Hd Hn Hs Hnc _ Hp) as [[ms2 E2]|(ms2 & E2 & F2 & _ & Hm)]; [eauto|].
    destruct (exec_tail m r ms2) as (ms3 & E3 & R3 & _).
    assert (Hex : exec m (code p) 0 ms = FExit ms3) by (rewrite Hc; cbn [exec step1]; rewrite exec_app, E2; exact E3).
    exists ms3. intros fuel Hf. rewrite (run_exit m p ms ms3 Hex) by lia. f_equal. rewrite R3. exact (Hm _ _ _ eq_refl).
  Qed.
  Lemma known_sem dv e c : known K C dv e = true -> sem e = Some c -> exists x, rval C c = Some x /\ truth x = Some dv.
  Proof.
    unfold known. intros H Hc. rewrite Hc in H. destruct (sup K C e) as [k0|]; [|discriminate]. apply andb_true_iff in H as [_ H].
    destruct (rval C c) as [x|]; [|discriminate]. exists x. split; [reflexivity|]. destruct (truth x) as [t|]; [|discriminate].
    apply Bool.eqb_prop in H. congruence.
  Qed.
  Lemma rval_int_bool b : rval C (int_bool b) = Some (int_bool b). Proof. destruct b; reflexivity. Qed.
  Lemma truth_int_bool b : truth (int_bool b) = Some b. Proof. destruct b; reflexivity. Qed.
  Lemma refuted_sem e : forall c, refuted K C e = true -> sem e = Some c -> exists x, rval C c = Some x /\ truth x = Some false.
  Proof.
    induction e; intros c0 Hr Hc; cbn [refuted] in Hr; apply orb_true_iff in Hr as [Hr|Hr]; try (eapply known_sem; eassumption); try discriminate Hr.
    - cbn [csem] in Hc. eauto.
    - cbn [csem] in Hc. destruct (sem e1) as [v1|] eqn:E1; [|discriminate]. destruct (rval C v1) as [x1|] eqn:R1; [|discriminate].
      destruct (truth x1) as [[|]|] eqn:T1; [| |discriminate].
      2:{ injection Hc as <-. exists (int_bool false). auto. }
      destruct (sem e2) as [v2|] eqn:E2; [|discriminate]. destruct (rval C v2) as [x2|] eqn:R2; [|discriminate].
      destruct (truth x2) as [t2|] eqn:T2; [|discriminate]. cbn [option_map] in Hc. injection Hc as <-.
      exists (int_bool t2). split; [apply rval_int_bool|]. rewrite truth_int_bool.
      apply orb_true_iff in Hr as [Hr|Hr].
      + destruct (IHe1 _ Hr eq_refl) as (y & Hy & Ty). congruence.
      + destruct (IHe2 _ Hr eq_refl) as (y & Hy & Ty). congruence.
  Qed.
  Lemma asserted_sem e : forall c, asserted K C e = true -> sem e = Some c -> exists x, rval C c = Some x /\ truth x = Some true.
  Proof.
    induction e; intros c0 Hr Hc; cbn [asserted] in Hr; apply orb_true_iff in Hr as [Hr|Hr]; try (eapply known_sem; eassumption); try discriminate Hr.
    - cbn [csem] in Hc. eauto.
    - cbn [csem] in Hc. destruct (sem e1) as [v1|] eqn:E1; [|discriminate]. destruct (rval C v1) as [x1|] eqn:R1; [|discriminate].
      destruct (truth x1) as [[|]|] eqn:T1; [| |discriminate].
      1:{ injection Hc as <-. exists (int_bool true). auto. }
      destruct (sem e2) as [v2|] eqn:E2; [|discriminate]. destruct (rval C v2) as [x2|] eqn:R2; [|discriminate].
      destruct (truth x2) as [t2|] eqn:T2; [|discriminate]. cbn [option_map] in Hc. injection Hc as <-.
      exists (int_bool t2). split; [apply rval_int_bool|]. rewrite truth_int_bool.
      apply orb_true_iff in Hr as [Hr|Hr].
      + destruct (IHe1 _ Hr eq_refl) as (y & Hy & Ty). congruence.
      + destruct (IHe2 _ Hr eq_refl) as (y & Hy & Ty). congruence.
  Qed.

  Lemma decided_correct e p v ms :
    compile_filter K e = inl (Some p) -> csem C (cc2btf (cf_env K)) e = Some v -> decided K C e = true ->
    Z.of_nat (List.length (code p)) < 2 ^ 15 ->
    (cf_mode K <> MDirect -> Forall (fun i => dest i <> Some 5%nat) (code p)) ->
    rg ms R1 = A -> kagree C (ker ms) ->
    exists b, truth v = Some b /\ forall fuel, (List.length (code p) + 3 <= fuel)%nat ->
      exists ms', run fuel m p 0 ms = Done (if b then 1 else 0) ms'.
  Proof.
    intros H Hv Hd Hlen Hr5 HA Hker. unfold decided in Hd. apply orb_true_iff in Hd as [Hd|Hd].
    - destruct (sup K C e) as [k|] eqn:Hs; [|discriminate].
      destruct (filter_correct K C m A Hmap HE HV Hslot e p v k ms H Hv Hs Hlen Hr5 HA Hker) as (b & Hb & Hr).
      exists b. split; [exact Hb|]. intros fuel Hf. apply Hr. lia.
    - assert (Htop : top_op_ok e = true) by (destruct (compile_shape K e p H) as (? & ? & ? & ? & _ & Ht & _); exact Ht).
      destruct (sem_top _ _ _ _ Htop Hv) as [b ->]. exists b. split; [apply truth_int_bool|].
      destruct e; try discriminate Hd.
      + assert (Hb : b = false).
        { assert (Hrf : refuted K C (EAndAnd e1 e2) = true) by (cbn [refuted]; rewrite Hd; apply orb_true_r).
          destruct (refuted_sem _ _ Hrf Hv) as (x & Hx & Tx). rewrite rval_int_bool in Hx. injection Hx as <-. rewrite truth_int_bool in Tx. congruence. }
        subst b. destruct (refuted_filter e1 e2 p ms H Hd Hlen Hr5 HA Hker) as [ms' Hr]. intros fuel Hf. exists ms'. apply Hr. exact Hf.
      + apply andb_true_iff in Hd as [Hd Hrb]. apply andb_true_iff in Hd as [Hd Hra].
        assert (Hb : b = true).
        { assert (Hrf : asserted K C (EOrOr e1 e2) = true) by (cbn [asserted]; rewrite Hd; apply orb_true_r).
          destruct (asserted_sem _ _ Hrf Hv) as (x & Hx & Tx). rewrite rval_int_bool in Hx. injection Hx as <-. rewrite truth_int_bool in Tx. congruence. }
        subst b. destruct (asserted_filter e1 e2 p ms H Hd Hra Hrb Hlen Hr5 HA Hker) as [ms' Hr]. intros fuel Hf. exists ms'. apply Hr. exact Hf.
  Qed.

  (** A `||` that follows a NULL pointer matches. *)
  Lemma null_oror a b p ms :
    compile_filter K (EOrOr a b) = inl (Some p) -> hits_null K C (EOrOr a b) = true ->
    runtime_expr K a = true -> runtime_expr K b = true ->
    Z.of_nat (List.length (code p)) < 2 ^ 15 ->
    (cf_mode K <> MDirect -> Forall (fun i => dest i <> Some 5%nat) (code p)) ->
    rg ms R1 = A -> kagree C (ker ms) ->
    exists ms', forall fuel, (List.length (code p) + 3 <= fuel)%nat -> run fuel m p 0 ms = Done 1 ms'.
  Proof.
    intros H Hh Ha Hb Hlen Hr5 HA Hker.
    destruct (top_setup _ _ _ H Hlen Hr5 HA Hker) as (r & t & d & s' & Hev & Hc & Hcs & Hlab & Hd & Hn & Hs & Hnc & Hp).
    destruct (hits_ok K C m A Hmap HE HV Hslot _ _ _ _ Hev eq_refl init_le9 Hnc Hh d Hcs Hd Hn Hs _ Hp) as [[ms2 E2]|Hv].
    2:{ destruct Hv as (? & ? & ? & ? & Hv & _). discriminate. }
    eapply (oror_label a b p ms d r ms2); eauto.
  Qed.
End Top.
