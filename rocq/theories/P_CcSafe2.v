(** * Safety of the emitted code: operators and the induction over expressions. *)
From Coq Require Import ZArith List Bool Lia String.
From Verif Require Import M_Ebpf P_Ebpf M_CcNum M_Cc S_CSem S_CSup P_CcMach P_CcWalk P_CcNumr P_CcMat P_CcVal P_CcOps P_CcOps2 P_CcSim P_CcSim2 P_CcSafe.
Import ListNotations.
Open Scope Z_scope.

Definition dst (U : reg -> bool) (d : list insn) : Prop := Forall (fun i => forall x, dest i = Some x -> U x = false) d.
Definition le9 (s : cst) : Prop := forall r, c_regs s r = true -> (r <= 9)%nat.
Lemma dst_app U a b : dst U (a ++ b) <-> dst U a /\ dst U b.
Proof. apply Forall_app. Qed.
Lemma dst_mono (U V : reg -> bool) d : (forall r, U r = true -> V r = true) -> dst V d -> dst U d.
Proof.
  intros H. apply Forall_impl. intros i Hi x Hx. specialize (Hi x Hx). destruct (U x) eqn:Hu; [|reflexivity].
  apply H in Hu. congruence.
Qed.
Lemma le9_upd s s' r : le9 s -> (r <= 9)%nat -> c_regs s' = upd (c_regs s) r true -> le9 s'.
Proof. intros H Hr Hu x. rewrite Hu. destruct (Nat.eq_dec x r) as [->|]; [auto|]. rewrite upd_neq by assumption. apply H. Qed.
Lemma le9_free s r : le9 s -> le9 (cfree s r).
Proof.
  intros H x. unfold cfree, free. cbn [c_regs]. destruct (Nat.leb r 9); [|apply H].
  destruct (Nat.eq_dec x r) as [->|]; [rewrite upd_eq; discriminate|]. rewrite upd_neq by assumption. apply H.
Qed.
Lemma tail_lin K t mm r : r <> RFP -> lin (cf_resv K) (tail_code K t mm r) /\ uses_label (tail_code K t mm r) = false /\
  Forall (fun i => forall x, dest i = Some x -> x = r) (tail_code K t mm r).
Proof.
  intros Hr.
  assert (Ha : lin (cf_resv K) (adjust_size (cf_env K) t r) /\ uses_label (adjust_size (cf_env K) t r) = false /\
     Forall (fun i => forall x, dest i = Some x -> x = r) (adjust_size (cf_env K) t r)).
  { unfold adjust_size. destruct (_ =? 1); [|destruct (_ =? 2); [|destruct (_ =? 4)]];
      (split; [repeat constructor; assumption|]); (split; [reflexivity|]);
      repeat (apply Forall_cons; [cbn [dest]; congruence|]); apply Forall_nil. }
  unfold tail_code. destruct mm as [x|]; [|exact Ha]. destruct (is_bf (Some x)); [|exact Ha].
  unfold bf_extract. destruct (_ =? 0);
      (split; [repeat constructor; assumption|]); (split; [reflexivity|]);
      repeat (apply Forall_cons; [cbn [dest]; congruence|]); apply Forall_nil.
Qed.
Lemma base_lin z b r : r <> RFP -> lin z (base_code b r) /\ uses_label (base_code b r) = false /\
  Forall (fun i => forall x, dest i = Some x -> x = r) (base_code b r).
Proof.
  intros Hr. destruct b as [i|n|q]; cbn [base_code]; unfold load_arg;
    try destruct (n =? 0); (split; [repeat constructor; assumption|]); (split; [reflexivity|]);
      repeat (apply Forall_cons; [cbn [dest]; congruence|]); apply Forall_nil.
Qed.

Section Safe2.
  Variable K : cfg.
  Notation safe := (safe (cf_resv K)).
  Notation lin := (lin (cf_resv K)).
  Notation nowr := (nowr K).
  Notation Sok := (Sok K).

  Lemma dlow_dst r (U : reg -> bool) d : dlow r d -> (cf_mode K = MDirect -> Forall (fun i => forall x, dest i = Some x -> x = r) d) ->
    U r = false -> (cf_mode K <> MDirect -> forall x, U x = true -> (6 <= x)%nat) -> dst U d.
  Proof.
    intros H1 H2 Hr Hlo. unfold dst, dlow in *. rewrite Forall_forall in *. intros i Hi x Hx.
    assert (Hmd : cf_mode K = MDirect \/ cf_mode K <> MDirect) by (destruct (cf_mode K); [right|right|left]; congruence).
    destruct Hmd as [HM|HM].
    - rewrite (H2 HM i Hi x Hx). exact Hr.
    - destruct (H1 i Hi x Hx) as [->|Hl]; [exact Hr|]. destruct (U x) eqn:Hu; [|reflexivity].
      specialize (Hlo HM x Hu). lia.
  Qed.

  Lemma eqr_dst r (U : reg -> bool) d : Forall (fun i => forall x, dest i = Some x -> x = r) d -> U r = false -> dst U d.
  Proof. intros H Hr. eapply Forall_impl; [|exact H]. intros i Hi x Hx. rewrite (Hi x Hx). exact Hr. Qed.

  Lemma mat_safe U s v v' s' : materialize K s v = ROk v' s' -> keep U s -> keepv U s v -> le9 s -> U 9%nat = true ->
    exists r d, v' = VMat r (v_btf v) (v_mem v) /\ c_code s' = c_code s ++ d /\ c_lab s' = c_lab s || uses_label d /\
      keep U s' /\ (forall x, c_regs s x = true -> c_regs s' x = true) /\ le9 s' /\
      c_regs s' r = true /\ U r = false /\ (In r (vregs v) \/ c_regs s r = false) /\ r <> RFP /\ lin d /\
      (nowr d -> Sok s -> Sok s' /\ dst (c_regs s) d).
  Proof.
    intros H Hk Hkv Hle H9.
    assert (Hfresh : forall r s1 d, c_regs s r = false -> (r <= 8)%nat -> c_regs s1 = upd (c_regs s) r true -> 
      (forall x, (r < x <= 8)%nat -> c_regs s x = true) -> 
      (exists i, In i d /\ dest i = Some r) ->
      keep U s1 /\ (forall x, c_regs s x = true -> c_regs s1 x = true) /\ le9 s1 /\ c_regs s1 r = true /\ U r = false /\ r <> RFP /\
      (nowr d -> Sok s -> Sok s1 /\ (cf_mode K <> MDirect -> (6 <= r)%nat))).
    { intros r s1 d Hfr Hr8 Hu Hhi Hd.
      assert (Hm : forall x, c_regs s x = true -> c_regs s1 x = true).
      { intros x Hx. rewrite Hu. destruct (Nat.eq_dec x r) as [->|]; [apply upd_eq|]. rewrite upd_neq; assumption. }
      split; [intros x Hx; apply Hm, Hk, Hx|]. split; [exact Hm|]. split; [apply (le9_upd s s1 r); [exact Hle|lia|exact Hu]|].
      split; [rewrite Hu; apply upd_eq|]. split; [destruct (U r) eqn:Hq; [apply Hk in Hq; congruence|reflexivity]|].
      split; [unfold RFP; lia|]. intros Hn Hs.
      assert (Hr6 : cf_mode K <> MDirect -> (6 <= r)%nat).
      { intros Hmd. apply (alloc_high K s r Hs Hhi Hmd). eapply nowr_dest; eauto. }
      split; [eapply Sok_upd; eauto|exact Hr6]. }
    destruct v as [c t|b offs t mm|r t mm|x t]; cbn [materialize] in H.
    - destruct (calloc s) as [r s1| |] eqn:Hal; cbn [bind] in H; try discriminate. injection H as <- <-.
      apply calloc_spec in Hal as Hal'. destruct Hal' as (Hfr & Hr8 & Hhi & Hrg1 & Hc1).
      assert (Hlab : c_lab s1 = c_lab s).
      { revert Hal. unfold calloc. destruct (alloc (c_regs s)) as [[? ?]|]; [|discriminate]. intros Hq; injection Hq as <- <-. reflexivity. }
      destruct (Hfresh r (emit s1 [IMovI r c]) [IMovI r c] Hfr Hr8 Hrg1 Hhi) as (F1 & F2 & F3 & F4 & F5 & F6 & F7).
      { eexists; split; [left; reflexivity|reflexivity]. }
      exists r, [IMovI r c]. split; [reflexivity|]. split; [cbn [emit c_code]; rewrite Hc1; reflexivity|].
      split; [cbn [emit c_lab uses_label existsb]; rewrite orb_false_r; exact Hlab|].
      do 5 (split; [assumption|]). split; [right; assumption|]. split; [assumption|].
      split; [repeat constructor; assumption|]. intros Hn Hs. destruct (F7 Hn Hs) as [G1 G2]. split; [exact G1|].
      apply Forall_cons; [|constructor]. cbn [dest]. intros x Hx. injection Hx as <-. exact Hfr.
    - unfold mat_pending in H. destruct (calloc s) as [r s1| |] eqn:Hal; cbn [bind] in H; try discriminate.
      apply calloc_spec in Hal as Hal'. destruct Hal' as (Hfr & Hr8 & Hhi & Hrg1 & Hc1).
      assert (Hlab : c_lab s1 = c_lab s).
      { revert Hal. unfold calloc. destruct (alloc (c_regs s)) as [[? ?]|]; [|discriminate]. intros Hq; injection Hq as <- <-. reflexivity. }
      assert (HrF : r <> RFP) by (unfold RFP; lia).
      destruct (base_lin (cf_resv K) b r HrF) as (B1 & B2 & B3).
      destruct (tail_lin K t mm r HrF) as (T1 & T2 & T3).
      assert (Hx : exists s3 d1, v' = VMat r t mm /\ s' = emit s3 (tail_code K t mm r) /\
          c_code s3 = c_code s ++ base_code b r ++ d1 /\ c_regs s3 = upd (c_regs s) r true /\ c_lab s3 = c_lab s || uses_label d1 /\
          lin d1 /\ dlow r d1 /\ (cf_mode K = MDirect -> Forall (fun i => forall x, dest i = Some x -> x = r) d1)).
      { destruct offs as [|o offs'].
        - cbn [bind] in H. injection H as <- <-. exists (emit s1 (base_code b r)), [].
          split; [reflexivity|]. split; [destruct mm; reflexivity|].
          split; [cbn [emit c_code]; rewrite Hc1, app_nil_r; reflexivity|]. split; [exact Hrg1|].
          split; [cbn [emit c_lab uses_label existsb]; rewrite orb_false_r; exact Hlab|].
          split; [constructor|]. split; [constructor|intros _; constructor].
        - destruct (emit_chain K (emit s1 (base_code b r)) (o :: offs') r) as [[] s3| |] eqn:Hch; cbn [bind] in H; try discriminate.
          injection H as <- <-. destruct (chain_lin _ _ _ _ _ Hch HrF) as (d & D1 & D2 & D3 & D4 & D5 & D6).
          cbn [emit c_code c_regs c_lab] in D1, D2, D3. rewrite Hc1 in D1. rewrite Hrg1 in D2. rewrite Hlab in D3.
          exists s3, d. split; [reflexivity|]. split; [destruct mm; reflexivity|].
          split; [rewrite D1, <- app_assoc; reflexivity|]. auto. }
      clear H. destruct Hx as (s3 & d1 & -> & -> & Hcode & Hregs & Hlab3 & L1 & L2 & L3).
      set (d := base_code b r ++ d1 ++ tail_code K t mm r).
      destruct (Hfresh r (emit s3 (tail_code K t mm r)) d Hfr Hr8 Hregs Hhi) as (F1 & F2 & F3 & F4 & F5 & F6 & F7).
      { destruct (base_dest b r) as (i & Hi & Hdi). exists i. unfold d. rewrite Hi. split; [left; reflexivity|assumption]. }
      exists r, d. split; [reflexivity|]. split; [unfold d; cbn [emit c_code]; rewrite Hcode, <- !app_assoc; reflexivity|].
      split; [unfold d; cbn [emit c_lab]; rewrite !uses_app, B2, T2, orb_false_r; exact Hlab3|].
      do 5 (split; [assumption|]). split; [right; assumption|]. split; [assumption|].
      split; [unfold d; apply lin_app; [assumption|]; apply lin_app; assumption|].
      intros Hn Hs. destruct (F7 Hn Hs) as [G1 G2]. split; [exact G1|].
      unfold d. rewrite !dst_app. split; [eapply eqr_dst; eauto|]. split; [|eapply eqr_dst; eauto].
      eapply dlow_dst; eauto. intros Hmd x Hx. destruct Hs as (_ & _ & Hs3). apply Hs3; assumption.
    - injection H as <- <-. exists r, []. rewrite app_nil_r, orb_false_r.
      destruct (Hkv r (or_introl eq_refl)) as [Ha Hb].
      split; [reflexivity|]. split; [reflexivity|]. split; [reflexivity|]. split; [assumption|]. split; [auto|]. split; [assumption|].
      split; [assumption|]. split; [assumption|]. split; [left; left; reflexivity|].
      split; [intros ->; apply Hle in Ha; unfold RFP in Ha; lia|]. split; [constructor|].
      intros _ Hs. split; [assumption|constructor].
    - discriminate.
  Qed.

  (** Post-condition of an operator. *)
  Definition sp (U : reg -> bool) (s : cst) (v : value) (s' : cst) : Prop :=
    exists d, c_code s' = c_code s ++ d /\ c_lab s' = c_lab s || uses_label d /\
      keep U s' /\ keepv U s' v /\ le9 s' /\ (Z.of_nat (List.length d) < 2 ^ 15 -> wfc d /\ safe d) /\
      (nowr d -> Sok s -> Sok s' /\ dst U d).

  Lemma sp_pure (U : reg -> bool) s v : keep U s -> keepv U s v -> le9 s -> sp U s v s.
  Proof.
    intros. exists []. rewrite app_nil_r, orb_false_r. do 5 (split; [auto|]).
    split; [intros _; split; [exact I|apply safe_nil]|]. intros _ Hs. split; [exact Hs|constructor].
  Qed.

  Definition ins1 (f : reg -> list insn) : Prop := forall a, a <> RFP -> wfc (f a) /\ safe (f a) /\ uses_label (f a) = false /\
    Forall (fun i => forall x, dest i = Some x -> x = a) (f a).
  Definition ins2 (f : reg -> reg -> list insn) : Prop := forall a b, a <> RFP -> b <> RFP ->
    wfc (f a b) /\ safe (f a b) /\ uses_label (f a b) = false /\ Forall (fun i => forall x, dest i = Some x -> x = a \/ x = b) (f a b).

  Lemma sp_un U s v x s1 f : materialize K s v = ROk x s1 -> keep U s -> keepv U s v -> le9 s -> U 9%nat = true -> ins1 f ->
    sp U s (VMat (vreg x) (v_btf x) None) (emit s1 (f (vreg x))).
  Proof.
    intros H Hk Hkv Hle H9 Hf.
    destruct (mat_safe U s v x s1 H Hk Hkv Hle H9) as (r & d & -> & H1 & H2 & H3 & H4 & H5 & H6 & H7 & H8 & H10 & H11 & H12).
    cbn [vreg v_btf]. destruct (Hf r H10) as (I1 & I2 & I3 & I4).
    exists (d ++ f r). cbn [emit c_code c_lab]. split; [rewrite H1, app_assoc; reflexivity|].
    split; [rewrite uses_app, I3, orb_false_r; exact H2|]. split; [exact H3|].
    split. { intros q [<-|[]]. auto. } split; [exact H5|].
    split; [intros _; split; [apply wfc_app; [apply (lin_wfc (cf_resv K))|]; assumption|apply safe_app; [apply lin_safe|]; assumption]|].
    intros Hn Hs. destruct (H12 (nowr_l _ _ _ Hn) Hs) as [G1 G2]. split; [exact G1|]. apply dst_app.
    split; [eapply dst_mono; [exact Hk|exact G2]|]. eapply eqr_dst; eauto.
  Qed.
  Lemma sp_ret U s v x s1 : materialize K s v = ROk x s1 -> keep U s -> keepv U s v -> le9 s -> U 9%nat = true -> sp U s x s1.
  Proof.
    intros H Hk Hkv Hle H9.
    destruct (mat_safe U s v x s1 H Hk Hkv Hle H9) as (r & d & -> & H1 & H2 & H3 & H4 & H5 & H6 & H7 & H8 & H10 & H11 & H12).
    exists d. do 3 (split; [assumption|]). split. { intros q [<-|[]]. auto. } split; [assumption|].
    split; [intros _; split; [apply (lin_wfc (cf_resv K))|apply lin_safe]; assumption|].
    intros Hn Hs. destruct (H12 Hn Hs) as [G1 G2]. split; [exact G1|]. eapply dst_mono; [exact Hk|exact G2].
  Qed.
  Lemma sp_bin U s l r lv s1 rv s2 f : materialize K s l = ROk lv s1 -> materialize K s1 r = ROk rv s2 ->
    keep U s -> keepv U s l -> keepv U s r -> disj l r -> le9 s -> U 9%nat = true -> ins2 f ->
    sp U s (VMat (vreg lv) (v_btf lv) None) (cfree (emit s2 (f (vreg lv) (vreg rv))) (vreg rv)).
  Proof.
    intros Hl Hr Hk Hkl Hkr Hdis Hle H9 Hf.
    destruct (mat_safe U s l lv s1 Hl Hk Hkl Hle H9) as (r1 & d1 & -> & H1 & H2 & H3 & H4 & H5 & H6 & H7 & H8 & H10 & H11 & H12).
    assert (Hkr1 : keepv U s1 r). { intros x Hx. destruct (Hkr x Hx) as [Ha Hb]. auto. }
    destruct (mat_safe U s1 r rv s2 Hr H3 Hkr1 H5 H9) as (r2 & d2 & -> & J1 & J2 & J3 & J4 & J5 & J6 & J7 & J8 & J10 & J11 & J12).
    cbn [vreg v_btf].
    assert (Hne : r1 <> r2).
    { intros ->. destruct J8 as [Hin2|Hf2]; [|congruence].
      destruct H8 as [Hin1|Hf1]; [exact (Hdis r2 Hin1 Hin2)|]. destruct (Hkr r2 Hin2). congruence. }
    destruct (Hf r1 r2 H10 J10) as (I1 & I2 & I3 & I4).
    exists (d1 ++ d2 ++ f r1 r2). cbn [cfree emit c_code c_lab].
    split; [rewrite J1, H1, !app_assoc; reflexivity|].
    split; [rewrite !uses_app, I3, orb_false_r, J2, H2, orb_assoc; reflexivity|].
    split; [apply keep_free; [exact J3|exact J7]|].
    split. { intros q [<-|[]]. split; [|assumption]. apply free_keep; [exact Hne|]. cbn [emit c_regs]. auto. }
    split; [apply le9_free; exact J5|].
    split; [intros _; split; [repeat apply wfc_app; eauto using lin_wfc|repeat apply safe_app; auto using lin_safe]|].
    intros Hn Hs. destruct (H12 (nowr_l _ _ _ Hn) Hs) as [G1 G2].
    destruct (J12 (nowr_l _ _ _ (nowr_r _ _ _ Hn)) G1) as [G3 G4].
    split. { apply Sok_free; [exact G3|]. intros ->. congruence. }
    rewrite !dst_app. split; [eapply dst_mono; [exact Hk|exact G2]|]. split; [eapply dst_mono; [exact H3|exact G4]|].
    eapply Forall_impl; [|exact I4]. intros i Hi x Hx. destruct (Hi x Hx) as [->| ->]; assumption.
  Qed.

  Ltac fa := repeat (apply Forall_cons; [cbn [dest]; intros ? Hfa; inversion Hfa; subst; auto|]); apply Forall_nil.
  Ltac st := split; [repeat constructor|]; intros m ms; cbn [exec step1 reg2bool app];
    repeat match goal with |- context [if ?b then CSkip _ else CNext] => destruct b end; cbn [exec step1 reg2bool app Z.ltb Z.compare];
    repeat match goal with |- context [if ?b then CSkip _ else CNext] => destruct b end; cbn [exec step1 Z.ltb Z.compare Z.to_nat Pos.to_nat Pos.iter_op Nat.add];
    cbn; eexists; (split; [left; reflexivity|]); (split; [split; reflexivity|]);
    rewrite ?rg_setr_neq by congruence; reflexivity.
  Lemma ins1_alu op f : ins1 (fun a => [IAluI op a f]).
  Proof. intros a Ha. split; [cbn; tauto|]. split; [apply safe_simple; exact Ha|]. split; [reflexivity|fa]. Qed.
  Lemma ins1_mov c : ins1 (fun a => [IMovI a c]).
  Proof. intros a Ha. split; [cbn; tauto|]. split; [apply safe_simple; exact Ha|]. split; [reflexivity|fa]. Qed.
  Lemma ins1_neg : ins1 (fun a => [INegR a a]).
  Proof. intros a Ha. split; [cbn; tauto|]. split; [apply safe_simple; exact Ha|]. split; [reflexivity|fa]. Qed.
  Lemma ins1_jmp op c : ins1 (fun a => IJmpI op a c 2 :: reg2bool a).
  Proof. intros a Ha. split; [cbn; lia|]. split; [st|]. split; [reflexivity|fa]. Qed.
  Lemma ins2_alu op : ins2 (fun a b => [IAluR op a b]).
  Proof. intros a b Ha Hb. split; [cbn; tauto|]. split; [apply safe_simple; exact Ha|]. split; [reflexivity|fa]. Qed.
  Lemma ins2_div op : ins2 (fun a b => [IJmpI JNE b 0 2; IMovI a 0; IJa 1; IAluR op a b]).
  Proof. intros a b Ha Hb. split; [cbn; lia|]. split; [st|]. split; [reflexivity|fa]. Qed.
  Lemma ins2_sh op : ins2 (fun a b => [IJmpI JLE b 0 1; IAluR op a b]).
  Proof. intros a b Ha Hb. split; [cbn; lia|]. split; [st|]. split; [reflexivity|fa]. Qed.
  Lemma ins2_cmp op : ins2 (fun a b => IJmpR op a b 2 :: reg2bool a).
  Proof. intros a b Ha Hb. split; [cbn; lia|]. split; [st|]. split; [reflexivity|fa]. Qed.
  Lemma ins2_and : ins2 (fun a b => [IJmpI JEq a 0 3; IJmpI JEq b 0 2] ++ reg2bool a).
  Proof. intros a b Ha Hb. split; [cbn; lia|]. split; [st|]. split; [reflexivity|fa]. Qed.
  Lemma ins2_or : ins2 (fun a b => [IJmpI JNE a 0 3; IJmpI JNE b 0 2; IAluR AXor a a; IJa 1; IMovI a 1]).
  Proof. intros a b Ha Hb. split; [cbn; lia|]. split; [st|]. split; [reflexivity|fa]. Qed.
  Lemma ins2_scale E t op : ins2 (fun a b => scale_code E t b ++ [IAluR op a b]).
  Proof.
    intros a b Ha Hb.
    assert (Hs : lin (scale_code E t b) /\ uses_label (scale_code E t b) = false /\ Forall (fun i => forall x, dest i = Some x -> x = a \/ x = b) (scale_code E t b)).
    { unfold scale_code. destruct t as [u|]; [|repeat constructor]. destruct (under u); try (repeat constructor; fail);
        destruct (1 <? _); (split; [repeat constructor; assumption|]); (split; [reflexivity|fa]). }
    destruct Hs as (H1 & H2 & H3). split; [apply wfc_app; [apply (lin_wfc (cf_resv K)); assumption|cbn; tauto]|].
    split; [apply safe_app; [apply lin_safe; assumption|apply safe_simple; exact Ha]|].
    split; [rewrite uses_app, H2; reflexivity|]. apply Forall_app. split; [assumption|fa].
  Qed.

  Lemma disj_of l0 r0 l r : vregs l = vregs l0 -> vregs r = vregs r0 -> disj l0 r0 -> disj l r.
  Proof. intros H1 H2 H x. rewrite H1, H2. apply H. Qed.
  Lemma keepv_of U s v v' : vregs v' = vregs v -> keepv U s v -> keepv U s v'.
  Proof. intros H1 H x. rewrite H1. apply H. Qed.

  Ltac inv_mat H lv s1 Hm :=
    match type of H with bind (materialize K ?s ?v) _ = _ =>
      destruct (materialize K s v) as [lv s1| |] eqn:Hm; cbn [bind] in H; [|discriminate|discriminate] end.
  Lemma bin_runtime_safe U s l r f v s' : bin_runtime K s l r f = ROk v s' ->
    keep U s -> keepv U s l -> keepv U s r -> disj l r -> le9 s -> U 9%nat = true -> ins2 f -> sp U s v s'.
  Proof.
    intros H Hk Hl Hr Hd Hle H9 Hf. unfold bin_runtime in H. inv_mat H lv s1 H1. inv_mat H rv s2 H2.
    injection H as <- <-. eapply sp_bin; eauto.
  Qed.
  Lemma un_runtime_safe U s l f v s' : (let* x, s1 := materialize K s l in ROk (VMat (vreg x) (v_btf x) None) (emit s1 (f (vreg x)))) = ROk v s' ->
    keep U s -> keepv U s l -> le9 s -> U 9%nat = true -> ins1 f -> sp U s v s'.
  Proof.
    intros H Hk Hl Hle H9 Hf. inv_mat H lv s1 H1. injection H as <- <-. eapply sp_un; eauto.
  Qed.

  Lemma add_const_vregs E b offs t m n v : add_const_pending E b offs t m n = Some v -> vregs v = vregs (VPend b offs t m).
  Proof.
    unfold add_const_pending. destruct (n =? 0); [intros H; injection H as <-; reflexivity|].
    destruct t as [u|]; [|intros H; injection H as <-; reflexivity].
    destruct (under u) as [| | |tgt|el ?| | | |]; try (intros H; injection H as <-; reflexivity).
    - destruct (under tgt); try (intros H; injection H as <-; reflexivity);
        (destruct (_ =? 0); [discriminate|]; intros H; injection H as <-; reflexivity).
    - destruct (_ =? 0); [discriminate|]; intros H; injection H as <-; reflexivity.
  Qed.
  Lemma sp_addc U s b offs t m n v s' : of_opt (add_const_pending (cf_env K) b offs t m n) s = ROk v s' ->
    keep U s -> keepv U s (VPend b offs t m) -> le9 s -> sp U s v s'.
  Proof.
    intros H Hk Hv Hle. destruct (add_const_pending _ _ _ _ _ _) as [v'|] eqn:Ha; cbn [of_opt] in H; [|discriminate].
    injection H as <- <-. apply sp_pure; auto. eapply keepv_of; [|exact Hv]. eapply add_const_vregs; eauto.
  Qed.
  Lemma sp_const U s n t : keep U s -> le9 s -> sp U s (VConst n t) s.
  Proof. intros. apply sp_pure; auto. intros r []. Qed.

  Lemma bin_safe op U s l0 r0 v s' : bin_values K op s l0 r0 = ROk v s' ->
    keep U s -> keepv U s l0 -> keepv U s r0 -> disj l0 r0 -> le9 s -> U 9%nat = true -> sp U s v s'.
  Proof.
    intros H Hk Hl0 Hr0 Hd0 Hle H9. unfold bin_values in H.
    destruct (resolve_enums l0 r0) as [[l r]|] eqn:Hres; [|discriminate].
    destruct (resolve_vregs _ _ _ _ Hres) as [Hvl Hvr].
    assert (Hl := keepv_of _ _ _ _ Hvl Hl0). assert (Hr := keepv_of _ _ _ _ Hvr Hr0).
    assert (Hd := disj_of _ _ _ _ Hvl Hvr Hd0). clear Hres Hvl Hvr Hl0 Hr0 Hd0.
    match type of H with (if ?b then _ else _) = _ => destruct b; [discriminate|] end.
    assert (H' : (exists a b ta tb, l = VConst a ta /\ r = VConst b tb /\
        match fold_const op a b with Some n => ROk (VConst n None) s | None => RPanic end = ROk v s') \/
      (if negb (operands_ok l r) then RErr else
          match op with
          | BAdd =>
              match l, r with
              | VPend b offs t m, VConst n _ => of_opt (add_const_pending (cf_env K) b offs t m n) s
              | VConst n _, VPend b offs t m => of_opt (add_const_pending (cf_env K) b offs t m n) s
              | _, _ =>
                  let* lv, s1 := materialize K s l in
                  let* rv, s2 := materialize K s1 r in
                  let s3 := emit s2 (scale_code (cf_env K) (v_btf lv) (vreg rv) ++
                                     [IAluR AAdd (vreg lv) (vreg rv)]) in
                  ROk (VMat (vreg lv) (v_btf lv) None) (cfree s3 (vreg rv))
              end
          | BSub =>
              match l, r with
              | VPend b offs t m, VConst n _ => of_opt (add_const_pending (cf_env K) b offs t m (s64 (- n))) s
              | _, _ =>
                  let* lv, s1 := materialize K s l in
                  let* rv, s2 := materialize K s1 r in
                  let s3 := emit s2 (scale_code (cf_env K) (v_btf lv) (vreg rv) ++
                                     [IAluR ASub (vreg lv) (vreg rv)]) in
                  ROk (VMat (vreg lv) (v_btf lv) None) (cfree s3 (vreg rv))
              end
          | BMul => bin_runtime K s l r (fun a b => [IAluR AMul a b])
          | BDiv =>
              match r with
              | VConst n _ =>
                  let* lv, s1 := materialize K s l in
                  ROk (VMat (vreg lv) (v_btf lv) None) (emit s1 [IAluI ADiv (vreg lv) (s32 n)])
              | _ => bin_runtime K s l r (fun a b =>
                       [IJmpI JNE b 0 2; IMovI a 0; IJa 1; IAluR ADiv a b])
              end
          | BMod =>
              match r with
              | VConst n _ =>
                  let* lv, s1 := materialize K s l in
                  ROk (VMat (vreg lv) (v_btf lv) None)
                      (emit s1 (if n =? 1 then [IMovI (vreg lv) 0]
                                else [IAluI AMod (vreg lv) (s32 n)]))
              | _ => bin_runtime K s l r (fun a b =>
                       [IJmpI JNE b 0 2; IMovI a 0; IJa 1; IAluR AMod a b])
              end
          | BAnd | BOr | BXor =>
              match r with
              | VConst n _ =>
                  let* lv, s1 := materialize K s l in
                  ROk (VMat (vreg lv) (v_btf lv) None)
                      (emit s1 [IAluI (alu_of op) (vreg lv) (s32 n)])
              | _ => bin_runtime K s l r (fun a b => [IAluR (alu_of op) a b])
              end
          | BLsh | BRsh =>
              match r with
              | VConst n _ =>
                  let* lv, s1 := materialize K s l in
                  if n <? 0 then RErr
                  else if n =? 0 then ROk lv s1
                  else ROk (VMat (vreg lv) (v_btf lv) None)
                           (emit s1 [IAluI (alu_of op) (vreg lv) (s32 n)])
              | _ => bin_runtime K s l r (fun a b => [IJmpI JLE b 0 1; IAluR (alu_of op) a b])
              end
          end) = ROk v s').
    { destruct l as [a ta| | |], r as [n2 tb| | |]; try (right; exact H). left. exists a, n2, ta, tb. auto. }
    clear H. destruct H' as [(a & b & ta & tb & -> & -> & H)|H].
    { destruct (fold_const op a b); [|discriminate]. injection H as <- <-. apply sp_const; assumption. }
    destruct (negb (operands_ok l r)); [discriminate|].
    assert (Hsc : forall op', (let* lv, s1 := materialize K s l in
                  let* rv, s2 := materialize K s1 r in
                  let s3 := emit s2 (scale_code (cf_env K) (v_btf lv) (vreg rv) ++
                                     [IAluR op' (vreg lv) (vreg rv)]) in
                  ROk (VMat (vreg lv) (v_btf lv) None) (cfree s3 (vreg rv))) = ROk v s' -> sp U s v s').
    { intros op' Hq. inv_mat Hq lv s1 H1. inv_mat Hq rv s2 H2. injection Hq as <- <-.
      eapply (sp_bin U s l r lv s1 rv s2 (fun a b => scale_code (cf_env K) (v_btf lv) b ++ [IAluR op' a b])); eauto using ins2_scale. }
    assert (Hun : forall f, ins1 f -> (let* x, s1 := materialize K s l in ROk (VMat (vreg x) (v_btf x) None) (emit s1 (f (vreg x)))) = ROk v s' -> sp U s v s')
      by (intros; eapply un_runtime_safe; eauto).
    assert (Hbin : forall f, ins2 f -> bin_runtime K s l r f = ROk v s' -> sp U s v s') by (intros; eapply bin_runtime_safe; eauto).
    destruct op.
    - destruct l, r; try (eapply Hsc; exact H); eapply sp_addc; eauto.
    - destruct l, r; try (eapply Hsc; exact H); eapply sp_addc; eauto.
    - eapply Hbin; [apply ins2_alu|exact H].
    - destruct r; try (eapply Hbin; [apply ins2_div|exact H]). eapply (Hun (fun x => [IAluI ADiv x (s32 n)])); [apply ins1_alu|exact H].
    - destruct r; try (eapply Hbin; [apply ins2_div|exact H]).
      eapply (Hun (fun x => if n =? 1 then [IMovI x 0] else [IAluI AMod x (s32 n)])); [|exact H].
      destruct (n =? 1); [apply ins1_mov|apply ins1_alu].
    - destruct r; try (eapply Hbin; [apply (ins2_alu (alu_of BAnd))|exact H]). eapply (Hun (fun x => [IAluI (alu_of BAnd) x (s32 n)])); [apply ins1_alu|exact H].
    - destruct r; try (eapply Hbin; [apply (ins2_alu (alu_of BOr))|exact H]). eapply (Hun (fun x => [IAluI (alu_of BOr) x (s32 n)])); [apply ins1_alu|exact H].
    - destruct r; try (eapply Hbin; [apply (ins2_alu (alu_of BXor))|exact H]). eapply (Hun (fun x => [IAluI (alu_of BXor) x (s32 n)])); [apply ins1_alu|exact H].
    - destruct r; try (eapply Hbin; [apply (ins2_sh (alu_of BLsh))|exact H]). inv_mat H lv s1 H1.
      destruct (n <? 0); [discriminate|]. destruct (n =? 0); injection H as <- <-; [eapply sp_ret; eauto|].
      eapply (sp_un U s l lv s1 (fun x => [IAluI (alu_of BLsh) x (s32 n)])); eauto using ins1_alu.
    - destruct r; try (eapply Hbin; [apply (ins2_sh (alu_of BRsh))|exact H]). inv_mat H lv s1 H1.
      destruct (n <? 0); [discriminate|]. destruct (n =? 0); injection H as <- <-; [eapply sp_ret; eauto|].
      eapply (sp_un U s l lv s1 (fun x => [IAluI (alu_of BRsh) x (s32 n)])); eauto using ins1_alu.
  Qed.

  Lemma cmp_safe op U s l0 r0 v s' : cmp_values K op s l0 r0 = ROk v s' ->
    keep U s -> keepv U s l0 -> keepv U s r0 -> disj l0 r0 -> le9 s -> U 9%nat = true -> sp U s v s'.
  Proof.
    intros H Hk Hl0 Hr0 Hd0 Hle H9. unfold cmp_values in H.
    destruct (resolve_enums l0 r0) as [[l1 r1]|] eqn:Hres; [|discriminate].
    destruct (resolve_vregs _ _ _ _ Hres) as [Hvl Hvr].
    assert (Hl1 := keepv_of _ _ _ _ Hvl Hl0). assert (Hr1 := keepv_of _ _ _ _ Hvr Hr0).
    assert (Hd1 := disj_of _ _ _ _ Hvl Hvr Hd0). clear Hres Hvl Hvr Hl0 Hr0 Hd0.
    destruct (adjust_nums (cf_env K) l1 r1) as [l r] eqn:Hadj.
    destruct (adjust_vregs _ _ _ _ _ Hadj) as (Hvl & Hvr & _).
    assert (Hl := keepv_of _ _ _ _ Hvl Hl1). assert (Hr := keepv_of _ _ _ _ Hvr Hr1).
    assert (Hd := disj_of _ _ _ _ Hvl Hvr Hd1). clear Hadj Hvl Hvr Hl1 Hr1 Hd1.
    assert (H' : (exists a b ta tb, l = VConst a ta /\ r = VConst b tb /\ v = VConst (b2z (cmp_const op a b)) None /\ s = s') \/
       (if negb (operands_ok l r) then RErr else
          let* lv, s1 := materialize K s l in
          match r with
          | VConst n _ =>
              ROk (VMat (vreg lv) (v_btf lv) None)
                  (emit s1 (IJmpI (inv_jop op) (vreg lv) n 2 :: reg2bool (vreg lv)))
          | _ =>
              let* rv, s2 := materialize K s1 r in
              let s3 := emit s2 (IJmpR (inv_jop op) (vreg lv) (vreg rv) 2 :: reg2bool (vreg lv)) in
              ROk (VMat (vreg lv) (v_btf lv) None) (cfree s3 (vreg rv))
          end) = ROk v s').
    { destruct l as [a ta| | |], r as [n2 tb| | |]; try (right; exact H). left. injection H as <- <-. exists a, n2, ta, tb. auto. }
    clear H. destruct H' as [(a & b & ta & tb & -> & -> & -> & <-)|H]; [apply sp_const; assumption|].
    destruct (negb (operands_ok l r)); [discriminate|]. inv_mat H lv s1 H1.
    destruct (is_const r) eqn:Hcr.
    - destruct r as [n tn| | |]; try discriminate. injection H as <- <-.
      eapply (sp_un U s l lv s1 (fun x => IJmpI (inv_jop op) x n 2 :: reg2bool x)); eauto using ins1_jmp.
    - assert (H' : (let* rv, s2 := materialize K s1 r in
              let s3 := emit s2 (IJmpR (inv_jop op) (vreg lv) (vreg rv) 2 :: reg2bool (vreg lv)) in
              ROk (VMat (vreg lv) (v_btf lv) None) (cfree s3 (vreg rv))) = ROk v s') by (destruct r; [discriminate|exact H..]).
      clear H. inv_mat H' rv s2 H2. injection H' as <- <-.
      eapply (sp_bin U s l r lv s1 rv s2 (fun a b => IJmpR (inv_jop op) a b 2 :: reg2bool a)); eauto using ins2_cmp.
  Qed.

  Lemma tobool_safe U s x v s' : to_bool K s x = ROk v s' -> keep U s -> keepv U s x -> le9 s -> U 9%nat = true -> sp U s v s'.
  Proof.
    intros H Hk Hx Hle H9. unfold to_bool in H. eapply (un_runtime_safe U s x (fun r => IJmpI JEq r 0 2 :: reg2bool r)); eauto using ins1_jmp.
  Qed.
  Lemma sp_freec U s l n : keep U s -> keepv U s l -> le9 s -> U 9%nat = true -> sp U s (VConst n None) (free_if_mat s l).
  Proof.
    intros Hk Hl Hle H9. destruct l as [| |r t m|]; cbn [free_if_mat]; try (apply sp_const; assumption).
    destruct (Hl r (or_introl eq_refl)) as [Ha Hb].
    exists []. cbn [cfree c_code c_lab]. rewrite app_nil_r, orb_false_r. split; [reflexivity|]. split; [reflexivity|].
    split; [apply keep_free; assumption|]. split; [intros ? []|]. split; [apply le9_free; assumption|].
    split; [intros _; split; [exact I|apply safe_nil]|]. intros _ Hs. split; [apply Sok_free; [exact Hs|congruence]|constructor].
  Qed.
  Lemma logic_safe (dec : Z -> bool) (cv : Z) (fc : Z -> Z -> Z) f U s l0 r0 v s' :
    match resolve_enums l0 r0 with
    | None => RErr
    | Some (l, r) =>
      match l, r with
      | VConst a _, VConst b _ => ROk (VConst (fc a b) None) s
      | _, _ =>
          if negb (operands_ok l r) then RErr else
          match l, r with
          | VConst a _, _ => if dec a then ROk (VConst cv None) s else to_bool K s r
          | _, VConst b _ => if dec b then ROk (VConst cv None) (free_if_mat s l) else to_bool K s l
          | _, _ => bin_runtime K s l r f
          end
      end
    end = ROk v s' -> ins2 f ->
    keep U s -> keepv U s l0 -> keepv U s r0 -> disj l0 r0 -> le9 s -> U 9%nat = true -> sp U s v s'.
  Proof.
    intros H Hf Hk Hl0 Hr0 Hd0 Hle H9.
    destruct (resolve_enums l0 r0) as [[l r]|] eqn:Hres; [|discriminate].
    destruct (resolve_vregs _ _ _ _ Hres) as [Hvl Hvr].
    assert (Hl := keepv_of _ _ _ _ Hvl Hl0). assert (Hr := keepv_of _ _ _ _ Hvr Hr0).
    assert (Hd := disj_of _ _ _ _ Hvl Hvr Hd0). clear Hres Hvl Hvr Hl0 Hr0 Hd0.
    destruct (is_const l) eqn:Hcl.
    - destruct l as [a ta| | |]; try discriminate. destruct (is_const r) eqn:Hcr.
      + destruct r as [b tb| | |]; try discriminate. injection H as <- <-. apply sp_const; assumption.
      + assert (H' : (if negb (operands_ok (VConst a ta) r) then RErr else if dec a then ROk (VConst cv None) s else to_bool K s r) = ROk v s')
          by (destruct r; [discriminate|exact H..]).
        destruct (negb _); [discriminate|]. destruct (dec a); [injection H' as <- <-; apply sp_const; assumption|].
        eapply tobool_safe; eauto.
    - destruct (is_const r) eqn:Hcr.
      + destruct r as [b tb| | |]; try discriminate.
        assert (H' : (if negb (operands_ok l (VConst b tb)) then RErr else if dec b then ROk (VConst cv None) (free_if_mat s l) else to_bool K s l) = ROk v s')
          by (destruct l; [discriminate|exact H..]).
        destruct (negb _); [discriminate|]. destruct (dec b); [injection H' as <- <-; apply sp_freec; assumption|].
        eapply tobool_safe; eauto.
      + assert (H' : (if negb (operands_ok l r) then RErr else bin_runtime K s l r f) = ROk v s')
          by (destruct l; [discriminate|..]; (destruct r; [discriminate|exact H..])).
        destruct (negb _); [discriminate|]. eapply bin_runtime_safe; eauto.
  Qed.
  Lemma unary_safe k chk f U s v0 v s' : unary K s v0 k chk f = ROk v s' -> ins1 f ->
    keep U s -> keepv U s v0 -> le9 s -> U 9%nat = true -> sp U s v s'.
  Proof.
    intros H Hf Hk Hv Hle H9. unfold unary in H. destruct (is_const v0) eqn:Hc.
    - destruct v0; try discriminate. injection H as <- <-. apply sp_const; assumption.
    - assert (H' : (if chk && is_pend v0 && negb (can_calc (v_btf v0)) then RErr else
      let* x, s1 := materialize K s v0 in
      ROk (VMat (vreg x) (v_btf x) None) (emit s1 (f (vreg x)))) = ROk v s') by (destruct v0; [discriminate|exact H..]).
      destruct (_ && _); [discriminate|]. eapply un_runtime_safe; eauto.
  Qed.

  (** ** Conditionals *)
  Lemma branch_safe U s v rc s' : cond_branch K s v rc = ROk tt s' -> keep U s -> keepv U s v -> le9 s -> U 9%nat = true ->
    rc <> RFP ->
    exists d, c_code s' = c_code s ++ d /\ c_lab s' = c_lab s || uses_label d /\ keep U s' /\ le9 s' /\
      (forall x, c_regs s x = true -> ~ In x (vregs v) -> c_regs s' x = true) /\ lin d /\
      (nowr d -> Sok s -> Sok s' /\ forall V : reg -> bool, (forall x, V x = true -> U x = true) -> V rc = false -> dst V d).
  Proof.
    intros H Hk Hkv Hle H9 Hrc. unfold cond_branch in H.
    destruct (is_const v) eqn:Hcv.
    - destruct v as [c t| | |]; try discriminate. injection H as <-.
      exists [IMovI rc (s32 c)]. split; [reflexivity|]. split; [cbn [emit c_lab uses_label existsb]; rewrite orb_false_r; reflexivity|].
      split; [assumption|]. split; [assumption|]. split; [auto|]. split; [repeat constructor; assumption|].
      intros _ Hs. split; [exact Hs|]. intros V _ HV. apply Forall_cons; [|constructor]. cbn [dest]. intros x Hx. injection Hx as <-. exact HV.
    - assert (H' : (let* x, s1 := materialize K s v in
         ROk tt (cfree (emit s1 [IMovR rc (vreg x)]) (vreg x))) = ROk tt s').
      { destruct v; [discriminate| | |]; exact H. }
      clear H. inv_mat H' xv s1 Hm.
      destruct (mat_safe U s v xv s1 Hm Hk Hkv Hle H9) as (q & d & -> & H1 & H2 & H3 & H4 & H5 & H6 & H7 & H8 & H10 & H11 & H12).
      cbn [vreg] in H'. injection H' as <-.
      exists (d ++ [IMovR rc q]). split; [cbn [cfree emit c_code]; rewrite H1, app_assoc; reflexivity|].
      split; [cbn [cfree emit c_lab]; rewrite uses_app; cbn [uses_label existsb]; rewrite orb_false_r; exact H2|].
      split; [apply keep_free; assumption|]. split; [apply le9_free; exact H5|].
      split. { intros x Hx Hnx. apply free_keep; [|apply H4; assumption].
               intros ->. destruct H8 as [Hfr|Hfr]; [contradiction|congruence]. }
      split; [apply lin_app; [assumption|repeat constructor; assumption]|].
      intros Hn Hs. destruct (H12 (nowr_l _ _ _ Hn) Hs) as (Hs' & Hds).
      split; [apply Sok_free; [exact Hs'|congruence]|]. intros V HV HVr. apply dst_app.
      split; [eapply dst_mono; [|exact Hds]; intros x Hx; apply Hk, HV, Hx|].
      apply Forall_cons; [|constructor]. cbn [dest]. intros x Hx. injection Hx as <-. exact HVr.
  Qed.

  Lemma cond_safe U s c0 l0 r0 v s' : cond_values K s c0 l0 r0 = ROk v s' ->
    keep U s -> keepv U s c0 -> keepv U s l0 -> keepv U s r0 -> disj c0 l0 -> disj c0 r0 -> disj l0 r0 ->
    le9 s -> U 9%nat = true -> sp U s v s'.
  Proof.
    intros H Hk Hkc Hkl Hkr Dcl Dcr Dlr Hle H9. unfold cond_values in H.
    destruct (negb (operands_ok c0 c0 && operands_ok l0 r0)); [discriminate|].
    destruct (is_const c0) eqn:Hcc.
    { destruct c0 as [n0 t0| | |]; try discriminate.
      destruct (negb (n0 =? 0)); injection H as <- <-; apply sp_pure; assumption. }
    assert (H' : (let* cv, s1 := materialize K s c0 in
      let rc := vreg cv in
      let jidx := clen s1 in
      let s2 := emit s1 [IJmpI JEq rc 0 2] in
      let* _u1, s3 := cond_branch K s2 l0 rc in
      let jaidx := clen s3 in
      let s4 := emit s3 [IJa 1] in
      let s5 := cpatch s4 jidx (s16 (Z.of_nat (clen s4) - Z.of_nat jidx - 1)) in
      let* _u2, s6 := cond_branch K s5 r0 rc in
      let s7 := cpatch s6 jaidx (s16 (Z.of_nat (clen s6) - Z.of_nat jaidx - 1)) in
      ROk (VMat rc (v_btf cv) None) s7) = ROk v s').
    { destruct c0; [discriminate| | |]; exact H. }
    clear H. inv_mat H' cv1 s1 Hm.
    destruct (mat_safe U s c0 cv1 s1 Hm Hk Hkc Hle H9) as (rc & d & -> & Hc & Hlab1 & Hk1 & Hmono & Hle1 & Hu1 & HU1 & Hfr & HrF & Hlin & Hms).
    cbn [vreg v_btf] in H'. cbv zeta in H'.
    set (U1 := fun x => U x || Nat.eqb x rc).
    assert (HU1s : forall x, U x = true -> U1 x = true) by (intros x Hx; unfold U1; rewrite Hx; reflexivity).
    assert (HU1rc : U1 rc = true) by (unfold U1; rewrite Nat.eqb_refl; apply orb_true_r).
    assert (Hk1' : keep U1 s1).
    { intros x Hx. unfold U1 in Hx. apply orb_prop in Hx as [Hx|Hx]; [auto|]. apply Nat.eqb_eq in Hx. subst. assumption. }
    assert (Hnrc : forall w, keepv U s w -> disj c0 w -> keepv U1 s1 w /\ ~ In rc (vregs w)).
    { intros w Hkw Hdw. assert (Hnr : ~ In rc (vregs w)).
      { intros Hin. destruct Hfr as [Hfr|Hfr]; [apply (Hdw rc); assumption|]. destruct (Hkw rc Hin). congruence. }
      split; [|assumption]. intros x Hx. destruct (Hkw x Hx) as [Ha Hb]. split; [auto|].
      unfold U1. rewrite Hb. cbn [orb]. apply Nat.eqb_neq. congruence. }
    destruct (Hnrc _ Hkl Dcl) as [Hkl1 Hnl]. destruct (Hnrc _ Hkr Dcr) as [Hkr1 Hnr].
    destruct (cond_branch K (emit s1 [IJmpI JEq rc 0 2]) l0 rc) as [[] s3| |] eqn:Hb1; cbn [bind] in H'; try discriminate.
    destruct (branch_safe U1 _ _ _ _ Hb1) as (dl & Hc3 & Hlab3 & Hk3 & Hle3 & Hm3 & Hlin3 & Hs3); auto.
    match type of H' with context [cond_branch K ?s5 r0 rc] => set (s5v := s5) in * end.
    destruct (cond_branch K s5v r0 rc) as [[] s6| |] eqn:Hb2; cbn [bind] in H'; try discriminate.
    assert (Hkr5 : keepv U1 s5v r0).
    { intros x Hx. destruct (Hkr1 x Hx) as [Ha Hb]. split; [|assumption].
      apply Hm3; [exact Ha|]. intros Hin. apply (Dlr x); assumption. }
    destruct (branch_safe U1 s5v _ _ _ Hb2) as (dr & Hc6 & Hlab6 & Hk6 & Hle6 & Hm6 & Hlin6 & Hs6); auto.
    injection H' as <- <-.
    set (J1 := IJmpI JEq rc 0 (s16 (Z.of_nat (List.length dl) + 1))).
    set (J2 := IJa (s16 (Z.of_nat (List.length dr)))).
    assert (Hcode5 : c_code s5v = c_code s ++ d ++ J1 :: dl ++ [IJa 1]).
    { unfold s5v, cpatch. cbn [c_code emit]. unfold clen. rewrite Hc3. cbn [emit c_code]. rewrite Hc.
      rewrite <- !app_assoc. cbn [app]. rewrite app_assoc. rewrite patch_app. cbn [set_off]. rewrite <- app_assoc.
      unfold J1.
      match goal with |- _ ++ _ ++ IJmpI JEq rc 0 (s16 ?a) :: _ = _ => replace a with (Z.of_nat (List.length dl) + 1); [reflexivity|] end.
      rewrite ?app_length; cbn [List.length]; rewrite ?app_length; cbn [List.length]; rewrite ?app_length; cbn [List.length]; rewrite Hc3; cbn [emit c_code]; rewrite Hc; rewrite ?app_length; cbn [List.length]; lia. }
    assert (Hcode : c_code (cpatch s6 (clen s3) (s16 (Z.of_nat (clen s6) - Z.of_nat (clen s3) - 1))) =
       c_code s ++ (d ++ J1 :: dl ++ J2 :: dr)).
    { unfold cpatch. cbn [c_code]. unfold clen. rewrite Hc6, Hcode5.
      assert (Hl3 : List.length (c_code s3) = List.length (c_code s ++ d ++ J1 :: dl)).
      { rewrite Hc3. cbn [emit c_code]. rewrite Hc. rewrite !app_length. cbn [List.length]. lia. }
      rewrite Hl3.
      replace ((c_code s ++ d ++ J1 :: dl ++ [IJa 1]) ++ dr) with ((c_code s ++ d ++ J1 :: dl) ++ IJa 1 :: dr)
        by (rewrite <- !app_assoc; cbn [app]; rewrite <- !app_assoc; reflexivity).
      rewrite patch_app. cbn [set_off]. rewrite <- !app_assoc. cbn [app]. unfold J2.
      match goal with |- context [IJa (s16 ?a) :: _ = _] => idtac | |- context [IJa (s16 (?a - ?b - 1))] =>
         replace (a - b - 1) with (Z.of_nat (List.length dr)); [reflexivity|] end.
      rewrite ?app_length; cbn [List.length]; rewrite ?app_length; cbn [List.length]; rewrite ?app_length; cbn [List.length]; lia. }
    eexists. split; [exact Hcode|].
    split. { cbn [cpatch c_lab]. rewrite Hlab6. unfold s5v. cbn [cpatch emit c_lab]. rewrite Hlab3. cbn [emit c_lab]. rewrite Hlab1.
             rewrite uses_app. change (J1 :: dl ++ J2 :: dr) with ([J1] ++ dl ++ [J2] ++ dr). rewrite !uses_app. cbn [J1 J2 uses_label existsb orb].
             rewrite !orb_assoc. reflexivity. }
    split; [intros x Hx; apply Hk6, HU1s; assumption|].
    split; [intros x [<-|[]]; split; [apply Hk6; assumption|assumption]|].
    split; [exact Hle6|]. split.
    - intros Hlen. rewrite app_length in Hlen. cbn [List.length] in Hlen. rewrite app_length in Hlen. cbn [List.length] in Hlen.
      assert (Hj1 : s16 (Z.of_nat (List.length dl) + 1) = Z.of_nat (List.length dl) + 1) by (apply s16_id; lia).
      assert (Hj2 : s16 (Z.of_nat (List.length dr)) = Z.of_nat (List.length dr)) by (apply s16_id; lia).
      split.
      + apply wfc_app; [apply (lin_wfc (cf_resv K)); assumption|]. cbn [wfc]. split.
        { unfold J1. cbn [jump_ok]. rewrite Hj1, app_length. cbn [List.length]. lia. }
        apply wfc_app; [apply (lin_wfc (cf_resv K)); assumption|]. cbn [wfc]. split; [|apply (lin_wfc (cf_resv K)); assumption].
        unfold J2. cbn [jump_ok]. rewrite Hj2. lia.
      + apply safe_app; [apply lin_safe; assumption|].
        destruct (lin_safe _ _ Hlin3) as [Fl3 Sl3]. destruct (lin_safe _ _ Hlin6) as [Fl6 Sl6].
        split; [constructor; [exact I|]; apply Forall_app; split; [exact Fl3|]; constructor; [exact I|exact Fl6]|].
        intros m ms. unfold J1, J2. cbn [exec step1]. rewrite Hj1.
        destruct (jop_sem JEq (rg ms rc) (immv 0)).
        * destruct (Z.ltb_spec (Z.of_nat (List.length dl) + 1) 0); [lia|].
          replace (Z.to_nat (Z.of_nat (List.length dl) + 1)) with (List.length dl + 1)%nat by lia.
          rewrite exec_app, exec_skip. cbn [exec]. apply Sl6.
        * rewrite exec_app. destruct (Sl3 m ms) as (ms1 & [E1|E1] & G1 & G2); rewrite E1.
          -- cbn [exec step1]. rewrite Hj2. destruct (Z.ltb_spec (Z.of_nat (List.length dr)) 0); [lia|].
             rewrite Nat2Z.id, exec_skip0. exists ms1. auto.
          -- exists ms1. auto.
    - intros Hnw Hs.
      assert (Hnd : nowr d) by (apply nowr_l in Hnw; assumption).
      assert (Hndl : nowr dl /\ nowr dr).
      { apply nowr_r in Hnw. change (J1 :: dl ++ J2 :: dr) with ([J1] ++ dl ++ [J2] ++ dr) in Hnw.
        apply nowr_r in Hnw. split; [apply nowr_l in Hnw; assumption|]. apply nowr_r, nowr_r in Hnw. assumption. }
      destruct Hndl as [Hndl Hndr].
      destruct (Hms Hnd Hs) as (Hs1 & Hd1). destruct (Hs3 Hndl Hs1) as [Hs3' Hd3].
      destruct (Hs6 Hndr Hs3') as [Hs6' Hd6].
      split; [exact Hs6'|]. apply dst_app. split; [eapply dst_mono; [exact Hk|exact Hd1]|].
      change (J1 :: dl ++ J2 :: dr) with ([J1] ++ dl ++ [J2] ++ dr). rewrite !dst_app.
      split; [apply Forall_cons; [discriminate|constructor]|]. split; [apply Hd3; assumption|].
      split; [apply Forall_cons; [discriminate|constructor]|]. apply Hd6; assumption.
  Qed.
End Safe2.
