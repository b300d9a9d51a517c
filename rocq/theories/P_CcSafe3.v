(** * Safety of every compiled filter. *)
From Coq Require Import ZArith List Bool Lia String.
From Verif Require Import M_Ebpf P_Ebpf M_CcNum M_Cc S_CSem S_CSup P_CcMach P_CcWalk P_CcNumr P_CcMat P_CcVal P_CcOps P_CcOps2 P_CcSim P_CcSim2 P_CcSafe P_CcSafe2.
Import ListNotations.
Open Scope Z_scope.

Section Safe3.
  Variable K : cfg.
  Notation safe := (safe (cf_resv K)).
  Notation lin := (lin (cf_resv K)).
  Notation nowr := (nowr K).
  Notation Sok := (Sok K).
  Notation sp := (sp K).

  Lemma sp_seq (U : reg -> bool) s x s1 v s' : sp U s x s1 -> sp U s1 v s' -> sp U s v s'.
  Proof.
    intros (d & H1 & H2 & H3 & H4 & H5 & H6 & H7) (e & J1 & J2 & J3 & J4 & J5 & J6 & J7).
    exists (d ++ e). split; [rewrite J1, H1, app_assoc; reflexivity|].
    split; [rewrite J2, H2, uses_app, orb_assoc; reflexivity|]. do 3 (split; [assumption|]).
    split. { intros Hl. rewrite app_length in Hl. destruct H6 as [? ?]; [lia|]. destruct J6 as [? ?]; [lia|].
             split; [apply wfc_app; assumption|apply safe_app; assumption]. }
    intros Hn Hs. destruct (H7 (nowr_l _ _ _ Hn) Hs) as [Hs1 Hd1]. destruct (J7 (nowr_r _ _ _ Hn) Hs1) as [Hs2 Hd2].
    split; [exact Hs2|]. apply dst_app. split; assumption.
  Qed.
  Lemma sp_weak (U V : reg -> bool) s v s' : sp V s v s' -> (forall r, U r = true -> V r = true) -> sp U s v s'.
  Proof.
    intros (d & H1 & H2 & H3 & H4 & H5 & H6 & H7) HUV. exists d. do 2 (split; [assumption|]).
    split; [intros r Hr; apply H3, HUV, Hr|].
    split. { intros r Hr. destruct (H4 r Hr) as [Ha Hb]. split; [assumption|]. destruct (U r) eqn:Hu; [|reflexivity]. apply HUV in Hu. congruence. }
    do 2 (split; [assumption|]). intros Hn Hs. destruct (H7 Hn Hs) as [Hs' Hd]. split; [assumption|].
    eapply dst_mono; [exact HUV|exact Hd].
  Qed.
  Lemma sp_map U s x s1 v : sp U s x s1 -> vregs v = vregs x -> sp U s v s1.
  Proof.
    intros (d & H1 & H2 & H3 & H4 & H5 & H6 & H7) Hv. exists d. do 3 (split; [assumption|]).
    split; [intros r Hr; rewrite Hv in Hr; apply H4, Hr|]. auto.
  Qed.
  Lemma sp_keep U s x s1 : sp U s x s1 -> keep U s1 /\ keepv U s1 x /\ le9 s1.
  Proof. intros (d & _ & _ & H3 & H4 & H5 & _). auto. Qed.

  Ltac inv_eval H v s1 Hev :=
    match type of H with
    | bind (evaluate K ?a ?s) _ = _ =>
        destruct (evaluate K a s) as [v s1| |] eqn:Hev; cbn [bind] in H; [|discriminate|discriminate]
    end.
  Ltac inv_opt H v Hv :=
    match type of H with
    | of_opt ?o _ = _ => destruct o as [v|] eqn:Hv; cbn [of_opt] in H; [|discriminate]; injection H as <- <-
    end.

  Lemma pair_sp s l s1 r s2 : sp (c_regs s) s l s1 -> sp (c_regs s1) s1 r s2 ->
    sp (c_regs s) s r s2 /\ keep (c_regs s) s2 /\ keepv (c_regs s) s2 l /\ keepv (c_regs s) s2 r /\ disj l r /\ le9 s2.
  Proof.
    intros H1 H2. destruct (sp_keep _ _ _ _ H1) as (A1 & A2 & A3). destruct (sp_keep _ _ _ _ H2) as (B1 & B2 & B3).
    split; [eapply sp_seq; [exact H1|eapply sp_weak; [exact H2|exact A1]]|].
    split; [intros x Hx; apply B1, A1, Hx|].
    split; [intros x Hx; destruct (A2 x Hx); split; [apply B1; assumption|assumption]|].
    split. { intros x Hx. destruct (B2 x Hx) as [Ha Hb]. split; [assumption|]. destruct (c_regs s x) eqn:Hu; [|reflexivity]. apply A1 in Hu. congruence. }
    split; [|assumption]. intros x Ha Hb. destruct (A2 x Ha), (B2 x Hb). congruence.
  Qed.

  Theorem ev_safe e : forall s v s', evaluate K e s = ROk v s' -> c_regs s 9%nat = true -> le9 s -> sp (c_regs s) s v s'.
  Proof.
    induction e as [x|txt|a IHa name|a IHa name|a IHa i IHi|a IHa|a IHa|ct a IHa|a IHa|op a IHa b IHb|op a IHa b IHb
      |a IHa b IHb|a IHa b IHb|a IHa|a IHa|a IHa|a IHa|a IHa|a IHa|c IHc a IHa b IHb|f IHf args|];
      intros s v s' H H9 Hle; [| | | | | | |pose proof H as H0| | | | | | | | | | | | | |]; cbn [evaluate] in H.
    - injection H as <- <-. apply sp_pure; [intros r Hr; exact Hr| |exact Hle]. intros r Hr.
      assert (Hn : vregs (eval_name K x) = []).
      { unfold eval_name. destruct (_ || _); [reflexivity|]. destruct (String.eqb x "true"); [reflexivity|].
        destruct (var_index (cf_vars K) x 0) as [[i t]|]; reflexivity. }
      rewrite Hn in Hr. destruct Hr.
    - destruct (parse_number txt) as [n|]; [|discriminate]. injection H as <- <-.
      apply sp_const; [intros r Hr; exact Hr|exact Hle].
    - inv_eval H v0 s1 Hev.
      assert (H' : of_opt (access_member K v0 name true) s1 = ROk v s') by (destruct v0; [exact H|exact H|exact H|discriminate]).
      clear H. inv_opt H' v2 Hac. eapply sp_map; [apply (IHa _ _ _ Hev H9 Hle)|].
      unfold access_member in Hac. destruct (is_bf _); [discriminate|]. destruct (v_btf v0); [|discriminate].
      destruct (under _); try discriminate. destruct (find_member _ _ _) as [[? ?]|]; [|discriminate].
      destruct v0 as [| [| |] | |]; inversion Hac; reflexivity.
    - inv_eval H v0 s1 Hev.
      assert (H' : of_opt (access_member K v0 name false) s1 = ROk v s') by (destruct v0; [exact H|exact H|exact H|discriminate]).
      clear H. inv_opt H' v2 Hac. eapply sp_map; [apply (IHa _ _ _ Hev H9 Hle)|].
      unfold access_member in Hac. destruct (is_bf _); [discriminate|]. destruct (v_btf v0); [|discriminate].
      destruct (find_member _ _ _) as [[? ?]|]; [|discriminate].
      destruct v0 as [|[| |] [|? ?]| |]; inversion Hac; reflexivity.
    - inv_eval H v0 s1 Hev. destruct (is_bf (v_mem v0)) eqn:Hbf; [discriminate|].
      destruct i as [|txt| | | | | | | | | | | | | | | | | | | |]; try discriminate.
      destruct (parse_number txt) as [n|] eqn:Hpn; [|discriminate].
      inv_opt H v2 Hac. eapply sp_map; [apply (IHa _ _ _ Hev H9 Hle)|].
      unfold index_value in Hac. destruct (v_btf v0); [|discriminate].
      destruct (match under _ with TPtr u => _ | _ => _ end) as [[? ?]|]; [|discriminate].
      destruct (_ =? 0); [discriminate|]. destruct v0 as [|[| |] ?| |]; inversion Hac; reflexivity.
    - inv_eval H v0 s1 Hev. inv_opt H v2 Hac. eapply sp_map; [apply (IHa _ _ _ Hev H9 Hle)|].
      unfold indir_value in Hac. destruct (is_bf _); [discriminate|]. destruct (v_btf v0); [|discriminate].
      destruct (under _); try discriminate. destruct v0 as [|[| |] ?| |]; inversion Hac; reflexivity.
    - inv_eval H v0 s1 Hev. inv_opt H v2 Hac. eapply sp_map; [apply (IHa _ _ _ Hev H9 Hle)|].
      unfold addr_value in Hac. destruct v0 as [|[| |] [|? ?] [?|] ?| |]; inversion Hac; reflexivity.
    - destruct (is_num a) eqn:Hna.
      + destruct a as [|txt| | | | | | | | | | | | | | | | | | | |]; try discriminate.
        destruct (parse_unsigned txt) as [n|] eqn:Hpu; [|discriminate].
        destruct (cc2btf (cf_env K) ct) as [t|] eqn:Hct; [|discriminate]. injection H as <- <-.
        apply sp_pure; [intros r Hr; exact Hr|intros r []|exact Hle].
      + rewrite (eval_cast K ct a s Hna) in H0. inv_eval H0 v0 s1 Hev.
        destruct (cc2btf (cf_env K) ct) as [t|]; [|discriminate]. injection H0 as <- <-.
        eapply sp_map; [apply (IHa _ _ _ Hev H9 Hle)|]. destruct v0 as [|[| |] ? ? ?| |]; reflexivity.
    - apply IHa; assumption.
    - inv_eval H l s1 Hl. pose proof (IHa _ _ _ Hl H9 Hle) as Hsl. destruct (sp_keep _ _ _ _ Hsl) as (A1 & A2 & A3).
      inv_eval H r s2 Hr. pose proof (IHb _ _ _ Hr (A1 _ H9) A3) as Hsr.
      destruct (pair_sp _ _ _ _ _ Hsl Hsr) as (P0 & P1 & P2 & P3 & P4 & P5).
      eapply sp_seq; [exact P0|]. eapply bin_safe; eauto.
    - inv_eval H l s1 Hl. pose proof (IHa _ _ _ Hl H9 Hle) as Hsl. destruct (sp_keep _ _ _ _ Hsl) as (A1 & A2 & A3).
      inv_eval H r s2 Hr. pose proof (IHb _ _ _ Hr (A1 _ H9) A3) as Hsr.
      destruct (pair_sp _ _ _ _ _ Hsl Hsr) as (P0 & P1 & P2 & P3 & P4 & P5).
      eapply sp_seq; [exact P0|]. eapply cmp_safe; eauto.
    - inv_eval H l s1 Hl. pose proof (IHa _ _ _ Hl H9 Hle) as Hsl. destruct (sp_keep _ _ _ _ Hsl) as (A1 & A2 & A3).
      inv_eval H r s2 Hr. pose proof (IHb _ _ _ Hr (A1 _ H9) A3) as Hsr.
      destruct (pair_sp _ _ _ _ _ Hsl Hsr) as (P0 & P1 & P2 & P3 & P4 & P5).
      eapply sp_seq; [exact P0|]. unfold andand_values in H.
      eapply (logic_safe K (fun a => a =? 0) 0 _ _ _ _ _ _ _ _ H (ins2_and K)); eauto.
    - inv_eval H l s1 Hl. pose proof (IHa _ _ _ Hl H9 Hle) as Hsl. destruct (sp_keep _ _ _ _ Hsl) as (A1 & A2 & A3).
      inv_eval H r s2 Hr. pose proof (IHb _ _ _ Hr (A1 _ H9) A3) as Hsr.
      destruct (pair_sp _ _ _ _ _ Hsl Hsr) as (P0 & P1 & P2 & P3 & P4 & P5).
      eapply sp_seq; [exact P0|]. unfold oror_values in H.
      eapply (logic_safe K (fun a => negb (a =? 0)) 1 _ _ _ _ _ _ _ _ H (ins2_or K)); eauto.
    - inv_eval H v0 s1 Hev. pose proof (IHa _ _ _ Hev H9 Hle) as Hsp. destruct (sp_keep _ _ _ _ Hsp) as (A1 & A2 & A3).
      eapply sp_seq; [exact Hsp|]. eapply unary_safe; eauto using ins1_jmp.
    - inv_eval H v0 s1 Hev. pose proof (IHa _ _ _ Hev H9 Hle) as Hsp. destruct (sp_keep _ _ _ _ Hsp) as (A1 & A2 & A3).
      eapply sp_seq; [exact Hsp|]. eapply unary_safe; eauto using ins1_alu.
    - inv_eval H v0 s1 Hev. pose proof (IHa _ _ _ Hev H9 Hle) as Hsp. destruct (sp_keep _ _ _ _ Hsp) as (A1 & A2 & A3).
      eapply sp_seq; [exact Hsp|]. eapply unary_safe; eauto using ins1_neg.
    - apply IHa; assumption.
    - inv_eval H v0 s1 Hev. pose proof (IHa _ _ _ Hev H9 Hle) as Hsp. destruct (sp_keep _ _ _ _ Hsp) as (A1 & A2 & A3).
      eapply sp_seq; [exact Hsp|]. eapply unary_safe; eauto using ins1_alu.
    - inv_eval H v0 s1 Hev. pose proof (IHa _ _ _ Hev H9 Hle) as Hsp. destruct (sp_keep _ _ _ _ Hsp) as (A1 & A2 & A3).
      eapply sp_seq; [exact Hsp|]. eapply unary_safe; eauto using ins1_alu.
    - inv_eval H x s0 Hx. pose proof (IHc _ _ _ Hx H9 Hle) as Hsx. destruct (sp_keep _ _ _ _ Hsx) as (X1 & X2 & X3).
      inv_eval H l s1 Hl. pose proof (IHa _ _ _ Hl (X1 _ H9) X3) as Hsl. destruct (sp_keep _ _ _ _ Hsl) as (A1 & A2 & A3).
      inv_eval H r s2 Hr. pose proof (IHb _ _ _ Hr (A1 _ (X1 _ H9)) A3) as Hsr. destruct (sp_keep _ _ _ _ Hsr) as (B1 & B2 & B3).
      destruct (pair_sp _ _ _ _ _ Hsx Hsl) as (Q0 & Q1 & Q2 & Q3 & Q4 & Q5).
      destruct (pair_sp _ _ _ _ _ Hsl Hsr) as (P0 & P1 & P2 & P3 & P4 & P5).
      eapply sp_seq; [exact Q0|]. eapply sp_seq; [eapply sp_weak; [exact Hsr|exact Q1]|].
      eapply cond_safe; eauto.
      + intros y Hy. apply B1, Q1, Hy.
      + intros y Hy. destruct (Q2 y Hy). split; [apply B1; assumption|assumption].
      + intros y Hy. destruct (Q3 y Hy). split; [apply B1; assumption|assumption].
      + intros y Hy. destruct (B2 y Hy) as [Ha Hb]. split; [assumption|].
        destruct (c_regs s y) eqn:Hu; [|reflexivity]. apply Q1 in Hu. congruence.
      + intros y Ha Hb. destruct (Q2 y Ha), (B2 y Hb). congruence.
    - discriminate.
    - discriminate.
  Qed.

  (** ** The last instruction of the code of a top-level operator *)
  Definition is_oror (e : expr) : bool := match e with EOrOr _ _ => true | _ => false end.
  Definition last_ok (o : bool) (v : value) (s' : cst) : Prop :=
    exists r t body, v = VMat r t None /\
      (c_code s' = body ++ [IAluR AXor r r] \/ (o = true /\ c_code s' = body ++ [IMovI r 1])).

  Lemma last_to_bool s x v s' o : to_bool K s x = ROk v s' -> last_ok o v s'.
  Proof.
    unfold to_bool. destruct (materialize K s x) as [y s1| |]; cbn [bind]; try discriminate.
    intros H. injection H as <- <-. exists (vreg y), (v_btf y).
    exists (c_code s1 ++ [IJmpI JEq (vreg y) 0 2; IMovI (vreg y) 1; IJa 1]). split; [reflexivity|].
    left. cbn [emit c_code]. rewrite <- app_assoc. reflexivity.
  Qed.
  Lemma last_bin s l r f v s' o : bin_runtime K s l r f = ROk v s' ->
    (forall a b, exists body, f a b = body ++ [IAluR AXor a a] \/ (o = true /\ f a b = body ++ [IMovI a 1])) -> last_ok o v s'.
  Proof.
    unfold bin_runtime. destruct (materialize K s l) as [y s1| |]; cbn [bind]; try discriminate.
    destruct (materialize K s1 r) as [z s2| |]; cbn [bind]; try discriminate.
    intros H Hf. injection H as <- <-. destruct (Hf (vreg y) (vreg z)) as [body Hb].
    exists (vreg y), (v_btf y), (c_code s2 ++ body). split; [reflexivity|]. cbn [cfree emit c_code].
    destruct Hb as [Hb|[Ho Hb]]; rewrite Hb, app_assoc; auto.
  Qed.

  Lemma top_last e s v s' : top_op_ok e = true -> evaluate K e s = ROk v s' -> is_const v = false -> last_ok (is_oror e) v s'.
  Proof.
    intros Ht H Hv. destruct e; try discriminate; cbn [evaluate is_oror] in *.
    - inv_eval H l s1 H1. inv_eval H r s2 H2. unfold cmp_values in H.
      destruct (resolve_enums l r) as [[l1 r1]|]; [|discriminate]. destruct (adjust_nums (cf_env K) l1 r1) as [l2 r2].
      assert (Hg : (let* lv, s3 := materialize K s2 l2 in
          match r2 with
          | VConst n _ =>
              ROk (VMat (vreg lv) (v_btf lv) None)
                  (emit s3 (IJmpI (inv_jop op) (vreg lv) n 2 :: reg2bool (vreg lv)))
          | _ =>
              let* rv, s4 := materialize K s3 r2 in
              let s5 := emit s4 (IJmpR (inv_jop op) (vreg lv) (vreg rv) 2 :: reg2bool (vreg lv)) in
              ROk (VMat (vreg lv) (v_btf lv) None) (cfree s5 (vreg rv))
          end) = ROk v s').
      { destruct l2, r2; try (destruct (negb _); [discriminate|exact H]). injection H as <- <-. discriminate. }
      clear H. destruct (materialize K s2 l2) as [y s3| |]; cbn [bind] in Hg; try discriminate.
      assert (Hl : forall pre n, (v = VMat (vreg y) (v_btf y) None) -> c_code s' = pre ++ (n :: reg2bool (vreg y)) -> last_ok false v s').
      { intros pre n Hq1 Hq2. exists (vreg y), (v_btf y), (pre ++ [n; IMovI (vreg y) 1; IJa 1]). split; [exact Hq1|].
        left. rewrite Hq2, <- app_assoc. reflexivity. }
      destruct (is_const r2) eqn:Hc.
      + destruct r2; try discriminate. injection Hg as <- <-. eapply Hl; reflexivity.
      + assert (Hg' : (let* rv, s4 := materialize K s3 r2 in
              let s5 := emit s4 (IJmpR (inv_jop op) (vreg y) (vreg rv) 2 :: reg2bool (vreg y)) in
              ROk (VMat (vreg y) (v_btf y) None) (cfree s5 (vreg rv))) = ROk v s') by (destruct r2; [discriminate|exact Hg..]).
        destruct (materialize K s3 r2) as [z s4| |]; cbn [bind] in Hg'; try discriminate. injection Hg' as <- <-. eapply Hl; reflexivity.
    - inv_eval H l s1 H1. inv_eval H r s2 H2. unfold andand_values in H.
      destruct (resolve_enums l r) as [[l2 r2]|]; [|discriminate].
      assert (Hb : forall a b : reg, exists body, [IJmpI JEq a 0 3; IJmpI JEq b 0 2] ++ reg2bool a = body ++ [IAluR AXor a a] \/
          false = true /\ [IJmpI JEq a 0 3; IJmpI JEq b 0 2] ++ reg2bool a = body ++ [IMovI a 1]).
      { intros a b. exists [IJmpI JEq a 0 3; IJmpI JEq b 0 2; IMovI a 1; IJa 1]. left. reflexivity. }
      destruct l2, r2; [injection H as <- <-; discriminate|..];
        (destruct (negb _); [discriminate|]);
        try (match type of H with (if ?b then _ else _) = _ => destruct b; [injection H as <- <-; discriminate|] end);
        first [eapply last_to_bool; exact H | eapply last_bin; [exact H|exact Hb]].
    - inv_eval H l s1 H1. inv_eval H r s2 H2. unfold oror_values in H.
      destruct (resolve_enums l r) as [[l2 r2]|]; [|discriminate].
      assert (Hb : forall a b : reg, exists body, [IJmpI JNE a 0 3; IJmpI JNE b 0 2; IAluR AXor a a; IJa 1; IMovI a 1] = body ++ [IAluR AXor a a] \/
          true = true /\ [IJmpI JNE a 0 3; IJmpI JNE b 0 2; IAluR AXor a a; IJa 1; IMovI a 1] = body ++ [IMovI a 1]).
      { intros a b. exists [IJmpI JNE a 0 3; IJmpI JNE b 0 2; IAluR AXor a a; IJa 1]. right. split; reflexivity. }
      destruct l2, r2; [injection H as <- <-; discriminate|..];
        (destruct (negb _); [discriminate|]);
        try (match type of H with (if ?b then _ else _) = _ => destruct b; [injection H as <- <-; discriminate|] end);
        first [eapply last_to_bool; exact H | eapply last_bin; [exact H|exact Hb]].
    - inv_eval H l s1 H1. unfold unary in H. destruct l; [injection H as <- <-; discriminate|..];
        cbn [andb] in H;
        (match type of H with bind ?mm _ = _ => destruct mm as [y s2| |]; cbn [bind] in H; try discriminate end);
        injection H as <- <-; exists (vreg y), (v_btf y);
        exists (c_code s2 ++ [IJmpI JNE (vreg y) 0 2; IMovI (vreg y) 1; IJa 1]);
        (split; [reflexivity|]); left; cbn [emit c_code]; rewrite <- app_assoc; reflexivity.
  Qed.
End Safe3.
