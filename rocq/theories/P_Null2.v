(** * NULL exits, over expressions: following a NULL pointer jumps to the label. *)
From Coq Require Import ZArith List Bool Lia String.
From Verif Require Import M_Ebpf P_Ebpf M_CcNum M_Cc S_CSem S_CSup S_Null P_CcMach P_CcWalk P_CcNumr P_CcMat P_CcVal P_CcOps P_CcOps2 P_CcSim P_CcSim2 P_CcSafe P_CcSafe2 P_CcSafe3 P_Null.
Import ListNotations.
Open Scope Z_scope.

Lemma exec_rg m l : forall x, (6 <= x)%nat -> Forall (fun i => dest i <> Some x) l -> forall k s,
  match exec m l k s with FFall _ s' | FLabel s' | FExit s' => rg s' x = rg s x | FBad => True end.
Proof.
  intros x Hx. induction l as [|i l IH]; intros Hf k s; cbn [exec]; [reflexivity|].
  inversion Hf as [|? ? Hi Hf']; subst. destruct k as [|k]; [|apply IH; assumption].
  assert (Hs : rg (fst (step1 m i s)) x = rg s x).
  { destruct i; cbn [step1 fst dest] in *; try reflexivity; try (apply rg_setr_neq; intros ->; apply Hi; reflexivity).
    - unfold store. destruct (Nat.eqb d RFP); reflexivity.
    - unfold do_probe_read, write_at. destruct (all_mapped _ _ _), (_ <=? _); cbn [clobber rg];
        (destruct (Nat.eqb_spec x 0); [lia|]); (destruct (Nat.leb_spec x 5); [lia|]); reflexivity.
    - unfold do_probe_read_str, write_at. destruct (all_mapped _ _ _), (_ <=? _); cbn [clobber rg];
        (destruct (Nat.eqb_spec x 0); [lia|]); (destruct (Nat.leb_spec x 5); [lia|]); reflexivity.
    - cbn [clobber rg]. destruct (Nat.eqb_spec x 0); [lia|].
      destruct (Nat.leb_spec x (if fast then 2 else 5)%nat); [destruct fast; lia|]. reflexivity. }
  destruct (step1 m i s) as [s1 [|off| |]]; cbn [fst] in Hs; try exact Hs.
  - specialize (IH Hf' O s1). destruct (exec m l 0 s1); congruence.
  - destruct (off <? 0); [exact I|]. specialize (IH Hf' (Z.to_nat off) s1). destruct (exec m l (Z.to_nat off) s1); congruence.
Qed.

Section Null2.
  Variables (K : cfg) (C : cenv) (m : mach) (A : Z).
  Hypothesis Hmap : forall a, ce_map C a = true -> mapped m a = true.
  Hypothesis HE : ce_bt C = cf_env K.
  Hypothesis HV : ce_vars C = cf_vars K.
  Hypothesis Hslot : forall i, (i < List.length (cf_vars K))%nat ->
    Z.of_nat i * 8 < 2 ^ 15 /\ rd C (A + Z.of_nat i * 8) 8 = Some (ce_slot C i).
  Notation nowr := (nowr K).
  Notation Sok := (Sok K).
  Notation pre := (pre C A).
  Notation vnull := (vnull K C).
  Notation sp := (sp K).

  Definition keeps (U : reg -> bool) (ms ms' : mst) : Prop :=
    (forall x, (6 <= x)%nat -> U x = true -> rg ms' x = rg ms x) /\ rg ms' RFP = rg ms RFP /\ ker ms' = ker ms.
  Lemma keeps_pre (U : reg -> bool) ms ms' : U 9%nat = true -> keeps U ms ms' -> pre ms -> pre ms'.
  Proof.
    intros H9 (H1 & _ & H2) [Ha Hb]. split; [|rewrite H2; exact Hb]. rewrite <- Ha. apply H1; [unfold R9; lia|exact H9].
  Qed.
  Lemma safe_keeps U z d ms : safe z d -> dst U d -> exists ms', (exec m d 0 ms = FFall 0 ms' \/ exec m d 0 ms = FLabel ms') /\ keeps U ms ms'.
  Proof.
    intros [_ Hs] Hd. destruct (Hs m ms) as (ms' & He & [Hk _] & Hf). exists ms'. split; [exact He|]. split; [|auto].
    intros x Hx Hu. assert (Hn : Forall (fun i => dest i <> Some x) d).
    { eapply Forall_impl; [|exact Hd]. cbv beta. intros i Hi Hc. specialize (Hi x Hc). congruence. }
    pose proof (exec_rg m d x Hx Hn 0%nat ms) as Hr. destruct He as [E|E]; rewrite E in Hr; exact Hr.
  Qed.

  (** Between s and s', execution has jumped to the label, or Q. *)
  Definition N (s s' : cst) (Q : Prop) : Prop :=
    forall d, c_code s' = c_code s ++ d -> Z.of_nat (List.length d) < 2 ^ 15 -> nowr d -> Sok s -> forall ms, pre ms ->
    (exists ms', exec m d 0 ms = FLabel ms') \/ Q.
  Definition ext (s s' : cst) : Prop := exists d, c_code s' = c_code s ++ d.
  Lemma ext_trans a b c : ext a b -> ext b c -> ext a c.
  Proof. intros [d Hd] [e He]. exists (d ++ e). rewrite He, Hd, app_assoc. reflexivity. Qed.
  Lemma sp_ext U s v s' : sp U s v s' -> ext s s'.
  Proof. intros (d & H & _). exists d. exact H. Qed.
  Lemma N_l s s1 s2 Q : ext s s1 -> N s s1 Q -> ext s1 s2 -> N s s2 Q.
  Proof.
    intros [d1 H1] H [d2 H2] d Hd Hl Hn Hs ms Hp.
    assert (d = d1 ++ d2) as -> by (apply (app_inv_head (c_code s)); rewrite <- Hd, H2, H1, app_assoc; reflexivity).
    rewrite app_length in Hl.
    destruct (H d1 H1 ltac:(lia) (nowr_l _ _ _ Hn) Hs ms Hp) as [[ms' He]|Hq]; [|right; exact Hq].
    left. exists ms'. rewrite exec_app, He. reflexivity.
  Qed.
  Lemma N_r (U : reg -> bool) s x s1 s2 Q : sp U s x s1 -> U 9%nat = true -> ext s1 s2 -> N s1 s2 Q -> N s s2 Q.
  Proof.
    intros (d1 & H1 & _ & _ & _ & _ & H6 & H7) H9 [d2 H2] H d Hd Hl Hn Hs ms Hp.
    assert (d = d1 ++ d2) as -> by (apply (app_inv_head (c_code s)); rewrite <- Hd, H2, H1, app_assoc; reflexivity).
    rewrite app_length in Hl. destruct H6 as [_ Hsafe]; [lia|]. destruct (H7 (nowr_l _ _ _ Hn) Hs) as [Hs1 Hdst].
    destruct (safe_keeps U _ d1 ms Hsafe Hdst) as (ms1 & [E|E] & Hk).
    - rewrite exec_app, E. apply (H d2 H2 ltac:(lia) (nowr_r _ _ _ Hn) Hs1 ms1). eapply keeps_pre; eauto.
    - left. exists ms1. rewrite exec_app, E. reflexivity.
  Qed.
  Lemma N_bind (U : reg -> bool) s x s1 s2 (Q1 Q2 : Prop) : sp U s x s1 -> U 9%nat = true -> ext s1 s2 -> N s s1 Q1 -> (Q1 -> N s1 s2 Q2) -> N s s2 Q2.
  Proof.
    intros Hsp H9 He H Hq d Hd Hl Hn Hs ms Hp.
    destruct (sp_ext _ _ _ _ Hsp) as [d1 H1]. pose proof He as [d2 H2].
    assert (Hdd : d = d1 ++ d2) by (apply (app_inv_head (c_code s)); rewrite <- Hd, H2, H1, app_assoc; reflexivity).
    rewrite Hdd in Hl, Hn. rewrite app_length in Hl.
    destruct (H d1 H1 ltac:(lia) (nowr_l _ _ _ Hn) Hs ms Hp) as [[ms' E]|Q].
    - left. exists ms'. rewrite Hdd, exec_app, E. reflexivity.
    - rewrite <- Hdd in Hn. apply (N_r U s x s1 s2 Q2 Hsp H9 He (Hq Q) d Hd); auto. rewrite Hdd, app_length. lia.
  Qed.
  Lemma N_map s s' (P Q : Prop) : N s s' P -> (P -> Q) -> N s s' Q.
  Proof. intros H Hpq d Hd Hl Hn Hs ms Hp. destruct (H d Hd Hl Hn Hs ms Hp); auto. Qed.
  Lemma N_same s (Q : Prop) : (Sok s -> forall ms, pre ms -> Q) -> N s s Q.
  Proof. intros H d _ _ _ Hs ms Hp. right. eauto. Qed.

  Lemma N_matL s l lv s1 s' Q : materialize K s l = ROk lv s1 -> vnull l -> ext s1 s' -> N s s' Q.
  Proof.
    intros H Hv He. destruct (mat_null K C m A Hmap Hslot s l lv s1 H Hv) as (d & Hd & Hx).
    apply (N_l s s1 s'); [exists d; exact Hd| |exact He].
    intros d' Hd' _ Hn Hs ms Hp. assert (d' = d) as -> by (apply (app_inv_head (c_code s)); congruence).
    destruct (Hx Hn Hs ms Hp) as (ms' & E & _). left. exists ms'. exact E.
  Qed.
  Lemma N_matR (U : reg -> bool) s l lv s1 r rv s2 s' Q : materialize K s l = ROk lv s1 -> materialize K s1 r = ROk rv s2 -> vnull r ->
    keep U s -> keepv U s l -> le9 s -> U 9%nat = true -> ext s2 s' -> N s s' Q.
  Proof.
    intros Hl Hr Hv Hk Hkv Hle H9 He. pose proof (sp_ret K U s l lv s1 Hl Hk Hkv Hle H9) as Hsp.
    destruct (mat_null K C m A Hmap Hslot s1 r rv s2 Hr Hv) as (d & Hd & _).
    eapply N_r; [exact Hsp|exact H9| |eapply N_matL; eauto]. eapply ext_trans; [exists d; exact Hd|exact He].
  Qed.
  Lemma ext_emit s d : ext s (emit s d). Proof. exists d. reflexivity. Qed.
  Lemma ext_free s d r : ext s (cfree (emit s d) r). Proof. exists d. reflexivity. Qed.
  Lemma ext_refl s : ext s s. Proof. exists []. rewrite app_nil_r. reflexivity. Qed.
  Hint Resolve ext_emit ext_free ext_refl : core.

  Lemma vnull_pend v : vnull v -> exists b offs t mm, v = VPend b offs t mm.
  Proof. intros (b & offs & t & mm & -> & _). eauto. Qed.
  Lemma addc_null b offs t mm n v : add_const_pending (cf_env K) b offs t mm n = Some v -> vnull (VPend b offs t mm) -> vnull v.
  Proof.
    intros H (b' & offs' & t' & mm' & Heq & Hb & Hw). inversion Heq; subst b' offs' t' mm'; clear Heq.
    unfold add_const_pending in H. destruct (n =? 0); [inversion H; subst; exists b, offs, t, mm; auto|].
    assert (Hgo : forall off rt, Some (VPend b (offs ++ [{| o_off := off; o_deref := false; o_btf := rt; o_prev := prev_btf offs; o_inarr := false; o_bf := false |}]) t None) = Some v -> vnull v).
    { intros off rt Hv. inversion Hv; subst v. do 4 eexists. split; [reflexivity|]. split; [exact Hb|]. apply wnull_app, Hw. }
    destruct t as [u|]; [|eapply Hgo; eauto].
    destruct (under u); try (eapply Hgo; eauto; fail).
    - destruct (under t); try (eapply Hgo; eauto; fail); (destruct (sizeof0 _ _ =? 0); [discriminate|eapply Hgo; eauto]).
    - destruct (sizeof0 _ _ =? 0); [discriminate|eapply Hgo; eauto].
  Qed.

  Lemma run_null l r f s v s' (U : reg -> bool) : bin_runtime K s l r f = ROk v s' -> vnull l \/ vnull r ->
    keep U s -> keepv U s l -> le9 s -> U 9%nat = true -> N s s' (vnull v).
  Proof.
    intros H Hn Hk Hkv Hle H9. unfold bin_runtime in H.
    destruct (materialize K s l) as [lv s1| |] eqn:Hl; cbn [bind] in H; try discriminate.
    destruct (materialize K s1 r) as [rv s2| |] eqn:Hr; cbn [bind] in H; try discriminate.
    inversion H; subst. destruct Hn as [Hn|Hn].
    - eapply N_matL; [exact Hl|exact Hn|]. destruct (mat_ok K C m A Hmap Hslot _ _ _ _ Hr) as (q & d & _ & Hd & _).
      eapply ext_trans; [exists d; exact Hd|auto].
    - eapply (N_matR U); eauto.
  Qed.
  Lemma scale_null l r f s v s' (U : reg -> bool) : (let* lv, s1 := materialize K s l in
        let* rv, s2 := materialize K s1 r in
        let s3 := emit s2 (f (v_btf lv) (vreg lv) (vreg rv)) in ROk (VMat (vreg lv) (v_btf lv) None) (cfree s3 (vreg rv))) = ROk v s' -> vnull l \/ vnull r ->
    keep U s -> keepv U s l -> le9 s -> U 9%nat = true -> N s s' (vnull v).
  Proof.
    intros H Hn Hk Hkv Hle H9.
    destruct (materialize K s l) as [lv s1| |] eqn:Hl; cbn [bind] in H; try discriminate.
    destruct (materialize K s1 r) as [rv s2| |] eqn:Hr; cbn [bind] in H; try discriminate.
    inversion H; subst. destruct Hn as [Hn|Hn].
    - eapply N_matL; [exact Hl|exact Hn|]. destruct (mat_ok K C m A Hmap Hslot _ _ _ _ Hr) as (q & d & _ & Hd & _).
      eapply ext_trans; [exists d; exact Hd|auto].
    - eapply (N_matR U); eauto.
  Qed.
  Lemma un_null l f s v s' : (let* lv, s1 := materialize K s l in f lv s1) = ROk v s' -> (forall lv s1, f lv s1 = ROk v s' -> ext s1 s') -> vnull l -> N s s' (vnull v).
  Proof.
    intros H He Hn. destruct (materialize K s l) as [lv s1| |] eqn:Hl; cbn [bind] in H; try discriminate.
    eapply N_matL; [exact Hl|exact Hn|]. eapply He, H.
  Qed.

  Lemma bin_null op s l0 r0 v s' (U : reg -> bool) : bin_values K op s l0 r0 = ROk v s' -> vnull l0 \/ vnull r0 ->
    keep U s -> keepv U s l0 -> le9 s -> U 9%nat = true -> N s s' (vnull v).
  Proof.
    intros H Hn Hk Hkv Hle H9. unfold bin_values in H.
    destruct (resolve_enums l0 r0) as [[l r]|] eqn:Hre; [|discriminate].
    assert (Hn' : vnull l \/ vnull r).
    { destruct Hn as [Hn|Hn]; destruct (vnull_pend _ Hn) as (b & offs & t & mm & ->); unfold resolve_enums in Hre.
      - left. destruct r0; cbn [runtime is_mat is_pend orb] in Hre; try (inversion Hre; subst; exact Hn).
        destruct (extract_enum _ _); [|discriminate]. inversion Hre; subst. exact Hn.
      - right. destruct l0; cbn [runtime is_mat is_pend orb] in Hre; try (inversion Hre; subst; exact Hn).
        destruct (extract_enum _ _); [|discriminate]. inversion Hre; subst. exact Hn. }
    destruct (resolve_vregs _ _ _ _ Hre) as [Hvl _]. assert (Hkl := keepv_of _ _ _ _ Hvl Hkv).
    clear Hre Hn Hkv.
    match type of H with (if ?b then _ else _) = _ => destruct b; [discriminate|] end.
    assert (Hadd : forall b offs t mm n, of_opt (add_const_pending (cf_env K) b offs t mm n) s = ROk v s' -> vnull (VPend b offs t mm) -> N s s' (vnull v)).
    { intros b offs t mm n Ha Hp. destruct (add_const_pending _ _ _ _ _ _) as [w|] eqn:Hw; cbn [of_opt] in Ha; [|discriminate].
      inversion Ha; subst. apply N_same. intros _ _ _. eapply addc_null; eauto. }
    destruct Hn' as [Hn|Hn]; destruct (vnull_pend _ Hn) as (b & offs & t & mm & ->).
    - destruct (negb (operands_ok (VPend b offs t mm) r)) eqn:Hok.
      { destruct op, r; discriminate. }
      destruct op, r; try (eapply Hadd; eauto; fail); try (eapply run_null; eauto; fail); try (eapply (scale_null _ _ (fun t a b => scale_code (cf_env K) t b ++ [IAluR AAdd a b])); eauto; fail); try (eapply (scale_null _ _ (fun t a b => scale_code (cf_env K) t b ++ [IAluR ASub a b])); eauto; fail);
        (eapply un_null; [exact H| |exact Hn]; cbv beta; intros lv s1 H1;
         try (destruct (_ <? 0); [discriminate|]; destruct (_ =? 0)); inversion H1; subst; auto).
    - destruct (negb (operands_ok l (VPend b offs t mm))) eqn:Hok.
      { destruct op, l; discriminate. }
      destruct op, l; try (eapply Hadd; eauto; fail); try (eapply run_null; eauto; fail); try (eapply (scale_null _ _ (fun t a b => scale_code (cf_env K) t b ++ [IAluR AAdd a b])); eauto; fail); try (eapply (scale_null _ _ (fun t a b => scale_code (cf_env K) t b ++ [IAluR ASub a b])); eauto; fail).
  Qed.

  Lemma cmp_null op s l0 r0 v s' (U : reg -> bool) : cmp_values K op s l0 r0 = ROk v s' -> vnull l0 \/ vnull r0 ->
    keep U s -> keepv U s l0 -> le9 s -> U 9%nat = true -> N s s' (vnull v).
  Proof.
    intros H Hn Hk Hkv Hle H9. unfold cmp_values in H.
    destruct (resolve_enums l0 r0) as [[l1 r1]|] eqn:Hre; [|discriminate].
    assert (Hn1 : vnull l1 \/ vnull r1).
    { destruct Hn as [Hn|Hn]; destruct (vnull_pend _ Hn) as (b & offs & t & mm & ->); unfold resolve_enums in Hre.
      - left. destruct r0; cbn [runtime is_mat is_pend orb] in Hre; try (inversion Hre; subst; exact Hn).
        destruct (extract_enum _ _); [|discriminate]. inversion Hre; subst. exact Hn.
      - right. destruct l0; cbn [runtime is_mat is_pend orb] in Hre; try (inversion Hre; subst; exact Hn).
        destruct (extract_enum _ _); [|discriminate]. inversion Hre; subst. exact Hn. }
    destruct (resolve_vregs _ _ _ _ Hre) as [Hvl _]. assert (Hkl := keepv_of _ _ _ _ Hvl Hkv). clear Hre Hn Hkv Hvl.
    destruct (adjust_nums (cf_env K) l1 r1) as [l r] eqn:Hadj.
    destruct (adjust_vregs _ _ _ _ _ Hadj) as (Hvl & Hvr & _). assert (Hkl' := keepv_of _ _ _ _ Hvl Hkl). clear Hkl Hvl Hvr.
    assert (Hn : vnull l \/ vnull r).
    { destruct Hn1 as [Hn|Hn]; destruct (vnull_pend _ Hn) as (b & offs & t & mm & ->); unfold adjust_nums in Hadj.
      - left. destruct r1; inversion Hadj; subst; exact Hn.
      - right. destruct l1; inversion Hadj; subst; exact Hn. }
    clear Hn1 Hadj.
    assert (H' : (let* lv, s1 := materialize K s l in
          match r with
          | VConst n _ => ROk (VMat (vreg lv) (v_btf lv) None) (emit s1 (IJmpI (inv_jop op) (vreg lv) n 2 :: reg2bool (vreg lv)))
          | _ => let* rv, s2 := materialize K s1 r in
              let s3 := emit s2 (IJmpR (inv_jop op) (vreg lv) (vreg rv) 2 :: reg2bool (vreg lv)) in
              ROk (VMat (vreg lv) (v_btf lv) None) (cfree s3 (vreg rv))
          end) = ROk v s').
    { destruct Hn as [Hn|Hn]; destruct (vnull_pend _ Hn) as (b & offs & t & mm & ->).
      - destruct r; (destruct (negb (operands_ok _ _)); [discriminate|exact H]).
      - destruct l; (destruct (negb (operands_ok _ _)); [discriminate|exact H]). }
    clear H. destruct (materialize K s l) as [lv s1| |] eqn:Hl; cbn [bind] in H'; try discriminate.
    assert (He : ext s1 s').
    { destruct r; try (inversion H'; subst; auto; fail);
        (match type of H' with bind ?x _ = _ => destruct x as [rv s2| |] eqn:Hr end; cbn [bind] in H'; try discriminate; inversion H'; subst;
         destruct (mat_ok K C m A Hmap Hslot _ _ _ _ Hr) as (q & d & _ & Hd & _); eapply ext_trans; [exists d; exact Hd|auto]). }
    destruct Hn as [Hn|Hn]; [eapply N_matL; eauto|].
    destruct (vnull_pend _ Hn) as (b & offs & t & mm & ->).
    match type of H' with bind ?x _ = _ => destruct x as [rv s2| |] eqn:Hr end; cbn [bind] in H'; try discriminate. inversion H'; subst.
    eapply (N_matR U); eauto.
  Qed.
  Lemma logic_null s l r f v s' (U : reg -> bool) : vnull l /\ runtime r = true \/ runtime l = true /\ vnull r ->
    (f s l r = andand_values K s l r \/ f s l r = oror_values K s l r) -> f s l r = ROk v s' ->
    keep U s -> keepv U s l -> le9 s -> U 9%nat = true -> N s s' (vnull v).
  Proof.
    intros Hn Hf H Hk Hkv Hle H9.
    assert (Hr : runtime l = true /\ runtime r = true /\ (vnull l \/ vnull r)).
    { destruct Hn as [[Hn Hr]|[Hr Hn]]; destruct (vnull_pend _ Hn) as (b & offs & t & mm & ->); auto. }
    destruct Hr as (Hrl & Hrr & Hn').
    assert (Hg : exists g, bin_runtime K s l r g = ROk v s').
    { destruct Hf as [Hf|Hf]; rewrite Hf in H; [unfold andand_values in H|unfold oror_values in H];
        destruct l, r; try discriminate; cbn [resolve_enums] in H;
        (destruct (negb (operands_ok _ _)); [discriminate|]); eexists; exact H. }
    destruct Hg as [g Hg]. eapply run_null; eauto.
  Qed.
  Lemma unary_null s v0 k chk f v s' : unary K s v0 k chk f = ROk v s' -> vnull v0 -> N s s' (vnull v).
  Proof.
    intros H Hn. destruct (vnull_pend _ Hn) as (b & offs & t & mm & ->). cbn [unary] in H.
    destruct (_ && _); [discriminate|]. eapply un_null; [exact H| |exact Hn]. cbv beta. intros lv s1 H1. inversion H1; subst; auto.
  Qed.

  Ltac inv_eval H v s1 Hev :=
    match type of H with
    | bind (evaluate K ?a ?s) _ = _ =>
        destruct (evaluate K a s) as [v s1| |] eqn:Hev; cbn [bind] in H; [|discriminate|discriminate]
    end.
  Ltac inv_opt H v Hv :=
    match type of H with
    | of_opt ?o _ = _ => destruct o as [v|] eqn:Hv; cbn [of_opt] in H; [|discriminate]; injection H as <- <-
    end.

  (** ** Values that are not known at compile time *)
  Lemma lookup_same vs x i : lookup_var vs x i = var_index vs x i.
  Proof. revert i; induction vs as [|[y t] vs IH]; intros i; cbn [lookup_var var_index]; [reflexivity|]. destruct (String.eqb x y); auto. Qed.
  Lemma bin_rt op s l r v s' : bin_values K op s l r = ROk v s' -> runtime l = true \/ runtime r = true -> runtime v = true.
  Proof.
    intros H Hr. unfold bin_values in H. destruct (resolve_enums l r) as [[l1 r1]|] eqn:Hre; [|discriminate].
    assert (Hr1 : runtime l1 = true \/ runtime r1 = true).
    { unfold resolve_enums in Hre. destruct Hr as [Hr|Hr].
      - destruct l; try discriminate; destruct r; cbn [runtime is_mat is_pend orb] in Hre; try (inversion Hre; subst; auto);
          (destruct (extract_enum _ _); [|discriminate]); inversion Hre; subst; auto.
      - destruct r; try discriminate; destruct l; cbn [runtime is_mat is_pend orb] in Hre; try (inversion Hre; subst; auto);
          (destruct (extract_enum _ _); [|discriminate]); inversion Hre; subst; auto. }
    match type of H with (if ?b then _ else _) = _ => destruct b; [discriminate|] end.
    assert (Hadd : forall b offs t mm n, of_opt (add_const_pending (cf_env K) b offs t mm n) s = ROk v s' -> runtime v = true).
    { intros b offs t mm n Ha. destruct (add_const_pending _ _ _ _ _ _) as [w|] eqn:Hw; cbn [of_opt] in Ha; [|discriminate].
      inversion Ha; subst. unfold add_const_pending in Hw. destruct (n =? 0); [inversion Hw; reflexivity|].
      destruct t as [u|]; [|inversion Hw; reflexivity]. destruct (under u); try (inversion Hw; reflexivity).
      - destruct (under t); try (inversion Hw; reflexivity); (destruct (sizeof0 _ _ =? 0); [discriminate|inversion Hw; reflexivity]).
      - destruct (sizeof0 _ _ =? 0); [discriminate|inversion Hw; reflexivity]. }
    assert (Hmat : forall x s1 w, materialize K s1 x = ROk w s' -> runtime w = true).
    { intros x s1 w Hm. destruct (mat_ok K C m A Hmap Hslot _ _ _ _ Hm) as (q & d & -> & _). reflexivity. }
    assert (Hrun : forall f, bin_runtime K s l1 r1 f = ROk v s' -> runtime v = true).
    { intros f Hb. unfold bin_runtime in Hb.
      destruct (materialize K s l1) as [lv s1| |]; cbn [bind] in Hb; try discriminate.
      destruct (materialize K s1 r1) as [rv s2| |]; cbn [bind] in Hb; try discriminate. inversion Hb; reflexivity. }
    destruct l1, r1; try (destruct Hr1; discriminate);
      (match type of H with (if negb ?o then _ else _) = _ => destruct (negb o); [discriminate|] end;
       destruct op; try (eapply Hrun; exact H); try (eapply Hadd; exact H);
       repeat (match type of H with bind ?x _ = _ => destruct x as [? ?| |] eqn:?; cbn [bind] in H; try discriminate end);
       try (inversion H; reflexivity); 
       (destruct (_ <? 0) in H; [discriminate|]; destruct (_ =? 0) in H; inversion H; subst; try reflexivity; eapply Hmat; eauto)).
  Qed.

  Lemma cmp_rt op s l r v s' : cmp_values K op s l r = ROk v s' -> runtime l = true \/ runtime r = true -> runtime v = true.
  Proof.
    intros H Hr. unfold cmp_values in H. destruct (resolve_enums l r) as [[l1 r1]|] eqn:Hre; [|discriminate].
    assert (Hr1 : runtime l1 = true \/ runtime r1 = true).
    { unfold resolve_enums in Hre. destruct Hr as [Hr|Hr].
      - destruct l; try discriminate; destruct r; cbn [runtime is_mat is_pend orb] in Hre; try (inversion Hre; subst; auto);
          (destruct (extract_enum _ _); [|discriminate]); inversion Hre; subst; auto.
      - destruct r; try discriminate; destruct l; cbn [runtime is_mat is_pend orb] in Hre; try (inversion Hre; subst; auto);
          (destruct (extract_enum _ _); [|discriminate]); inversion Hre; subst; auto. }
    destruct (adjust_nums (cf_env K) l1 r1) as [l2 r2] eqn:Hadj.
    assert (Hr2 : runtime l2 = true \/ runtime r2 = true).
    { unfold adjust_nums in Hadj. destruct Hr1 as [Hr1|Hr1]; destruct l1, r1; try discriminate; inversion Hadj; subst; auto. }
    destruct l2, r2; try (destruct Hr2; discriminate); (destruct (negb (operands_ok _ _)); [discriminate|]);
       repeat (match type of H with bind ?x _ = _ => destruct x as [? ?| |] eqn:?; cbn [bind] in H; try discriminate end); inversion H; reflexivity.
  Qed.
  Lemma logic_rt f s l r v s' : f s l r = andand_values K s l r \/ f s l r = oror_values K s l r -> f s l r = ROk v s' ->
    runtime l = true -> runtime r = true -> runtime v = true.
  Proof.
    intros Hf H Hl Hr. destruct Hf as [Hf|Hf]; rewrite Hf in H; [unfold andand_values in H|unfold oror_values in H];
      destruct l, r; try discriminate; cbn [resolve_enums] in H; (destruct (negb (operands_ok _ _)); [discriminate|]);
      unfold bin_runtime in H;
      repeat (match type of H with bind ?x _ = _ => destruct x as [? ?| |] eqn:?; cbn [bind] in H; try discriminate end); inversion H; reflexivity.
  Qed.
  Lemma unary_rt s v0 k chk f v s' : unary K s v0 k chk f = ROk v s' -> runtime v0 = true -> runtime v = true.
  Proof.
    intros H Hr. destruct v0; try discriminate; cbn [unary] in H; (destruct (_ && _); [discriminate|]);
      repeat (match type of H with bind ?x _ = _ => destruct x as [? ?| |] eqn:?; cbn [bind] in H; try discriminate end); inversion H; reflexivity.
  Qed.
  Lemma acc_rt v x a w : access_member K v x a = Some w -> runtime w = true.
  Proof.
    unfold access_member. intros H. destruct (is_bf _); [discriminate|]. destruct (v_btf v); [|discriminate].
    destruct (if a then _ else _) in H; [|discriminate]. destruct (find_member _ _ _) as [[? ?]|]; [|discriminate].
    destruct v as [|b [|? ?]| |], a; inversion H; reflexivity.
  Qed.
  Lemma rt_expr e : forall s v s', evaluate K e s = ROk v s' -> runtime_expr K e = true -> runtime v = true.
  Proof.
    induction e as [x|txt|a IHa name|a IHa name|a IHa i IHi|a IHa|a IHa|ct a IHa|a IHa|op a IHa b IHb|op a IHa b IHb
      |a IHa b IHb|a IHa b IHb|a IHa|a IHa|a IHa|a IHa|a IHa|a IHa|c IHc a IHa b IHb|f IHf args|];
      intros s v s' H Hrt; [| | | | | | |pose proof H as H0| | | | | | | | | | | | | |]; cbn [evaluate runtime_expr] in H, Hrt.
    - injection H as <- <-. unfold eval_name. apply andb_prop in Hrt as [H1 H2]. apply negb_true_iff in H1.
      apply orb_false_iff in H1 as [H1 H3]. rewrite H1, H3. rewrite lookup_same in H2.
      destruct (var_index _ _ _) as [[i t]|]; [reflexivity|discriminate].
    - discriminate.
    - inv_eval H v0 s1 Hev.
      assert (H' : of_opt (access_member K v0 name true) s1 = ROk v s') by (destruct v0; [exact H|exact H|exact H|discriminate]).
      inv_opt H' v2 Hac. eapply acc_rt; eauto.
    - inv_eval H v0 s1 Hev.
      assert (H' : of_opt (access_member K v0 name false) s1 = ROk v s') by (destruct v0; [exact H|exact H|exact H|discriminate]).
      inv_opt H' v2 Hac. eapply acc_rt; eauto.
    - inv_eval H v0 s1 Hev. destruct (is_bf (v_mem v0)) eqn:Hbf; [discriminate|].
      destruct i as [|txt| | | | | | | | | | | | | | | | | | | |]; try discriminate.
      destruct (parse_number txt) as [n|] eqn:Hpn; [|discriminate].
      inv_opt H v2 Hac. unfold index_value in Hac. destruct (v_btf v0); [|discriminate].
      destruct (match under _ with TPtr u => _ | _ => _ end) as [[? ?]|]; [|discriminate].
      destruct (_ =? 0); [discriminate|]. destruct v0; inversion Hac; reflexivity.
    - inv_eval H v0 s1 Hev. inv_opt H v2 Hac.
      unfold indir_value in Hac. destruct (is_bf _); [discriminate|]. destruct (v_btf v0); [|discriminate].
      destruct (under _); try discriminate. destruct v0; inversion Hac; reflexivity.
    - inv_eval H v0 s1 Hev. inv_opt H v2 Hac.
      unfold addr_value in Hac. destruct v0 as [|b [|? ?] [?|] ?| |]; inversion Hac; reflexivity.
    - destruct (is_num a) eqn:Hna.
      + destruct a as [|txt| | | | | | | | | | | | | | | | | | | |]; try discriminate.
        destruct (parse_unsigned txt) as [n|] eqn:Hpu; [|discriminate].
        destruct (cc2btf (cf_env K) ct) as [t|] eqn:Hct; [|discriminate]. injection H as <- <-. reflexivity.
      + rewrite (eval_cast K ct a s Hna) in H0. inv_eval H0 v0 s1 Hev.
        destruct (cc2btf (cf_env K) ct) as [t|]; [|discriminate]. injection H0 as <- <-.
        assert (Hra : runtime v0 = true) by (eapply IHa; [exact Hev|destruct a; try exact Hrt; discriminate]).
        destruct v0; try discriminate; reflexivity.
    - eapply IHa; eauto.
    - inv_eval H l s1 Hl. inv_eval H r s2 Hr. eapply bin_rt; [exact H|]. apply orb_prop in Hrt as [Hrt|Hrt]; eauto.
    - inv_eval H l s1 Hl. inv_eval H r s2 Hr. eapply cmp_rt; [exact H|]. apply orb_prop in Hrt as [Hrt|Hrt]; eauto.
    - inv_eval H l s1 Hl. inv_eval H r s2 Hr. apply andb_prop in Hrt as [H1 H2].
      eapply (logic_rt (andand_values K)); [left; reflexivity|exact H|eauto|eauto].
    - inv_eval H l s1 Hl. inv_eval H r s2 Hr. apply andb_prop in Hrt as [H1 H2].
      eapply (logic_rt (oror_values K)); [right; reflexivity|exact H|eauto|eauto].
    - inv_eval H v0 s1 Hev. eapply unary_rt; eauto.
    - inv_eval H v0 s1 Hev. eapply unary_rt; eauto.
    - inv_eval H v0 s1 Hev. eapply unary_rt; eauto.
    - eapply IHa; eauto.
    - inv_eval H v0 s1 Hev. eapply unary_rt; eauto.
    - inv_eval H v0 s1 Hev. eapply unary_rt; eauto.
    - inv_eval H x s0 Hx. inv_eval H l s1 Hl. inv_eval H r s2 Hr. pose proof (IHc _ _ _ Hx Hrt) as Hc.
      unfold cond_values in H. destruct (negb _); [discriminate|].
      destruct x; try discriminate;
        repeat (match type of H with bind ?x _ = _ => destruct x as [? ?| |] eqn:?; cbn [bind] in H; try discriminate end); inversion H; reflexivity.
    - discriminate.
    - discriminate.
  Qed.

  (** ** Paths *)
  Lemma path_pure e : forall s v s', path e = true -> evaluate K e s = ROk v s' -> s' = s /\ vregs v = [].
  Proof.
    induction e as [x|txt|a IHa name|a IHa name|a IHa i IHi|a IHa|a IHa|ct a IHa|a IHa|op a IHa b IHb|op a IHa b IHb
      |a IHa b IHb|a IHa b IHb|a IHa|a IHa|a IHa|a IHa|a IHa|a IHa|c IHc a IHa b IHb|f IHf args|];
      intros s v s' Hp H; [| | | | | | |pose proof H as H0| | | | | | | | | | | | | |]; cbn [evaluate path] in H, Hp; try discriminate.
    - injection H as <- <-. split; [reflexivity|]. unfold eval_name. destruct (_ || _); [reflexivity|]. destruct (String.eqb x "true"); [reflexivity|].
        destruct (var_index (cf_vars K) x 0) as [[i t]|]; reflexivity.
    - inv_eval H v0 s1 Hev.
      assert (H' : of_opt (access_member K v0 name true) s1 = ROk v s') by (destruct v0; [exact H|exact H|exact H|discriminate]).
      clear H. inv_opt H' v2 Hac. destruct (IHa _ _ _ Hp Hev) as [-> Hvr]. split; [reflexivity|]. rewrite <- Hvr.
      unfold access_member in Hac. destruct (is_bf _); [discriminate|]. destruct (v_btf v0); [|discriminate].
      destruct (under _); try discriminate. destruct (find_member _ _ _) as [[? ?]|]; [|discriminate].
      destruct v0 as [| [| |] | |]; inversion Hac; reflexivity.
    - inv_eval H v0 s1 Hev.
      assert (H' : of_opt (access_member K v0 name false) s1 = ROk v s') by (destruct v0; [exact H|exact H|exact H|discriminate]).
      clear H. inv_opt H' v2 Hac. destruct (IHa _ _ _ Hp Hev) as [-> Hvr]. split; [reflexivity|]. rewrite <- Hvr.
      unfold access_member in Hac. destruct (is_bf _); [discriminate|]. destruct (v_btf v0); [|discriminate].
      destruct (find_member _ _ _) as [[? ?]|]; [|discriminate].
      destruct v0 as [|[| |] [|? ?]| |]; inversion Hac; reflexivity.
    - inv_eval H v0 s1 Hev. destruct (is_bf (v_mem v0)) eqn:Hbf; [discriminate|].
      destruct i as [|txt| | | | | | | | | | | | | | | | | | | |]; try discriminate.
      destruct (parse_number txt) as [n|] eqn:Hpn; [|discriminate].
      inv_opt H v2 Hac. destruct (IHa _ _ _ Hp Hev) as [-> Hvr]. split; [reflexivity|]. rewrite <- Hvr.
      unfold index_value in Hac. destruct (v_btf v0); [|discriminate].
      destruct (match under _ with TPtr u => _ | _ => _ end) as [[? ?]|]; [|discriminate].
      destruct (_ =? 0); [discriminate|]. destruct v0 as [|[| |] ?| |]; inversion Hac; reflexivity.
    - inv_eval H v0 s1 Hev. inv_opt H v2 Hac. destruct (IHa _ _ _ Hp Hev) as [-> Hvr]. split; [reflexivity|]. rewrite <- Hvr.
      unfold indir_value in Hac. destruct (is_bf _); [discriminate|]. destruct (v_btf v0); [|discriminate].
      destruct (under _); try discriminate. destruct v0 as [|[| |] ?| |]; inversion Hac; reflexivity.
    - inv_eval H v0 s1 Hev. inv_opt H v2 Hac. destruct (IHa _ _ _ Hp Hev) as [-> Hvr]. split; [reflexivity|]. rewrite <- Hvr.
      unfold addr_value in Hac. destruct v0 as [|[| |] [|? ?] [?|] ?| |]; inversion Hac; reflexivity.
    - destruct (is_num a) eqn:Hna.
      + destruct a as [|txt| | | | | | | | | | | | | | | | | | | |]; try discriminate.
        destruct (parse_unsigned txt) as [n|] eqn:Hpu; [|discriminate].
        destruct (cc2btf (cf_env K) ct) as [t|] eqn:Hct; [|discriminate]. injection H as <- <-. auto.
      + rewrite (eval_cast K ct a s Hna) in H0. inv_eval H0 v0 s1 Hev.
        destruct (cc2btf (cf_env K) ct) as [t|]; [|discriminate]. injection H0 as <- <-.
        assert (Hpa : path a = true) by (destruct a; try exact Hp; discriminate).
        destruct (IHa _ _ _ Hpa Hev) as [-> Hvr]. split; [reflexivity|]. rewrite <- Hvr. destruct v0 as [|[| |] ? ? ?| |]; reflexivity.
    - eapply IHa; eauto.
  Qed.

  (** extending and retyping keep the NULL *)
  Lemma acc_null v x a w : access_member K v x a = Some w -> vnull v -> vnull w.
  Proof.
    unfold access_member. intros H (b & offs & t & mm & -> & Hb & Hw). destruct (is_bf _); [discriminate|].
    destruct (v_btf _); [|discriminate]. destruct (if a then _ else _) in H; [|discriminate]. destruct (find_member _ _ _) as [[? ?]|]; [|discriminate].
    destruct a.
    - inversion H; subst. do 4 eexists. split; [reflexivity|]. split; [exact Hb|]. apply wnull_app, Hw.
    - destruct offs as [|o offs]; [discriminate|]. apply (f_equal (fun o => match o with Some z => z | None => w end)) in H; cbv beta iota in H; subst w. do 4 eexists. split; [reflexivity|]. split; [exact Hb|].
      rewrite wnull_upd_last. exact Hw.
  Qed.
  Lemma idx_null v n w : index_value K v n = Some w -> vnull v -> vnull w.
  Proof.
    unfold index_value. intros H (b & offs & t & mm & -> & Hb & Hw). destruct (v_btf _); [|discriminate].
    destruct (match under _ with TPtr u => _ | _ => _ end) as [[? ?]|]; [|discriminate].
    destruct (_ =? 0); [discriminate|]. inversion H; subst. do 4 eexists. split; [reflexivity|]. split; [exact Hb|]. apply wnull_app, Hw.
  Qed.
  Lemma indir_null v w : indir_value v = Some w -> vnull v -> vnull w.
  Proof.
    unfold indir_value. intros H (b & offs & t & mm & -> & Hb & Hw). destruct (is_bf _); [discriminate|]. destruct (v_btf _); [|discriminate].
    destruct (under _); try discriminate. inversion H; subst. do 4 eexists. split; [reflexivity|]. split; [exact Hb|]. apply wnull_app, Hw.
  Qed.
  Lemma addr_null v w : addr_value v = Some w -> vnull v -> vnull w.
  Proof.
    unfold addr_value. intros H (b & offs & t & mm & -> & Hb & Hw). destruct offs as [|o offs]; [discriminate|]. destruct t; [|discriminate].
    apply (f_equal (fun o => match o with Some z => z | None => w end)) in H; cbv beta iota in H; subst w. do 4 eexists. split; [reflexivity|]. split; [exact Hb|]. rewrite wnull_upd_last. exact Hw.
  Qed.
  Lemma cast_null v t : vnull v -> vnull (cast_value v t).
  Proof.
    intros (b & offs & t0 & mm & -> & Hb & Hw). cbn [cast_value]. do 4 eexists. split; [reflexivity|]. split; [exact Hb|]. rewrite wnull_upd_last. exact Hw.
  Qed.

  Definition ends_null (v : value) : Prop :=
    exists b offs o t mm p, v = VPend b (offs ++ [o]) (Some t) mm /\ bstat K b /\ is_bf mm = false /\
      walk K C (bst C b) offs = Some p /\ (ends_deref offs = true -> p <> 0) /\ o_deref o = true /\ hopread K C p o = Some 0 /\ checked K o = true.
  Lemma null_ptr_val a s v ms : null_ptr K C a = true -> evaluate K a s = ROk v s -> Sok s -> pre ms -> ends_null v.
  Proof.
    unfold null_ptr. intros H Hev Hs Hp. apply andb_prop in H as [Hpath H].
    destruct (path_pure a _ _ _ Hpath Hev) as [_ Hvr].
    destruct (csem C (cc2btf (cf_env K)) a) as [[| |l t bf]|] eqn:Hc; try discriminate.
    destruct (sup K C a) as [[| |prev off| |]|] eqn:Hk; try discriminate.
    destruct (rval C (CLoc l t bf)) as [[|p u|]|] eqn:Hrv; try discriminate.
    destruct (ld K C (CLoc l t bf) (KLoc prev off)) as [[[n t'] lm]|] eqn:Hld; [|discriminate].
    apply andb_prop in H as [Hp0 Hmode]. apply Z.eqb_eq in Hp0. subst p.
    destruct (sim_eval K C m A Hmap HE HV Hslot a s v s Hev) as (d & Hd & _ & _ & Hx); [apply Hs|].
    assert (d = []) by (apply (app_inv_head (c_code s)); rewrite <- Hd, app_nil_r; reflexivity). subst d.
    destruct Hx as [_ Hx]; [cbn; lia| |exact Hs|].
    { right. constructor. }
    destruct (Hx ms _ _ Hp Hc Hk) as (ms' & E & _ & Hv). cbn [exec] in E. assert (ms' = ms) by congruence. subst ms'. clear E Hx.
    destruct (ld_mval K C m Hmap HE ms v _ _ n t' lm Hv Hld) as (Hm & Hbt & _ & Hrng & _ & (x & Hx & Hnx & Hpi) & _ & _).
    rewrite Hrv in Hx. injection Hx as <-. cbn [num] in Hnx. injection Hnx as <-.
    destruct (Hpi _ _ eq_refl) as (tt' & Htt & Hel & Hlim). 
    cbn [vrel] in Hv. destruct Hv as (b & offs & o & t1 & mm & a0 & bf' & p & -> & Heq & Hb & Hw & Hnz & Hdr & Ho & Hpv & Hob & Ha & Hbf & _).
    assert (t1 = t /\ bf' = bf /\ a0 = l) as (-> & -> & ->) by (injection Heq; auto). clear Heq.
    cbn [v_btf] in Hbt. assert (tt' = t) by congruence. subst tt'. subst t'.
    assert (Hbs : bstat K b /\ bval C ms b = bst C b).
    { destruct b; [split; [exact Hb|reflexivity]|split; [exact Hb|reflexivity]|discriminate]. }
    destruct Hbs as [Hbs Hbv]. rewrite Hbv in Hw.
    assert (Hnb : bf = None).
    { destruct bf as [[st bb]|]; [|reflexivity]. exfalso. cbn [rval] in Hrv. destruct (rd C l _); [|discriminate]. destruct (of_raw t 0) as [[| |]|]; discriminate. }
    subst bf. cbn [bfrel] in Hbf.
    cbn [mval] in Hm. destruct Hm as (_ & _ & raw & Hw2 & Hn). rewrite Hbv in Hw2.
    pose proof (walk_range K C m Hmap _ _ _ (bval_range K C m A Hmap Hslot ms b Hb) (eq_trans (f_equal (fun z => walk K C z _) Hbv) Hw2)) as Hrw.
    rewrite M64_pow in Hrw.
    assert (raw = 0).
    { unfold tailf in Hn. fold (lim K (Some t)) in Hn. rewrite Hlim in Hn.
      destruct mm; [rewrite Hbf in Hn|]; rewrite Z.mod_small in Hn by assumption; auto. }
    subst raw.
    rewrite walk_snoc, Hw, Hdr in Hw2. cbn [negb] in Hw2.
    assert (Hh : hopread K C p o = Some 0).
    { destruct (ends_deref offs) eqn:Hed; cbn [andb] in Hw2; [|exact Hw2].
      destruct (Z.eqb_spec p 0) as [Hp0|]; [specialize (Hnz eq_refl); contradiction|exact Hw2]. }
    exists b, offs, o, t, mm, p. do 7 (split; [assumption || reflexivity|]).
    unfold checked. destruct (cf_mode K); [reflexivity| |reflexivity]. rewrite Hpv, Hob.
    destruct (can_cast K prev) as [[id|]|]; try discriminate. cbn [can_read_cast].
    assert (Harr : is_arr t = false).
    { apply ld_ldr in Hld as [Hld _]. cbn [ldr] in Hld. destruct (readable _ _ _ _ _ _); [|discriminate]. rewrite Hrv in Hld. destruct (is_arr t); [discriminate|reflexivity]. }
    unfold is_arr, ptr_elt in *. destruct (under t); try discriminate; reflexivity.
  Qed.
  Lemma ends_null_app v b offs t mm q t' mm' : ends_null v -> v = VPend b offs t mm -> vnull (VPend b (offs ++ [q]) t' mm').
  Proof.
    intros (b0 & offs0 & o & t0 & mm0 & p & H & Hb & Hbf & Hw & He & Hd & Hh & Hc) Hv. rewrite H in Hv. injection Hv as <- <- <- <-.
    do 4 eexists. split; [reflexivity|]. split; [exact Hb|]. rewrite <- app_assoc. cbn [app]. eapply wnull_end; eauto.
  Qed.
  Lemma follows_ok e s v ms : path e = true -> follows_null K C e = true -> evaluate K e s = ROk v s -> Sok s -> pre ms -> vnull v.
  Proof.
    revert v; induction e as [x|txt|a IHa name|a IHa name|a IHa i IHi|a IHa|a IHa|ct a IHa|a IHa|op a IHa b IHb|op a IHa b IHb
      |a IHa b IHb|a IHa b IHb|a IHa|a IHa|a IHa|a IHa|a IHa|a IHa|c IHc a IHa b IHb|f IHf args|];
      intros v Hp Hf H Hs Hpre; [| | | | | | |pose proof H as H0| | | | | | | | | | | | | |]; cbn [evaluate path follows_null] in H, Hp, Hf; try discriminate.
    - inv_eval H v0 s1 Hev. destruct (path_pure a _ _ _ Hp Hev) as [-> _].
      assert (H' : of_opt (access_member K v0 name true) s = ROk v s) by (destruct v0; [exact H|exact H|exact H|discriminate]).
      clear H. destruct (access_member K v0 name true) as [w|] eqn:Hac; cbn [of_opt] in H'; [|discriminate]. injection H' as <-.
      destruct (null_ptr K C a) eqn:Hn.
      + pose proof (null_ptr_val a s v0 ms Hn Hev Hs Hpre) as He. pose proof He as (b & offs & o & t & mm & p & Hv & _).
        rewrite Hv in Hac. unfold access_member in Hac. destruct (is_bf _); [discriminate|]. cbn [v_btf] in Hac.
        destruct (under t); try discriminate. destruct (find_member _ _ _) as [[? ?]|]; [|discriminate]. injection Hac as <-.
        eapply ends_null_app; eauto.
      + cbn [orb] in Hf. eapply acc_null; eauto.
    - inv_eval H v0 s1 Hev. destruct (path_pure a _ _ _ Hp Hev) as [-> _].
      assert (H' : of_opt (access_member K v0 name false) s = ROk v s) by (destruct v0; [exact H|exact H|exact H|discriminate]).
      clear H. destruct (access_member K v0 name false) as [w|] eqn:Hac; cbn [of_opt] in H'; [|discriminate]. injection H' as <-.
      eapply acc_null; eauto.
    - inv_eval H v0 s1 Hev. destruct (path_pure a _ _ _ Hp Hev) as [-> _]. destruct (is_bf (v_mem v0)) eqn:Hbf; [discriminate|].
      destruct i as [|txt| | | | | | | | | | | | | | | | | | | |]; try discriminate.
      destruct (parse_number txt) as [n|] eqn:Hpn; [|discriminate].
      destruct (index_value K v0 n) as [w|] eqn:Hac; cbn [of_opt] in H; [|discriminate]. injection H as <-.
      destruct (null_ptr K C a) eqn:Hn.
      + pose proof (null_ptr_val a s v0 ms Hn Hev Hs Hpre) as He. pose proof He as (b & offs & o & t & mm & p & Hv & _).
        rewrite Hv in Hac. unfold index_value in Hac. cbn [v_btf] in Hac.
        destruct (match under _ with TPtr u => _ | _ => _ end) as [[? ?]|]; [|discriminate].
        destruct (_ =? 0); [discriminate|]. injection Hac as <-. eapply ends_null_app; eauto.
      + cbn [orb] in Hf. eapply idx_null; eauto.
    - inv_eval H v0 s1 Hev. destruct (path_pure a _ _ _ Hp Hev) as [-> _].
      destruct (indir_value v0) as [w|] eqn:Hac; cbn [of_opt] in H; [|discriminate]. injection H as <-.
      destruct (null_ptr K C a) eqn:Hn.
      + pose proof (null_ptr_val a s v0 ms Hn Hev Hs Hpre) as He. pose proof He as (b & offs & o & t & mm & p & Hv & _).
        rewrite Hv in Hac. unfold indir_value in Hac. destruct (is_bf _); [discriminate|]. cbn [v_btf] in Hac.
        destruct (under t); try discriminate. injection Hac as <-. eapply ends_null_app; eauto.
      + cbn [orb] in Hf. eapply indir_null; eauto.
    - inv_eval H v0 s1 Hev. destruct (path_pure a _ _ _ Hp Hev) as [-> _].
      destruct (addr_value v0) as [w|] eqn:Hac; cbn [of_opt] in H; [|discriminate]. injection H as <-. eapply addr_null; eauto.
    - destruct (is_num a) eqn:Hna; [destruct a; discriminate|].
      rewrite (eval_cast K ct a s Hna) in H0. inv_eval H0 v0 s1 Hev.
      assert (Hpa : path a = true) by (destruct a; try exact Hp; discriminate).
      destruct (path_pure a _ _ _ Hpa Hev) as [-> _].
      destruct (cc2btf (cf_env K) ct) as [t|]; [|discriminate]. injection H0 as <-. apply cast_null. eapply IHa; eauto.
    - eapply IHa; eauto.
  Qed.

  (** ** The induction *)
  Lemma path_N e s v s' : path e = true -> follows_null K C e = true -> evaluate K e s = ROk v s' -> N s s' (vnull v).
  Proof.
    intros Hp Hf H. destruct (path_pure e _ _ _ Hp H) as [-> _]. apply N_same. intros Hs ms Hpre. eapply follows_ok; eauto.
  Qed.
End Null2.
