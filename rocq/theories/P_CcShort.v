(** * Short-circuiting: a decided operand decides the filter although both operands are compiled. *)
From Coq Require Import ZArith List Bool Lia String.
From Verif Require Import M_Ebpf P_Ebpf M_CcNum M_Cc S_CSem S_CSup S_Null S_Short S_Run P_CcMach P_CcWalk P_CcNumr P_CcMat P_CcVal P_CcOps P_CcOps2 P_CcSim P_CcSim2 P_CcSafe P_CcSafe2 P_CcSafe3 P_CcTop P_CcTop2 P_Null2.
Import ListNotations.
Open Scope Z_scope.

(** ** Direct-read code contains no calls *)
Definition nc (i : insn) : Prop := match i with IProbeRead | IProbeReadStr | IRdonlyCast _ => False | _ => True end.
Definition Nc (s : cst) : Prop := Forall nc (c_code s).
Lemma nc_rg m l : forall x, Forall nc l -> Forall (fun i => dest i <> Some x) l -> forall k s,
  match exec m l k s with FFall _ s' | FLabel s' | FExit s' => rg s' x = rg s x | FBad => True end.
Proof.
  intros x. induction l as [|i l IH]; intros Hc Hf k s; cbn [exec]; [reflexivity|].
  inversion Hf as [|? ? Hi Hf']; subst. inversion Hc as [|? ? Hci Hc']; subst. destruct k as [|k]; [|apply IH; assumption].
  assert (Hs : rg (fst (step1 m i s)) x = rg s x).
  { destruct i; cbn [step1 fst dest nc] in *; try contradiction; try reflexivity; try (apply rg_setr_neq; intros ->; apply Hi; reflexivity).
    unfold store. destruct (Nat.eqb d RFP); reflexivity. }
  destruct (step1 m i s) as [s1 [|off| |]]; cbn [fst] in Hs; try exact Hs.
  - specialize (IH Hc' Hf' O s1). destruct (exec m l 0 s1); congruence.
  - destruct (off <? 0); [exact I|]. specialize (IH Hc' Hf' (Z.to_nat off) s1). destruct (exec m l (Z.to_nat off) s1); congruence.
Qed.
Lemma Nc_emit s l : Nc s -> Forall nc l -> Nc (emit s l).
Proof. intros H1 H2. unfold Nc. cbn [emit c_code]. apply Forall_app. auto. Qed.
Lemma nc_patch l : forall n off, Forall nc l -> Forall nc (patch l n off).
Proof.
  induction l as [|i l IH]; intros n off H; cbn [patch]; [constructor|]. inversion H; subst. destruct n as [|n].
  - constructor; [destruct i; exact I || assumption|assumption].
  - constructor; auto.
Qed.
Lemma nc_addi r n : Forall nc (addi r n).
Proof. unfold addi. destruct (n =? 0); repeat constructor. Qed.
Lemma nc_flat r l : Forall nc (flat_map (fun o => addi r (o_off o)) l).
Proof. induction l as [|x y IH]; cbn [flat_map]; [constructor|]. apply Forall_app. split; [apply nc_addi|exact IH]. Qed.
Lemma nc_direct r l : forall c u, direct_read r l = (c, u) -> Forall nc c.
Proof.
  induction l as [|o l IH]; cbn [direct_read]; intros c u H; [injection H as <- <-; constructor|].
  destruct (direct_read r l) as [c' u']. specialize (IH _ _ eq_refl). destruct (negb (o_deref o)).
  - injection H as <- <-. apply Forall_app. split; [apply nc_addi|exact IH].
  - destruct l; injection H as <- <-; repeat constructor; exact IH.
Qed.
Lemma nc_tail K t mm r : Forall nc (tail_code K t mm r).
Proof.
  unfold tail_code, bf_extract, adjust_size. destruct mm as [x|]; [destruct (is_bf (Some x))|];
  try (apply Forall_app; split); repeat match goal with |- context [if ?b then _ else _] => destruct b end; repeat constructor.
Qed.
Lemma nc_base b r : Forall nc (base_code b r).
Proof. destruct b; cbn [base_code load_arg]; try destruct (_ =? 0); repeat constructor. Qed.
Lemma nc_scale E t r : Forall nc (scale_code E t r).
Proof.
  unfold scale_code. repeat match goal with |- context [match ?x with _ => _ end] => destruct x end; repeat constructor.
Qed.

Section Direct.
  Variable K : cfg.
  Hypothesis HD : cf_mode K = MDirect.
  Lemma mat_nc s v v' s' : materialize K s v = ROk v' s' -> Nc s -> Nc s'.
  Proof.
    assert (Hal : forall r s1, calloc s = ROk r s1 -> Nc s -> Nc s1).
    { unfold calloc. intros r s1. destruct (alloc (c_regs s)) as [[? ?]|]; [|discriminate]. intros Hq; injection Hq as <- <-. auto. }
    destruct v as [c t|b offs t mm|r t mm|x t]; cbn [materialize]; intros H Hn.
    - destruct (calloc s) as [r s1| |] eqn:Hc; cbn [bind] in H; try discriminate. injection H as <- <-.
      apply Nc_emit; [eauto|repeat constructor].
    - unfold mat_pending in H. destruct (calloc s) as [r s1| |] eqn:Hc; cbn [bind] in H; try discriminate.
      assert (H2 : Nc (emit s1 (base_code b r))) by (apply Nc_emit; [eauto|apply nc_base]).
      assert (H3 : forall s3 u, match offs with [] => ROk tt (emit s1 (base_code b r)) | _ => emit_chain K (emit s1 (base_code b r)) offs r end = ROk u s3 -> Nc s3).
      { intros s3 u. destruct offs as [|o l]; [intros Hq; injection Hq as <- <-; exact H2|].
        unfold emit_chain. destruct (all_addr (o :: l)).
        - intros Hq. injection Hq as <- <-. apply Nc_emit; [exact H2|].
          exact (nc_flat r (o :: l)).
        - rewrite HD. destruct (direct_read r (o :: l)) as [c u'] eqn:Hd. intros Hq. injection Hq as <- <-.
          assert (Hx : Nc (emit (emit s1 (base_code b r)) c)) by (apply Nc_emit; [exact H2|eapply nc_direct; eauto]).
          destruct u'; exact Hx. }
      destruct (match offs with [] => _ | _ => _ end) as [u s3| |]; cbn [bind] in H; try discriminate.
      injection H as <- <-. specialize (H3 _ _ eq_refl). apply Nc_emit; [exact H3|apply (nc_tail K t mm r)].
    - injection H as <- <-. exact Hn.
    - discriminate.
  Qed.
  Ltac inv_mat H :=
    match type of H with
    | bind (materialize K ?s ?v) _ = _ =>
        let x := fresh "x" in let y := fresh "y" in let E := fresh "E" in
        destruct (materialize K s v) as [x y| |] eqn:E; cbn [bind] in H; [|discriminate H|discriminate H];
        apply mat_nc in E; [|assumption]
    end.
  Ltac fin H := first [discriminate H | injection H as <- <-;
    first [assumption | apply Nc_emit; [assumption|repeat first [apply nc_scale | apply Forall_app; split | constructor | match goal with |- Forall nc (if ?b then _ else _) => destruct b end]]
          | match goal with |- Nc (cfree ?s _) => change (Nc s) end; apply Nc_emit; [assumption|repeat first [apply nc_scale | apply Forall_app; split | constructor | match goal with |- Forall nc (if ?b then _ else _) => destruct b end]] ]].
  Lemma run_nc s l r f v s' : bin_runtime K s l r f = ROk v s' -> (forall a b, Forall nc (f a b)) -> Nc s -> Nc s'.
  Proof.
    unfold bin_runtime. intros H Hf Hn. do 2 inv_mat H. injection H as <- <-.
    match goal with |- Nc (cfree ?s _) => change (Nc s) end. apply Nc_emit; auto.
  Qed.
  Lemma tobool_nc s x v s' : to_bool K s x = ROk v s' -> Nc s -> Nc s'.
  Proof. unfold to_bool. intros H Hn. inv_mat H. fin H. Qed.
  Lemma ofopt_nc {A} (o : option A) s v s' : of_opt o s = ROk v s' -> Nc s -> Nc s'.
  Proof. destruct o; cbn; [|discriminate]. intros H; injection H as <- <-. auto. Qed.
  Lemma bin_nc op s l r v s' : bin_values K op s l r = ROk v s' -> Nc s -> Nc s'.
  Proof.
    unfold bin_values. intros H Hn. destruct (resolve_enums l r) as [[a b]|]; [|discriminate].
    destruct (match op with BDiv | BMod => _ | _ => _ end); [discriminate|].
    destruct (match a with VConst _ _ => is_const b | _ => false end) eqn:Hcc.
    { destruct a; try discriminate. destruct b; try discriminate. destruct (fold_const _ _ _); fin H. }
    assert (H' : match op with
          | BAdd =>
              match a, b with
              | VPend b offs t m, VConst n _ => of_opt (add_const_pending (cf_env K) b offs t m n) s
              | VConst n _, VPend b offs t m => of_opt (add_const_pending (cf_env K) b offs t m n) s
              | _, _ =>
                  let* lv, s1 := materialize K s a in
                  let* rv, s2 := materialize K s1 b in
                  let s3 := emit s2 (scale_code (cf_env K) (v_btf lv) (vreg rv) ++
                                     [IAluR AAdd (vreg lv) (vreg rv)]) in
                  ROk (VMat (vreg lv) (v_btf lv) None) (cfree s3 (vreg rv))
              end
          | BSub =>
              match a, b with
              | VPend b offs t m, VConst n _ => of_opt (add_const_pending (cf_env K) b offs t m (s64 (- n))) s
              | _, _ =>
                  let* lv, s1 := materialize K s a in
                  let* rv, s2 := materialize K s1 b in
                  let s3 := emit s2 (scale_code (cf_env K) (v_btf lv) (vreg rv) ++
                                     [IAluR ASub (vreg lv) (vreg rv)]) in
                  ROk (VMat (vreg lv) (v_btf lv) None) (cfree s3 (vreg rv))
              end
          | BMul => bin_runtime K s a b (fun a b => [IAluR AMul a b])
          | BDiv =>
              match b with
              | VConst n _ =>
                  let* lv, s1 := materialize K s a in
                  ROk (VMat (vreg lv) (v_btf lv) None) (emit s1 [IAluI ADiv (vreg lv) (s32 n)])
              | _ => bin_runtime K s a b (fun a b =>
                       [IJmpI JNE b 0 2; IMovI a 0; IJa 1; IAluR ADiv a b])
              end
          | BMod =>
              match b with
              | VConst n _ =>
                  let* lv, s1 := materialize K s a in
                  ROk (VMat (vreg lv) (v_btf lv) None)
                      (emit s1 (if n =? 1 then [IMovI (vreg lv) 0]
                                else [IAluI AMod (vreg lv) (s32 n)]))
              | _ => bin_runtime K s a b (fun a b =>
                       [IJmpI JNE b 0 2; IMovI a 0; IJa 1; IAluR AMod a b])
              end
          | BAnd | BOr | BXor =>
              match b with
              | VConst n _ =>
                  let* lv, s1 := materialize K s a in
                  ROk (VMat (vreg lv) (v_btf lv) None)
                      (emit s1 [IAluI (alu_of op) (vreg lv) (s32 n)])
              | _ => bin_runtime K s a b (fun a b => [IAluR (alu_of op) a b])
              end
          | BLsh | BRsh =>
              match b with
              | VConst n _ =>
                  let* lv, s1 := materialize K s a in
                  if n <? 0 then RErr
                  else if n =? 0 then ROk lv s1
                  else ROk (VMat (vreg lv) (v_btf lv) None)
                           (emit s1 [IAluI (alu_of op) (vreg lv) (s32 n)])
              | _ => bin_runtime K s a b (fun a b => [IJmpI JLE b 0 1; IAluR (alu_of op) a b])
              end
          end = ROk v s').
    { destruct a, b; try discriminate Hcc; destruct (negb (operands_ok _ _)); try discriminate H; exact H. }
    clear H. destruct op; destruct a, b; try discriminate Hcc;
      first [ eapply ofopt_nc; eassumption | eapply run_nc; [eassumption| |assumption]; intros; repeat constructor
            | inv_mat H'; first [fin H' | inv_mat H'; fin H' | destruct (_ =? 1); fin H' | destruct (_ <? 0); [discriminate|]; destruct (_ =? 0); fin H' ] ].
  Qed.
  Lemma cmp_nc op s l r v s' : cmp_values K op s l r = ROk v s' -> Nc s -> Nc s'.
  Proof.
    unfold cmp_values. intros H Hn. destruct (resolve_enums l r) as [[a b]|]; [|discriminate].
    destruct (adjust_nums (cf_env K) a b) as [a' b'].
    destruct a', b'; first [fin H | destruct (negb (operands_ok _ _)); [discriminate H|]; inv_mat H; first [fin H | inv_mat H; fin H]].
  Qed.
  Lemma logic_nc s l r v s' : andand_values K s l r = ROk v s' \/ oror_values K s l r = ROk v s' -> Nc s -> Nc s'.
  Proof.
    unfold andand_values, oror_values. intros H Hn. destruct (resolve_enums l r) as [[a b]|]; [|destruct H; discriminate].
    destruct H as [H|H]; destruct a, b; first [fin H | destruct (negb (operands_ok _ _)); [discriminate H|];
      first [ eapply run_nc; [eassumption| |assumption]; intros; repeat constructor
            | match type of H with (if ?b then _ else _) = _ => destruct b end; first [eapply tobool_nc; eassumption|fin H] ]].
  Qed.
  Lemma unary_nc s x k chk f v s' : unary K s x k chk f = ROk v s' -> (forall a, Forall nc (f a)) -> Nc s -> Nc s'.
  Proof.
    unfold unary. intros H Hf Hn. destruct x; [fin H|..]; (destruct (chk && _ && _); [discriminate H|]); inv_mat H; injection H as <- <-; apply Nc_emit; auto.
  Qed.
  Lemma branch_nc s x rc u s' : cond_branch K s x rc = ROk u s' -> Nc s -> Nc s'.
  Proof.
    unfold cond_branch. intros H Hn. destruct x; [fin H|..]; inv_mat H; fin H.
  Qed.
  Lemma cond_nc s c l r v s' : cond_values K s c l r = ROk v s' -> Nc s -> Nc s'.
  Proof.
    unfold cond_values. intros H Hn. destruct (negb _); [discriminate|].
    destruct c; [destruct (negb _); fin H|..]; (inv_mat H;
      match type of H with bind (cond_branch K ?s ?x ?rc) _ = _ =>
        destruct (cond_branch K s x rc) as [u3 s3| |] eqn:E3; cbn [bind] in H; [|discriminate|discriminate] end;
      match type of H with bind (cond_branch K ?s ?x ?rc) _ = _ =>
        destruct (cond_branch K s x rc) as [u6 s6| |] eqn:E6; cbn [bind] in H; [|discriminate|discriminate] end;
      apply branch_nc in E3; [|apply Nc_emit; [assumption|repeat constructor]];
      apply branch_nc in E6; [|apply nc_patch, Nc_emit; [assumption|repeat constructor]];
      injection H as <- <-; apply nc_patch; exact E6).
  Qed.
  Lemma ev_nc e : forall s v s', evaluate K e s = ROk v s' -> Nc s -> Nc s'.
  Proof.
    induction e as [x|txt|a IHa name|a IHa name|a IHa i IHi|a IHa|a IHa|ct a IHa|a IHa|op a IHa b IHb|op a IHa b IHb
      |a IHa b IHb|a IHa b IHb|a IHa|a IHa|a IHa|a IHa|a IHa|a IHa|c IHc a IHa b IHb|f IHf args|];
      intros s v s' H Hn; [| | | | | | |pose proof H as H0| | | | | | | | | | | | | |]; cbn [evaluate] in H.
    - injection H as <- <-. exact Hn.
    - destruct (parse_number txt); [injection H as <- <-; exact Hn|discriminate].
    - destruct (evaluate K a s) as [v1 s1| |] eqn:Ea; cbn [bind] in H; [|discriminate H|discriminate H]; specialize (IHa _ _ _ Ea Hn). destruct v1; [..|discriminate H]; eapply ofopt_nc; eassumption.
    - destruct (evaluate K a s) as [v1 s1| |] eqn:Ea; cbn [bind] in H; [|discriminate H|discriminate H]; specialize (IHa _ _ _ Ea Hn). destruct v1; [..|discriminate H]; eapply ofopt_nc; eassumption.
    - destruct (evaluate K a s) as [v1 s1| |] eqn:Ea; cbn [bind] in H; [|discriminate H|discriminate H]; specialize (IHa _ _ _ Ea Hn). destruct (is_bf _); [discriminate|]. destruct i; try discriminate. destruct (parse_number _); [|discriminate]. eapply ofopt_nc; eassumption.
    - destruct (evaluate K a s) as [v1 s1| |] eqn:Ea; cbn [bind] in H; [|discriminate H|discriminate H]; specialize (IHa _ _ _ Ea Hn). eapply ofopt_nc; eassumption.
    - destruct (evaluate K a s) as [v1 s1| |] eqn:Ea; cbn [bind] in H; [|discriminate H|discriminate H]; specialize (IHa _ _ _ Ea Hn). eapply ofopt_nc; eassumption.
    - destruct (is_num a) eqn:Hna.
      + destruct a; try discriminate. destruct (parse_unsigned _); [|discriminate]. destruct (cc2btf _ _); [|discriminate]. injection H as <- <-. exact Hn.
      + rewrite (eval_cast K ct a s Hna) in H0. destruct (evaluate K a s) as [v1 s1| |] eqn:Ea; cbn [bind] in H0; [|discriminate H0|discriminate H0].
        destruct (cc2btf _ _); [|discriminate]. injection H0 as <- <-. exact (IHa _ _ _ Ea Hn).
    - exact (IHa _ _ _ H Hn).
    - destruct (evaluate K a s) as [v1 s1| |] eqn:Ea; cbn [bind] in H; [|discriminate H|discriminate H]; specialize (IHa _ _ _ Ea Hn). destruct (evaluate K b s1) as [v2 s2| |] eqn:Eb; cbn [bind] in H; [|discriminate H|discriminate H]; specialize (IHb _ _ _ Eb IHa). eapply bin_nc; eassumption.
    - destruct (evaluate K a s) as [v1 s1| |] eqn:Ea; cbn [bind] in H; [|discriminate H|discriminate H]; specialize (IHa _ _ _ Ea Hn). destruct (evaluate K b s1) as [v2 s2| |] eqn:Eb; cbn [bind] in H; [|discriminate H|discriminate H]; specialize (IHb _ _ _ Eb IHa). eapply cmp_nc; eassumption.
    - destruct (evaluate K a s) as [v1 s1| |] eqn:Ea; cbn [bind] in H; [|discriminate H|discriminate H]; specialize (IHa _ _ _ Ea Hn). destruct (evaluate K b s1) as [v2 s2| |] eqn:Eb; cbn [bind] in H; [|discriminate H|discriminate H]; specialize (IHb _ _ _ Eb IHa). eapply logic_nc; [left|]; eassumption.
    - destruct (evaluate K a s) as [v1 s1| |] eqn:Ea; cbn [bind] in H; [|discriminate H|discriminate H]; specialize (IHa _ _ _ Ea Hn). destruct (evaluate K b s1) as [v2 s2| |] eqn:Eb; cbn [bind] in H; [|discriminate H|discriminate H]; specialize (IHb _ _ _ Eb IHa). eapply logic_nc; [right|]; eassumption.
    - destruct (evaluate K a s) as [v1 s1| |] eqn:Ea; cbn [bind] in H; [|discriminate H|discriminate H]; specialize (IHa _ _ _ Ea Hn). eapply unary_nc; [eassumption| |eassumption]. intros; repeat constructor.
    - destruct (evaluate K a s) as [v1 s1| |] eqn:Ea; cbn [bind] in H; [|discriminate H|discriminate H]; specialize (IHa _ _ _ Ea Hn). eapply unary_nc; [eassumption| |eassumption]. intros; repeat constructor.
    - destruct (evaluate K a s) as [v1 s1| |] eqn:Ea; cbn [bind] in H; [|discriminate H|discriminate H]; specialize (IHa _ _ _ Ea Hn). eapply unary_nc; [eassumption| |eassumption]. intros; repeat constructor.
    - exact (IHa _ _ _ H Hn).
    - destruct (evaluate K a s) as [v1 s1| |] eqn:Ea; cbn [bind] in H; [|discriminate H|discriminate H]; specialize (IHa _ _ _ Ea Hn). eapply unary_nc; [eassumption| |eassumption]. intros; repeat constructor.
    - destruct (evaluate K a s) as [v1 s1| |] eqn:Ea; cbn [bind] in H; [|discriminate H|discriminate H]; specialize (IHa _ _ _ Ea Hn). eapply unary_nc; [eassumption| |eassumption]. intros; repeat constructor.
    - destruct (evaluate K c s) as [v0 s0| |] eqn:Ec; cbn [bind] in H; [|discriminate|discriminate]. specialize (IHc _ _ _ Ec Hn).
      destruct (evaluate K a s0) as [v1 s1| |] eqn:Ea; cbn [bind] in H; [|discriminate|discriminate]. specialize (IHa _ _ _ Ea IHc).
      destruct (evaluate K b s1) as [v2 s2| |] eqn:Eb; cbn [bind] in H; [|discriminate|discriminate]. specialize (IHb _ _ _ Eb IHa).
      eapply cond_nc; eassumption.
    - discriminate.
    - discriminate.
  Qed.
End Direct.

(** ** Decided operands *)
Section Short.
  Variables (K : cfg) (C : cenv) (m : mach) (A : Z).
  Hypothesis Hmap : forall a, ce_map C a = true -> mapped m a = true.
  Hypothesis HE : ce_bt C = cf_env K.
  Hypothesis HV : ce_vars C = cf_vars K.
  Hypothesis Hslot : forall i, (i < List.length (cf_vars K))%nat ->
    Z.of_nat i * 8 < 2 ^ 15 /\ rd C (A + Z.of_nat i * 8) 8 = Some (ce_slot C i).
  Notation nowr := (nowr K).
  Notation Sok := (Sok K).
  Notation pre := (pre C A).
  Notation mval := (mval K C).
  Notation sp := (sp K).
  Notation sem := (csem C (cc2btf (cf_env K))).

  Definition NC (s : cst) : Prop := cf_mode K = MDirect -> Nc s.
  Lemma NC_d s s' d : NC s' -> c_code s' = c_code s ++ d -> cf_mode K = MDirect -> Forall nc d.
  Proof. intros H Hc Hm. specialize (H Hm). unfold Nc in H. rewrite Hc in H. apply Forall_app in H. tauto. Qed.

  Lemma safe_frame (U : reg -> bool) z d ms : safe z d -> dst U d -> (cf_mode K = MDirect -> Forall nc d) ->
    (cf_mode K <> MDirect -> forall r, U r = true -> (6 <= r)%nat) ->
    exists ms', (exec m d 0 ms = FFall 0 ms' \/ exec m d 0 ms = FLabel ms') /\ frame U ms ms'.
  Proof.
    intros [_ Hs] Hd Hnc Hlo. destruct (Hs m ms) as (ms' & He & [Hk _] & Hf). exists ms'. split; [exact He|]. split; [|exact Hk].
    intros x [Hx| ->]; [|exact Hf].
    assert (Hn : Forall (fun i => dest i <> Some x) d).
    { eapply Forall_impl; [|exact Hd]. cbv beta. intros i Hi Hc. specialize (Hi x Hc). congruence. }
    assert (Hr : match exec m d 0 ms with FFall _ s' | FLabel s' | FExit s' => rg s' x = rg ms x | FBad => True end).
    { destruct (cf_mode K) eqn:Hm; [apply exec_rg; [apply Hlo; [discriminate|exact Hx]|exact Hn]| apply exec_rg; [apply Hlo; [discriminate|exact Hx]|exact Hn]|apply nc_rg; auto]. }
    destruct He as [E|E]; rewrite E in Hr; exact Hr.
  Qed.
  Lemma Sok_lo s : Sok s -> cf_mode K <> MDirect -> forall r, c_regs s r = true -> (6 <= r)%nat.
  Proof. intros (_ & _ & H). exact H. Qed.

  Definition dec (dv : bool) (ms : mst) (v : value) : Prop :=
    match v with
    | VConst n _ => negb (n =? 0) = dv
    | VEnum _ _ => False
    | _ => exists n, mval ms v n /\ negb (n =? 0) = dv
    end.
  Lemma dec_frame (u : reg -> bool) dv ms ms' v : frame u ms ms' -> (forall r, In r (vregs v) -> u r = true) -> dec dv ms v -> dec dv ms' v.
  Proof.
    intros Hf Hu. destruct v as [c t|b offs t mm|r t mm|x t]; cbn [dec]; auto;
      intros (n & Hm & Hd); exists n; (split; [eapply mval_frame; eauto|exact Hd]).
  Qed.
  Lemma dec_mat dv ms r t n : rg ms r = n -> negb (n =? 0) = dv -> dec dv ms (VMat r t None).
  Proof. intros H1 H2. exists n. split; [exact H1|exact H2]. Qed.
  Lemma b2z_dv dv : negb (b2z dv =? 0) = dv. Proof. destruct dv; reflexivity. Qed.
  Lemma dec_run dv ms v : dec dv ms v -> is_const v = false -> runtime v = true /\ exists n, mval ms v n /\ negb (n =? 0) = dv.
  Proof. destruct v; cbn [dec is_const]; try discriminate; try contradiction; auto. Qed.

  (** What one piece of code guarantees: it leaves through the label, or the value is decided. *)
  Definition Dx (P : mst -> value -> Prop) (U : reg -> bool) (d : list insn) (ms : mst) (v : value) : Prop :=
    (exists ms', exec m d 0 ms = FLabel ms') \/
    (exists ms', exec m d 0 ms = FFall 0 ms' /\ frame U ms ms' /\ P ms' v).
  (** ... and is 0 or 1 when it is in a register. *)
  Definition dec1 (dv : bool) (ms : mst) (v : value) : Prop := dec dv ms v /\ forall r t mm, v = VMat r t mm -> rg ms r = b2z dv.
  Lemma dec1_const dv ms n t : negb (n =? 0) = dv -> dec1 dv ms (VConst n t).
  Proof. intros H. split; [exact H|discriminate]. Qed.
  Lemma dec1_mat dv ms r t n : rg ms r = b2z n -> n = dv -> dec1 dv ms (VMat r t None).
  Proof. intros H1 ->. split; [eapply dec_mat; [exact H1|apply b2z_dv]|]. intros q t' mm Hq. injection Hq as Hq _ _. rewrite <- Hq. exact H1. Qed.

  Lemma tobool_D dv U s x v s' : to_bool K s x = ROk v s' -> keep U s -> keepv U s x -> U 9%nat = true ->
    exists d, c_code s' = c_code s ++ d /\ (nowr d -> Sok s -> forall ms n, pre ms -> mval ms x n -> negb (n =? 0) = dv -> Dx (dec1 dv) U d ms v).
  Proof.
    intros H Hk Hkx H9. destruct (tobool_ok K C m A Hmap Hslot U _ _ _ _ H Hk Hkx H9) as (r & d & -> & Hc & _ & _ & Hx).
    exists d. split; [exact Hc|]. intros Hn Hs ms n Hp Hm Hd. destruct (Hx Hn Hs) as [_ Hx']. destruct (Hx' ms n Hp Hm) as (ms' & E & F & G).
    right. exists ms'. split; [exact E|]. split; [exact F|]. eapply dec1_mat; [exact G|exact Hd].
  Qed.

  Lemma logic_D (f : bool -> bool -> bool) (decides : Z -> bool) (dv : bool) ins U s l0 r0 v s' :
    (forall n, decides n = Bool.eqb (negb (n =? 0)) dv) ->
    (forall b, f dv b = dv /\ f b dv = dv) ->
    (forall r1 r2 ms, r1 <> r2 -> r1 <> RFP -> exists ms', exec m (ins r1 r2) 0 ms = FFall 0 ms' /\
       rg ms' r1 = b2z (f (negb (rg ms r1 =? 0)) (negb (rg ms r2 =? 0))) /\ forall U, U r1 = false -> frame U ms ms') ->
    match resolve_enums l0 r0 with
    | None => RErr
    | Some (l, r) =>
        match l, r with
        | VConst a _, VConst b _ => ROk (VConst (b2z (f (negb (a =? 0)) (negb (b =? 0)))) None) s
        | _, _ =>
            if negb (operands_ok l r) then RErr else
            match l, r with
            | VConst a _, _ => if decides a then ROk (VConst (b2z dv) None) s else to_bool K s r
            | _, VConst b _ => if decides b then ROk (VConst (b2z dv) None) (free_if_mat s l) else to_bool K s l
            | _, _ => bin_runtime K s l r ins
            end
        end
    end = ROk v s' ->
    keep U s -> keepv U s l0 -> keepv U s r0 -> (forall x, In x (vregs l0) -> ~ In x (vregs r0)) -> le9 s -> U 9%nat = true ->
    exists d, c_code s' = c_code s ++ d /\
      (nowr d -> Sok s -> NC s -> forall ms, pre ms -> dec dv ms l0 \/ dec dv ms r0 -> Dx (dec1 dv) U d ms v).
  Proof.
    intros Hdec Hf Hins H Hk Hkl0 Hkr0 Hdis0 Hle H9.
    destruct (resolve_enums l0 r0) as [[l r]|] eqn:Hres; [|discriminate].
    destruct (resolve_vregs _ _ _ _ Hres) as [Hvl Hvr].
    destruct (resolve_cases _ _ _ _ Hres) as [Hrl Hrr].
    assert (Hkl : keepv U s l) by (intros x Hx; apply Hkl0; congruence).
    assert (Hkr : keepv U s r) by (intros x Hx; apply Hkr0; congruence).
    assert (Hdis : forall x, In x (vregs l) -> ~ In x (vregs r)) by (rewrite Hvl, Hvr; assumption).
    assert (Hor : forall ms, dec dv ms l0 \/ dec dv ms r0 -> dec dv ms l \/ dec dv ms r).
    { intros ms [Hd|Hd].
      - left. destruct l0; cbn [dec] in Hd; try contradiction; rewrite Hrl; exact Hd.
      - right. destruct r0; cbn [dec] in Hd; try contradiction; rewrite Hrr; exact Hd. }
    assert (Hgo : exists d, c_code s' = c_code s ++ d /\
      (nowr d -> Sok s -> NC s -> forall ms, pre ms -> dec dv ms l \/ dec dv ms r -> Dx (dec1 dv) U d ms v)).
    2:{ destruct Hgo as (d & Hc & Hx). exists d. split; [exact Hc|]. intros; apply Hx; auto. }
    clear Hor Hrl Hrr Hres Hkl0 Hkr0 Hdis0 Hvl Hvr.
    assert (Hnil : forall n t, negb (n =? 0) = dv -> v = VConst n t -> c_code s' = c_code s -> exists d, c_code s' = c_code s ++ d /\
      (nowr d -> Sok s -> NC s -> forall ms, pre ms -> dec dv ms l \/ dec dv ms r -> Dx (dec1 dv) U d ms v)).
    { intros n t Hn -> Hc. exists []. rewrite app_nil_r. split; [exact Hc|]. intros. right. exists ms.
      split; [reflexivity|]. split; [apply frame_refl|apply dec1_const; exact Hn]. }
    destruct (is_const l) eqn:Hlc; [destruct l as [a ta| | |]; try discriminate|].
    - destruct (is_const r) eqn:Hrc; [destruct r as [b tb| | |]; try discriminate|].
      + injection H as <- <-. exists []. rewrite app_nil_r. split; [reflexivity|]. intros _ _ _ ms _ Hor.
        right. exists ms. split; [reflexivity|]. split; [apply frame_refl|]. apply dec1_const. cbn [dec] in *.
        destruct Hor as [-> | ->]; [destruct (Hf (negb (b =? 0))) as [-> _]|destruct (Hf (negb (a =? 0))) as [_ ->]]; apply b2z_dv.
      + assert (H' : (if decides a then ROk (VConst (b2z dv) None) s else to_bool K s r) = ROk v s').
        { destruct r; [discriminate| | |]; destruct (operands_ok _ _); try discriminate; exact H. }
        clear H. destruct (decides a) eqn:Hda.
        * injection H' as <- <-. eapply Hnil; [apply b2z_dv|reflexivity|reflexivity].
        * destruct (tobool_D dv U _ _ _ _ H' Hk Hkr H9) as (d & Hc & Hx). exists d. split; [exact Hc|].
          intros Hn Hs _ ms Hp [Hd|Hd].
          -- exfalso. cbn [dec] in Hd. rewrite Hdec, Hd, Bool.eqb_reflx in Hda. discriminate.
          -- destruct (dec_run _ _ _ Hd Hrc) as (_ & n & Hm & Hdn). eauto.
    - destruct (is_const r) eqn:Hrc; [destruct r as [b tb| | |]; try discriminate|].
      + assert (H' : (if decides b then ROk (VConst (b2z dv) None) (free_if_mat s l) else to_bool K s l) = ROk v s').
        { destruct l; [discriminate| | |]; destruct (operands_ok _ _); try discriminate; exact H. }
        clear H. destruct (decides b) eqn:Hdb.
        * injection H' as <- <-. eapply Hnil; [apply b2z_dv|reflexivity|destruct l; reflexivity].
        * destruct (tobool_D dv U _ _ _ _ H' Hk Hkl H9) as (d & Hc & Hx). exists d. split; [exact Hc|].
          intros Hn Hs _ ms Hp [Hd|Hd].
          -- destruct (dec_run _ _ _ Hd Hlc) as (_ & n & Hm & Hdn). eauto.
          -- exfalso. cbn [dec] in Hd. rewrite Hdec, Hd, Bool.eqb_reflx in Hdb. discriminate.
      + assert (H' : bin_runtime K s l r ins = ROk v s').
        { destruct l; [discriminate| | |]; (destruct r; [discriminate| | |]); destruct (operands_ok _ _); try discriminate; exact H. }
        clear H. unfold bin_runtime in H'.
        destruct (materialize K s l) as [lv s1| |] eqn:Hl; cbn [bind] in H'; try discriminate.
        destruct (materialize K s1 r) as [rv s2| |] eqn:Hr; cbn [bind] in H'; try discriminate.
        destruct (mat2 K C m A Hmap Hslot U _ _ _ _ _ _ _ Hl Hr Hk Hkl Hkr Hdis H9) as (r1 & r2 & _ & -> & -> & _ & _ & _ & _ & HU1 & HU2 & H12 & _).
        cbn [vreg v_btf] in H'. injection H' as <- <-.
        destruct (mat_safe K U _ _ _ _ Hl Hk Hkl Hle H9) as (q1 & d1 & Hq1 & Hc1 & _ & Hk1 & Hmono1 & Hle1 & Hu1 & _ & _ & Hr1 & Hlin1 & Hd1).
        injection Hq1 as <-.
        assert (Hkr1 : keepv U s1 r) by (intros x Hx; destruct (Hkr x Hx); auto).
        destruct (mat_safe K U _ _ _ _ Hr Hk1 Hkr1 Hle1 H9) as (q2 & d2 & Hq2 & Hc2 & _ & Hk2 & Hmono2 & Hle2 & Hu2 & _ & _ & Hr2 & Hlin2 & Hd2).
        injection Hq2 as <-.
        exists (d1 ++ d2 ++ ins r1 r2).
        split; [cbn [cfree emit c_code]; rewrite Hc2, Hc1, <- !app_assoc; reflexivity|].
        intros Hn Hs Hnc ms Hp Hor.
        assert (Hnc1 : NC s1) by (intros Hm; eapply mat_nc; [exact Hm|exact Hl|exact (Hnc Hm)]).
        assert (Hnc2 : NC s2) by (intros Hm; eapply mat_nc; [exact Hm|exact Hr|exact (Hnc1 Hm)]).
        pose proof (nowr_l _ _ _ Hn) as N1. pose proof (nowr_r _ _ _ Hn) as Hn'. pose proof (nowr_l _ _ _ Hn') as N2.
        destruct (Hd1 N1 Hs) as [Hs1 Hdst1]. destruct (Hd2 N2 Hs1) as [Hs2 Hdst2].
        assert (Hfin : forall ms2, frame U ms ms2 -> negb (rg ms2 r1 =? 0) = dv \/ negb (rg ms2 r2 =? 0) = dv ->
          exec m (d1 ++ d2) 0 ms = FFall 0 ms2 -> Dx (dec1 dv) U (d1 ++ d2 ++ ins r1 r2) ms (VMat r1 (v_btf l) None)).
        { intros ms2 F Hz E. destruct (Hins r1 r2 ms2 H12 Hr1) as (ms3 & E3 & G3 & F3). right. exists ms3.
          rewrite app_assoc, exec_app, E. split; [exact E3|]. split; [eapply frame_trans; [exact F|apply F3; exact HU1]|].
          eapply dec1_mat; [exact G3|].
          destruct Hz as [-> | ->]; [apply (proj1 (Hf (negb (rg ms2 r2 =? 0))))|apply (proj2 (Hf (negb (rg ms2 r1 =? 0))))]. }
        destruct Hor as [Hd|Hd].
        * destruct (dec_run _ _ _ Hd Hlc) as (_ & n & Hm & Hdn).
          destruct (mat1 K C m A Hmap Hslot U _ _ _ _ Hl Hk Hkl H9) as (q & d & Hq & Hc & _ & _ & _ & _ & _ & Hms).
          injection Hq as <-. assert (d = d1) as -> by (apply (app_inv_head (c_code s)); congruence).
          destruct (Hms N1 Hs) as (_ & _ & Hx). destruct (Hx ms n Hp Hm) as (ms1 & E1 & F1 & G1).
          destruct (safe_frame (c_regs s1) (cf_resv K) d2 ms1 (lin_safe _ _ Hlin2) Hdst2 (NC_d _ _ _ Hnc2 Hc2) (Sok_lo _ Hs1)) as (ms2 & [E2|E2] & F2).
          -- apply (Hfin ms2).
             ++ eapply frame_trans; [eapply frame_mono; [exact Hk|exact F1]|eapply frame_mono; [exact Hk1|exact F2]].
             ++ left. destruct F2 as [F2 _]. rewrite (F2 r1 (or_introl Hu1)), G1. exact Hdn.
             ++ rewrite exec_app, E1. exact E2.
          -- left. exists ms2. rewrite exec_app, E1, exec_app, E2. reflexivity.
        * destruct (dec_run _ _ _ Hd Hrc) as (_ & n & Hm & Hdn).
          destruct (safe_frame (c_regs s) (cf_resv K) d1 ms (lin_safe _ _ Hlin1) Hdst1 (NC_d _ _ _ Hnc1 Hc1) (Sok_lo _ Hs)) as (ms1 & [E1|E1] & F1).
          2:{ left. exists ms1. rewrite exec_app, E1. reflexivity. }
          destruct (mat1 K C m A Hmap Hslot U _ _ _ _ Hr Hk1 Hkr1 H9) as (q & d & Hq & Hc & _ & _ & _ & _ & _ & Hms).
          injection Hq as <-. assert (d = d2) as -> by (apply (app_inv_head (c_code s1)); congruence).
          destruct (Hms N2 Hs1) as (_ & _ & Hx).
          assert (Hp1 : pre ms1) by (eapply pre_frame; [exact Hs|exact F1|exact Hp]).
          assert (Hm1 : mval ms1 r n) by (eapply mval_frame; [exact F1| |exact Hm]; intros x Hx'; apply (Hkr x Hx')).
          destruct (Hx ms1 n Hp1 Hm1) as (ms2 & E2 & F2 & G2).
          apply (Hfin ms2).
          -- eapply frame_trans; [eapply frame_mono; [exact Hk|exact F1]|eapply frame_mono; [exact Hk1|exact F2]].
          -- right. rewrite G2. exact Hdn.
          -- rewrite exec_app, E1. exact E2.
  Qed.

  Definition D (P : mst -> value -> Prop) (s : cst) (v : value) (s' : cst) : Prop :=
    exists d, c_code s' = c_code s ++ d /\
      (Z.of_nat (List.length d) < 2 ^ 15 -> nowr d -> Sok s -> NC s -> forall ms, pre ms -> Dx P (c_regs s) d ms v).
  Lemma D_dec dv s v s' : D (dec1 dv) s v s' -> D (dec dv) s v s'.
  Proof.
    intros (d & Hc & Hx). exists d. split; [exact Hc|]. intros H1 H2 H3 H4 ms Hp.
    destruct (Hx H1 H2 H3 H4 ms Hp) as [Hl|(ms' & E & F & [Hd _])]; [left; exact Hl|right; exists ms'; auto].
  Qed.

  Lemma known_D dv e s v s' : known K C dv e = true -> evaluate K e s = ROk v s' -> c_regs s 9%nat = true -> D (dec dv) s v s'.
  Proof.
    intros Hk Hev H9. unfold known in Hk. destruct (sem e) as [c|] eqn:Hc; [|discriminate].
    destruct (sup K C e) as [k|] eqn:Hs; [|discriminate]. apply andb_true_iff in Hk as [Hk1 Hk2].
    destruct (sim_eval K C m A Hmap HE HV Hslot e _ _ _ Hev H9) as (d & Hcode & _ & _ & Hx).
    exists d. split; [exact Hcode|]. intros Hl Hn Hso _ ms Hp. destruct (Hx Hl Hn Hso) as [_ Hx'].
    destruct (Hx' ms c k Hp Hc Hs) as (ms' & E & F & V). right. exists ms'. split; [exact E|]. split; [exact F|].
    destruct (rval C c) as [x|] eqn:Hrv; [|discriminate]. destruct (truth x) as [t|] eqn:Ht; [|discriminate].
    apply Bool.eqb_prop in Hk2. subst t. unfold truth in Ht.
    assert (Hld : forall q, ldr K C c k = Some q -> dec dv ms' v).
    { intros [[n t] l] Hq. edestruct ldr_mval as (M & _ & _ & Hin & Hrt & (y & Hy & Hny & _) & _); [try exact Hmap; try exact Hslot; eassumption..|].
      rewrite Hrv in Hy. injection Hy as <-. rewrite Hny in Ht. injection Ht as Ht. rewrite <- (inr_zero _ _ Hin) in Ht.
      destruct v; cbn [runtime is_mat is_pend orb] in Hrt; try discriminate; cbn [dec]; eauto. }
    destruct k as [t|y|pv off|off|t pend hop]; try discriminate;
      try (destruct (ldr K C c _) as [q|] eqn:Hq; [|discriminate]; exact (Hld q eq_refl)).
    destruct V as (n & w & sg & -> & -> & _). cbn [dec]. cbn [rval] in Hrv. injection Hrv as <-. cbn [num] in Ht. injection Ht as Ht. exact Ht.
  Qed.

  Lemma pair_D dv a b s l s1 r s2 v s' :
    evaluate K a s = ROk l s1 -> evaluate K b s1 = ROk r s2 -> c_regs s 9%nat = true -> le9 s ->
    (keep (c_regs s) s2 -> keepv (c_regs s) s2 l -> keepv (c_regs s) s2 r -> (forall x, In x (vregs l) -> ~ In x (vregs r)) -> le9 s2 -> c_regs s 9%nat = true ->
     exists d, c_code s' = c_code s2 ++ d /\
      (nowr d -> Sok s2 -> NC s2 -> forall ms, pre ms -> dec dv ms l \/ dec dv ms r -> Dx (dec1 dv) (c_regs s) d ms v)) ->
    D (dec dv) s l s1 \/ D (dec dv) s1 r s2 -> D (dec1 dv) s v s'.
  Proof.
    intros Ha Hb H9 Hle Hop Hor.
    pose proof (ev_safe K a _ _ _ Ha H9 Hle) as Sa. destruct (sp_keep _ _ _ _ _ Sa) as (A1 & A2 & A3).
    pose proof (ev_safe K b _ _ _ Hb (A1 _ H9) A3) as Sb. destruct (sp_keep _ _ _ _ _ Sb) as (B1 & B2 & B3).
    destruct (pair_sp _ _ _ _ _ _ Sa Sb) as (_ & P1 & P2 & P3 & P4 & P5).
    destruct (Hop P1 P2 P3 P4 P5 H9) as (d3 & Hc3 & Hx3).
    destruct Sa as (d1 & Hc1 & _ & _ & _ & _ & W1 & X1). destruct Sb as (d2 & Hc2 & _ & _ & _ & _ & W2 & X2).
    exists (d1 ++ d2 ++ d3). split; [rewrite Hc3, Hc2, Hc1, <- !app_assoc; reflexivity|].
    intros Hl Hn Hs Hnc ms Hp. rewrite !app_length in Hl.
    pose proof (nowr_l _ _ _ Hn) as N1. pose proof (nowr_r _ _ _ Hn) as Hn'. pose proof (nowr_l _ _ _ Hn') as N2. pose proof (nowr_r _ _ _ Hn') as N3.
    destruct (X1 N1 Hs) as [Hs1 Hd1]. destruct (X2 N2 Hs1) as [Hs2 Hd2].
    destruct W1 as [_ W1]; [lia|]. destruct W2 as [_ W2]; [lia|].
    assert (Hnc1 : NC s1) by (intros Hm; exact (ev_nc K Hm a _ _ _ Ha (Hnc Hm))).
    assert (Hnc2 : NC s2) by (intros Hm; exact (ev_nc K Hm b _ _ _ Hb (Hnc1 Hm))).
    assert (Hfin : forall ms2, frame (c_regs s) ms ms2 -> pre ms2 -> dec dv ms2 l \/ dec dv ms2 r ->
       exec m (d1 ++ d2) 0 ms = FFall 0 ms2 -> Dx (dec1 dv) (c_regs s) (d1 ++ d2 ++ d3) ms v).
    { intros ms2 F Hp2 Hd E. rewrite app_assoc. destruct (Hx3 N3 Hs2 Hnc2 ms2 Hp2 Hd) as [[ms3 E3]|(ms3 & E3 & F3 & D3)].
      - left. exists ms3. rewrite exec_app, E. exact E3.
      - right. exists ms3. rewrite exec_app, E. split; [exact E3|]. split; [eapply frame_trans; eassumption|exact D3]. }
    destruct Hor as [Hd|Hd].
    - destruct Hd as (d & Hc & Hx). assert (d = d1) as -> by (apply (app_inv_head (c_code s)); congruence).
      destruct (Hx ltac:(lia) N1 Hs Hnc ms Hp) as [[ms1 E1]|(ms1 & E1 & F1 & D1)]; [left; exists ms1; rewrite exec_app, E1; reflexivity|].
      destruct (safe_frame (c_regs s1) (cf_resv K) d2 ms1 W2 Hd2 (NC_d _ _ _ Hnc2 Hc2) (Sok_lo _ Hs1)) as (ms2 & [E2|E2] & F2).
      + assert (Hp1 : pre ms1) by (eapply pre_frame; [exact Hs|exact F1|exact Hp]).
        apply (Hfin ms2).
        * eapply frame_trans; [exact F1|eapply frame_mono; [exact A1|exact F2]].
        * eapply pre_frame; [exact Hs1|exact F2|exact Hp1].
        * left. eapply dec_frame; [exact F2| |exact D1]. intros x Hin. apply (A2 x Hin).
        * rewrite exec_app, E1. exact E2.
      + left. exists ms2. rewrite exec_app, E1, exec_app, E2. reflexivity.
    - destruct (safe_frame (c_regs s) (cf_resv K) d1 ms W1 Hd1 (NC_d _ _ _ Hnc1 Hc1) (Sok_lo _ Hs)) as (ms1 & [E1|E1] & F1).
      2:{ left. exists ms1. rewrite exec_app, E1. reflexivity. }
      assert (Hp1 : pre ms1) by (eapply pre_frame; [exact Hs|exact F1|exact Hp]).
      destruct Hd as (d & Hc & Hx). assert (d = d2) as -> by (apply (app_inv_head (c_code s1)); congruence).
      destruct (Hx ltac:(lia) N2 Hs1 Hnc1 ms1 Hp1) as [[ms2 E2]|(ms2 & E2 & F2 & D2)].
      { left. exists ms2. rewrite exec_app, E1, exec_app, E2. reflexivity. }
      apply (Hfin ms2).
      + eapply frame_trans; [exact F1|eapply frame_mono; [exact A1|exact F2]].
      + eapply pre_frame; [exact Hs1|exact F2|exact Hp1].
      + right. exact D2.
      + rewrite exec_app, E1. exact E2.
  Qed.
  Lemma and_D U s l r v s' : andand_values K s l r = ROk v s' ->
    keep U s -> keepv U s l -> keepv U s r -> (forall x, In x (vregs l) -> ~ In x (vregs r)) -> le9 s -> U 9%nat = true ->
    exists d, c_code s' = c_code s ++ d /\
      (nowr d -> Sok s -> NC s -> forall ms, pre ms -> dec false ms l \/ dec false ms r -> Dx (dec1 false) U d ms v).
  Proof.
    intros H. apply (logic_D andb (fun n => n =? 0) false (fun a b => [IJmpI JEq a 0 3; IJmpI JEq b 0 2] ++ reg2bool a)).
    - intros n. destruct (n =? 0); reflexivity.
    - intros b. split; [reflexivity|apply andb_false_r].
    - intros r1 r2 ms H12 Hr1. cbn [app reg2bool exec step1 jop_sem]. change (immv 0) with 0.
      destruct (Z.eqb_spec (rg ms r1) 0) as [Hz|Hz]; [|destruct (Z.eqb_spec (rg ms r2) 0) as [Hz2|Hz2]]; cbn;
        eexists; (split; [reflexivity|]); rewrite rg_setr_eq; (split; [solve [reflexivity|apply Z.lxor_nilpotent]|]);
        intros; apply frame_setr; assumption.
    - exact H.
  Qed.
  Lemma or_D U s l r v s' : oror_values K s l r = ROk v s' ->
    keep U s -> keepv U s l -> keepv U s r -> (forall x, In x (vregs l) -> ~ In x (vregs r)) -> le9 s -> U 9%nat = true ->
    exists d, c_code s' = c_code s ++ d /\
      (nowr d -> Sok s -> NC s -> forall ms, pre ms -> dec true ms l \/ dec true ms r -> Dx (dec1 true) U d ms v).
  Proof.
    intros H. apply (logic_D orb (fun n => negb (n =? 0)) true
       (fun a b => [IJmpI JNE a 0 3; IJmpI JNE b 0 2; IAluR AXor a a; IJa 1; IMovI a 1])).
    - intros n. destruct (n =? 0); reflexivity.
    - intros b. split; [reflexivity|apply orb_true_r].
    - intros r1 r2 ms H12 Hr1. cbn [exec step1 jop_sem]. change (immv 0) with 0.
      destruct (Z.eqb_spec (rg ms r1) 0) as [Hz|Hz]; [destruct (Z.eqb_spec (rg ms r2) 0) as [Hz2|Hz2]|]; cbn;
        eexists; (split; [reflexivity|]); rewrite rg_setr_eq; (split; [solve [reflexivity|apply Z.lxor_nilpotent]|]);
        intros; apply frame_setr; assumption.
    - exact H.
  Qed.
  Lemma refuted_D e : forall s v s', refuted K C e = true -> evaluate K e s = ROk v s' -> c_regs s 9%nat = true -> le9 s -> D (dec false) s v s'.
  Proof.
    induction e; intros st v s' Hr Hev H9 Hle; cbn [refuted] in Hr; apply orb_true_iff in Hr as [Hr|Hr];
      try (eapply known_D; eassumption); try discriminate Hr.
    - cbn [evaluate] in Hev. eauto.
    - cbn [evaluate] in Hev.
      destruct (evaluate K e1 st) as [l s1| |] eqn:Ea; cbn [bind] in Hev; [|discriminate|discriminate].
      destruct (evaluate K e2 s1) as [r s2| |] eqn:Eb; cbn [bind] in Hev; [|discriminate|discriminate].
      pose proof (ev_safe K e1 _ _ _ Ea H9 Hle) as Sa. destruct (sp_keep _ _ _ _ _ Sa) as (A1 & A2 & A3).
      apply D_dec. eapply pair_D; [exact Ea|exact Eb|exact H9|exact Hle|apply and_D; exact Hev|].
      apply orb_true_iff in Hr as [Hr|Hr]; [left; eapply IHe1; eassumption|right; eapply IHe2; eauto].
  Qed.
  Lemma asserted_D e : forall s v s', asserted K C e = true -> evaluate K e s = ROk v s' -> c_regs s 9%nat = true -> le9 s -> D (dec true) s v s'.
  Proof.
    induction e; intros st v s' Hr Hev H9 Hle; cbn [asserted] in Hr; apply orb_true_iff in Hr as [Hr|Hr];
      try (eapply known_D; eassumption); try discriminate Hr.
    - cbn [evaluate] in Hev. eauto.
    - cbn [evaluate] in Hev.
      destruct (evaluate K e1 st) as [l s1| |] eqn:Ea; cbn [bind] in Hev; [|discriminate|discriminate].
      destruct (evaluate K e2 s1) as [r s2| |] eqn:Eb; cbn [bind] in Hev; [|discriminate|discriminate].
      pose proof (ev_safe K e1 _ _ _ Ea H9 Hle) as Sa. destruct (sp_keep _ _ _ _ _ Sa) as (A1 & A2 & A3).
      apply D_dec. eapply pair_D; [exact Ea|exact Eb|exact H9|exact Hle|apply or_D; exact Hev|].
      apply orb_true_iff in Hr as [Hr|Hr]; [left; eapply IHe1; eassumption|right; eapply IHe2; eauto].
  Qed.
  Lemma asserted_top a b s v s' : asserted K C a || asserted K C b = true -> evaluate K (EOrOr a b) s = ROk v s' -> c_regs s 9%nat = true -> le9 s -> D (dec1 true) s v s'.
  Proof.
    intros Hr Hev H9 Hle. cbn [evaluate] in Hev.
    destruct (evaluate K a s) as [l s1| |] eqn:Ea; cbn [bind] in Hev; [|discriminate|discriminate].
    destruct (evaluate K b s1) as [r s2| |] eqn:Eb; cbn [bind] in Hev; [|discriminate|discriminate].
    pose proof (ev_safe K a _ _ _ Ea H9 Hle) as Sa. destruct (sp_keep _ _ _ _ _ Sa) as (A1 & A2 & A3).
    eapply pair_D; [exact Ea|exact Eb|exact H9|exact Hle|apply or_D; exact Hev|].
    apply orb_true_iff in Hr as [Hr|Hr]; [left|right]; eapply asserted_D; eauto.
  Qed.
End Short.
