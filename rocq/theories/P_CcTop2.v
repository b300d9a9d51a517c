(** * Every compiled filter terminates, stays inside its code and leaves kernel memory alone. *)
From Coq Require Import ZArith List Bool Lia String.
From Verif Require Import M_Ebpf P_Ebpf M_CcNum M_Cc S_CSem S_CSup S_Run P_CcMach P_CcWalk P_CcNumr P_CcMat P_CcVal P_CcOps P_CcOps2 P_CcSim P_CcSim2 P_CcSafe P_CcSafe2 P_CcSafe3 P_CcTop.
Import ListNotations.
Open Scope Z_scope.

Lemma init_le9 : le9 filter_init.
Proof. intros r Hr. cbn in Hr. apply Nat.eqb_eq in Hr. lia. Qed.

Definition tailc (r : reg) : list insn := (if Nat.eqb r 0 then [] else [IMovR R0 r]) ++ [IExit].

Lemma compile_shape K e p : compile_filter K e = inl (Some p) ->
  exists r t d s', evaluate K e filter_init = ROk (VMat r t None) s' /\ top_op_ok e = true /\
    code p = IMovR R9 R1 :: d ++ tailc r /\ r <> RFP /\
    c_code s' = IMovR R9 R1 :: d /\
    label p = (if uses_label d then Some (List.length d) else None) /\
    (exists d', d = d' ++ [IAluR AXor r r] \/ (is_oror e = true /\ d = d' ++ [IMovI r 1])) /\
    (Z.of_nat (List.length d) < 2 ^ 15 -> wfc d /\ safe (cf_resv K) d) /\
    (nowr K d -> Sok K filter_init -> Sok K s' /\ dst init_regs d).
Proof.
  intros H. unfold compile_filter in H. destruct (top_op_ok e) eqn:Ht; cbn [negb] in H; [|discriminate].
  destruct (evaluate K e filter_init) as [v s'| |] eqn:Hev; [|discriminate|discriminate].
  destruct (ev_safe K e _ _ _ Hev eq_refl init_le9) as (d & H1 & H2 & H3 & H4 & H5 & H6 & H7).
  assert (Hc : is_const v = false) by (destruct v; [discriminate|reflexivity..]).
  destruct (top_last K e _ _ _ Ht Hev Hc) as (r & t & body & -> & Hl).
  cbn [filter_init c_code c_lab] in H1, H2. cbn [app] in H1. cbn [orb] in H2.
  exists r, t, d, s'. split; [reflexivity|]. split; [reflexivity|]. injection H as <-. cbn [code label].
  rewrite H1, H2. split; [reflexivity|].
  split. { destruct (H4 r (or_introl eq_refl)) as [Ha _]. apply H5 in Ha. unfold RFP. lia. }
  split; [reflexivity|]. split. { destruct (uses_label d); [|reflexivity]. cbn [List.length]. f_equal. lia. }
  split; [|split; assumption].
  destruct body as [|i body].
  - exfalso. rewrite H1 in Hl. destruct Hl as [Hl|[_ Hl]]; discriminate.
  - exists body. rewrite H1 in Hl. destruct Hl as [Hl|[Ho Hl]]; injection Hl as _ Hl; auto.
Qed.

Lemma exec_label_uses m l k s s' : exec m l k s = FLabel s' -> uses_label l = true.
Proof.
  revert k s; induction l as [|i l IH]; intros k s H; cbn [exec] in H; [discriminate|].
  unfold uses_label. cbn [existsb]. apply orb_true_intro. destruct k as [|k]; [|right; apply (IH _ _ H)].
  destruct (step1 m i s) as [s1 [|off| |]] eqn:Hs; [right; apply (IH _ _ H)| | |discriminate].
  - right. destruct (off <? 0); [discriminate|]. apply (IH _ _ H).
  - left. destruct i; cbn [step1] in Hs; try discriminate; try reflexivity;
      try (destruct (jop_sem _ _ _); discriminate).
Qed.

Lemma null_exit_exec m p pre l : forall k s s' fuel, code p = pre ++ l -> exec m l k s = FExit s' ->
  null_exit fuel m p (Z.of_nat (List.length pre + k)) s = false.
Proof.
  revert pre; induction l as [|i l IH]; intros pre k s s' fuel Hc H; cbn [exec] in H; [discriminate|].
  assert (Hpre : code p = (pre ++ [i]) ++ l) by (rewrite <- app_assoc; exact Hc).
  assert (Hlen : List.length (pre ++ [i]) = (List.length pre + 1)%nat) by (rewrite app_length; reflexivity).
  destruct k as [|k].
  - destruct fuel as [|fuel]; [reflexivity|]. cbn [null_exit].
    destruct (Z.ltb_spec (Z.of_nat (List.length pre + 0)) 0); [lia|].
    rewrite Nat2Z.id, Hc, nth_error_pre. cbn [nth_error].
    destruct (step1 m i s) as [s1 [|off| |]].
    + replace (Z.of_nat (List.length pre + 0) + 1) with (Z.of_nat (List.length (pre ++ [i]) + 0)) by lia.
      eapply IH; eauto.
    + destruct (Z.ltb_spec off 0); [discriminate|].
      replace (Z.of_nat (List.length pre + 0) + 1 + off) with (Z.of_nat (List.length (pre ++ [i]) + Z.to_nat off)) by lia.
      eapply IH; eauto.
    + discriminate.
    + reflexivity.
  - replace (List.length pre + S k)%nat with (List.length (pre ++ [i]) + k)%nat by lia. eapply IH; eauto.
Qed.

Lemma exec_tail m r ms : exists ms', exec m (tailc r) 0 ms = FExit ms' /\ rg ms' R0 = rg ms r /\ (ker ms' = ker ms /\ stk ms' = stk ms).
Proof.
  unfold tailc. destruct (Nat.eqb_spec r 0) as [->|Hr]; cbn [app exec step1].
  - exists ms. auto.
  - eexists. split; [reflexivity|]. split; [apply rg_setr_eq|split; reflexivity].
Qed.

(** A run either never takes a NULL exit, or returns 0 (1 when the filter ends in a run-time ||). *)
Lemma filter_run K e p : compile_filter K e = inl (Some p) -> Z.of_nat (List.length (code p)) < 2 ^ 15 ->
  forall m ms, exists r0 ms', (ker ms' = ker ms /\ forall x, ~ scratch (cf_resv K) x -> stk ms' x = stk ms x) /\
    (forall fuel, (List.length (code p) + 3 <= fuel)%nat -> run fuel m p 0 ms = Done r0 ms') /\
    Forall (st_ok (cf_resv K)) (code p) /\
    ((forall fuel, null_exit fuel m p 0 ms = false) \/ r0 = 0 \/ (is_oror e = true /\ r0 = 1)).
Proof.
  intros H Hlen m ms. destruct (compile_shape K e p H) as (r & t & d & s' & Hev & Ht & Hc & HrF & Hcs & Hlab & [d' Hd'] & Hs & _).
  rewrite Hc in Hlen. cbn [List.length] in Hlen. rewrite app_length in Hlen.
  destruct Hs as [Hw [Hfst Hs]]; [lia|].
  assert (Hstp : Forall (st_ok (cf_resv K)) (code p)).
  { rewrite Hc. constructor; [exact I|]. apply Forall_app. split; [exact Hfst|]. unfold tailc. destruct (Nat.eqb r 0); repeat constructor. }
  set (ms1 := setr ms R9 (rg ms R1)).
  assert (He : exec m (code p) 0 ms = match exec m d 0 ms1 with FFall k' s2 => exec m (tailc r) k' s2 | o => o end).
  { rewrite Hc. cbn [exec step1]. rewrite exec_app. reflexivity. }
  destruct (Hs m ms1) as (ms2 & [E2|E2] & K2 & F2); rewrite E2 in He.
  - destruct (exec_tail m r ms2) as (ms3 & E3 & R3' & K3). rewrite E3 in He.
    exists (rg ms3 R0), ms3. split; [destruct K3 as [HA1 HA2], K2 as [HB1 HB2]; split; [rewrite HA1, HB1; reflexivity|]; intros z Hz; rewrite HA2, (HB2 z Hz); reflexivity|].
    destruct (run_exec m p [] (code p) 0 ms eq_refl) as (j & Hj & Hrun); [rewrite He; discriminate|].
    split.
    + intros fuel Hf. specialize (Hrun (fuel - j)%nat). rewrite He in Hrun.
      replace (j + (fuel - j))%nat with fuel in Hrun by lia. exact Hrun.
    + split; [exact Hstp|]. left. intros fuel. apply (null_exit_exec m p [] (code p) 0 ms ms3 fuel eq_refl He).
  - assert (Hl : label p = Some (List.length d)).
    { rewrite Hlab. rewrite (exec_label_uses _ _ _ _ _ E2). reflexivity. }
    destruct (run_exec m p [] (code p) 0 ms eq_refl) as (j & Hj & Hrun); [rewrite He; discriminate|].
    rewrite He, Hl in Hrun.
    assert (Hgo : forall li v, (d = d' ++ [li]) -> (forall s, step1 m li s = (setr s r (v s), CNext)) ->
      exists ms3, (ker ms3 = ker ms2 /\ stk ms3 = stk ms2) /\ rg ms3 R0 = v ms2 /\
      forall f, (3 <= f)%nat -> run f m p (Z.of_nat (List.length d)) ms2 = Done (rg ms3 R0) ms3).
    { intros li v Hd Hst.
      assert (Hcode : code p = (IMovR R9 R1 :: d') ++ ([li] ++ tailc r)) by (rewrite Hc, Hd, <- app_assoc; reflexivity).
      assert (Hex : exists ms3, exec m ([li] ++ tailc r) 0 ms2 = FExit ms3 /\ rg ms3 R0 = v ms2 /\ (ker ms3 = ker ms2 /\ stk ms3 = stk ms2)).
      { rewrite exec_app. cbn [exec]. rewrite Hst. destruct (exec_tail m r (setr ms2 r (v ms2))) as (ms3 & E3 & R3' & K3).
        exists ms3. split; [exact E3|]. split; [rewrite R3'; apply rg_setr_eq|exact K3]. }
      destruct Hex as (ms3 & E3 & R3' & K3). exists ms3. split; [exact K3|]. split; [exact R3'|].
      destruct (run_exec m p (IMovR R9 R1 :: d') ([li] ++ tailc r) 0 ms2 Hcode) as (j2 & Hj2 & Hrun2); [rewrite E3; discriminate|].
      rewrite E3 in Hrun2.
      assert (Hj3 : (j2 <= 3)%nat).
      { eapply Nat.le_trans; [exact Hj2|]. unfold tailc. destruct (Nat.eqb r 0); cbn; lia. }
      intros f Hf. specialize (Hrun2 (f - j2)%nat). replace (j2 + (f - j2))%nat with f in Hrun2 by lia.
      rewrite <- Hrun2. f_equal. rewrite Hd, app_length. cbn [List.length]. lia. }
    destruct Hd' as [Hd|[Ho Hd]].
    + destruct (Hgo (IAluR AXor r r) (fun _ => 0) Hd) as (ms3 & K3 & R3' & Hr3).
      { intros s. cbn [step1 alu_sem]. rewrite Z.lxor_nilpotent. reflexivity. }
      exists 0, ms3. split; [destruct K3 as [HA1 HA2], K2 as [HB1 HB2]; split; [rewrite HA1, HB1; reflexivity|]; intros z Hz; rewrite HA2, (HB2 z Hz); reflexivity|]. split; [|split; [exact Hstp|right; left; reflexivity]].
      intros fuel Hf. specialize (Hrun (fuel - j)%nat). replace (j + (fuel - j))%nat with fuel in Hrun by lia.
      change (Z.of_nat (@List.length insn [] + 0)) with 0 in Hrun. rewrite Hrun, Hr3 by lia. rewrite R3'. reflexivity.
    + destruct (Hgo (IMovI r 1) (fun _ => 1) Hd) as (ms3 & K3 & R3' & Hr3); [reflexivity|].
      exists 1, ms3. split; [destruct K3 as [HA1 HA2], K2 as [HB1 HB2]; split; [rewrite HA1, HB1; reflexivity|]; intros z Hz; rewrite HA2, (HB2 z Hz); reflexivity|]. split; [|split; [exact Hstp|right; right; auto]].
      intros fuel Hf. specialize (Hrun (fuel - j)%nat). replace (j + (fuel - j))%nat with fuel in Hrun by lia.
      change (Z.of_nat (@List.length insn [] + 0)) with 0 in Hrun. rewrite Hrun, Hr3 by lia. rewrite R3'. reflexivity.
Qed.

Lemma wfc_nth l : wfc l -> forall i ins, nth_error l i = Some ins -> jump_ok ins (List.length l - i - 1).
Proof.
  induction l as [|x l IH]; intros Hw i ins Hn; [destruct i; discriminate|]. cbn [wfc] in Hw. destruct Hw as [Hx Hw].
  destruct i as [|i]; cbn [nth_error] in Hn.
  - injection Hn as ->. cbn [List.length]. replace (S (List.length l) - 0 - 1)%nat with (List.length l) by lia. exact Hx.
  - cbn [List.length]. replace (S (List.length l) - S i - 1)%nat with (List.length l - i - 1)%nat by lia. apply IH; assumption.
Qed.
Lemma uses_nth l i op r c : nth_error l i = Some (IJmpL op r c) -> uses_label l = true.
Proof.
  intros H. apply nth_error_In in H. unfold uses_label. apply existsb_exists. eexists. split; [exact H|reflexivity].
Qed.
Lemma filter_jumps K e p : compile_filter K e = inl (Some p) -> Z.of_nat (List.length (code p)) < 2 ^ 15 -> jumps_inside p.
Proof.
  intros H Hlen. destruct (compile_shape K e p H) as (r & t & d & s' & Hev & Ht & Hc & HrF & Hcs & Hlab & [d' Hd'] & Hs & _).
  assert (Hl : List.length (code p) = (1 + List.length d + List.length (tailc r))%nat) by (rewrite Hc; cbn [List.length]; rewrite app_length; lia).
  assert (Htl : (1 <= List.length (tailc r))%nat) by (unfold tailc; rewrite app_length; cbn; lia).
  destruct Hs as [Hw _]; [lia|].
  intros i ins Hn. rewrite Hc in Hn. destruct i as [|i]; cbn [nth_error] in Hn; [injection Hn as <-; exact I|].
  destruct (Nat.lt_ge_cases i (List.length d)) as [Hi|Hi].
  - rewrite nth_error_app1 in Hn by assumption. pose proof (wfc_nth d Hw i ins Hn) as Hj.
    destruct ins; try exact I; cbn [jump_ok] in Hj; try (rewrite Hl; lia).
    exists (List.length d). rewrite Hlab, (uses_nth _ _ _ _ _ Hn). split; [reflexivity|]. rewrite Hl.
    split; [|lia]. assert (i <> List.length d - 1)%nat; [|lia].
    intros ->. destruct Hd' as [Hd|[_ Hd]]; rewrite Hd, app_length in Hn; cbn [List.length] in Hn;
      rewrite nth_error_app2 in Hn by lia; replace (List.length d' + 1 - 1 - List.length d')%nat with 0%nat in Hn by lia; discriminate.
  - rewrite nth_error_app2 in Hn by assumption. unfold tailc in Hn.
    destruct (Nat.eqb r 0); cbn [app] in Hn; destruct (i - List.length d)%nat as [|[|?]]; cbn [nth_error] in Hn; try discriminate;
      try (injection Hn as <-; exact I). destruct n; discriminate.
Qed.

Lemma slot_val z off : 8 <= z <= 464 -> z mod 8 = 0 -> slot z off -> off mod 8 = 0 /\ -512 <= off /\ off + 8 <= - z.
Proof.
  intros Hz Hm (j & Hj & ->).
  assert (Hs : s16 (- z - 8 - 8 * j) = - z - 8 - 8 * j).
  { unfold s16, sgn. change (2 ^ 16) with 65536. change (2 ^ (16 - 1)) with 32768.
    replace ((- z - 8 - 8 * j) mod 65536) with (- z - 8 - 8 * j + 65536).
    - destruct (Z.ltb_spec (- z - 8 - 8 * j + 65536) 32768); lia.
    - symmetry. rewrite <- (Z.mod_add _ 1) by lia. apply Z.mod_small. lia. }
  rewrite Hs. split; [|lia].
  apply Z.mod_divide in Hm; [|lia]. destruct Hm as [k ->]. apply Z.mod_divide; [lia|]. exists (- k - 1 - j). lia.
Qed.
Lemma filter_stack (K : cfg) e p :
  compile_filter K e = inl (Some p) -> Z.of_nat (List.length (code p)) < 2 ^ 15 ->
  8 <= cf_resv K <= 464 -> cf_resv K mod 8 = 0 ->
  (forall b off r n, In (ISt b off r n) (code p) ->
     b = RFP /\ n = 8%nat /\ off mod 8 = 0 /\ -512 <= off /\ off + 8 <= - cf_resv K) /\
  forall m ms, exists r0 ms',
    (forall fuel, (List.length (code p) + 3 <= fuel)%nat -> run fuel m p 0 ms = Done r0 ms') /\
    forall x, stk ms' x <> stk ms x -> -8 <= x < 0 \/ -512 <= x < - cf_resv K.
Proof.
  intros H Hl Hz Hm. split.
  - intros b off r n Hin.
    destruct (filter_run K e p H Hl {| mapped := fun _ => false; clob := fun _ _ => 0 |} {| rg := fun _ => 0; stk := fun _ => 0; ker := fun _ => 0; ncall := 0 |})
      as (_ & _ & _ & _ & Hf & _).
    rewrite Forall_forall in Hf. destruct (Hf _ Hin) as (-> & Hs & ->). destruct (slot_val _ _ Hz Hm Hs) as (A & B & C). auto.
  - intros m ms. destruct (filter_run K e p H Hl m ms) as (r0 & ms' & [_ Hst] & Hr & _). exists r0, ms'. split; [exact Hr|].
    intros x Hx.
    assert (Hd : (-8 <= x < 0 \/ -512 <= x < - cf_resv K) \/ ~ (-8 <= x < 0 \/ -512 <= x < - cf_resv K)) by lia.
    destruct Hd as [Hd|Hd]; [exact Hd|]. exfalso. apply Hx, Hst. intros [Hs|(off & Hs & Ho)]; [lia|].
    destruct (slot_val _ _ Hz Hm Hs) as (A & B & C). lia.
Qed.
Lemma norm_resv_ok n : norm_resv n mod 8 = 0 /\ 8 <= norm_resv n /\ n <= norm_resv n /\ norm_resv n < Z.max n 1 + 8.
Proof.
  unfold norm_resv. destruct (Z.leb_spec n 0).
  - split; [reflexivity|]. lia.
  - split; [apply Z.mod_mul; lia|]. pose proof (Z.div_mod (n + 7) 8 ltac:(lia)). pose proof (Z.mod_pos_bound (n + 7) 8 ltac:(lia)). lia.
Qed.
