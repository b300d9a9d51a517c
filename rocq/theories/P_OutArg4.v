(** * Proofs for M_OutArg: all expressions, and decoding *)
From Coq Require Import ZArith List Bool Lia.
From Verif Require Import M_Go M_Ebpf P_Ebpf M_CcNum M_Cc M_Bytes M_FnArgs S_FnArgs S_CSem S_CSup S_Null M_OutArg S_OutArg.
From Verif Require Import P_CcMach P_CcWalk P_CcMat P_FnArgs P_FnArgs2 P_OutArg P_OutArg2 P_OutArg3.
Import ListNotations.
Open Scope Z_scope.

Definition wf_arg (a : oarg) : Prop := 1 <= oa_true a /\ (oa_type a = RDefault -> oa_str a = false -> oa_true a = if oa_num a then 16 else 8) .
Lemma gen_arg_wf T E r off a : gen_arg T E r off = Some a -> oa_type a = RDefault -> oa_str a = false -> oa_true a = if oa_num a then 16 else 8.
Proof.
  unfold gen_arg. destruct (r_btf r) as [t|]; [|discriminate]. destruct (sizeof E t) as [n|]; [|discriminate]. cbv zeta.
  destruct (r_type r); try (intros H; injection H as <-; discriminate);
    (destruct (is_str_ty T t) eqn:Hs;
     [destruct (ti_chars T t); intros H; injection H as <-; cbn [oa_str]; discriminate|
      destruct (_ || _); [discriminate|]; intros H; injection H as <-; cbn [oa_num oa_true oa_type]; reflexivity]).
Qed.

Fixpoint total (l : list oarg) : Z := match l with [] => 0 | a :: l' => oa_size a + total l' end.

Section Enc.
  Variables (m : mach) (s0 : mst).
  Notation enc := (enc m s0).
  Fixpoint encs (l : list oarg) (vs : list (option Z)) (s : mst) (b : Z) : Prop :=
    match l, vs with
    | a :: l', v :: vs' => enc a v s b /\ encs l' vs' s (b + oa_size a)
    | [], [] => True
    | _, _ => False
    end.
  Lemma encs_ext l : forall vs s s' b, Forall (fun a => 0 <= oa_true a) l -> (forall x, b <= x < b + total l -> ker s' x = ker s x) -> encs l vs s b -> encs l vs s' b.
  Proof.
    induction l as [|a l IH]; intros vs s s' b Hp H; destruct vs as [|v vs]; cbn [encs]; try tauto. inversion Hp; subst.
    assert (Ht : 0 <= total l). { clear -H3. induction H3; cbn [total]; unfold oa_size in *; lia. }
    cbn [total] in H. unfold oa_size in *. intros [E1 E2]. split.
    - apply (enc_ext m 0 0 ltac:(change M64 with (2 ^ 64); lia) s0 a v s); [assumption|intros x Hx; apply H; unfold oa_size in Hx; lia|exact E1].
    - apply (IH vs s); [assumption|intros x Hx; apply H; unfold oa_size in Hx; lia|exact E2].
  Qed.
  Lemma read_strn_bl f b n N : (n <= N)%nat -> read_strn (bl f b N) n = Some (null_terminated (bl f b n), bl f (b + Z.of_nat n) (N - n)).
  Proof.
    intros H. unfold read_strn. rewrite bl_length. destruct (Nat.ltb_spec N n); [lia|]. rewrite firstn_bl, skipn_bl by lia. reflexivity.
  Qed.
  Lemma read_u64_bl f b N : (8 <= N)%nat -> read_u64 (bl f b N) = Some (M_Go.le_bytes (bl f b 8), bl f (b + 8) (N - 8)).
  Proof.
    intros H. unfold read_u64, get_u64. rewrite bl_length. destruct (Nat.ltb_spec N 8); [lia|]. rewrite firstn_bl, skipn_bl by lia. reflexivity.
  Qed.

  (** reading one value never fails *)
  Lemma dec_value_total a d : wf_arg a -> (Z.to_nat (oa_size a) <= List.length d)%nat ->
    exists s d', dec_value a d = Some (s, d') /\ (List.length d - Z.to_nat (oa_size a) <= List.length d')%nat.
  Proof.
    intros [H1 H2] Hl. unfold dec_value. unfold oa_size in *. replace (Z.to_nat (oa_true a + 1)) with (Z.to_nat (oa_true a) + 1)%nat in * by lia.
    destruct (Nat.ltb_spec (List.length d) (Z.to_nat (oa_true a) + 1)); [lia|].
    destruct (oa_type a); try (do 2 eexists; split; [reflexivity|]; rewrite ?skipn_length; lia).
    destruct (oa_str a) eqn:Hst.
    - unfold read_strn. destruct (Nat.ltb_spec (List.length d) (Z.to_nat (oa_true a))); [lia|]. do 2 eexists. split; [reflexivity|]. rewrite !skipn_length. lia.
    - specialize (H2 eq_refl eq_refl). unfold read_u64, get_u64. destruct (Nat.ltb_spec (List.length d) 8); [destruct (oa_num a); lia|].
      destruct (oa_num a).
      + rewrite skipn_length. destruct (Nat.ltb_spec (List.length d - 8) 8); [lia|]. do 2 eexists. split; [reflexivity|]. rewrite !skipn_length. lia.
      + do 2 eexists. split; [reflexivity|]. rewrite !skipn_length. lia.
  Qed.
  Lemma total_nonneg l : Forall wf_arg l -> 0 <= total l.
  Proof. intros H. induction H as [|a l [H1 _] _ IH]; cbn [total]; unfold oa_size; lia. Qed.
  Lemma dec_args_total l : forall d, Forall wf_arg l -> (Z.to_nat (total l) <= List.length d)%nat ->
    exists got, dec_args l d = Some got /\ List.length got = List.length l.
  Proof.
    induction l as [|a l IH]; intros d Hf Hl; [exists []; split; reflexivity|]. inversion Hf as [|? ? Ha Hf']; subst.
    pose proof (total_nonneg _ Hf') as Ht. cbn [total] in Hl. cbn [dec_args].
    destruct (nth_error d (Z.to_nat (oa_true a))) as [x|] eqn:Hx.
    2:{ apply nth_error_None in Hx. exfalso. destruct Ha. unfold oa_size in *. lia. }
    assert (Hs : (Z.to_nat (oa_size a) + Z.to_nat (total l) <= List.length d)%nat) by (destruct Ha; unfold oa_size in *; lia).
    destruct (negb (x =? 0)).
    - destruct (IH (skipn (Z.to_nat (oa_true a) + 1) d) Hf') as (g & -> & Hg).
      { rewrite skipn_length. destruct Ha; unfold oa_size in *; lia. }
      exists (SNull :: g). cbn. auto.
    - destruct (dec_value_total a d Ha ltac:(lia)) as (sh & d' & -> & Hd').
      destruct (IH d' Hf' ltac:(lia)) as (g & -> & Hg). exists (sh :: g). cbn. auto.
  Qed.

  (** one value is read back as encoded *)
  Lemma dec_value_enc a v s b N : wf_arg a -> oa_type a = RDefault \/ oa_type a <> RDefault -> enc a v s b -> (Z.to_nat (oa_size a) <= N)%nat ->
    view_arg (mem_of m s0) a v <> SNull ->
    exists d', dec_value a (bl (ker s) b N) = Some (view_arg (mem_of m s0) a v, d') /\
      (is_sample (oa_type a) = false -> d' = bl (ker s) (b + oa_size a) (N - Z.to_nat (oa_size a))).
  Proof.
    intros [H1 H2] _ Henc HN Hnn. unfold P_OutArg2.enc in Henc. unfold dec_value, oa_size in *.
    replace (Z.to_nat (oa_true a + 1)) with (Z.to_nat (oa_true a) + 1)%nat in * by lia.
    rewrite bl_length. destruct (Nat.ltb_spec N (Z.to_nat (oa_true a) + 1)); [lia|].
    assert (Hf : firstn (Z.to_nat (oa_true a)) (bl (ker s) b N) = bl (ker s) b (Z.to_nat (oa_true a))) by (apply firstn_bl; lia).
    assert (Hk : skipn (Z.to_nat (oa_true a) + 1) (bl (ker s) b N) = bl (ker s) (b + (oa_true a + 1)) (N - (Z.to_nat (oa_true a) + 1))).
    { rewrite skipn_bl by lia. f_equal. lia. }
    unfold view_arg in Henc, Hnn |- *. destruct v as [v|]; [|congruence].
    destruct (oa_chk a && (v =? 0)); [congruence|].
    destruct (oa_type a); rewrite ?Hf, ?Hk.
    2-12: try (destruct Henc as [_ Henc]; rewrite <- Henc; eexists; split; [reflexivity|]; try reflexivity; intros; try discriminate; reflexivity).
    destruct (oa_str a) eqn:Hst.
    - destruct Henc as [_ Henc]. rewrite read_strn_bl by lia. rewrite Henc. eexists. split; [reflexivity|]. intros _.
      rewrite skipn_bl by lia. f_equal; lia.
    - specialize (H2 eq_refl eq_refl). destruct (oa_num a) eqn:Hnum.
      + destruct Henc as (_ & _ & Hv & Hw). rewrite H2 in *. rewrite read_u64_bl by lia. rewrite read_u64_bl by lia. rewrite Hv, Hw. eexists. split; [reflexivity|].
        intros _. rewrite skipn_bl by lia. f_equal; lia.
      + destruct Henc as (_ & _ & Hv). rewrite H2 in *. rewrite read_u64_bl by lia. rewrite Hv. eexists. split; [reflexivity|].
        intros _. rewrite skipn_bl by lia. f_equal; lia.
  Qed.
  Lemma flag_nz a v s b : enc a v s b -> (ker s (b + oa_true a) mod 256 =? 0) = match view_arg (mem_of m s0) a v with SNull => false | _ => true end.
  Proof. unfold P_OutArg2.enc. destruct (view_arg (mem_of m s0) a v); try (intros [-> _]; reflexivity). intros ->. reflexivity. Qed.
  Definition plain (x : shown) : Prop := match x with SSample _ => False | _ => True end.
  Lemma sample_type a v : wf_arg a -> plain (view_arg (mem_of m s0) a v) -> view_arg (mem_of m s0) a v <> SNull -> is_sample (oa_type a) = false.
  Proof.
    intros _. unfold view_arg. destruct v as [v|]; [|congruence]. destruct (oa_chk a && (v =? 0)); [congruence|]. destruct (oa_type a); try reflexivity; intros [].
  Qed.
  Definition map2 {A B D} (f : A -> B -> D) (l : list A) (r : list B) : list D := map (fun p => f (fst p) (snd p)) (combine l r).

  Lemma dec_args_enc l : forall vs s b N got, Forall wf_arg l -> encs l vs s b -> (Z.to_nat (total l) <= N)%nat ->
    dec_args l (bl (ker s) b N) = Some got ->
    forall pre x post, map2 (view_arg (mem_of m s0)) l vs = pre ++ x :: post -> Forall plain pre -> nth_error got (List.length pre) = Some x.
  Proof.
    induction l as [|a l IH]; intros vs s b N got Hf He Hl Hg pre x post Hx Hp.
    { destruct pre; discriminate. }
    destruct vs as [|v vs]; [destruct He|]. destruct He as [Ha He]. inversion Hf as [|? ? Hwa Hf']; subst.
    pose proof (total_nonneg _ Hf') as Ht. cbn [total] in Hl. cbn [dec_args] in Hg.
    assert (Hs : (Z.to_nat (oa_size a) + Z.to_nat (total l) <= N)%nat) by (destruct Hwa; unfold oa_size in *; lia).
    assert (Hnth : nth_error (bl (ker s) b N) (Z.to_nat (oa_true a)) = Some (ker s (b + oa_true a) mod 256)).
    { rewrite bl_map, nth_error_map. rewrite (nth_error_nth' _ 0%nat) by (rewrite seq_length; destruct Hwa; unfold oa_size in *; lia).
      rewrite seq_nth by (destruct Hwa; unfold oa_size in *; lia). cbn [option_map]. do 3 f_equal. destruct Hwa. lia. }
    rewrite Hnth in Hg. rewrite (flag_nz a v s b Ha) in Hg. cbn [map2 combine map fst snd] in Hx.
    change (map2 (view_arg (mem_of m s0)) (a :: l) (v :: vs)) with (view_arg (mem_of m s0) a v :: map2 (view_arg (mem_of m s0)) l vs) in Hx.
    destruct (view_arg (mem_of m s0) a v) eqn:Hv; cbn [negb] in Hg.
    1:{ rewrite skipn_bl in Hg by (destruct Hwa; unfold oa_size in *; lia).
      replace (b + Z.of_nat (Z.to_nat (oa_true a) + 1)) with (b + oa_size a) in Hg by (unfold oa_size; destruct Hwa; lia).
      destruct (dec_args l _) as [g|] eqn:Hd; [|discriminate]. injection Hg as <-.
      destruct pre as [|p pre]; cbn [app] in Hx; injection Hx as <- Hx; [reflexivity|]. cbn [List.length nth_error]. inversion Hp; subst.
      eapply (IH vs s (b + oa_size a)); [exact Hf'|exact He| |exact Hd|exact Hx|assumption].
      unfold oa_size in *. destruct Hwa. lia. }
    all: destruct (dec_value_enc a v s b N Hwa) as (d' & Hdv & Hd'); [destruct (oa_type a); auto; right; discriminate|exact Ha|lia|congruence|];
      rewrite Hdv in Hg; destruct (dec_args l d') as [g|] eqn:Hd; [|discriminate]; injection Hg as <-;
      destruct pre as [|p pre]; cbn [app] in Hx; injection Hx as <- Hx; [rewrite Hv; reflexivity|];
      inversion Hp; subst; cbn [List.length nth_error].
    all: try (match goal with H : plain (SSample _) |- _ => destruct H end).
    all: assert (Hsam : is_sample (oa_type a) = false) by (apply (sample_type a v Hwa); [rewrite Hv; exact I|rewrite Hv; discriminate]);
      rewrite (Hd' Hsam) in Hd; eapply (IH vs s (b + oa_size a)); [exact Hf'|exact He| |exact Hd|exact Hx|assumption]; lia.
  Qed.
End Enc.
