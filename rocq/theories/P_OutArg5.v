(** * Proofs for M_OutArg: the program and the display *)
From Coq Require Import ZArith List Bool Lia.
From Verif Require Import M_Go M_Ebpf P_Ebpf M_CcNum M_Cc M_Bytes M_FnArgs S_FnArgs S_CSem S_CSup S_Null M_OutArg S_OutArg.
From Verif Require Import P_CcMach P_CcWalk P_CcMat P_FnArgs P_FnArgs2 P_OutArg P_OutArg2 P_OutArg3 P_OutArg4.
Import ListNotations.
Open Scope Z_scope.

Section Top.
  Variables (T : tinfo) (K : cfg) (C : cenv) (m : mach) (A : Z).
  Hypothesis HT : tinfo_ok T.
  Hypothesis Hmap : forall a, ce_map C a = true -> mapped m a = true.
  Hypothesis HE : ce_bt C = cf_env K.
  Hypothesis HV : ce_vars C = cf_vars K.
  Hypothesis Hslot : forall i, (i < List.length (cf_vars K))%nat ->
    Z.of_nat i * 8 < 2 ^ 15 /\ rd C (A + Z.of_nat i * 8) 8 = Some (ce_slot C i).
  Variables (buf size fp : Z) (s0 : mst).
  Hypothesis Hbuf : 0 <= buf /\ buf + size <= M64.
  Hypothesis Hsize : size < 2 ^ 15.
  Hypothesis Hframe : inframe buf size fp.
  Hypothesis Hap : forall a, ce_map C a = true -> ~ (buf <= a < buf + size).
  Hypothesis Hk0 : kagree C (ker s0).
  Notation oinv := (oinv buf size s0 A fp).

  Definition ready (r : eres) : Prop :=
    Z.of_nat (List.length (r_code r)) < 2 ^ 15 /\ (cf_mode K <> MDirect -> Forall (fun i => dest i <> Some 5%nat) (r_code r)).
  Lemma ready_nowr r : ready r -> nowr K (r_code r).
  Proof. intros [_ H]. unfold nowr. destruct (cf_mode K) eqn:E; [right|right|left; reflexivity]; apply H; discriminate. Qed.

  Lemma match_total es : forall off l tot, match_params T K es off = Some (l, tot) -> tot = off + total l /\
    Forall (fun a => oa_type a = RDefault -> oa_str a = false -> oa_true a = if oa_num a then 16 else 8) l.
  Proof.
    induction es as [|e es IH]; intros off l tot H; cbn [match_params] in H.
    { injection H as <- <-. cbn [total]. split; [lia|constructor]. }
    destruct (matches_params (cf_vars K) e); cbn [negb] in H; [|apply IH; exact H].
    destruct (compile_eval K e) as [r|]; [|discriminate]. destruct (gen_arg T (cf_env K) r off) as [a|] eqn:Hg; [|discriminate].
    destruct (match_params T K es (off + oa_size a)) as [[l' o]|] eqn:Hm; [|discriminate]. injection H as <- <-.
    destruct (IH _ _ _ Hm) as [H1 H2]. cbn [total]. split; [lia|]. constructor; [|exact H2]. exact (gen_arg_wf _ _ _ _ _ Hg).
  Qed.

  Lemma caps es : forall off l tot vs s, match_params T K es off = Some (l, tot) ->
    Forall2 (outcome K C) (filter (matches_params (cf_vars K)) es) vs ->
    (forall e r, In e es -> compile_eval K e = Some r -> ready r) ->
    Forall (fun a => 1 <= oa_true a /\ - 2 ^ 31 <= oa_off a < 2 ^ 31) l -> Forall2 (arg_apart buf size) l vs ->
    oinv s -> 0 <= off -> tot <= size ->
    exists s', exec m (flat_map oa_insn l) 0 s = FFall 0 s' /\ oinv s' /\
      (forall x, ~ (buf + off <= x < buf + tot) -> ker s' x = ker s x) /\ encs m s0 l vs s' (buf + off).
  Proof.
    induction es as [|e es IH]; intros off l tot vs s H Ho Hr Hl Hpa I Hoff Htot; cbn [match_params filter] in H, Ho.
    { injection H as <- <-. inversion Ho; subst. exists s. cbn [flat_map exec encs]. split; [reflexivity|]. split; [exact I|]. split; [reflexivity|exact I0 || exact Logic.I]. }
    destruct (matches_params (cf_vars K) e); cbn [negb] in H.
    2:{ apply IH; try assumption. intros e' r' Hin. apply Hr. right. exact Hin. }
    destruct (compile_eval K e) as [r|] eqn:Hce; [|discriminate]. destruct (gen_arg T (cf_env K) r off) as [a|] eqn:Hg; [|discriminate].
    destruct (match_params T K es (off + oa_size a)) as [[l' o]|] eqn:Hm; [|discriminate]. injection H as <- <-.
    inversion Ho as [|? v ? vs' Hv Ho']; subst. inversion Hl as [|? ? [Ht Hof] Hl']; subst. inversion Hpa as [|? ? ? ? Hpa1 Hpa']; subst.
    destruct (match_total _ _ _ _ Hm) as [Etot _].
    assert (Htl : 0 <= total l'). { clear -Hl'. induction Hl' as [|b l [Hb _] _ IH]; cbn [total]; unfold oa_size; lia. }
    assert (Hka : kagree C (ker s)).
    { intros x Hx. rewrite (oik _ _ _ _ _ _ I) by (apply Hap; exact Hx). apply Hk0. exact Hx. }
    destruct (compile_eval_kind K e r Hce) as [Hd Hsm].
    pose proof (Hr e r (or_introl eq_refl) Hce) as Hrd.
    pose proof (evals_ok K C m A Hmap HE HV Hslot e r v s Hce Hv (proj1 Hrd) (ready_nowr r Hrd) (oi9 _ _ _ _ _ _ I) Hka) as Hev.
    destruct (block m buf size Hbuf s0 A fp Hsize Hframe s r T (cf_env K) off a v Hg HT I Hev Hoff Ht ltac:(lia) Hof Hd Hsm Hpa1) as (s1 & E1 & I1 & K1 & N1).
    destruct (IH _ _ _ vs' s1 Hm Ho' ltac:(intros e' r' Hin; apply Hr; right; exact Hin) Hl' Hpa' I1 ltac:(unfold oa_size; lia) Htot) as (s2 & E2 & I2 & K2 & N2).
    exists s2. cbn [flat_map]. split; [rewrite exec_app, E1; exact E2|]. split; [exact I2|].
    split. { intros x Hx. rewrite K2 by (unfold oa_size in *; lia). apply K1. unfold oa_size in *; lia. }
    cbn [encs]. split.
    - apply (enc_ext m 0 0 ltac:(change M64 with (2 ^ 64); lia) s0 a v s1); [lia| |exact N1]. intros x Hx. apply K2. lia.
    - replace (buf + off + oa_size a) with (buf + (off + oa_size a)) by lia. exact N2.
  Qed.
End Top.

Definition views (m : mach) (s : mst) (l : list oarg) (vs : list (option Z)) : list shown :=
  map (fun p => view_arg (mem_of m s) (fst p) (snd p)) (combine l vs).

Theorem output_round_trip T K C m s es l size buf A vs :
  tinfo_ok T -> ce_bt C = cf_env K -> ce_vars C = cf_vars K -> (forall a, ce_map C a = true -> mapped m a = true) -> kagree C (ker s) ->
  rg s R1 = A -> (forall i, (i < List.length (cf_vars K))%nat -> Z.of_nat i * 8 < 2 ^ 15 /\ rd C (A + Z.of_nat i * 8) 8 = Some (ce_slot C i)) ->
  match_params T K es 0 = Some (l, size) -> size < 2 ^ 15 -> out_state C s buf size ->
  (forall e r, In e es -> compile_eval K e = Some r -> ready K r) ->
  Forall (fun a => 1 <= oa_true a /\ - 2 ^ 31 <= oa_off a < 2 ^ 31) l ->
  Forall2 (outcome K C) (filter (matches_params (cf_vars K)) es) vs -> Forall2 (arg_apart buf size) l vs ->
  exists s' got, (forall fuel, (List.length (code (gen_output_arg l)) <= fuel)%nat -> run fuel m (gen_output_arg l) 0 s = Done (rg s' R0) s') /\
    (forall x, ~ (buf <= x < buf + size) -> ker s' x = ker s x) /\
    dec_args l (record s' buf size) = Some got /\ List.length got = List.length l /\
    (forall pre x post, views m s l vs = pre ++ x :: post -> Forall (fun y => ~ sampled y) pre -> nth_error got (List.length pre) = Some x).
Proof.
  intros HT HE HV Hm Hk H1 Hs Hmp Hsz [[H2 [Hb0 Hb1]] Hfr Hap] Hrd Hl Ho Hpa.
  set (s1 := setr (setr s R9 (rg s R1)) R8 (rg s R2)).
  assert (I1 : oinv buf size s A (rg s RFP) s1).
  { unfold s1. split; [rewrite rg_setr_eq; exact H2|rewrite rg_setr_neq by (unfold R8, R9; lia); rewrite rg_setr_eq; exact H1|
      rewrite !rg_setr_neq by (unfold R8, R9, RFP; lia); reflexivity|reflexivity]. }
  destruct (caps T K C m A HT Hm HE HV Hs buf size (rg s RFP) s (conj Hb0 Hb1) Hsz Hfr Hap Hk es 0 l size vs s1 Hmp Ho Hrd Hl Hpa I1 ltac:(lia) ltac:(lia))
    as (s2 & E2 & I2 & K2 & N2).
  destruct (match_total T K es 0 l size Hmp) as [Et Hwf].
  assert (Hw : Forall wf_arg l).
  { apply Forall_forall. intros a Ha. rewrite Forall_forall in Hl, Hwf. split; [apply (Hl a Ha)|apply Hwf; exact Ha]. }
  rewrite Z.add_0_r in N2.
  destruct (dec_args_total l (record s2 buf size) Hw) as (got & Hg & Hlen).
  { rewrite record_bl, bl_length. lia. }
  exists s2, got. split; [|split; [|split; [exact Hg|split; [exact Hlen|]]]].
  - intros fuel Hf. apply (exec_run m ([IMovR R9 R1; IMovR R8 R2] ++ flat_map oa_insn l)); [|unfold gen_output_arg; cbn [code app]; reflexivity|exact Hf].
    rewrite exec_app. cbn [app exec step1]. fold s1.
    change (setr (setr s R9 (rg s R1)) R8 (rg (setr s R9 (rg s R1)) R2)) with s1. rewrite E2. reflexivity.
  - intros x Hx. rewrite K2 by lia. reflexivity.
  - intros pre x post Hv Hp. rewrite record_bl in Hg.
    eapply (dec_args_enc m s l vs s2 buf (Z.to_nat size)); [exact Hw|exact N2|lia|exact Hg|exact Hv|].
    eapply Forall_impl; [|exact Hp]. intros [| | | | |]; cbn; tauto.
Qed.
