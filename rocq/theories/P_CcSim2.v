(** * Simulation theorem for [evaluate] (induction on the expression). *)
From Coq Require Import ZArith List Bool Lia String Ascii.
From Verif Require Import M_Ebpf P_Ebpf M_CcNum M_Cc S_CSem S_CSup P_CcMach P_CcWalk P_CcNumr P_CcMat P_CcVal P_CcOps P_CcOps2 P_CcSim.
Import ListNotations.
Open Scope Z_scope.

Lemma literal_ok_iff n : literal_ok n = true <-> 0 < n < 2 ^ 31 \/ 2 ^ 64 - 2 ^ 31 <= n < 2 ^ 64.
Proof.
  unfold literal_ok. rewrite andb_true_iff, orb_true_iff, andb_true_iff, !Z.ltb_lt, Z.leb_le. lia.
Qed.
Lemma eval_cast K ct a s : is_num a = false -> evaluate K (ECast ct a) s =
  (let* v, s1 := evaluate K a s in
   match cc2btf (cf_env K) ct with Some ty => ROk (cast_value v ty) s1 | None => RErr end).
Proof. destruct a; try discriminate; intros _; reflexivity. Qed.
Lemma sup_cast_eq K C ct a : is_num a = false -> sup K C (ECast ct a) =
  match cc2btf (cf_env K) ct, csem C (cc2btf (cf_env K)) (ECast ct a) with
  | Some t, Some res => match csem C (cc2btf (cf_env K)) a, sup K C a with
                        | Some v, Some k => sup_cast K C t v k res
                        | _, _ => None
                        end
  | _, _ => None
  end.
Proof.
  intros H. destruct a; try discriminate H; reflexivity.
Qed.

Section Sim2.
  Variables (K : cfg) (C : cenv) (m : mach) (A : Z).
  Hypothesis Hmap : forall a, ce_map C a = true -> mapped m a = true.
  Hypothesis HE : ce_bt C = cf_env K.
  Hypothesis HV : ce_vars C = cf_vars K.
  Hypothesis Hslot : forall i, (i < List.length (cf_vars K))%nat ->
    Z.of_nat i * 8 < 2 ^ 15 /\ rd C (A + Z.of_nat i * 8) 8 = Some (ce_slot C i).
  Notation E := (cf_env K).
  Notation lim := (lim K).
  Notation vrel := (vrel K C).
  Notation ptr_inv := (ptr_inv K).
  Notation nowr := (nowr K).
  Notation Sok := (Sok K).
  Notation pre := (pre C A).
  Notation sem := (csem C (cc2btf E)).
  Notation sup := (sup K C).

  Definition spec (s : cst) (v : value) (s' : cst) (e : expr) : Prop :=
    exists d, c_code s' = c_code s ++ d /\ keep (c_regs s) s' /\ keepv (c_regs s) s' v /\
      (Z.of_nat (List.length d) < 2 ^ 15 -> nowr d -> Sok s -> Sok s' /\
       forall ms c k, pre ms -> sem e = Some c -> sup e = Some k ->
       exists ms', exec m d 0 ms = FFall 0 ms' /\ frame (c_regs s) ms ms' /\ vrel ms' v c k).

  Lemma spec_pure s v e : vregs v = [] -> (forall ms c k, sem e = Some c -> sup e = Some k -> vrel ms v c k) -> spec s v s e.
  Proof.
    intros Hr H. exists []. rewrite app_nil_r. split; [reflexivity|]. split; [intros r Hx; exact Hx|].
    split; [intros r Hx; rewrite Hr in Hx; destruct Hx|]. intros _ _ Hs. split; [exact Hs|].
    intros ms c k _ Hc Hk. exists ms. split; [reflexivity|]. split; [apply frame_refl|auto].
  Qed.
  (** A step that only changes the description of the value. *)
  Lemma spec_map s v s1 a v' e : spec s v s1 a -> vregs v' = vregs v \/ True ->
    (vregs v' = vregs v) ->
    (forall c k, sem e = Some c -> sup e = Some k -> exists c0 k0, sem a = Some c0 /\ sup a = Some k0 /\
       forall ms, vrel ms v c0 k0 -> vrel ms v' c k) -> spec s v' s1 e.
  Proof.
    intros (d & Hc & Hk & Hkv & Hx) _ Hr H. exists d. split; [exact Hc|]. split; [exact Hk|].
    split; [intros r Hin; apply Hkv; rewrite <- Hr; exact Hin|].
    intros Hl Hn Hs. destruct (Hx Hl Hn Hs) as [Hs' Hx']. split; [exact Hs'|].
    intros ms c k Hp Hsc Hsk. destruct (H c k Hsc Hsk) as (c0 & k0 & Hc0 & Hk0 & Hv).
    destruct (Hx' ms c0 k0 Hp Hc0 Hk0) as (ms' & E1 & F1 & V1). exists ms'. auto.
  Qed.

  Lemma len_app_lt {X} (a b : list X) : Z.of_nat (List.length (a ++ b)) < 2 ^ 15 ->
    Z.of_nat (List.length a) < 2 ^ 15 /\ Z.of_nat (List.length b) < 2 ^ 15.
  Proof. rewrite app_length. lia. Qed.

  Lemma spec_un s v s1 a v' s' e sm : spec s v s1 a -> upost K C m A (c_regs s) s1 v v' s' sm ->
    (forall c k, sem e = Some c -> sup e = Some k -> exists c0 k0, sem a = Some c0 /\ sup a = Some k0 /\ sm c0 k0 c k) ->
    spec s v' s' e.
  Proof.
    intros (d & Hc & Hk & Hkv & Hx) (d2 & Hc2 & Hk2 & Hkv2 & Hx2) H. exists (d ++ d2).
    split; [rewrite Hc2, Hc, app_assoc; reflexivity|]. split; [exact Hk2|]. split; [exact Hkv2|].
    intros Hl Hn Hs. apply len_app_lt in Hl as [Hl1 Hl2].
    destruct (Hx Hl1 (nowr_l _ _ _ Hn) Hs) as [Hs1 Hx'].
    destruct (Hx2 Hl2 (nowr_r _ _ _ Hn) Hs1) as [Hs2 Hx2']. split; [exact Hs2|].
    intros ms c k Hp Hsc Hsk. destruct (H c k Hsc Hsk) as (c0 & k0 & Hc0 & Hk0 & Hsm).
    destruct (Hx' ms c0 k0 Hp Hc0 Hk0) as (ms1 & E1 & F1 & V1).
    pose proof (pre_frame K C A s ms ms1 Hs F1 Hp) as Hp1.
    destruct (Hx2' ms1 c0 k0 c k Hp1 V1 Hsm) as (ms2 & E2 & F2 & V2). exists ms2.
    rewrite exec_app, E1. split; [exact E2|]. split; [eapply frame_trans; eassumption|exact V2].
  Qed.

  Lemma keep_trans (U : reg -> bool) s1 s2 : keep U s1 -> keep (c_regs s1) s2 -> keep U s2.
  Proof. intros H1 H2 r Hr. apply H2, H1, Hr. Qed.
  Lemma keepv_mono U s1 s2 v : keepv U s1 v -> keep (c_regs s1) s2 -> keepv U s2 v.
  Proof. intros H1 H2 r Hr. destruct (H1 r Hr). split; [apply H2; assumption|assumption]. Qed.
  Lemma keepv_sub (U : reg -> bool) s1 s2 v : keepv (c_regs s1) s2 v -> keep U s1 -> keepv U s2 v.
  Proof.
    intros H1 H2 r Hr. destruct (H1 r Hr) as [Ha Hb]. split; [assumption|].
    destruct (U r) eqn:Hu; [|reflexivity]. apply H2 in Hu. congruence.
  Qed.
  Lemma keepv_disj U s1 s2 a b : keepv U s1 a -> keepv (c_regs s1) s2 b -> disj a b.
  Proof. intros H1 H2 r Ha Hb. destruct (H1 r Ha), (H2 r Hb). congruence. Qed.

  (** What a pair of evaluated operands provides to an operator. *)
  Lemma spec_pair s l s1 a r s2 b : spec s l s1 a -> spec s1 r s2 b ->
    keep (c_regs s) s2 /\ keepv (c_regs s) s2 l /\ keepv (c_regs s) s2 r /\ disj l r.
  Proof.
    intros (d & Hc & Hk & Hkv & Hx) (d2 & Hc2 & Hk2 & Hkv2 & Hx2).
    split; [eapply keep_trans; eassumption|]. split; [eapply keepv_mono; eassumption|].
    split; [eapply keepv_sub; eassumption|eapply keepv_disj; eassumption].
  Qed.
  Lemma spec_bin s l s1 a r s2 b v s' e sm : spec s l s1 a -> spec s1 r s2 b ->
    bpost K C m A (c_regs s) s2 l r v s' sm ->
    (forall c k, sem e = Some c -> sup e = Some k -> exists c1 k1 c2 k2,
       sem a = Some c1 /\ sup a = Some k1 /\ sem b = Some c2 /\ sup b = Some k2 /\ sm c1 k1 c2 k2 c k) ->
    spec s v s' e.
  Proof.
    intros (d & Hc & Hk & Hkv & Hx) (d2 & Hc2 & Hk2 & Hkv2 & Hx2) (d3 & Hc3 & Hk3 & Hkv3 & Hx3) H. exists (d ++ d2 ++ d3).
    split; [rewrite Hc3, Hc2, Hc, !app_assoc; reflexivity|]. split; [exact Hk3|]. split; [exact Hkv3|].
    intros Hl Hn Hs. apply len_app_lt in Hl as [Hl1 Hl]. apply len_app_lt in Hl as [Hl2 Hl3].
    destruct (Hx Hl1 (nowr_l _ _ _ Hn) Hs) as [Hs1 Hx'].
    pose proof (nowr_r _ _ _ Hn) as Hn2.
    destruct (Hx2 Hl2 (nowr_l _ _ _ Hn2) Hs1) as [Hs2 Hx2'].
    destruct (Hx3 Hl3 (nowr_r _ _ _ Hn2) Hs2) as [Hs3 Hx3']. split; [exact Hs3|].
    intros ms c k Hp Hsc Hsk. destruct (H c k Hsc Hsk) as (c1 & k1 & c2 & k2 & Hc1 & Hk1 & Hc2' & Hk2' & Hsm).
    destruct (Hx' ms c1 k1 Hp Hc1 Hk1) as (ms1 & E1 & F1 & V1).
    pose proof (pre_frame K C A s ms ms1 Hs F1 Hp) as Hp1.
    destruct (Hx2' ms1 c2 k2 Hp1 Hc2' Hk2') as (ms2 & E2 & F2 & V2).
    pose proof (pre_frame K C A s1 ms1 ms2 Hs1 F2 Hp1) as Hp2.
    assert (V1' : vrel ms2 l c1 k1).
    { eapply vrel_frame; [exact F2| |exact V1]. intros x Hin. apply (Hkv x Hin). }
    destruct (Hx3' ms2 c1 k1 c2 k2 c k Hp2 V1' V2 Hsm) as (ms3 & E3 & F3 & V3). exists ms3.
    rewrite exec_app, E1, exec_app, E2. split; [exact E3|]. split; [|exact V3].
    eapply frame_trans; [exact F1|]. eapply frame_trans; [|exact F3].
    eapply frame_mono; [exact Hk|exact F2].
  Qed.
  Lemma spec_tri s x s0 e0 l s1 a r s2 b v s' e : spec s x s0 e0 -> spec s0 l s1 a -> spec s1 r s2 b ->
    (exists d, c_code s' = c_code s2 ++ d /\ keep (c_regs s) s' /\ keepv (c_regs s) s' v /\
      (Z.of_nat (List.length d) < 2 ^ 15 -> nowr d -> Sok s2 -> Sok s' /\
       forall ms cc kc c1 k1 c2 k2 res k, pre ms -> vrel ms x cc kc -> vrel ms l c1 k1 -> vrel ms r c2 k2 ->
       sem_cond K C cc kc c1 k1 c2 k2 res k ->
       exists ms', exec m d 0 ms = FFall 0 ms' /\ frame (c_regs s) ms ms' /\ vrel ms' v res k)) ->
    (forall c k, sem e = Some c -> sup e = Some k -> exists c0 k0 c1 k1 c2 k2,
       sem e0 = Some c0 /\ sup e0 = Some k0 /\
       sem a = Some c1 /\ sup a = Some k1 /\ sem b = Some c2 /\ sup b = Some k2 /\ sem_cond K C c0 k0 c1 k1 c2 k2 c k) ->
    spec s v s' e.
  Proof.
    intros (d0 & Hc0 & Hk0 & Hkv0 & Hx0) (d & Hc & Hk & Hkv & Hx) (d2 & Hc2 & Hk2 & Hkv2 & Hx2) (d3 & Hc3 & Hk3 & Hkv3 & Hx3) H.
    exists (d0 ++ d ++ d2 ++ d3).
    split; [rewrite Hc3, Hc2, Hc, Hc0, !app_assoc; reflexivity|]. split; [exact Hk3|]. split; [exact Hkv3|].
    intros Hl Hn Hs. apply len_app_lt in Hl as [Hl0 Hl]. apply len_app_lt in Hl as [Hl1 Hl]. apply len_app_lt in Hl as [Hl2 Hl3].
    destruct (Hx0 Hl0 (nowr_l _ _ _ Hn) Hs) as [Hs0 Hx0'].
    pose proof (nowr_r _ _ _ Hn) as Hn1.
    destruct (Hx Hl1 (nowr_l _ _ _ Hn1) Hs0) as [Hs1 Hx'].
    pose proof (nowr_r _ _ _ Hn1) as Hn2.
    destruct (Hx2 Hl2 (nowr_l _ _ _ Hn2) Hs1) as [Hs2 Hx2'].
    destruct (Hx3 Hl3 (nowr_r _ _ _ Hn2) Hs2) as [Hs3 Hx3']. split; [exact Hs3|].
    intros ms c k Hp Hsc Hsk.
    destruct (H c k Hsc Hsk) as (cc & kc & c1 & k1 & c2 & k2 & Hcc & Hkc & Hc1 & Hk1 & Hc2' & Hk2' & Hsm).
    destruct (Hx0' ms cc kc Hp Hcc Hkc) as (ms0 & E0 & F0 & V0).
    pose proof (pre_frame K C A s ms ms0 Hs F0 Hp) as Hp0.
    destruct (Hx' ms0 c1 k1 Hp0 Hc1 Hk1) as (ms1 & E1 & F1 & V1).
    pose proof (pre_frame K C A s0 ms0 ms1 Hs0 F1 Hp0) as Hp1.
    destruct (Hx2' ms1 c2 k2 Hp1 Hc2' Hk2') as (ms2 & E2 & F2 & V2).
    pose proof (pre_frame K C A s1 ms1 ms2 Hs1 F2 Hp1) as Hp2.
    assert (V1' : vrel ms2 l c1 k1).
    { eapply vrel_frame; [exact F2| |exact V1]. intros y Hin. apply (Hkv y Hin). }
    assert (V0' : vrel ms2 x cc kc).
    { eapply vrel_frame; [exact F2| |]. { intros y Hin. apply Hk, (Hkv0 y Hin). }
      eapply vrel_frame; [exact F1| |exact V0]. intros y Hin. apply (Hkv0 y Hin). }
    destruct (Hx3' ms2 cc kc c1 k1 c2 k2 c k Hp2 V0' V1' V2 Hsm) as (ms3 & E3 & F3 & V3). exists ms3.
    rewrite exec_app, E0, exec_app, E1, exec_app, E2. split; [exact E3|]. split; [|exact V3].
    eapply frame_trans; [exact F0|]. eapply frame_trans; [|eapply frame_trans; [|exact F3]].
    - eapply frame_mono; [exact Hk0|exact F1].
    - eapply frame_mono; [|exact F2]. intros y Hy. apply Hk, Hk0, Hy.
  Qed.

  Ltac inv_eval H v s1 Hev :=
    match type of H with
    | bind (evaluate K ?a ?s) _ = _ =>
        destruct (evaluate K a s) as [v s1| |] eqn:Hev; cbn [bind] in H; [|discriminate|discriminate]
    end.
  Ltac inv_opt H v Hv :=
    match type of H with
    | of_opt ?o _ = _ => destruct o as [v|] eqn:Hv; cbn [of_opt] in H; [|discriminate]; inversion H; subst; clear H
    end.

  Lemma ev_some a : forall c x, sem a = Some c -> (match sem a with Some v => rval C v | None => None end) = x -> rval C c = x.
  Proof. intros c x H. rewrite H. auto. Qed.

  (** ** Unary operators *)
  Definition not_sem (c : cv) (k : tk) (res : cv) (k' : tk) : Prop :=
    exists x n, rval C c = Some x /\ num x = Some n /\ res = int_bool (n =? 0) /\
      ((exists t, k = KNum t /\ k' = KNum None) \/
       (exists n' t l, ldr K C c k = Some (n', t, l) /\ k' = KVal t false false)).
  Lemma not_sem_ok v0 : forall ms c k res k', vrel ms v0 c k -> not_sem c k res k' ->
       (exists n t w sg n', c = CInt n w sg /\ k = KNum t /\ k' = KNum None /\ n' = b2z (n =? 0) /\
           num res = Some n' /\ (exists w sg, res = CInt n' w sg) /\ - 2 ^ 63 <= n' < 2 ^ 63) \/
       (exists n t l, ldr K C c k = Some (n, t, l) /\ k' = KVal t false false /\
          forall r ms1, rg ms1 r = n mod l -> inrep l n -> r <> RFP -> exists ms2 n', exec m (IJmpI JNE r 0 2 :: reg2bool r) 0 ms1 = FFall 0 ms2 /\
            (forall U : reg -> bool, U r = false -> frame U ms1 ms2) /\ rg ms2 r = n' /\ num res = Some n' /\
            ptr_inv res t /\ 0 <= n' < lim t).
  Proof.
    intros ms c k res k' Hv (x & n & Hrv & Hn & -> & [(t & -> & ->)|(n' & t & l & Hl & ->)]).
    - left. destruct Hv as (n0 & w & sg & -> & -> & Hr). cbn [rval] in Hrv. inversion Hrv; subst x. cbn [num] in Hn.
      inversion Hn; subst n0. exists n, t, w, sg, (b2z (n =? 0)). do 4 (split; [reflexivity|]).
      split; [destruct (n =? 0); reflexivity|]. split; [unfold int_bool, b2z; eauto|]. destruct (n =? 0); cbn [b2z]; lia.
    - right. exists n', t, l. split; [exact Hl|]. split; [reflexivity|].
      destruct (ldr_mval K C m Hmap HE _ _ _ _ _ _ _ Hv Hl) as (_ & _ & _ & _ & _ & (x' & Hx' & Hnx' & _) & _).
      rewrite Hrv in Hx'. inversion Hx'; subst x'. rewrite Hn in Hnx'. inversion Hnx'; subst n'. clear Hx' Hnx'.
      intros r ms1 Hr Hin Hrf. cbn [exec step1 reg2bool jop_sem]. change (immv 0) with 0. rewrite Hr, (inr_zero _ _ Hin).
      pose proof (lim_pos K t) as Hlp.
      assert (Hl2 : 1 < lim t).
      { destruct (lim_cases K t) as [[_ ->]|[[_ ->]|[[_ ->]|(_ & _ & _ & ->)]]]; lia. }
      destruct (Z.eqb_spec n 0) as [Hz|Hz]; cbn [negb].
      + cbn. eexists; exists 1. split; [reflexivity|]. split; [intros U HU; apply frame_setr; assumption|].
        rewrite rg_setr_eq. split; [reflexivity|]. split; [reflexivity|]. split; [intros ? ? Hq; discriminate|lia].
      + cbn. eexists; exists 0. split; [reflexivity|]. split; [intros U HU; apply frame_setr; assumption|].
        rewrite rg_setr_eq. split; [rewrite Z.lxor_nilpotent; reflexivity|]. split; [reflexivity|].
        split; [intros ? ? Hq; discriminate|lia].
  Qed.

  Definition twid_sem (c : cv) (k : tk) (res : cv) (k' : tk) : Prop :=
    exists n w sg, rval C c = Some (CInt n w sg) /\
      res = CInt (conv (promote (w, sg)) (Z.lnot (conv (promote (w, sg)) n))) (fst (promote (w, sg))) (snd (promote (w, sg))) /\
      ((exists t, k = KNum t /\ conv (promote (w, sg)) (Z.lnot (conv (promote (w, sg)) n)) = Z.lnot n /\ k' = KNum None) \/
       (exists n' t l, ld K C c k = Some (n', t, l) /\ k' = KVal t false false /\ fst (promote (w, sg)) = 8 /\
          snd (promote (w, sg)) = false /\ lim t = 2 ^ 64)).
  Lemma lxor_lnot n : 0 <= n < 2 ^ 64 -> Z.lxor n (2 ^ 64 - 1) = Z.lnot n mod 2 ^ 64.
  Proof.
    intros Hn. replace (2 ^ 64 - 1) with (Z.ones 64) by reflexivity. apply Z.bits_inj'. intros i Hi.
    rewrite Z.lxor_spec. destruct (Z.ltb_spec i 64).
    - rewrite Z.mod_pow2_bits_low by lia. rewrite Z.lnot_spec, Z.ones_spec_low by lia. apply xorb_true_r.
    - rewrite Z.mod_pow2_bits_high by lia. rewrite Z.ones_spec_high by lia. rewrite xorb_false_r.
      rewrite <- (Z.mod_small n (2 ^ 64)) by assumption. apply Z.mod_pow2_bits_high. lia.
  Qed.
  Lemma twid_sem_ok v0 : forall ms c k res k', vrel ms v0 c k -> twid_sem c k res k' ->
       (exists n t w sg n', c = CInt n w sg /\ k = KNum t /\ k' = KNum None /\ n' = Z.lnot n /\
           num res = Some n' /\ (exists w sg, res = CInt n' w sg) /\ - 2 ^ 63 <= n' < 2 ^ 63) \/
       (exists n t l, ldr K C c k = Some (n, t, l) /\ k' = KVal t false false /\
          forall r ms1, rg ms1 r = n mod l -> inrep l n -> r <> RFP -> exists ms2 n', exec m [IAluI AXor r (-1)] 0 ms1 = FFall 0 ms2 /\
            (forall U : reg -> bool, U r = false -> frame U ms1 ms2) /\ rg ms2 r = n' /\ num res = Some n' /\
            ptr_inv res t /\ 0 <= n' < lim t).
  Proof.
    intros ms c k res k' Hv (n & w & sg & Hrv & -> & [(t & -> & Hq & ->)|(n' & t & l & Hl & -> & Hw & Hsg & Hlim)]).
    - left. destruct Hv as (n0 & w0 & sg0 & -> & -> & Hr). cbn [rval] in Hrv. inversion Hrv; subst n0 w0 sg0.
      exists n, t, w, sg, (Z.lnot n). do 4 (split; [reflexivity|]). rewrite Hq.
      split; [reflexivity|]. split; [eauto|]. unfold Z.lnot. lia.
    - right. exists n', t, l. split; [exact (proj1 (ld_ldr K C _ _ _ _ _ Hl))|]. split; [reflexivity|].
      destruct (ld_mval K C m Hmap HE _ _ _ _ _ _ _ Hv Hl) as (_ & _ & _ & Hr64 & _ & (x' & Hx' & Hnx' & _) & _).
      rewrite Hrv in Hx'. inversion Hx'; subst x'. cbn [num] in Hnx'. inversion Hnx'; subst n'. clear Hx' Hnx'.
      intros r ms1 Hr [_ Hin] Hrf. rewrite Z.mod_small in Hr by lia. cbn [exec step1 alu_sem]. eexists. exists (Z.lxor n (2 ^ 64 - 1)).
      split; [reflexivity|]. split; [intros U HU; apply frame_setr; assumption|].
      rewrite rg_setr_eq, Hr. change (immv (-1)) with (2 ^ 64 - 1). split; [reflexivity|].
      assert (Hc : conv (promote (w, sg)) (Z.lnot (conv (promote (w, sg)) n)) = Z.lxor n (2 ^ 64 - 1)).
      { unfold conv. rewrite Hw, Hsg. change (8 * 8) with 64. rewrite (Z.mod_small n) by assumption.
        symmetry. apply lxor_lnot. assumption. }
      split; [cbn [num]; f_equal; exact Hc|]. split; [intros ? ? Hq; discriminate|].
      rewrite Hlim, lxor_lnot by assumption. apply Z.mod_pos_bound. lia.
  Qed.
  Definition minus_sem (c : cv) (k : tk) (res : cv) (k' : tk) : Prop :=
    exists n t w sg w' sg', c = CInt n w sg /\ k = KNum t /\ k' = KNum None /\ res = CInt (- n) w' sg' /\
      - 2 ^ 63 <= - n < 2 ^ 63.

  Theorem sim_eval e : forall s v s', evaluate K e s = ROk v s' -> c_regs s 9%nat = true -> spec s v s' e.
  Proof.
    induction e as [x|txt|a IHa name|a IHa name|a IHa i IHi|a IHa|a IHa|ct a IHa|a IHa|op a IHa b IHb|op a IHa b IHb
      |a IHa b IHb|a IHa b IHb|a IHa|a IHa|a IHa|a IHa|a IHa|a IHa|c IHc a IHa b IHb|f IHf args|];
      intros s v s' H H9; [| | | | | | |pose proof H as H0| | | | | | | | | | | | | |]; cbn [evaluate] in H.
    - (* name *)
      inversion H; subst. apply spec_pure.
      + unfold eval_name. destruct (_ || _); [reflexivity|]. destruct (String.eqb x "true"); [reflexivity|].
        destruct (var_index (cf_vars K) x 0) as [[i t]|]; reflexivity.
      + intros ms c k Hc Hk. exact (name_rel K C HV x c k ms Hc Hk).
    - (* literal *)
      destruct (parse_number txt) as [n|] eqn:Hp; [|discriminate]. inversion H; subst.
      apply spec_pure; [reflexivity|]. intros ms c k Hc Hk. exact (literal_rel K C txt n c k ms Hp Hc Hk).
    - (* arrow *)
      inv_eval H v0 s1 Hev.
      assert (H' : of_opt (access_member K v0 name true) s1 = ROk v s') by (destruct v0; [exact H|exact H|exact H|discriminate]).
      clear H. inv_opt H' v2 Hac. pose proof (IHa _ _ _ Hev H9) as Hsp.
      assert (Hvr : vregs v = vregs v0).
      { unfold access_member in Hac. destruct (is_bf _); [discriminate|]. destruct (v_btf v0); [|discriminate].
        destruct (under _); try discriminate. destruct (find_member _ _ _) as [[? ?]|]; [|discriminate].
        destruct v0 as [| [| |] | |]; inversion Hac; reflexivity. }
      apply (spec_map _ _ _ _ _ _ Hsp (or_intror I) Hvr).
      intros c k Hc Hk. cbn [csem S_CSup.sup] in Hc, Hk.
      destruct (sem a) as [c0|] eqn:Hsa; [|discriminate]. destruct (sup a) as [k0|] eqn:Hka; [|discriminate].
      exists c0, k0. split; [reflexivity|]. split; [reflexivity|]. intros ms Hv0.
      destruct (rval C c0) as [[|p u|]|] eqn:Hrv; try discriminate.
      destruct (ptrval K C c0 k0) as [[p' tt]|] eqn:Hpt; [|discriminate].
      destruct (ptr_elt tt) as [u'|] eqn:Hpe; [|discriminate].
      exact (proj1 (arrow_rel K C m A Hmap HE Hslot _ _ _ _ _ _ _ _ _ _ _ _ _ Hac Hv0 Hrv Hc Hpt Hpe Hk)).
    - (* dot *)
      inv_eval H v0 s1 Hev.
      assert (H' : of_opt (access_member K v0 name false) s1 = ROk v s') by (destruct v0; [exact H|exact H|exact H|discriminate]).
      clear H. inv_opt H' v2 Hac. pose proof (IHa _ _ _ Hev H9) as Hsp.
      assert (Hvr : vregs v = vregs v0).
      { unfold access_member in Hac. destruct (is_bf _); [discriminate|]. destruct (v_btf v0); [|discriminate].
        destruct (find_member _ _ _) as [[? ?]|]; [|discriminate].
        destruct v0 as [|[| |] [|? ?]| |]; inversion Hac; reflexivity. }
      apply (spec_map _ _ _ _ _ _ Hsp (or_intror I) Hvr).
      intros c k Hc Hk. cbn [csem S_CSup.sup] in Hc, Hk.
      destruct (sem a) as [c0|] eqn:Hsa; [|discriminate]. destruct (sup a) as [k0|] eqn:Hka; [|destruct c0 as [| |? ? [|]]; discriminate].
      exists c0, k0. split; [reflexivity|]. split; [reflexivity|]. intros ms Hv0.
      destruct c0 as [| |p t [bf|]]; try discriminate.
      exact (proj1 (dot_rel K C HE _ _ _ _ _ _ _ _ _ Hac Hv0 Hc Hk)).
    - (* index *)
      inv_eval H v0 s1 Hev. destruct (is_bf (v_mem v0)) eqn:Hbf; [discriminate|].
      destruct i as [|txt| | | | | | | | | | | | | | | | | | | |]; try discriminate.
      destruct (parse_number txt) as [n|] eqn:Hpn; [|discriminate].
      inv_opt H v2 Hac. pose proof (IHa _ _ _ Hev H9) as Hsp.
      assert (Hvr : vregs v = vregs v0).
      { unfold index_value in Hac. destruct (v_btf v0); [|discriminate].
        destruct (match under _ with TPtr u => _ | _ => _ end) as [[? ?]|]; [|discriminate].
        destruct (_ =? 0); [discriminate|]. destruct v0 as [|[| |] ?| |]; inversion Hac; reflexivity. }
      apply (spec_map _ _ _ _ _ _ Hsp (or_intror I) Hvr).
      intros c k Hc Hk. cbn [csem S_CSup.sup] in Hc, Hk.
      destruct (sem a) as [c0|] eqn:Hsa; [|discriminate]. destruct (sup a) as [k0|] eqn:Hka; [|discriminate].
      exists c0, k0. split; [reflexivity|]. split; [reflexivity|]. intros ms Hv0.
      destruct (rval C c0) as [[|p u|]|] eqn:Hrv; try discriminate.
      destruct (ptrval K C c0 k0) as [[p' tt]|] eqn:Hpt; [|discriminate].
      destruct (parse_unsigned txt) as [n'|] eqn:Hpu; [|discriminate].
      destruct (ptr_elt tt) as [u'|] eqn:Hpe; [|discriminate].
      destruct (small (n' * sizeof0 E (Some u')) && (n' <? 2 ^ 63)) eqn:Hg; [|discriminate].
      apply andb_prop in Hg as [Hg1 Hg2]. apply Z.ltb_lt in Hg2.
      pose proof (parse_unsigned_range _ _ Hpu) as Hrg.
      rewrite (parse_number_unsigned _ _ Hpu) in Hpn. inversion Hpn; subst n. rewrite s64_id in Hac by lia.
      unfold mkint in Hc. cbn [rval] in Hc. destruct (step_size C u) as [st|] eqn:Hst; [|discriminate].
      inversion Hc; subst c. inversion Hk; subst k.
      exact (proj1 (index_rel K C m A Hmap HE Hslot _ _ _ _ _ _ _ _ _ _ _ _ Hac Hv0 (proj1 Hrg) Hrv Hst Hpt Hpe Hg1)).
    - (* indir *)
      inv_eval H v0 s1 Hev. inv_opt H v2 Hac. pose proof (IHa _ _ _ Hev H9) as Hsp.
      assert (Hvr : vregs v = vregs v0).
      { unfold indir_value in Hac. destruct (is_bf _); [discriminate|]. destruct (v_btf v0); [|discriminate].
        destruct (under _); try discriminate. destruct v0 as [|[| |] ?| |]; inversion Hac; reflexivity. }
      apply (spec_map _ _ _ _ _ _ Hsp (or_intror I) Hvr).
      intros c k Hc Hk. cbn [csem S_CSup.sup] in Hc, Hk.
      destruct (sem a) as [c0|] eqn:Hsa; [|discriminate]. destruct (sup a) as [k0|] eqn:Hka; [|discriminate].
      exists c0, k0. split; [reflexivity|]. split; [reflexivity|]. intros ms Hv0.
      destruct (rval C c0) as [[|p u|]|] eqn:Hrv; try discriminate.
      destruct (ptrval K C c0 k0) as [[p' tt]|] eqn:Hpt; [|discriminate].
      inversion Hc; subst c. inversion Hk; subst k.
      exact (proj1 (indir_rel K C m A Hmap HE Hslot _ _ _ _ _ _ _ _ _ Hac Hv0 Hrv Hpt)).
    - (* addr *)
      inv_eval H v0 s1 Hev. inv_opt H v2 Hac. pose proof (IHa _ _ _ Hev H9) as Hsp.
      assert (Hvr : vregs v = vregs v0).
      { unfold addr_value in Hac. destruct v0 as [|[| |] [|? ?] [?|] ?| |]; inversion Hac; reflexivity. }
      apply (spec_map _ _ _ _ _ _ Hsp (or_intror I) Hvr).
      intros c k Hc Hk. cbn [csem S_CSup.sup] in Hc, Hk.
      destruct (sem a) as [c0|] eqn:Hsa; [|discriminate].
      destruct (sup a) as [k0|] eqn:Hka; [|destruct c0 as [| |? ? [|]]; discriminate].
      exists c0, k0. split; [reflexivity|]. split; [reflexivity|]. intros ms Hv0.
      destruct c0 as [| |p t [bf|]]; try discriminate. inversion Hc; subst c.
      assert (Hkk : k = KVal (Some (TPtr t)) true false /\ ((exists prev off, k0 = KLoc prev off) \/ (exists off, k0 = KElem off))).
      { destruct k0; try discriminate; inversion Hk; split; eauto. }
      destruct Hkk as [-> Hkk].
      exact (proj1 (addr_rel K C _ _ _ _ _ _ Hac Hv0 Hkk)).
    - (* cast *)
      destruct (is_num a) eqn:Hna.
      + destruct a as [|txt| | | | | | | | | | | | | | | | | | | |]; try discriminate. clear Hna.
        destruct (parse_unsigned txt) as [n|] eqn:Hpu; [|discriminate].
        destruct (cc2btf E ct) as [t|] eqn:Hct; [|discriminate]. inversion H; subst.
        apply spec_pure; [reflexivity|]. intros ms c k Hc Hk. cbn [csem S_CSup.sup] in Hc, Hk.
        rewrite Hpu, Hct in Hc, Hk. unfold mkint in Hc, Hk. cbn [rval] in Hc, Hk. rewrite Hc in Hk.
        destruct (literal_ok n) eqn:Hg; [|discriminate]. apply literal_ok_iff in Hg. inversion Hk; subst k. unfold c_cast in Hc. cbn [num] in Hc.
        destruct (of_raw_num K t _ _ Hc) as (n' & Hn' & Hmod & _).
        cbn [P_CcVal.vrel]. exists n'. split; [assumption|]. split; [exact (of_raw_ptr_inv K t n c Hc)|].
        exists (PUptr n), [], None, n. do 2 (split; [reflexivity|]). split; [cbn [P_CcMat.bok]; lia|].
        split; [reflexivity|]. split; [intros _; symmetry; apply Hmod|discriminate].
      + assert (H' : (let* v, s1 := evaluate K a s in
           match cc2btf (cf_env K) ct with Some ty => ROk (cast_value v ty) s1 | None => RErr end) = ROk v s').
        { rewrite <- eval_cast by assumption. exact H0. }
        clear H H0. inv_eval H' v0 s1 Hev. destruct (cc2btf E ct) as [t|] eqn:Hct; [|discriminate].
        inversion H'; subst. pose proof (IHa _ _ _ Hev H9) as Hsp.
        assert (Hvr : vregs (cast_value v0 t) = vregs v0) by (destruct v0 as [|[| |] ?| |]; reflexivity).
        apply (spec_map _ _ _ _ _ _ Hsp (or_intror I) Hvr).
        intros c k Hc Hk. rewrite sup_cast_eq in Hk by assumption. rewrite Hc, Hct in Hk.
        cbn [csem] in Hc. destruct (sem a) as [c0|] eqn:Hsa; [|discriminate].
        destruct (sup a) as [k0|] eqn:Hka; [|discriminate].
        exists c0, k0. split; [reflexivity|]. split; [reflexivity|]. intros ms Hv0.
        destruct (rval C c0) as [x|] eqn:Hrv; [|discriminate]. rewrite Hct in Hc.
        exact (proj1 (cast_rel K C m Hmap HE _ _ _ _ _ _ _ _ Hv0 Hrv Hc Hk)).
    - (* paren *)
      pose proof (IHa _ _ _ H H9) as Hsp. exact Hsp.
    - (* binary *)
      inv_eval H l s1 Hl. pose proof (IHa _ _ _ Hl H9) as Hsl.
      inv_eval H r s2 Hr. assert (H91 : c_regs s1 9%nat = true) by (destruct Hsl as (? & _ & Hkk & _); auto).
      pose proof (IHb _ _ _ Hr H91) as Hsr.
      destruct (spec_pair _ _ _ _ _ _ _ Hsl Hsr) as (P1 & P2 & P3 & P4).
      apply (spec_bin _ _ _ _ _ _ _ _ _ _ _ Hsl Hsr (bin_ok K C m A Hmap HE Hslot op _ _ _ _ _ _ H P1 P2 P3 P4 H9)).
      intros c k Hc Hk. cbn [S_CSup.sup] in Hk. rewrite Hc in Hk. cbn [csem] in Hc.
      destruct (sem a) as [c1|]; [|discriminate]. destruct (sup a) as [k1|]; [|discriminate].
      destruct (sem b) as [c2|]; [|discriminate]. destruct (sup b) as [k2|]; [|discriminate].
      exists c1, k1, c2, k2. do 4 (split; [reflexivity|]). unfold sem_bin.
      destruct (rval C c1) as [x|]; [|discriminate]. destruct (rval C c2) as [y|]; [|discriminate]. eauto 10.
    - (* comparison *)
      inv_eval H l s1 Hl. pose proof (IHa _ _ _ Hl H9) as Hsl.
      inv_eval H r s2 Hr. assert (H91 : c_regs s1 9%nat = true) by (destruct Hsl as (? & _ & Hkk & _); auto).
      pose proof (IHb _ _ _ Hr H91) as Hsr.
      destruct (spec_pair _ _ _ _ _ _ _ Hsl Hsr) as (P1 & P2 & P3 & P4).
      apply (spec_bin _ _ _ _ _ _ _ _ _ _ _ Hsl Hsr (cmp_ok K C m A Hmap HE Hslot op _ _ _ _ _ _ H P1 P2 P3 P4 H9)).
      intros c k Hc Hk. cbn [csem S_CSup.sup] in Hc, Hk.
      destruct (sem a) as [c1|]; [|discriminate]. destruct (sup a) as [k1|]; [|discriminate].
      destruct (sem b) as [c2|]; [|destruct (rval C c1); discriminate]. destruct (sup b) as [k2|]; [|discriminate].
      exists c1, k1, c2, k2. do 4 (split; [reflexivity|]). unfold sem_cmp.
      destruct (rval C c1) as [x|]; [|discriminate]. destruct (rval C c2) as [y|]; [|discriminate]. eauto 10.
    - (* && *)
      inv_eval H l s1 Hl. pose proof (IHa _ _ _ Hl H9) as Hsl.
      inv_eval H r s2 Hr. assert (H91 : c_regs s1 9%nat = true) by (destruct Hsl as (? & _ & Hkk & _); auto).
      pose proof (IHb _ _ _ Hr H91) as Hsr.
      destruct (spec_pair _ _ _ _ _ _ _ Hsl Hsr) as (P1 & P2 & P3 & P4).
      apply (spec_bin _ _ _ _ _ _ _ _ _ _ _ Hsl Hsr (andand_ok K C m A Hmap HE Hslot _ _ _ _ _ _ H P1 P2 P3 P4 H9)).
      intros c k Hc Hk. cbn [csem S_CSup.sup] in Hc, Hk.
      destruct (sem a) as [c1|]; [|discriminate]. destruct (sup a) as [k1|]; [|discriminate].
      destruct (sem b) as [c2|]; [|discriminate]. destruct (sup b) as [k2|]; [|discriminate].
      exists c1, k1, c2, k2. do 4 (split; [reflexivity|]). split; [|exact Hk].
      intros x y n1 n2 Hx Hy Hn1 Hn2. rewrite Hx in Hc. unfold truth in Hc. rewrite Hn1 in Hc. rewrite Hy, Hn2 in Hc.
      destruct (negb (n1 =? 0)); cbn [option_map] in Hc; inversion Hc; reflexivity.
    - (* || *)
      inv_eval H l s1 Hl. pose proof (IHa _ _ _ Hl H9) as Hsl.
      inv_eval H r s2 Hr. assert (H91 : c_regs s1 9%nat = true) by (destruct Hsl as (? & _ & Hkk & _); auto).
      pose proof (IHb _ _ _ Hr H91) as Hsr.
      destruct (spec_pair _ _ _ _ _ _ _ Hsl Hsr) as (P1 & P2 & P3 & P4).
      apply (spec_bin _ _ _ _ _ _ _ _ _ _ _ Hsl Hsr (oror_ok K C m A Hmap HE Hslot _ _ _ _ _ _ H P1 P2 P3 P4 H9)).
      intros c k Hc Hk. cbn [csem S_CSup.sup] in Hc, Hk.
      destruct (sem a) as [c1|]; [|discriminate]. destruct (sup a) as [k1|]; [|discriminate].
      destruct (sem b) as [c2|]; [|discriminate]. destruct (sup b) as [k2|]; [|discriminate].
      exists c1, k1, c2, k2. do 4 (split; [reflexivity|]). split; [|exact Hk].
      intros x y n1 n2 Hx Hy Hn1 Hn2. rewrite Hx in Hc. unfold truth in Hc. rewrite Hn1 in Hc. rewrite Hy, Hn2 in Hc.
      destruct (negb (n1 =? 0)); cbn [option_map] in Hc; inversion Hc; reflexivity.
    - (* ! *)
      inv_eval H v0 s1 Hev. pose proof (IHa _ _ _ Hev H9) as Hsp.
      assert (Hkk : keep (c_regs s) s1 /\ keepv (c_regs s) s1 v0) by (destruct Hsp as (? & _ & ? & ? & _); auto).
      apply (spec_un _ _ _ _ _ _ _ not_sem Hsp).
      + apply (unary_ok K C m A Hmap HE Hslot not_sem _ _ _ _ _ _ _ _ H (proj1 Hkk) (proj2 Hkk) H9).
        apply not_sem_ok.
      + intros c k Hc Hk. cbn [csem S_CSup.sup] in Hc, Hk.
        destruct (sem a) as [c0|]; [|discriminate]. destruct (sup a) as [k0|]; [|discriminate].
        exists c0, k0. split; [reflexivity|]. split; [reflexivity|].
        destruct (rval C c0) as [x|] eqn:Hrv; [|discriminate]. unfold truth in Hc.
        destruct (num x) as [n|] eqn:Hn; [|discriminate]. cbn [option_map] in Hc. inversion Hc; subst c.
        exists x, n. split; [exact Hrv|]. split; [exact Hn|]. split; [rewrite negb_involutive; reflexivity|].
        destruct k0 as [t|y|prev off|off|t pend hop]; [left; inversion Hk; eauto|right..];
          (destruct (ldr K C c0 _) as [[[n' t'] l']|] eqn:Hl; [|discriminate]; inversion Hk; exists n', t', l'; auto).
    - (* ~ *)
      inv_eval H v0 s1 Hev. pose proof (IHa _ _ _ Hev H9) as Hsp.
      assert (Hkk : keep (c_regs s) s1 /\ keepv (c_regs s) s1 v0) by (destruct Hsp as (? & _ & ? & ? & _); auto).
      apply (spec_un _ _ _ _ _ _ _ twid_sem Hsp).
      + apply (unary_ok K C m A Hmap HE Hslot twid_sem _ _ _ _ _ _ _ _ H (proj1 Hkk) (proj2 Hkk) H9).
        apply twid_sem_ok.
      + intros c k Hc Hk. cbn [S_CSup.sup] in Hk. rewrite Hc in Hk. cbn [csem] in Hc.
        destruct (sem a) as [c0|]; [|discriminate]. destruct (sup a) as [k0|]; [|destruct c0; discriminate].
        exists c0, k0. split; [reflexivity|]. split; [reflexivity|].
        destruct (rval C c0) as [[n w sg| |]|] eqn:Hrv; try discriminate. unfold mkint in Hc. inversion Hc; subst c.
        exists n, w, sg. split; [exact Hrv|]. split; [reflexivity|].
        destruct k0 as [t|y|prev off|off|t pend hop].
        * left. destruct c0 as [n0 w0 sg0| |]; try (cbn [ld] in Hk; discriminate). exists t. split; [reflexivity|].
          cbn [rval] in Hrv. inversion Hrv; subst n0 w0 sg0.
          destruct (_ =? Z.lnot n) eqn:Hg; [|discriminate]. apply Z.eqb_eq in Hg. inversion Hk; auto.
        * destruct c0; cbn [ld] in Hk; discriminate.
        * right. destruct (ld K C c0 (KLoc prev off)) as [[[n' t'] l']|] eqn:Hl; [|destruct c0; discriminate].
          exists n', t', l'. split; [reflexivity|].
          assert (Hk' : (if (fst (promote (w, sg)) =? 8) && negb (snd (promote (w, sg))) && (lim t' =? 2 ^ 64) && (l' =? 2 ^ 64)
             then Some (KVal t' false false) else None) = Some k) by (destruct c0; exact Hk).
          destruct (_ && _) eqn:Hg; [|discriminate]. apply andb_prop in Hg as [Hg Hg4]. apply andb_prop in Hg as [Hg Hg3]. apply andb_prop in Hg as [Hg1 Hg2]. apply Z.eqb_eq in Hg1; apply Z.eqb_eq in Hg3. inversion Hk'. split; [reflexivity|].
          split; [assumption|]. split; [apply negb_true_iff; assumption|assumption].
        * right. destruct (ld K C c0 (KElem off)) as [[[n' t'] l']|] eqn:Hl; [|destruct c0; discriminate].
          exists n', t', l'. split; [reflexivity|].
          assert (Hk' : (if (fst (promote (w, sg)) =? 8) && negb (snd (promote (w, sg))) && (lim t' =? 2 ^ 64) && (l' =? 2 ^ 64)
             then Some (KVal t' false false) else None) = Some k) by (destruct c0; exact Hk).
          destruct (_ && _) eqn:Hg; [|discriminate]. apply andb_prop in Hg as [Hg Hg4]. apply andb_prop in Hg as [Hg Hg3]. apply andb_prop in Hg as [Hg1 Hg2]. apply Z.eqb_eq in Hg1; apply Z.eqb_eq in Hg3. inversion Hk'. split; [reflexivity|].
          split; [assumption|]. split; [apply negb_true_iff; assumption|assumption].
        * right. destruct (ld K C c0 (KVal t pend hop)) as [[[n' t'] l']|] eqn:Hl; [|destruct c0; discriminate].
          exists n', t', l'. split; [reflexivity|].
          assert (Hk' : (if (fst (promote (w, sg)) =? 8) && negb (snd (promote (w, sg))) && (lim t' =? 2 ^ 64) && (l' =? 2 ^ 64)
             then Some (KVal t' false false) else None) = Some k) by (destruct c0; exact Hk).
          destruct (_ && _) eqn:Hg; [|discriminate]. apply andb_prop in Hg as [Hg Hg4]. apply andb_prop in Hg as [Hg Hg3]. apply andb_prop in Hg as [Hg1 Hg2]. apply Z.eqb_eq in Hg1; apply Z.eqb_eq in Hg3. inversion Hk'. split; [reflexivity|].
          split; [assumption|]. split; [apply negb_true_iff; assumption|assumption].
    - (* - *)
      inv_eval H v0 s1 Hev. pose proof (IHa _ _ _ Hev H9) as Hsp.
      assert (Hkk : keep (c_regs s) s1 /\ keepv (c_regs s) s1 v0) by (destruct Hsp as (? & _ & ? & ? & _); auto).
      apply (spec_un _ _ _ _ _ _ _ minus_sem Hsp).
      + apply (unary_ok K C m A Hmap HE Hslot minus_sem _ _ _ _ _ _ _ _ H (proj1 Hkk) (proj2 Hkk) H9).
        intros ms c k res k' Hv0 (n & t & w & sg & w' & sg' & -> & -> & -> & -> & Hr). left.
        exists n, t, w, sg, (- n). split; [reflexivity|]. split; [reflexivity|]. split; [reflexivity|].
        split; [symmetry; apply s64_id; assumption|]. split; [reflexivity|]. split; [eauto|assumption].
      + intros c k Hc Hk. cbn [S_CSup.sup] in Hk. rewrite Hc in Hk. cbn [csem] in Hc.
        destruct (sem a) as [c0|]; [|discriminate]. destruct (sup a) as [k0|]; [|destruct c0; discriminate].
        exists c0, k0. split; [reflexivity|]. split; [reflexivity|].
        destruct c0 as [n w sg| |]; try discriminate. destruct k0 as [t| | | |]; try discriminate.
        destruct c as [n' w' sg'| |]; try discriminate.
        destruct ((n' =? - n) && (- 2 ^ 63 <=? n') && (n' <? 2 ^ 63)) eqn:Hg; [|discriminate].
        apply andb_prop in Hg as [Hg Hg3]. apply andb_prop in Hg as [Hg1 Hg2].
        apply Z.eqb_eq in Hg1. apply Z.leb_le in Hg2. apply Z.ltb_lt in Hg3. inversion Hk; subst k n'.
        unfold minus_sem. exists n, t, w, sg, w', sg'. do 4 (split; [reflexivity|]). split; assumption.
    - (* + *)
      pose proof (IHa _ _ _ H H9) as Hsp. apply (spec_map _ _ _ _ _ _ Hsp (or_intror I) eq_refl).
      intros c k Hc Hk. cbn [csem S_CSup.sup] in Hc, Hk.
      destruct (sem a) as [c0|]; [|discriminate]. destruct (sup a) as [k0|]; [|discriminate].
      exists c0, k0. split; [reflexivity|]. split; [reflexivity|]. intros ms Hv0.
      destruct (rval C c0) as [[n w sg| |]|] eqn:Hrv; try discriminate. unfold mkint in Hc. inversion Hc; subst c; clear Hc.
      destruct k0 as [t|x|prev off|off|t pend hop]; try discriminate; inversion Hk; subst k; clear Hk.
      + destruct Hv0 as (n0 & w0 & sg0 & -> & -> & Hr). cbn [rval] in Hrv. inversion Hrv; subst.
        cbn [P_CcVal.vrel]. eauto 10.
      + destruct Hv0 as (n0 & Hn0 & _ & Hv0). assert (c0 = CInt n w sg) by (destruct c0; cbn [rval num] in *; congruence).
        subst c0. cbn [num] in Hn0. inversion Hn0; subst n0. cbn [P_CcVal.vrel]. exists n. split; [reflexivity|].
        split; [intros ? ? Hq; discriminate|exact Hv0].
    - (* ++ / -- *)
      inv_eval H v0 s1 Hev. pose proof (IHa _ _ _ Hev H9) as Hsp.
      assert (Hkk : keep (c_regs s) s1 /\ keepv (c_regs s) s1 v0) by (destruct Hsp as (? & _ & ? & ? & _); auto).
      apply (spec_un _ _ _ _ _ _ _ (fun _ _ _ _ => False) Hsp).
      + apply (unary_ok K C m A Hmap HE Hslot (fun _ _ _ _ => False) _ _ _ _ _ _ _ _ H (proj1 Hkk) (proj2 Hkk) H9).
        intros ? ? ? ? ? ? [].
      + intros c k Hc. discriminate.
    - (* ++ / -- *)
      inv_eval H v0 s1 Hev. pose proof (IHa _ _ _ Hev H9) as Hsp.
      assert (Hkk : keep (c_regs s) s1 /\ keepv (c_regs s) s1 v0) by (destruct Hsp as (? & _ & ? & ? & _); auto).
      apply (spec_un _ _ _ _ _ _ _ (fun _ _ _ _ => False) Hsp).
      + apply (unary_ok K C m A Hmap HE Hslot (fun _ _ _ _ => False) _ _ _ _ _ _ _ _ H (proj1 Hkk) (proj2 Hkk) H9).
        intros ? ? ? ? ? ? [].
      + intros c k Hc. discriminate.
    - (* ?: *)
      inv_eval H x s0 Hx. pose proof (IHc _ _ _ Hx H9) as Hsx.
      assert (H90 : c_regs s0 9%nat = true) by (destruct Hsx as (? & _ & Hkk & _); auto).
      inv_eval H l s1 Hl. pose proof (IHa _ _ _ Hl H90) as Hsl.
      assert (H91 : c_regs s1 9%nat = true) by (destruct Hsl as (? & _ & Hkk & _); auto).
      inv_eval H r s2 Hr. pose proof (IHb _ _ _ Hr H91) as Hsr.
      destruct (spec_pair _ _ _ _ _ _ _ Hsl Hsr) as (P1 & P2 & P3 & P4).
      destruct (spec_pair _ _ _ _ _ _ _ Hsx Hsl) as (Q1 & Q2 & Q3 & Q4).
      assert (Hk0 : keep (c_regs s) s0) by (destruct Hsx as (? & _ & Hkk & _); exact Hkk).
      assert (Hk1 : keep (c_regs s0) s1) by (destruct Hsl as (? & _ & Hkk & _); exact Hkk).
      assert (Hk2 : keep (c_regs s1) s2) by (destruct Hsr as (? & _ & Hkk & _); exact Hkk).
      assert (Hvx : keepv (c_regs s) s0 x) by (destruct Hsx as (? & _ & _ & Hkk & _); exact Hkk).
      assert (Hvr : keepv (c_regs s1) s2 r) by (destruct Hsr as (? & _ & _ & Hkk & _); exact Hkk).
      apply (spec_tri _ _ _ _ _ _ _ _ _ _ _ _ _ Hsx Hsl Hsr).
      + apply (cond_ok K C m A Hmap HE Hslot _ _ _ _ _ _ _ H).
        * eapply keep_trans; eassumption.
        * eapply keepv_mono; [exact Q2|exact Hk2].
        * eapply keepv_sub; [exact P2|exact Hk0].
        * eapply keepv_sub; [exact P3|exact Hk0].
        * exact Q4.
        * eapply (keepv_disj _ s1); [exact Q2|exact Hvr].
        * exact P4.
        * exact H9.
      + intros c0 k Hc Hk. cbn [S_CSup.sup] in Hk. rewrite Hc in Hk.
        destruct (sem c) as [cc|]; [|discriminate]. destruct (sup c) as [kc|]; [|discriminate].
        destruct (sem a) as [c1|]; [|discriminate]. destruct (sup a) as [k1|]; [|discriminate].
        destruct (sem b) as [c2|]; [|discriminate]. destruct (sup b) as [k2|]; [|discriminate].
        exists cc, kc, c1, k1, c2, k2. do 6 (split; [reflexivity|]). exact Hk.
    - discriminate.
    - discriminate.
  Qed.
End Sim2.
