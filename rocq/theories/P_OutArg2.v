(** * Proofs for M_OutArg: one expression *)
From Coq Require Import ZArith List Bool Lia.
From Verif Require Import M_Go M_Ebpf P_Ebpf M_CcNum M_Cc M_Bytes M_FnArgs S_FnArgs S_CSem S_CSup M_OutArg S_OutArg.
From Verif Require Import P_CcMach P_CcWalk P_CcMat P_CcVal P_CcOps P_CcSim2 P_CcReg P_FnArgs P_FnArgs2 P_OutArg.
Import ListNotations.
Open Scope Z_scope.

Section One.
  Variables (m : mach) (buf size : Z).
  Hypothesis Hbuf : 0 <= buf /\ buf + size <= M64.
  Variables (s0 : mst) (A fp : Z).
  Hypothesis Hsize : size < 2 ^ 15.
  Hypothesis Hframe : inframe buf size fp.
  Notation oinv := (oinv buf size s0 A fp).
  Notation M := (mem_of m s0).

  (** Evaluation of an expression from s: a value, or the NULL exit. *)
  Definition evals (code : list insn) (lab : bool) (r : reg) (s : mst) (o : option Z) : Prop :=
    exists s1, (exec m code 0 s = match o with Some _ => FFall 0 s1 | None => FLabel s1 end) /\
      match o with Some v => rg s1 r = v /\ 0 <= v < M64 /\ (r < 8)%nat | None => lab = true end /\
      (forall x, (8 <= x <= 10)%nat -> rg s1 x = rg s x) /\ ker s1 = ker s.

  Definition enc (a : oarg) (o : option Z) (s : mst) (b : Z) : Prop :=
    let n := Z.to_nat (oa_true a) in
    match view_arg M a o with
    | SNull => ker s (b + oa_true a) mod 256 = 1
    | SBytes l | SSample l => ker s (b + oa_true a) mod 256 = 0 /\ bl (ker s) b n = l
    | SText l => ker s (b + oa_true a) mod 256 = 0 /\ null_terminated (bl (ker s) b n) = l
    | SNum v => ker s (b + oa_true a) mod 256 = 0 /\ oa_true a = 8 /\ M_Go.le_bytes (bl (ker s) b 8) = v
    | SNumPtr v w => ker s (b + oa_true a) mod 256 = 0 /\ oa_true a = 16 /\ M_Go.le_bytes (bl (ker s) b 8) = v /\ M_Go.le_bytes (bl (ker s) (b + 8) 8) = w
    end.
  Lemma enc_ext a o s s' b : 0 <= oa_true a -> (forall x, b <= x < b + oa_size a -> ker s' x = ker s x) -> enc a o s b -> enc a o s' b.
  Proof.
    intros Hp H. unfold enc, oa_size in *.
    assert (H1 : ker s' (b + oa_true a) = ker s (b + oa_true a)) by (apply H; lia).
    assert (H2 : forall a0 n, b <= a0 -> a0 + Z.of_nat n <= b + oa_true a -> bl (ker s') a0 n = bl (ker s) a0 n).
    { intros a0 n Ha Hb. apply bl_ext. intros x Hx. rewrite H by lia. reflexivity. }
    rewrite H1. destruct (view_arg M a o); try tauto; rewrite ?H2 by lia; try tauto.
    - intros (E1 & E2 & E3). rewrite H2 by lia. auto.
    - intros (E1 & E2 & E3 & E4). rewrite !H2 by lia. auto.
  Qed.

  Lemma dump_frame s a n : oinv s -> apart buf size a n -> dump (mem_of m s) a n = dump M a n.
  Proof. intros I Ha. unfold dump. rewrite (bytes_frame m s s0 buf size) by (try exact Ha; apply (oik _ _ _ _ _ _ I)). reflexivity. Qed.
  Lemma str_frame s a n : oinv s -> apart buf size a n -> str_to (mem_of m s) a n = str_to M a n.
  Proof. intros I Ha. unfold str_to. rewrite (cstr_frame m s s0 buf size) by (try exact Ha; apply (oik _ _ _ _ _ _ I)). reflexivity. Qed.

  Lemma exec_mov3 s r t : (r < 8)%nat -> exists s', exec m (mov3 r ++ t) 0 s = exec m t 0 s' /\ rg s' R3 = rg s r /\ (forall x, (6 <= x)%nat -> rg s' x = rg s x) /\ ker s' = ker s.
  Proof.
    intros Hr. unfold mov3. destruct (Nat.eqb_spec r R3) as [->|Hn].
    - exists s. split; [reflexivity|auto].
    - exists (setr s R3 (rg s r)). split; [reflexivity|]. split; [apply rg_setr_eq|]. split; [|reflexivity].
      intros x Hx. apply rg_setr_neq. unfold R3. lia.
  Qed.

  (** reading through the pointer in r *)
  Lemma chase s r roff off n v (str : bool) : oinv s -> rg s r = v -> 0 <= v < M64 -> (r < 8)%nat -> v <> 0 -> - 2 ^ 31 <= roff < 2 ^ 31 ->
    0 <= off -> 1 <= n -> off + n < size -> apart buf size ((v + roff) mod 2 ^ 64) (Z.to_nat n) ->
    exists s', exec m ((if roff =? 0 then [] else [IAluI AAdd r (s32 roff)]) ++ mov3 r ++ read_to off n (if str then IProbeReadStr else IProbeRead)) 0 s = FFall 0 s' /\
      (forall x, (8 <= x)%nat -> rg s' x = rg s x) /\ oinv s' /\ (forall x, ~ (buf + off <= x < buf + off + n) -> ker s' x = ker s x) /\
      (if str then null_terminated (bl (ker s') (buf + off) (Z.to_nat n)) = str_to M ((v + roff) mod 2 ^ 64) (Z.to_nat n)
       else bl (ker s') (buf + off) (Z.to_nat n) = dump M ((v + roff) mod 2 ^ 64) (Z.to_nat n)).
  Proof.
    intros I Hr Hv Hr8 Hv0 Hro Ho Hn Hs Ha.
    assert (exists s1, exec m ((if roff =? 0 then [] else [IAluI AAdd r (s32 roff)]) ++ mov3 r ++ read_to off n (if str then IProbeReadStr else IProbeRead)) 0 s =
       exec m (mov3 r ++ read_to off n (if str then IProbeReadStr else IProbeRead)) 0 s1 /\ rg s1 r = (v + roff) mod 2 ^ 64 /\
       (forall x, (8 <= x)%nat -> rg s1 x = rg s x) /\ ker s1 = ker s) as (s1 & E1 & Hr1 & H81 & K1).
    { destruct (Z.eqb_spec roff 0) as [->|Hne].
      - exists s. split; [reflexivity|]. split; [|auto]. rewrite Z.add_0_r, Z.mod_small; [exact Hr|]. exact Hv.
      - exists (setr s r (alu_sem AAdd (rg s r) (immv (s32 roff)))). split; [reflexivity|]. split.
        { rewrite rg_setr_eq. cbn [alu_sem]. rewrite immv_s32' by exact Hro. rewrite wrap_add_r, Hr. reflexivity. }
        split; [|reflexivity]. intros x Hx. apply rg_setr_neq. lia. }
    assert (I1 : oinv s1) by (apply (oinv_regs buf size s0 A fp s); [exact I|intros x Hx; apply H81; lia|intros; rewrite K1; reflexivity]).
    destruct (exec_mov3 s1 r (read_to off n (if str then IProbeReadStr else IProbeRead)) Hr8) as (s2 & E2 & H32 & H62 & K2).
    assert (I2 : oinv s2) by (apply (oinv_regs buf size s0 A fp s1); [exact I1|intros x Hx; apply H62; lia|intros; rewrite K2; reflexivity]).
    rewrite E1, E2. rewrite Hr1 in H32.
    destruct str.
    - destruct (exec_reads m buf size Hbuf s2 off n _ fp (oi8 _ _ _ _ _ _ I2) H32 (oifp _ _ _ _ _ _ I2) Hframe Ho Hn Hs ltac:(lia)) as (s3 & E3 & H63 & K3 & B3).
      exists s3. split; [exact E3|]. split; [intros x Hx; rewrite H63, H62, H81 by lia; reflexivity|].
      split. { apply (oinv_regs buf size s0 A fp s2); [exact I2|intros x Hx; apply H63; lia|intros x Hx; apply K3; lia]. }
      split; [intros x Hx; rewrite K3, K2, K1 by exact Hx; reflexivity|].
      rewrite B3. apply str_frame; assumption.
    - destruct (exec_read m buf size Hbuf s2 off n _ fp (oi8 _ _ _ _ _ _ I2) H32 (oifp _ _ _ _ _ _ I2) Hframe Ho ltac:(lia) Hs ltac:(lia)) as (s3 & E3 & H63 & K3 & B3).
      exists s3. split; [exact E3|]. split; [intros x Hx; rewrite H63, H62, H81 by lia; reflexivity|].
      split. { apply (oinv_regs buf size s0 A fp s2); [exact I2|intros x Hx; apply H63; lia|intros x Hx; apply K3; lia]. }
      split; [intros x Hx; rewrite K3, K2, K1 by exact Hx; reflexivity|].
      rewrite B3. apply dump_frame; assumption.
  Qed.

  (** storing the value, and what it points to *)
  Lemma store_num s r off v (nump : bool) : oinv s -> rg s r = v -> 0 <= v < M64 -> (r < 8)%nat -> 0 <= off ->
    let n := if nump then 16 else 8 in off + n < size -> (nump = true -> apart buf size v 8) ->
    exists s', exec m (gen_num r off nump) 0 s = FFall 0 s' /\ (forall x, (8 <= x)%nat -> rg s' x = rg s x) /\ oinv s' /\
      (forall x, ~ (buf + off <= x < buf + off + n) -> ker s' x = ker s x) /\ bl (ker s') (buf + off) 8 = le8 v /\
      (nump = true -> M_Go.le_bytes (bl (ker s') (buf + off + 8) 8) = if v =? 0 then 0 else num_at M v).
  Proof.
    intros I Hr Hv Hr8 Ho n Hs Ha. unfold gen_num.
    assert (Hs8 : off + 8 <= size) by (subst n; destruct nump; lia).
    destruct (exec_st8 m buf size Hbuf s0 A fp Hsize s off r v I Hr Ho Hs8) as (s1 & E1 & R1' & K1 & B1).
    assert (I1 : oinv s1). { apply (oinv_regs buf size s0 A fp s); [exact I|intros; apply R1'|intros x Hx; apply K1; lia]. }
    change (ISt R8 (s16 off) r 8 :: ?t) with ([ISt R8 (s16 off) r 8] ++ t). rewrite exec_app, E1. subst n. destruct nump.
    2:{ exists s1. split; [reflexivity|]. split; [intros; apply R1'|]. split; [exact I1|]. split; [exact K1|]. split; [exact B1|discriminate]. }
    destruct (exec_mov3 s1 r [IJmpI JEq R3 0 5; IMovI R2 8; IMovR R1 R8; IAluI AAdd R1 (s32 (off + 8)); IProbeRead; IJa 1; ISt R8 (s16 (off + 8)) R3 8] Hr8) as (s2 & E2 & H32 & H62 & K2).
    assert (I2 : oinv s2) by (apply (oinv_regs buf size s0 A fp s1); [exact I1|intros x Hx; apply H62; lia|intros; rewrite K2; reflexivity]).
    rewrite E2. rewrite R1', Hr in H32. cbn [exec step1]. change (immv 0) with 0. cbn [jop_sem]. rewrite H32.
    destruct (Z.eqb_spec v 0) as [->|Hv0].
    - cbn [exec step1]. change (Z.to_nat 5) with 5%nat. cbn [Z.ltb Z.compare exec].
      destruct (exec_st8 m buf size Hbuf s0 A fp Hsize s2 (off + 8) R3 0 I2 H32 ltac:(lia) ltac:(lia)) as (s3 & E3 & R3' & K3 & B3).
      exists s3. split; [cbn [exec step1] in E3; rewrite H32 in E3; exact E3|]. split. { intros x Hx. rewrite R3', H62, R1' by lia. reflexivity. }
      split. { apply (oinv_regs buf size s0 A fp s2); [exact I2|intros; apply R3'|intros x Hx; apply K3; lia]. }
      split. { intros x Hx. rewrite K3, K2, K1 by lia. reflexivity. }
      split. { rewrite <- B1. apply bl_ext. intros x Hx. rewrite K3, K2 by lia. reflexivity. }
      intros _. replace (buf + off + 8) with (buf + (off + 8)) by lia. rewrite B3. reflexivity.
    - destruct (exec_read m buf size Hbuf s2 (off + 8) 8 v fp (oi8 _ _ _ _ _ _ I2) H32 (oifp _ _ _ _ _ _ I2) Hframe ltac:(lia) ltac:(lia) ltac:(lia) ltac:(lia)) as (s3 & E3 & H63 & K3 & B3).
      unfold read_to in E3. replace (off + 8 =? 0) with false in E3 by (symmetry; apply Z.eqb_neq; lia). change (s32 8) with 8 in E3.
      exists s3. split.
      { change (match exec m [IMovI R2 8; IMovR R1 R8; IAluI AAdd R1 (s32 (off + 8)); IProbeRead] 0 s2 with FFall 0 s' => FFall 0 s' | o => o end = FFall 0 s3).
        rewrite E3. reflexivity. } split. { intros x Hx. rewrite H63, H62, R1' by lia. reflexivity. }
      split. { apply (oinv_regs buf size s0 A fp s2); [exact I2|intros x Hx; apply H63; lia|intros x Hx; apply K3; lia]. }
      split. { intros x Hx. rewrite K3, K2, K1 by lia. reflexivity. }
      split. { rewrite <- B1. apply bl_ext. intros x Hx. rewrite K3, K2 by lia. reflexivity. }
      intros _. replace (buf + off + 8) with (buf + (off + 8)) by lia. change 8%nat with (Z.to_nat 8). rewrite B3. change (Z.to_nat 8) with 8%nat.
      rewrite (dump_frame s2 v 8 I2 (Ha eq_refl)). unfold dump, num_at. destruct (bytes M v 8); reflexivity.
  Qed.

  (** the whole block of one expression *)
  Lemma block s r T E off a o : gen_arg T E r off = Some a -> tinfo_ok T -> oinv s -> evals (r_code r) (r_lab r) (r_reg r) s o ->
    0 <= off -> 1 <= oa_true a -> off + oa_size a <= size -> - 2 ^ 31 <= oa_off a < 2 ^ 31 ->
    (r_type r = RDefault \/ r_type r = RDeref \/ is_sample (r_type r) = true -> r_off r = 0) -> (is_sample (r_type r) = true -> exists n sg t, r_btf r = Some t /\ under t = TInt n sg) ->
    (forall v, o = Some v -> reads a = true -> apart buf size ((v + oa_off a) mod 2 ^ 64) (Z.to_nat (oa_true a))) ->
    exists s', exec m (oa_insn a) 0 s = FFall 0 s' /\ oinv s' /\
      (forall x, ~ (buf + off <= x < buf + off + oa_size a) -> ker s' x = ker s x) /\ enc a o s' (buf + off).
  Proof.
    intros Hg HT I (s1 & E1 & V1 & R81 & K1) Ho Ht Hs Hoff Hd Hsm Hap.
    assert (I1 : oinv s1) by (apply (oinv_regs buf size s0 A fp s); [exact I|exact R81|intros; rewrite K1; reflexivity]).
    (* finishing a body *)
    assert (FIN : forall body lab n s2 (nl : bool), (exec m body 0 s1 = if nl then FLabel s2 else FFall 0 s2) -> (nl = true \/ o = None -> lab = true) -> oinv s2 ->
       (nl = true -> ker s2 = ker s1) -> (forall x, ~ (buf + off <= x < buf + off + n) -> ker s2 x = ker s1 x) -> n = oa_true a ->
       exists s', exec m (finish (r_code r ++ body) lab (off + n)) 0 s = FFall 0 s' /\ oinv s' /\
         (forall x, ~ (buf + off <= x < buf + off + oa_size a) -> ker s' x = ker s x) /\
         match o with Some _ => ker s' (buf + off + oa_true a) mod 256 = (if nl then 1 else 0) /\ (forall x, x < buf + off + n -> ker s' x = ker s2 x)
                    | None => ker s' (buf + off + oa_true a) mod 256 = 1 end).
    { intros body lab n s2 nl Eb Hl I2 Hk2 K2 ->. unfold oa_size in *.
      destruct o as [v|].
      - destruct (finish_ok m buf size Hbuf s0 A fp Hsize (r_code r ++ body) lab (off + oa_true a) s s2 nl) as (s' & E' & R' & K' & X');
          [rewrite exec_app, E1, Eb; reflexivity|intros ->; apply Hl; auto|exact I2|lia|].
        exists s'. split; [exact E'|]. split.
        { apply (oinv_regs buf size s0 A fp s2); [exact I2|intros x Hx; apply R'; unfold R0; lia|intros x Hx; apply K'; lia]. }
        split. { intros x Hx. rewrite K' by lia. rewrite K2 by lia. rewrite K1. reflexivity. }
        replace (buf + off + oa_true a) with (buf + (off + oa_true a)) by lia. split; [exact X'|]. intros x Hx. apply K'. lia.
      - destruct (finish_ok m buf size Hbuf s0 A fp Hsize (r_code r ++ body) lab (off + oa_true a) s s1 true) as (s' & E' & R' & K' & X');
          [rewrite exec_app, E1; reflexivity|intros _; apply Hl; auto|exact I1|lia|].
        exists s'. split; [exact E'|]. split.
        { apply (oinv_regs buf size s0 A fp s1); [exact I1|intros x Hx; apply R'; unfold R0; lia|intros x Hx; apply K'; lia]. }
        split. { intros x Hx. rewrite K' by lia. rewrite K1. reflexivity. }
        replace (buf + off + oa_true a) with (buf + (off + oa_true a)) by lia. exact X'. }
    (* when the evaluation exits, the body does not matter *)
    assert (NUL : o = None -> forall body n, oa_insn a = finish (r_code r ++ body) true (off + n) -> n = oa_true a ->
       exists s', exec m (oa_insn a) 0 s = FFall 0 s' /\ oinv s' /\
         (forall x, ~ (buf + off <= x < buf + off + oa_size a) -> ker s' x = ker s x) /\ enc a o s' (buf + off)).
    { intros -> body n -> ->. unfold oa_size in *.
      destruct (finish_ok m buf size Hbuf s0 A fp Hsize (r_code r ++ body) true (off + oa_true a) s s1 true) as (s' & E' & R' & K' & X');
          [rewrite exec_app, E1; reflexivity|reflexivity|exact I1|lia|].
      exists s'. split; [exact E'|]. split.
      { apply (oinv_regs buf size s0 A fp s1); [exact I1|intros x Hx; apply R'; unfold R0; lia|intros x Hx; apply K'; lia]. }
      split. { intros x Hx. rewrite K' by lia. rewrite K1. reflexivity. }
      unfold enc. cbn [view_arg]. replace (buf + off + oa_true a) with (buf + (off + oa_true a)) by lia. exact X'. }
    unfold gen_arg in Hg. destruct (r_btf r) as [t|] eqn:Hbt; [|discriminate]. destruct (sizeof E t) as [sz|]; [|discriminate]. cbv zeta in Hg.
    (* pointer kinds *)
    assert (PTR : forall roff n (str : bool), oa_insn a = finish (r_code r ++ gen_buf (r_reg r) roff n off str) true (off + n) -> n = oa_true a ->
       oa_chk a = true -> oa_off a = roff -> reads a = true ->
       (forall v, 0 <= v < M64 -> oa_chk a && (v =? 0) = false -> view_arg M a (Some v) =
          if str then SText (str_to M ((v + roff) mod 2 ^ 64) (Z.to_nat n)) else SBytes (dump M ((v + roff) mod 2 ^ 64) (Z.to_nat n))) ->
       exists s', exec m (oa_insn a) 0 s = FFall 0 s' /\ oinv s' /\
         (forall x, ~ (buf + off <= x < buf + off + oa_size a) -> ker s' x = ker s x) /\ enc a o s' (buf + off)).
    { intros roff n str Hins Hn Hchk Hof Hrd Hvw. destruct o as [v|]; [|apply (NUL eq_refl _ _ Hins Hn)].
      destruct V1 as (Hv & Hvr & Hr8). specialize (Hap v eq_refl Hrd). rewrite Hof in Hap, Hoff. subst n.
      destruct (Z.eq_dec v 0) as [Hz|Hnz].
      - destruct (FIN (gen_buf (r_reg r) roff (oa_true a) off str) true (oa_true a) s1 true) as (s' & E' & I' & K' & X1 & _);
          [|auto|exact I1|reflexivity|reflexivity|reflexivity|].
        { unfold gen_buf. cbn [exec step1 jop_sem]. rewrite Hv, Hz. reflexivity. }
        exists s'. rewrite Hins. split; [exact E'|]. split; [exact I'|]. split; [exact K'|].
        unfold enc, view_arg. rewrite Hchk. subst v. rewrite Hz. exact X1.
      - unfold oa_size in Hs.
        destruct (chase s1 (r_reg r) roff off (oa_true a) v str I1 Hv Hvr Hr8 Hnz Hoff Ho Ht ltac:(lia) Hap) as (s2 & E2 & R82 & I2 & K2 & B2).
        destruct (FIN (gen_buf (r_reg r) roff (oa_true a) off str) true (oa_true a) s2 false) as (s' & E' & I' & K' & X1 & X2);
          [|auto|exact I2|discriminate|exact K2|reflexivity|].
        { unfold gen_buf. cbn [exec step1 jop_sem]. rewrite Hv. change (immv 0) with 0. destruct (Z.eqb_spec v 0); [contradiction|]. exact E2. }
        exists s'. rewrite Hins. split; [exact E'|]. split; [exact I'|]. split; [exact K'|].
        unfold enc. rewrite (Hvw v Hvr) by (rewrite Hchk; apply Z.eqb_neq in Hnz; rewrite Hnz; reflexivity).
        assert (Hbl : bl (ker s') (buf + off) (Z.to_nat (oa_true a)) = bl (ker s2) (buf + off) (Z.to_nat (oa_true a))).
        { apply bl_ext. intros x Hx. rewrite X2 by lia. reflexivity. }
        destruct str; rewrite Hbl; split; assumption. }
    (* samples *)
    assert (SAMPLE : forall rt, is_sample rt = true -> r_type r = rt -> 
      (if is_str_ty T t then match ti_chars T t with
         | Some n => Some {| oa_type := rt; oa_str := is_str_ty T t; oa_num := num_ptr t; oa_chk := false; oa_off := r_off r; oa_true := n; oa_insn := finish (r_code r ++ gen_str (r_reg r) off n false) (r_lab r) (off + n) |}
         | None => Some {| oa_type := rt; oa_str := is_str_ty T t; oa_num := num_ptr t; oa_chk := true; oa_off := r_off r; oa_true := max_str; oa_insn := finish (r_code r ++ gen_str (r_reg r) off max_str true) true (off + max_str) |} end
       else if (sz =? 0) || (8 <? sz) then None else
         Some {| oa_type := rt; oa_str := is_str_ty T t; oa_num := num_ptr t; oa_chk := false; oa_off := r_off r; oa_true := if num_ptr t then 16 else 8;
                 oa_insn := finish (r_code r ++ gen_num (r_reg r) off (num_ptr t)) (r_lab r) (off + (if num_ptr t then 16 else 8)) |}) = Some a ->
      exists s', exec m (oa_insn a) 0 s = FFall 0 s' /\ oinv s' /\
         (forall x, ~ (buf + off <= x < buf + off + oa_size a) -> ker s' x = ker s x) /\ enc a o s' (buf + off)).
    { intros rt Hrt Hrt' Hga. rewrite Hrt' in Hsm. destruct (Hsm Hrt) as (ni & sg & t' & Ht' & Hu). injection Ht' as <-.
      assert (Hst : is_str_ty T t = false).
      { unfold is_str_ty. destruct HT as [HT1 HT2]. destruct (ti_ccp T t) eqn:Hc; [destruct (HT1 t Hc) as [u Hu']; congruence|].
        destruct (ti_chars T t) as [nc|] eqn:Hc'; [destruct (HT2 t nc Hc') as [u Hu']; congruence|reflexivity]. }
      assert (Hnp : num_ptr t = false) by (unfold num_ptr; rewrite Hu; reflexivity).
      rewrite Hst, Hnp in Hga. destruct ((sz =? 0) || (8 <? sz)); [discriminate|]. injection Hga as <-.
      destruct o as [v|]; [|rewrite V1 in *; apply (NUL eq_refl (gen_num (r_reg r) off false) 8); reflexivity].
      destruct V1 as (Hv & Hvr & Hr8). unfold oa_size in Hs. cbn [oa_true] in Hs.
      destruct (store_num s1 (r_reg r) off v false I1 Hv Hvr Hr8 Ho) as (s2 & E2 & R82 & I2 & K2 & B2 & P2); [lia|discriminate|].
      destruct (FIN (gen_num (r_reg r) off false) (r_lab r) 8 s2 false) as (s' & E' & I' & K' & X1 & X2);
          [exact E2|intros [?|?]; discriminate|exact I2|discriminate|exact K2|reflexivity|].
      exists s'. split; [exact E'|]. split; [exact I'|]. split; [exact K'|].
      assert (B8 : bl (ker s') (buf + off) 8 = le8 v).
      { rewrite (bl_ext _ (ker s2)) by (intros x Hx; rewrite X2 by lia; reflexivity). exact B2. }
      unfold enc, view_arg. cbn [oa_insn oa_true oa_size oa_off oa_chk oa_type oa_str oa_num andb] in *.
      destruct rt; try discriminate; (split; [exact X1|exact B8]). }
    destruct (r_type r) eqn:Hty.
    - (* default *)
      destruct (is_str_ty T t) eqn:Hst.
      + destruct (ti_chars T t) as [nc|] eqn:Hch.
        * injection Hg as <-. cbn [oa_insn oa_true oa_size oa_off oa_chk oa_type oa_str oa_num reads] in *.
          destruct o as [v|].
          -- destruct V1 as (Hv & Hvr & Hr8). specialize (Hap v eq_refl eq_refl). rewrite (Hd (or_introl eq_refl)) in *.
             unfold oa_size in Hs. cbn [oa_true] in Hs.
             destruct (Z.eq_dec v 0) as [Hz|Hnz].
             ++ (* NULL array address: read at 0 *)
                destruct (exec_mov3 s1 (r_reg r) (read_to off nc IProbeReadStr) Hr8) as (s2 & E2 & H32 & H62 & K2).
                assert (I2 : oinv s2) by (apply (oinv_regs buf size s0 A fp s1); [exact I1|intros x Hx; apply H62; lia|intros; rewrite K2; reflexivity]).
                rewrite Hv in H32.
                destruct (exec_reads m buf size Hbuf s2 off nc _ fp (oi8 _ _ _ _ _ _ I2) H32 (oifp _ _ _ _ _ _ I2) Hframe Ho Ht ltac:(lia) ltac:(lia)) as (s3 & E3 & H63 & K3 & B3).
                destruct (FIN (gen_str (r_reg r) off nc false) (r_lab r) nc s3 false) as (s' & E' & I' & K' & X1 & X2);
                  [unfold gen_str; cbn [app]; rewrite E2; exact E3|intros [?|?]; discriminate| |discriminate|intros x Hx; rewrite K3, K2 by exact Hx; reflexivity|reflexivity|].
                { apply (oinv_regs buf size s0 A fp s2); [exact I2|intros x Hx; apply H63; lia|intros x Hx; apply K3; lia]. }
                exists s'. split; [exact E'|]. split; [exact I'|]. split; [exact K'|].
                unfold enc, view_arg. cbn [oa_insn oa_true oa_size oa_off oa_chk oa_type oa_str oa_num andb]. split; [exact X1|].
                rewrite (bl_ext _ (ker s3)) by (intros x Hx; rewrite X2 by lia; reflexivity). rewrite B3.
                rewrite Z.add_0_r, Z.mod_small in Hap by exact Hvr. apply str_frame; [exact I2|exact Hap].
             ++ destruct (chase s1 (r_reg r) 0 off nc v true I1 Hv Hvr Hr8 Hnz ltac:(lia) Ho Ht ltac:(lia) Hap) as (s2 & E2 & R82 & I2 & K2 & B2).
                destruct (FIN (gen_str (r_reg r) off nc false) (r_lab r) nc s2 false) as (s' & E' & I' & K' & X1 & X2);
                  [exact E2|intros [?|?]; discriminate|exact I2|discriminate|exact K2|reflexivity|].
                exists s'. split; [exact E'|]. split; [exact I'|]. split; [exact K'|].
                unfold enc, view_arg. cbn [oa_insn oa_true oa_size oa_off oa_chk oa_type oa_str oa_num andb]. split; [exact X1|].
                rewrite (bl_ext _ (ker s2)) by (intros x Hx; rewrite X2 by lia; reflexivity). rewrite B2.
                rewrite Z.add_0_r, Z.mod_small by exact Hvr. reflexivity.
          -- rewrite V1 in *. apply (NUL eq_refl (gen_str (r_reg r) off nc false) nc); reflexivity.
        * injection Hg as <-. apply (PTR 0 max_str true); try reflexivity.
          -- cbn [oa_off]. apply Hd. left. reflexivity.
          -- intros v Hvr Hv. cbn [oa_chk andb] in Hv. unfold view_arg. cbn [oa_chk oa_type oa_str oa_true andb]. rewrite Hv.
             rewrite Z.add_0_r, Z.mod_small by exact Hvr. reflexivity.
      + destruct ((sz =? 0) || (8 <? sz)); [discriminate|]. injection Hg as <-.
        destruct o as [v|]; [|rewrite V1 in *; apply (NUL eq_refl (gen_num (r_reg r) off (num_ptr t)) (if num_ptr t then 16 else 8)); reflexivity].
        destruct V1 as (Hv & Hvr & Hr8). specialize (Hap v eq_refl). cbn [reads oa_type oa_str oa_num orb oa_off oa_true oa_size] in *.
        rewrite (Hd (or_introl eq_refl)) in *. rewrite Z.add_0_r, Z.mod_small in Hap by exact Hvr. unfold oa_size in Hs. cbn [oa_true] in Hs.
        destruct (store_num s1 (r_reg r) off v (num_ptr t) I1 Hv Hvr Hr8 Ho) as (s2 & E2 & R82 & I2 & K2 & B2 & P2).
        { destruct (num_ptr t); lia. }
        { intros Hn. apply (apart_le _ _ _ 16); [lia|]. rewrite Hn in Hap. exact (Hap eq_refl). }
        destruct (FIN (gen_num (r_reg r) off (num_ptr t)) (r_lab r) (if num_ptr t then 16 else 8) s2 false) as (s' & E' & I' & K' & X1 & X2);
          [exact E2|intros [?|?]; discriminate|exact I2|discriminate|exact K2|reflexivity|].
        exists s'. split; [exact E'|]. split; [exact I'|]. split; [exact K'|].
        unfold enc, view_arg. cbn [oa_insn oa_true oa_size oa_off oa_chk oa_type oa_str oa_num andb].
        cbn [oa_true] in X1.
        assert (B8 : M_Go.le_bytes (bl (ker s') (buf + off) 8) = v).
        { rewrite (bl_ext _ (ker s2)) by (intros x Hx; rewrite X2 by (destruct (num_ptr t); lia); reflexivity). rewrite B2. apply le8_val. exact Hvr. }
        destruct (num_ptr t) eqn:Hnp; [|auto]. split; [exact X1|]. split; [reflexivity|]. split; [exact B8|].
        rewrite (bl_ext _ (ker s2)) by (intros x Hx; rewrite X2 by lia; reflexivity). apply P2. reflexivity.
    - injection Hg as <-. apply (PTR 0 sz false); try reflexivity.
      + cbn [oa_off]. apply Hd. auto.
      + intros v Hvr Hv. cbn [oa_chk andb] in Hv. unfold view_arg. cbn [oa_chk oa_type oa_str oa_true oa_off andb]. rewrite Hv.
        rewrite (Hd ltac:(auto)). reflexivity.
    - injection Hg as <-. apply (PTR (r_off r) (r_size r) false); try reflexivity.
      intros v Hvr Hv. cbn [oa_chk andb] in Hv. unfold view_arg. cbn [oa_chk oa_type oa_str oa_true oa_off andb]. rewrite Hv. reflexivity.
    - injection Hg as <-. apply (PTR (r_off r) (r_size r) true); try reflexivity.
      intros v Hvr Hv. cbn [oa_chk andb] in Hv. unfold view_arg. cbn [oa_chk oa_type oa_str oa_true oa_off andb]. rewrite Hv. reflexivity.
    - injection Hg as <-. apply (PTR (r_off r) (r_size r) false); try reflexivity.
      intros v Hvr Hv. cbn [oa_chk andb] in Hv. unfold view_arg. cbn [oa_chk oa_type oa_str oa_true oa_off andb]. rewrite Hv. reflexivity.
    - injection Hg as <-. apply (PTR (r_off r) (r_size r) false); try reflexivity.
      intros v Hvr Hv. cbn [oa_chk andb] in Hv. unfold view_arg. cbn [oa_chk oa_type oa_str oa_true oa_off andb]. rewrite Hv. reflexivity.
    - injection Hg as <-. apply (PTR (r_off r) (r_size r) false); try reflexivity.
      intros v Hvr Hv. cbn [oa_chk andb] in Hv. unfold view_arg. cbn [oa_chk oa_type oa_str oa_true oa_off andb]. rewrite Hv. reflexivity.
    - injection Hg as <-. apply (PTR (r_off r) (r_size r) false); try reflexivity.
      intros v Hvr Hv. cbn [oa_chk andb] in Hv. unfold view_arg. cbn [oa_chk oa_type oa_str oa_true oa_off andb]. rewrite Hv. reflexivity.
    - injection Hg as <-. apply (PTR (r_off r) (r_size r) false); try reflexivity.
      intros v Hvr Hv. cbn [oa_chk andb] in Hv. unfold view_arg. cbn [oa_chk oa_type oa_str oa_true oa_off andb]. rewrite Hv. reflexivity.
    - injection Hg as <-. apply (PTR (r_off r) (r_size r) false); try reflexivity.
      intros v Hvr Hv. cbn [oa_chk andb] in Hv. unfold view_arg. cbn [oa_chk oa_type oa_str oa_true oa_off andb]. rewrite Hv. reflexivity.
    - exact (SAMPLE RHist eq_refl eq_refl Hg).
    - exact (SAMPLE RTDigest eq_refl eq_refl Hg).
  Qed.
End One.
