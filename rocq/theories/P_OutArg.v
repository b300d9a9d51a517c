(** * Proofs for M_OutArg: capture *)
From Coq Require Import ZArith List Bool Lia.
From Verif Require Import M_Go M_Ebpf P_Ebpf M_CcNum M_Cc M_Bytes M_FnArgs S_FnArgs S_CSem S_CSup M_OutArg S_OutArg.
From Verif Require Import P_CcMach P_CcWalk P_CcMat P_CcVal P_CcOps P_CcSim2 P_CcReg P_FnArgs P_FnArgs2.
Import ListNotations.
Open Scope Z_scope.

Lemma link_exec m l : forall k n t s, exec m (link l n ++ t) k s =
  match exec m l k s with FFall k' s' => exec m t k' s' | FLabel s' => exec m t n s' | o => o end.
Proof.
  induction l as [|i l IH]; intros k n t s; cbn [link app exec]; [reflexivity|].
  destruct k as [|k].
  2:{ destruct i; cbn [app exec]; apply IH. }
  destruct i; cbn [app exec step1]; try apply IH; try reflexivity;
    try (destruct (jop_sem _ _ _)); try apply IH; try (destruct (off <? 0); [reflexivity|apply IH]).
  - destruct (Z.ltb_spec (Z.of_nat (List.length l + n)) 0); [lia|]. rewrite Nat2Z.id.
    assert (Hl : List.length (link l n) = List.length l) by (clear; induction l as [|i l IH]; [reflexivity|]; destruct i; cbn [link List.length]; rewrite IH; reflexivity).
    rewrite exec_app, <- Hl, exec_skip. reflexivity.
Qed.

Section Out.
  Variables (m : mach) (buf size : Z).
  Hypothesis Hbuf : 0 <= buf /\ buf + size <= M64.
  Notation inframe := (inframe buf size).

  (** bpf_probe_read_kernel into the buffer *)
  Lemma read_pre s off n v call : rg s R8 = buf -> rg s R3 = v -> 0 <= off -> 0 <= n -> off + n < size -> size < 2 ^ 31 ->
    exists s1, exec m (read_to off n call) 0 s = exec m [call] 0 s1 /\ rg s1 R1 = buf + off /\ rg s1 R2 = n /\ rg s1 R3 = v /\
              (forall r, (6 <= r)%nat -> rg s1 r = rg s r) /\ ker s1 = ker s.
  Proof.
    intros H8 H3 Ho Hn Hs Hsz. unfold read_to. destruct (Z.eqb_spec off 0) as [->|Hne].
    - exists (setr (setr s R2 (immv (s32 n))) R1 (rg s R8)). split; [reflexivity|]. split; [cbn; lia|].
      split. { rewrite rg_setr_neq by (unfold R1, R2; lia). rewrite rg_setr_eq. rewrite s32_id by lia. apply immv_small. lia. }
      split; [exact H3|]. split; [|reflexivity]. intros r Hr. rewrite !rg_setr_neq by (unfold R1, R2; lia). reflexivity.
    - exists (setr (setr (setr s R2 (immv (s32 n))) R1 (rg s R8)) R1 (alu_sem AAdd (rg s R8) (immv (s32 off)))).
      split; [reflexivity|]. split.
      { change (wrap (rg s R8 + immv (s32 off)) = buf + off). rewrite s32_id by lia. rewrite immv_small by lia. rewrite H8. apply wrap_small. lia. }
      split. { rewrite !rg_setr_neq by (unfold R1, R2; lia). rewrite rg_setr_eq. rewrite s32_id by lia. apply immv_small. lia. }
      split; [exact H3|]. split; [|reflexivity]. intros r Hr. rewrite !rg_setr_neq by (unfold R1, R2; lia). reflexivity.
  Qed.
  Lemma write_buf s1 fp off n g : rg s1 R1 = buf + off -> rg s1 RFP = fp -> inframe fp -> 0 <= off < size ->
    write_at s1 (rg s1 R1) n g = set_ker s1 (wr (ker s1) (buf + off) n g).
  Proof.
    intros H1 HF Hf Ho. unfold write_at. rewrite H1, HF.
    destruct (Z.leb_spec (M64 - 512) (wrap (buf + off - fp))) as [H|H]; [|reflexivity].
    exfalso. pose proof (Hf off ltac:(lia)) as Hf'. unfold wrap in H. lia.
  Qed.
  Lemma bl_wr f a n g : bl (wr f a (Z.of_nat n) g) a n = map (fun i => g (Z.of_nat i) mod 256) (seq 0 n).
  Proof.
    rewrite bl_map. apply map_ext_in. intros i Hi. apply in_seq in Hi. unfold wr.
    replace ((a <=? a + Z.of_nat i) && (a + Z.of_nat i <? a + Z.of_nat n)) with true
      by (symmetry; apply andb_true_iff; split; [apply Z.leb_le|apply Z.ltb_lt]; lia).
    do 2 f_equal. lia.
  Qed.
  Lemma bl_wr' f a n g : 0 <= n -> bl (wr f a n g) a (Z.to_nat n) = map (fun i => g (Z.of_nat i) mod 256) (seq 0 (Z.to_nat n)).
  Proof. intros H. rewrite <- (Z2Nat.id n) at 1 by lia. apply bl_wr. Qed.
  Lemma wr_other f a n g x : ~ (a <= x < a + n) -> wr f a n g x = f x.
  Proof. intros H. unfold wr. destruct (Z.leb_spec a x); destruct (Z.ltb_spec x (a + n)); cbn [andb]; try reflexivity. lia. Qed.
  Lemma map_const {A} (l : list A) (c : Z) : map (fun _ => c) l = repeat c (List.length l).
  Proof. induction l as [|x l IH]; cbn; [reflexivity|]. rewrite IH. reflexivity. Qed.

  Lemma exec_read s off n v fp : rg s R8 = buf -> rg s R3 = v -> rg s RFP = fp -> inframe fp -> 0 <= off -> 0 <= n -> off + n < size -> size < 2 ^ 31 ->
    exists s', exec m (read_to off n IProbeRead) 0 s = FFall 0 s' /\ (forall r, (6 <= r)%nat -> rg s' r = rg s r) /\
      (forall x, ~ (buf + off <= x < buf + off + n) -> ker s' x = ker s x) /\
      bl (ker s') (buf + off) (Z.to_nat n) = dump (mem_of m s) v (Z.to_nat n).
  Proof.
    intros H8 H3 HF Hf Ho Hn Hs Hsz.
    destruct (read_pre s off n v IProbeRead H8 H3 Ho Hn Hs Hsz) as (s1 & E & R1E & R2E & R3E & R6E & KE).
    exists (do_probe_read m s1). split; [rewrite E; reflexivity|]. unfold do_probe_read. rewrite R2E, R3E.
    assert (HF1 : rg s1 RFP = fp) by (rewrite R6E by (unfold RFP; lia); exact HF).
    assert (Hkb : forall a, kb s1 a = kb s a) by (intros a; unfold kb; rewrite KE; reflexivity).
    rewrite !(write_buf s1 fp off n _ R1E HF1 Hf) by lia.
    assert (Hreg : forall s2 r0 r, (forall r, rg s2 r = rg s1 r) -> (6 <= r)%nat -> rg (clobber m s2 5 r0) r = rg s r).
    { intros s2 r0 r H2 Hr. cbn [clobber rg]. destruct (Nat.eqb_spec r 0); [lia|]. destruct (Nat.leb_spec r 5); [lia|]. rewrite H2. apply R6E; lia. }
    unfold dump. rewrite bytes_spec.
    destruct (all_mapped m v (Z.to_nat n)).
    - split; [intros r Hr; apply Hreg; [reflexivity|exact Hr]|]. cbn [clobber ker set_ker]. split.
      { intros x Hx. rewrite wr_other by exact Hx. rewrite KE. reflexivity. }
      rewrite bl_wr' by lia. rewrite bl_map. apply map_ext. intros i. rewrite Hkb. apply Z.mod_mod. lia.
    - split; [intros r Hr; apply Hreg; [reflexivity|exact Hr]|]. cbn [clobber ker set_ker]. split.
      { intros x Hx. rewrite wr_other by exact Hx. rewrite KE. reflexivity. }
      rewrite bl_wr' by lia. rewrite (map_ext _ (fun _ => 0)) by reflexivity. rewrite map_const, seq_length. reflexivity.
  Qed.

  Lemma exec_reads s off n v fp : rg s R8 = buf -> rg s R3 = v -> rg s RFP = fp -> inframe fp -> 0 <= off -> 1 <= n -> off + n < size -> size < 2 ^ 31 ->
    exists s', exec m (read_to off n IProbeReadStr) 0 s = FFall 0 s' /\ (forall r, (6 <= r)%nat -> rg s' r = rg s r) /\
      (forall x, ~ (buf + off <= x < buf + off + n) -> ker s' x = ker s x) /\
      null_terminated (bl (ker s') (buf + off) (Z.to_nat n)) = str_to (mem_of m s) v (Z.to_nat n).
  Proof.
    intros H8 H3 HF Hf Ho Hn Hs Hsz.
    destruct (read_pre s off n v IProbeReadStr H8 H3 Ho ltac:(lia) Hs Hsz) as (s1 & E & R1E & R2E & R3E & R6E & KE).
    exists (do_probe_read_str m s1). split; [rewrite E; reflexivity|]. unfold do_probe_read_str. rewrite R2E, R3E.
    assert (HF1 : rg s1 RFP = fp) by (rewrite R6E by (unfold RFP; lia); exact HF).
    assert (Hkb : forall a, kb s1 a = kb s a) by (intros a; unfold kb; rewrite KE; reflexivity).
    destruct (Z.to_nat n) as [|N] eqn:EN; [lia|]. replace (S N - 1)%nat with N by lia.
    assert (Hsl : strnlen (kb s1) v N = strnlen (kb s) v N) by (f_equal; unfold kb; rewrite KE; reflexivity).
    rewrite Hsl. pose proof (cstr_strnlen m s v N) as Hc. cbv zeta in Hc.
    pose proof (strnlen_le (kb s) v N) as Hl. pose proof (strnlen_nz (kb s) v N) as Hnz.
    assert (Hst : str_to (mem_of m s) v (S N) = match option_map (firstn N) (cstr (mem_of m s) v (S N)) with Some l => l | None => [] end).
    { unfold str_to. replace (S N - 1)%nat with N by lia. destruct (cstr (mem_of m s) v (S N)); reflexivity. }
    rewrite Hst, Hc. set (l := strnlen (kb s) v N) in *. clearbody l. cbv zeta.
    assert (Hreg : forall s2 r0 r, (forall r, rg s2 r = rg s1 r) -> (6 <= r)%nat -> rg (clobber m s2 5 r0) r = rg s r).
    { intros s2 r0 r H2 Hr. cbn [clobber rg]. destruct (Nat.eqb_spec r 0); [lia|]. destruct (Nat.leb_spec r 5); [lia|]. rewrite H2. apply R6E; lia. }
    assert (HnN : n = Z.of_nat (S N)) by lia.
    destruct (all_mapped m v (S l)) eqn:Em; rewrite (write_buf s1 fp off _ _ R1E HF1 Hf) by lia.
    - split; [intros r Hr; apply Hreg; [reflexivity|exact Hr]|]. cbn [clobber ker set_ker].
      split. { intros x Hx. rewrite wr_other by lia. rewrite KE. reflexivity. }
      replace (S N) with (l + (1 + (N - l)))%nat by lia. rewrite bl_app. cbn [Nat.add bl].
      replace (Z.of_nat l + 1) with (Z.of_nat (l + 1)) by lia.
      pose proof (bl_wr (ker s1) (buf + off) (l + 1) (fun i => if i <? Z.of_nat l then kb s1 (v + i) mod 256 else 0)) as Hw.
      rewrite bl_app in Hw. rewrite seq_app, map_app in Hw. cbn [bl seq map Nat.add] in Hw.
      apply app_inj_tail in Hw as [Hw1 Hw2]. rewrite Hw1, Hw2. rewrite Z.ltb_irrefl. change (0 mod 256) with 0.
      rewrite (map_ext_in _ (fun i => kb s (v + Z.of_nat i) mod 256)).
      2:{ intros i Hi. apply in_seq in Hi. destruct (Z.ltb_spec (Z.of_nat i) (Z.of_nat l)); [|lia]. rewrite Hkb. apply Z.mod_mod. lia. }
      rewrite <- bl_map. apply null_terminated_app. exact Hnz.
    - split; [intros r Hr; apply Hreg; [reflexivity|exact Hr]|]. cbn [clobber ker set_ker].
      split. { intros x Hx. rewrite wr_other by exact Hx. rewrite KE. reflexivity. }
      rewrite HnN. rewrite bl_wr. cbn [seq map]. change (0 mod 256) with 0. reflexivity.
  Qed.

  Variables (s0 : mst) (A fp : Z).
  Hypothesis Hsize : size < 2 ^ 15.
  Hypothesis Hframe : inframe fp.
  Record oinv (s : mst) : Prop := {
    oi8 : rg s R8 = buf; oi9 : rg s R9 = A; oifp : rg s RFP = fp;
    oik : forall x, ~ (buf <= x < buf + size) -> ker s x = ker s0 x }.
  Lemma oinv_regs s s' : oinv s -> (forall r, (8 <= r <= 10)%nat -> rg s' r = rg s r) ->
    (forall x, ~ (buf <= x < buf + size) -> ker s' x = ker s x) -> oinv s'.
  Proof.
    intros [I8 I9 IF IK] Hr Hk. split; [rewrite Hr by (unfold R8; lia); exact I8|rewrite Hr by (unfold R9; lia); exact I9|
      rewrite Hr by (unfold RFP; lia); exact IF|]. intros x Hx. rewrite Hk by assumption. apply IK; assumption.
  Qed.

  Lemma exec_st8 s off r v : oinv s -> rg s r = v -> 0 <= off -> off + 8 <= size ->
    exists s', exec m [ISt R8 (s16 off) r 8] 0 s = FFall 0 s' /\ (forall r', rg s' r' = rg s r') /\
      (forall x, ~ (buf + off <= x < buf + off + 8) -> ker s' x = ker s x) /\ bl (ker s') (buf + off) 8 = le8 v.
  Proof.
    intros I Hr Ho Hs.
    exists (store s R8 (s16 off) 8 (rg s r)). split; [reflexivity|]. unfold store. change (Nat.eqb R8 RFP) with false. cbv iota.
    rewrite s16_id by lia. rewrite (oi8 _ I). rewrite wrap_small by lia. split; [reflexivity|]. cbn [set_ker ker]. split.
    - intros x Hx. apply wr_other. exact Hx.
    - rewrite bl_wr. rewrite Hr. unfold le8, byte_of. cbn [seq map].
      rewrite !Z.mod_mod by lia. reflexivity.
  Qed.
  Lemma le8_val v : 0 <= v < M64 -> M_Go.le_bytes (le8 v) = v.
  Proof.
    intros Hv. transitivity (le (wr (fun _ => 0) 0 (Z.of_nat 8) (byte_of v)) 0 8); [|exact (le_store v (fun _ => 0) 0 Hv)].
    rewrite le_bl, bl_wr. unfold le8, byte_of. cbn [seq map]. rewrite !Z.mod_mod by lia. reflexivity.
  Qed.

  (** one byte after the value *)
  Lemma finish_ok body lab o s s1 (nl : bool) : (exec m body 0 s = if nl then FLabel s1 else FFall 0 s1) -> (nl = true -> lab = true) ->
    oinv s1 -> 0 <= o < size ->
    exists s', exec m (finish body lab o) 0 s = FFall 0 s' /\ (forall r, r <> R0 -> rg s' r = rg s1 r) /\
      (forall x, x <> buf + o -> ker s' x = ker s1 x) /\ ker s' (buf + o) mod 256 = if nl then 1 else 0.
  Proof.
    intros E Hnl I Ho.
    assert (HST : forall s2 v, rg s2 R0 = v -> (forall r, r <> R0 -> rg s2 r = rg s1 r) -> ker s2 = ker s1 ->
      exists s', exec m [ISt R8 (s16 o) R0 1] 0 s2 = FFall 0 s' /\ (forall r, r <> R0 -> rg s' r = rg s1 r) /\
        (forall x, x <> buf + o -> ker s' x = ker s1 x) /\ ker s' (buf + o) mod 256 = v mod 256).
    { intros s2 v Hv Hr Hk. exists (store s2 R8 (s16 o) 1 (rg s2 R0)). split; [reflexivity|].
      unfold store. change (Nat.eqb R8 RFP) with false. cbv iota. rewrite s16_id by lia.
      rewrite Hr by (unfold R8, R0; lia). rewrite (oi8 _ I). rewrite wrap_small by lia. change (Z.of_nat 1) with 1. cbn [set_ker ker].
      split; [exact Hr|]. split.
      - intros x Hx. rewrite wr_other by lia. rewrite Hk. reflexivity.
      - unfold wr. replace ((buf + o <=? buf + o) && (buf + o <? buf + o + 1)) with true by (symmetry; apply andb_true_iff; split; [apply Z.leb_le|apply Z.ltb_lt]; lia).
        rewrite Z.sub_diag. unfold byte_of. change (8 * 0) with 0. rewrite Z.shiftr_0_r, Hv. apply Z.mod_mod. lia. }
    assert (HR : forall c, exists s', exec m [IMovI R0 c; ISt R8 (s16 o) R0 1] 0 s1 = FFall 0 s' /\ (forall r, r <> R0 -> rg s' r = rg s1 r) /\
        (forall x, x <> buf + o -> ker s' x = ker s1 x) /\ ker s' (buf + o) mod 256 = immv c mod 256).
    { intros c. destruct (HST (setr s1 R0 (immv c)) (immv c)) as (s' & E' & H); [apply rg_setr_eq|intros r Hr; apply rg_setr_neq; exact Hr|reflexivity|].
      exists s'. split; [exact E'|exact H]. }
    unfold finish. destruct lab.
    - rewrite link_exec, E. destruct nl.
      + destruct (HR 1) as (s' & E' & H1 & H2 & H3). exists s'. split; [exact E'|]. split; [exact H1|]. split; [exact H2|exact H3].
      + destruct (HST (setr s1 R0 (immv 0)) (immv 0)) as (s' & E' & H1 & H2 & H3); [apply rg_setr_eq|intros r Hr; apply rg_setr_neq; exact Hr|reflexivity|].
        exists s'. split; [exact E'|]. split; [exact H1|]. split; [exact H2|exact H3].
    - destruct nl; [specialize (Hnl eq_refl); discriminate|]. rewrite exec_app, E.
      destruct (HR 0) as (s' & E' & H1 & H2 & H3). exists s'. split; [exact E'|]. split; [exact H1|]. split; [exact H2|exact H3].
  Qed.
End Out.
