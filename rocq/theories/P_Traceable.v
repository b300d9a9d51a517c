(** * Proofs about M_Traceable. *)
From Coq Require Import List Bool ZArith Lia Permutation.
From Verif Require Import M_Go P_Go M_Kallsyms M_Bytes M_Disasm S_Disasm P_Disasm M_Traceable S_Traceable.
Import ListNotations.
Open Scope list_scope.
Open Scope Z_scope.

Lemma holds_unique m a l l' : holds m a l -> holds m a l' -> List.length l = List.length l' -> l = l'.
Proof.
  intros H H' E. apply nth_ext with (d := 0) (d' := 0); [exact E|]. intros i Hi.
  specialize (H i Hi). specialize (H' i ltac:(lia)). congruence.
Qed.
Lemma holds_skipn m a l k : holds m a l -> holds m (a + Z.of_nat k) (skipn k l).
Proof.
  intros H i Hi. rewrite skipn_length in Hi. replace (a + Z.of_nat k + Z.of_nat i) with (a + Z.of_nat (k + i)) by lia.
  rewrite H by lia. f_equal. rewrite <- (firstn_skipn k l) at 1. rewrite app_nth2; rewrite firstn_length; [f_equal|]; lia.
Qed.
Lemma holds_bytes m a l : byte_mem m -> holds m a l -> Forall is_byte l.
Proof.
  intros Hm H. apply Forall_forall. intros x Hx. apply (In_nth _ _ 0) in Hx. destruct Hx as (i & Hi & <-).
  specialize (H i Hi). apply Hm in H. exact H.
Qed.
Lemma le5 b0 b1 b2 b3 b4 : is_byte b0 -> is_byte b1 -> is_byte b2 -> is_byte b3 -> is_byte b4 ->
  Z.lor (Z.shiftl b4 32) (le_bytes [b0; b1; b2; b3]) = b0 + 256 * (b1 + 256 * (b2 + 256 * (b3 + 256 * b4))).
Proof.
  unfold is_byte. intros. 
  assert (E : le_bytes [b0; b1; b2; b3] = b0 + 256 * (b1 + 256 * (b2 + 256 * b3))) by (cbn [le_bytes]; lia).
  rewrite E. set (a := b0 + 256 * (b1 + 256 * (b2 + 256 * b3))).
  assert (0 <= a < 2 ^ 32) by (change (2 ^ 32) with 4294967296; unfold a; lia).
  assert (L : Z.land (Z.shiftl b4 32) a = 0).
  { apply Z.bits_inj'. intros i Hi. rewrite Z.land_spec, Z.bits_0.
    destruct (Z_lt_dec i 32).
    - rewrite Z.shiftl_spec_low by lia. reflexivity.
    - rewrite <- (Z.mod_small a (2 ^ 32)) by assumption. rewrite Z.mod_pow2_bits_high by lia. apply andb_false_r. }
  rewrite <- (Z.lxor_lor _ _ L), <- (Z.add_nocarry_lxor _ _ L), Z.shiftl_mul_pow2 by lia.
  change (2 ^ 32) with 4294967296. unfold a. lia.
Qed.
(** the first five bytes of the entry *)
Lemma entry5 m (endbr : bool) a buff : byte_mem m -> holds m a buff -> List.length buff = 16%nat ->
  exists b0 b1 b2 b3 b4 r, (if endbr then skipn 4 buff else buff) = b0 :: b1 :: b2 :: b3 :: b4 :: r /\
    Forall is_byte [b0; b1; b2; b3; b4] /\ holds m (entry_of endbr a) [b0; b1; b2; b3; b4].
Proof.
  intros Hm H L.
  assert (X : holds m (entry_of endbr a) (if endbr then skipn 4 buff else buff) /\ (5 <= List.length (if endbr then skipn 4 buff else buff))%nat).
  { destruct endbr; cbn [entry_of]; [split; [apply (holds_skipn m a buff 4 H)|rewrite skipn_length; lia]|split; [exact H|lia]]. }
  destruct X as [X1 X2]. destruct (if endbr then skipn 4 buff else buff) as [|b0 [|b1 [|b2 [|b3 [|b4 r]]]]]; cbn [List.length] in X2; try lia.
  exists b0, b1, b2, b3, b4, r. split; [reflexivity|].
  assert (Y : holds m (entry_of endbr a) [b0; b1; b2; b3; b4]).
  { intros i Hi. cbn [List.length] in Hi. rewrite (X1 i) by (cbn [List.length]; lia). do 5 (destruct i as [|i]; [reflexivity|]). lia. }
  split; [|exact Y]. exact (holds_bytes _ _ _ Hm Y).
Qed.
Lemma readable_dec m n : forall a, readable m a (Z.of_nat n) \/ exists i, 0 <= i < Z.of_nat n /\ m (a + i) = None.
Proof.
  induction n as [|n IH]; intros a; [left; intros i Hi; lia|].
  destruct (m a) as [b|] eqn:E; [|right; exists 0; split; [lia|rewrite Z.add_0_r; exact E]].
  destruct (IH (a + 1)) as [H|(i & Hi & H)].
  - left. intros i Hi. destruct (Z.eq_dec i 0) as [->|]; [rewrite Z.add_0_r, E; discriminate|].
    replace (a + i) with (a + 1 + (i - 1)) by lia. apply H. lia.
  - right. exists (i + 1). split; [lia|]. rewrite <- H. f_equal. lia.
Qed.
Lemma probe_readable m (endbr jmp : bool) a : readable m a 16 -> exists buff, read_mem m 16 a = Some buff /\ List.length buff = 16%nat /\ holds m a buff.
Proof. intros H. exact (read_mem_some m 16 a H). Qed.
Lemma c_nop b0 b1 b2 b3 b4 : Forall is_byte [b0; b1; b2; b3; b4] ->
  b0 + 256 * (b1 + 256 * (b2 + 256 * (b3 + 256 * b4))) = 4464399 <-> [b0; b1; b2; b3; b4] = [15; 31; 68; 0; 0].
Proof.
  intros H. repeat match goal with X : Forall _ (_ :: _) |- _ => inversion X; subst; clear X end. unfold is_byte in *.
  split.
  - intros E. assert (b0 = 15) by lia. subst. assert (b1 = 31) by lia. subst. assert (b2 = 68) by lia. subst. assert (b3 = 0) by lia. subst.
    assert (b4 = 0) by lia. subst. reflexivity.
  - intros [= -> -> -> -> ->]. reflexivity.
Qed.
Lemma probe_traceable m endbr jmp a : byte_mem m ->
  fst (probe_addr m endbr jmp a) = true <-> readable m a 16 /\ patch_site m (entry_of endbr a).
Proof.
  intros Hm. destruct (readable_dec m 16 a) as [Hr|(i & Hi & Hn)]; [change (Z.of_nat 16) with 16 in Hr|change (Z.of_nat 16) with 16 in Hi].
  - destruct (probe_readable m endbr jmp a Hr) as (buff & E & L & H). unfold probe_addr. rewrite E.
    destruct (entry5 m endbr a buff Hm H L) as (b0 & b1 & b2 & b3 & b4 & r & -> & Hb & Hh).
    cbn [firstn nth]. rewrite le5 by (inversion Hb; subst; repeat match goal with X : Forall _ (_ :: _) |- _ => inversion X; subst; clear X end; assumption).
    cbn [fst]. rewrite !orb_true_iff, !Z.eqb_eq, (c_nop _ _ _ _ _ Hb).
    assert (E0 : m (entry_of endbr a) = Some b0) by (specialize (Hh 0%nat ltac:(cbn; lia)); rewrite Z.add_0_r in Hh; exact Hh).
    unfold patch_site. rewrite E0. split.
    + intros X. split; [exact Hr|]. destruct X as [[X| ->]| ->]; [left; rewrite <- X; exact Hh|auto|auto].
    + intros [_ [X|[X|X]]]; [left; left; apply (holds_unique m (entry_of endbr a)); auto| |]; injection X as ->; auto.
  - unfold probe_addr. rewrite (read_mem_none m 16 a i Hi Hn). cbn [fst]. split; [discriminate|]. intros [Hr _]. exfalso. exact (Hr i Hi Hn).
Qed.
Lemma shift_c b0 b1 b2 b3 b4 : Forall is_byte [b0; b1; b2; b3; b4] ->
  Z.land (Z.shiftr (b0 + 256 * (b1 + 256 * (b2 + 256 * (b3 + 256 * b4)))) 8) 4294967295 = b1 + 256 * (b2 + 256 * (b3 + 256 * b4)).
Proof.
  intros H. repeat match goal with X : Forall _ (_ :: _) |- _ => inversion X; subst; clear X end. unfold is_byte in *.
  rewrite Z.shiftr_div_pow2 by lia. change (2 ^ 8) with 256.
  replace (b0 + 256 * (b1 + 256 * (b2 + 256 * (b3 + 256 * b4)))) with (b0 + (b1 + 256 * (b2 + 256 * (b3 + 256 * b4))) * 256) by lia.
  rewrite Z.div_add, Z.div_small by lia. change 4294967295 with (Z.ones 32). rewrite Z.land_ones by lia.
  rewrite Z.add_0_l. apply Z.mod_small. change (2 ^ 32) with 4294967296. lia.
Qed.
(** jmp mode: the trampoline is the target of the jump; 0 without one *)
Lemma probe_tramp m endbr a : byte_mem m -> readable m a 16 ->
  (forall t, jumps_to m (entry_of endbr a) t -> snd (probe_addr m endbr true a) = t) /\
  ((forall t, ~ jumps_to m (entry_of endbr a) t) -> snd (probe_addr m endbr true a) = 0) /\
  (m (entry_of endbr a) = Some 233 -> exists t, jumps_to m (entry_of endbr a) t).
Proof.
  intros Hm Hr. destruct (probe_readable m endbr true a Hr) as (buff & E & L & H). unfold probe_addr. rewrite E.
  destruct (entry5 m endbr a buff Hm H L) as (b0 & b1 & b2 & b3 & b4 & r & -> & Hb & Hh).
  cbn [firstn nth]. rewrite le5 by (inversion Hb; subst; repeat match goal with X : Forall _ (_ :: _) |- _ => inversion X; subst; clear X end; assumption).
  cbn [snd]. rewrite (shift_c _ _ _ _ _ Hb). cbn [andb].
  assert (E0 : m (entry_of endbr a) = Some b0) by (specialize (Hh 0%nat ltac:(cbn; lia)); rewrite Z.add_0_r in Hh; exact Hh).
  assert (Hd : 0 <= b1 + 256 * (b2 + 256 * (b3 + 256 * b4)) < 2 ^ 32).
  { change (2 ^ 32) with 4294967296. repeat match goal with X : Forall _ (_ :: _) |- _ => inversion X; subst; clear X end. unfold is_byte in *. lia. }
  split; [|split].
  - intros t (d0 & d1 & d2 & d3 & Ht & ->). assert (X := holds_unique m _ _ _ Hh Ht eq_refl). injection X as -> -> -> -> ->.
    cbn [Z.eqb Pos.eqb]. unfold u64, s32of, W64. rewrite (Z.mod_small _ (2 ^ 32)) by assumption. f_equal. unfold entry_of. destruct endbr; lia.
  - intros Hno. destruct (Z.eqb_spec b0 233) as [->|]; [|reflexivity]. exfalso. eapply Hno. exists b1, b2, b3, b4. split; [exact Hh|reflexivity].
  - rewrite E0. intros [= ->]. eexists. exists b1, b2, b3, b4. split; [exact Hh|reflexivity].
Qed.

(** ** batches *)
Lemma combine_map_filter {A B} (f : A -> B) (p : B -> bool) l :
  filter (fun x => p (snd x)) (combine l (map f l)) = map (fun a => (a, f a)) (filter (fun a => p (f a)) l).
Proof. induction l as [|x l IH]; cbn; [reflexivity|]. destruct (p (f x)); cbn; rewrite IH; reflexivity. Qed.
Lemma batches m endbr jmp n : forall addrs, (List.length addrs <= n)%nat ->
  detect_batches m endbr jmp n addrs = Some (map (fun a => (snd (probe_addr m endbr jmp a), a)) (filter (fun a => fst (probe_addr m endbr jmp a)) addrs)).
Proof.
  induction n as [|n IH]; intros addrs H; [destruct addrs; [reflexivity|cbn in H; lia]|].
  destruct addrs as [|a0 l0] eqn:Ea; [reflexivity|]. rewrite <- Ea in *.
  assert (X : forall (now later : list Z), now ++ later = addrs -> (List.length now <= 1024)%nat -> (1 <= List.length now)%nat ->
    match detect m endbr jmp now, detect_batches m endbr jmp n later with
    | Some r, Some l => Some (map (fun x => (snd (snd x), fst x)) (filter (fun x => fst (snd x)) (combine now r)) ++ l)
    | _, _ => None
    end = Some (map (fun a => (snd (probe_addr m endbr jmp a), a)) (filter (fun a => fst (probe_addr m endbr jmp a)) addrs))).
  { intros now later E Hn H1. unfold detect. destruct (Nat.ltb_spec 1024 (List.length now)); [lia|].
    rewrite IH by (rewrite <- E, app_length in H; lia). rewrite (combine_map_filter (probe_addr m endbr jmp) fst), map_map. cbn [snd fst].
    rewrite <- E, filter_app, map_app. reflexivity. }
  transitivity (match detect m endbr jmp (if (1024 <? List.length addrs)%nat then firstn 1024 addrs else addrs),
      detect_batches m endbr jmp n (if (1024 <? List.length addrs)%nat then skipn 1024 addrs else []) with
    | Some r, Some l => Some (map (fun x => (snd (snd x), fst x)) (filter (fun x => fst (snd x)) (combine (if (1024 <? List.length addrs)%nat then firstn 1024 addrs else addrs) r)) ++ l)
    | _, _ => None
    end); [rewrite Ea; reflexivity|].
  destruct (Nat.ltb_spec 1024 (List.length addrs)).
  - apply X; [apply firstn_skipn| |]; rewrite firstn_length; lia.
  - apply X; [apply app_nil_r|lia|rewrite Ea; cbn; lia].
Qed.
Lemma tramps_all m endbr jmp keys : probe_tramps m endbr jmp keys =
  Some (map (fun a => (snd (probe_addr m endbr jmp a), a)) (filter (fun a => fst (probe_addr m endbr jmp a)) (isort Z.leb keys))).
Proof. unfold probe_tramps. apply batches. lia. Qed.
Lemma kept m endbr jmp keys : byte_mem m -> exists l, detect_traceable m endbr jmp keys = Some l /\ (NoDup keys -> NoDup l) /\
  forall a, In a l <-> In a keys /\ readable m a 16 /\ patch_site m (entry_of endbr a).
Proof.
  intros Hm. unfold detect_traceable. rewrite tramps_all. cbn [option_map]. rewrite map_map. cbn [snd]. rewrite map_id.
  eexists. split; [reflexivity|]. split.
  - intros H. apply NoDup_filter. eapply Permutation_NoDup; [apply isort_perm|exact H].
  - intros a. rewrite filter_In, isort_In, (probe_traceable m endbr jmp a Hm). tauto.
Qed.
Lemma no_endbr_dropped m jmp keys a l : byte_mem m -> holds m a [15; 31; 68; 0; 0] -> detect_traceable m true jmp keys = Some l -> ~ In a l.
Proof.
  intros Hm Hh Hd Hi. destruct (kept m true jmp keys Hm) as (l' & E & _ & Hk). rewrite Hd in E. injection E as <-.
  apply Hk in Hi. destruct Hi as (_ & _ & Hp). cbn [entry_of] in Hp.
  assert (E0 : m (a + 4) = Some 0) by exact (Hh 4%nat ltac:(cbn; lia)).
  destruct Hp as [Hp|[Hp|Hp]]; [|congruence|congruence].
  specialize (Hp 0%nat ltac:(cbn; lia)). rewrite Z.add_0_r, E0 in Hp. cbn in Hp. discriminate.
Qed.

(** ** trampolines *)
Section Tramp.
  Variable dec : list Z -> Z -> option nat.
  Hypothesis Hdec : sound_decoder dec.
  Lemma sites_iff b pc l : Decoded dec b pc l -> 0 <= pc -> pc + Z.of_nat (List.length b) < 2 ^ 64 ->
    forall ip, In ip (call_sites pc l) <-> exists a r, In (a, 232 :: r) l /\ ip = a + 1 + Z.of_nat (List.length r).
  Proof.
    induction 1 as [b pc H|b pc sz l Hb Hd D IH]; intros Hp Hw ip.
    - cbn. split; [intros []|intros (a & r & [] & _)].
    - pose proof (Hdec _ _ _ Hd) as Hs. cbn [call_sites snd].
      assert (L : List.length (firstn sz b) = sz) by (rewrite firstn_length; lia).
      rewrite L. assert (E : u64 (pc + Z.of_nat sz) = pc + Z.of_nat sz) by (unfold u64; apply Z.mod_small; change W64 with (2 ^ 64); lia).
      rewrite E. specialize (IH ltac:(lia)). rewrite skipn_length in IH. specialize (IH ltac:(lia)).
      destruct (firstn sz b) as [|x r] eqn:Ef; [cbn in L; lia|]. cbn [nth]. cbn [List.length] in L.
      destruct (Z.eqb_spec x 232) as [->|Hx]; cbn [In]; rewrite IH; split.
      + intros [<-|(a & r' & Hi & ->)]; [exists pc, r; split; [left; reflexivity|lia]|exists a, r'; auto].
      + intros (a & r' & [Hi|Hi] & ->); [injection Hi as <- <-; left; lia|right; exists a, r'; auto].
      + intros (a & r' & Hi & ->). exists a, r'. auto.
      + intros (a & r' & [Hi|Hi] & ->); [injection Hi as _ X _; congruence|exists a, r'; auto].
  Qed.
  Lemma trim_len_le d : (List.length (trim_tail d) <= List.length d)%nat.
  Proof. unfold trim_tail. rewrite firstn_length. lia. Qed.
  Lemma Decoded_det b pc l : Decoded dec b pc l -> forall l', Decoded dec b pc l' -> l = l'.
  Proof.
    induction 1 as [b pc H|b pc sz l Hb Hd D IH]; intros l' H'; inversion H'; subst; try reflexivity.
    - destruct H; congruence.
    - destruct H; congruence.
    - rewrite Hd in H0. injection H0 as <-. f_equal. apply IH. assumption.
  Qed.
  Lemma disasm_ok m ks buff t n : guess_bytes ks t 0 = Some n -> 0 < n <= 4096 -> 0 <= t -> t + n < 2 ^ 64 -> readable m t (round8 n) ->
    forall d l, Z.of_nat (List.length d) = n -> holds m t d -> Decoded dec (trim_tail d) t l -> l <> [] ->
    exists buff', disasm_at dec m ks buff t = (Some l, buff').
  Proof.
    intros Hg Hn Ht Hw Hr d l Hd Hh D Hl. unfold disasm_at. rewrite Hg.
    destruct (read_ok m buff t n ltac:(lia) Hr) as (d' & E & L & H').
    assert (d' = d) by (apply (holds_unique m t); auto; lia). subst d'.
    destruct (read_kernel m buff t n) as [r buff']. cbn [fst] in E. subst r. pose proof (trim_len_le d).
    rewrite (decode_all_ok dec Hdec _ _ _ l); [|lia|lia|lia|exact D]. destruct l; [congruence|]. eauto.
  Qed.
  Lemma skipn_repeat {A} (x : A) k : forall n, skipn k (repeat x n) = repeat x (n - k).
  Proof. induction k as [|k IH]; intros [|n]; cbn; auto. Qed.
  (** memory at 0 cannot be read: zeros are decoded, and no call is found *)
  Lemma zeros_no_call b pc l : Decoded dec b pc l -> (exists k, b = repeat 0 k) -> forall q, call_sites q l = [].
  Proof.
    induction 1 as [b pc H|b pc sz l Hb Hd D IH]; intros (k & Eb) q; [reflexivity|].
    pose proof (Hdec _ _ _ Hd) as Hs. cbn [call_sites snd].
    assert (X : nth 0 (firstn sz b) 0 = 0).
    { rewrite Eb. destruct sz, k; reflexivity. }
    rewrite X. cbn [Z.eqb]. apply IH. exists (k - sz)%nat. rewrite Eb. apply skipn_repeat.
  Qed.
  Lemma trim_zeros k : trim_tail (repeat 0 k) = repeat 0 k.
  Proof.
    assert (E : trim_len (repeat 0 k) = k).
    { induction k as [|k IH]; [reflexivity|]. cbn [repeat trim_len]. rewrite IH. destruct k; reflexivity. }
    unfold trim_tail. rewrite E. apply firstn_all2. rewrite repeat_length. lia.
  Qed.
  Lemma disasm_zero m ks buff n : guess_bytes ks 0 0 = Some n -> 0 < n <= 4096 -> m 0 = None -> (forall k, (0 < k)%nat -> dec (repeat 0 k) 0 <> None) ->
    exists l buff', disasm_at dec m ks buff 0 = (Some l, buff') /\ forall q, call_sites q l = [].
  Proof.
    intros Hg Hn Hm Hz. unfold disasm_at. rewrite Hg.
    pose proof (round8_ge n). assert (E := read_zeros m buff 0 n 0 ltac:(lia) ltac:(lia) Hm).
    destruct (read_kernel m buff 0 n) as [r buff']. cbn [fst] in E. subst r. rewrite trim_zeros, repeat_length.
    assert (D := decode_all_Decoded dec Hdec (S (Z.to_nat n)) (repeat 0 (Z.to_nat n)) 0).
    rewrite repeat_length in D. specialize (D ltac:(lia) ltac:(lia) ltac:(change (2 ^ 64) with 18446744073709551616; lia)).
    destruct (decode_all dec (S (Z.to_nat n)) (repeat 0 (Z.to_nat n)) 0) as [|i l] eqn:Ed.
    - exfalso. inversion D; subst. destruct H0 as [H0|H0]; [destruct (Z.to_nat n) eqn:En; [lia|discriminate]|]. apply (Hz (Z.to_nat n)); [lia|exact H0].
    - exists (i :: l), buff'. split; [reflexivity|]. apply (zeros_no_call _ _ _ D). eauto.
  Qed.
  Lemma put_sites f l : forall acc ip, aget Z.eqb ip (fold_left (fun (a : list (Z * Z)) ip => aput Z.eqb ip f a) l acc) = if existsb (Z.eqb ip) l then Some f else aget Z.eqb ip acc.
  Proof.
    induction l as [|x l IH]; intros acc ip; [reflexivity|]. cbn [fold_left existsb]. rewrite IH, (aget_aput Z.eqb Zeqb_ok).
    destruct (Z.eqb_spec ip x); cbn [orb]; [destruct (existsb (Z.eqb ip) l); reflexivity|reflexivity].
  Qed.
  (** one entry (trampoline, function) of the list that is walked *)
  Definition fine m ks (tf : Z * Z) (sites : Z -> Prop) : Prop :=
    forall buff, exists l buff', disasm_at dec m ks buff (fst tf) = (Some l, buff') /\ forall ip, In ip (call_sites (fst tf) l) <-> sites ip.
  Lemma tramp_ips_ok m ks (sites : Z * Z -> Z -> Prop) tfs : (forall tf, In tf tfs -> fine m ks tf (sites tf)) -> forall buff acc,
    exists ips, tramp_ips dec m ks buff tfs acc = Some ips /\
      (forall ip f, aget Z.eqb ip ips = Some f -> (exists t, In (t, f) tfs /\ sites (t, f) ip) \/ aget Z.eqb ip acc = Some f) /\
      (forall ip, (exists tf, In tf tfs /\ sites tf ip) \/ aget Z.eqb ip acc <> None -> aget Z.eqb ip ips <> None).
  Proof.
    induction tfs as [|[t f] tfs IH]; intros H buff acc.
    - exists acc. split; [reflexivity|]. split; [auto|]. intros ip [(tf & [] & _)|X]; exact X.
    - destruct (H (t, f) (or_introl eq_refl) buff) as (l & buff' & E & Hs). cbn [tramp_ips fst] in *. rewrite E.
      destruct (IH (fun tf X => H tf (or_intror X)) buff' (fold_left (fun a ip => aput Z.eqb ip f a) (call_sites t l) acc)) as (ips & E' & H1 & H2).
      exists ips. split; [exact E'|].
      assert (Hin : forall ip, existsb (Z.eqb ip) (call_sites t l) = true <-> sites (t, f) ip).
      { intros ip. rewrite <- Hs, existsb_exists. split; [intros (x & Hx & X); apply Z.eqb_eq in X; subst; exact Hx|intros X; exists ip; split; [exact X|apply Z.eqb_refl]]. }
      split.
      + intros ip g Hg. apply H1 in Hg. destruct Hg as [(t' & Hi & X)|Hg]; [left; exists t'; split; [right; exact Hi|exact X]|].
        rewrite put_sites in Hg. destruct (existsb (Z.eqb ip) (call_sites t l)) eqn:Ex; [|right; exact Hg].
        injection Hg as <-. left. exists t. split; [left; reflexivity|]. apply Hin. exact Ex.
      + intros ip X. apply H2. destruct X as [(tf & [<-|Hi] & X)|X].
        * right. rewrite put_sites. apply Hin in X. rewrite X. discriminate.
        * left. eauto.
        * right. rewrite put_sites. destruct (existsb (Z.eqb ip) (call_sites t l)); [discriminate|exact X].
  Qed.

  Theorem tramps_ok m ks buff endbr gs (len : Z -> Z) : byte_mem m ->
    (forall f, In f gs -> readable m f 16) ->
    (** address 0: not mapped, and zeros are instructions *)
    m 0 = None -> (forall k, (0 < k)%nat -> dec (repeat 0 k) 0 <> None) ->
    (forall t, 0 <= t < 2 ^ 64 -> guess_bytes ks t 0 = Some (len t) /\ 0 < len t <= 4096) ->
    (forall f t, In f gs -> jumps_to m (entry_of endbr f) t -> 0 < t /\ t + len t < 2 ^ 64 /\ readable m t (round8 (len t)) /\
       exists d i l, Z.of_nat (List.length d) = len t /\ holds m t d /\ Decoded dec (trim_tail d) t (i :: l)) ->
    exists ips, populate_tramps dec m ks buff endbr true gs = Some ips /\
      (forall ip f, aget Z.eqb ip ips = Some f -> In f gs /\ exists t, jumps_to m (entry_of endbr f) t /\ calls_back dec m t (len t) ip) /\
      (forall ip f t, In f gs -> jumps_to m (entry_of endbr f) t -> calls_back dec m t (len t) ip -> aget Z.eqb ip ips <> None).
  Proof.
    intros Hm Hr H0 Hz Hlen Hj. unfold populate_tramps. cbn [negb]. rewrite tramps_all.
    set (tfs := map _ _).
    assert (Htf : forall t f, In (t, f) tfs <-> In f gs /\ fst (probe_addr m endbr true f) = true /\ t = snd (probe_addr m endbr true f)).
    { intros t f. unfold tfs. rewrite in_map_iff. split.
      - intros (x & [= <- <-] & Hx). apply filter_In in Hx. rewrite isort_In in Hx. tauto.
      - intros (H1 & H2 & ->). exists f. split; [reflexivity|]. apply filter_In. rewrite isort_In. auto. }
    set (sites := fun (tf : Z * Z) ip => jumps_to m (entry_of endbr (snd tf)) (fst tf) /\ calls_back dec m (fst tf) (len (fst tf)) ip).
    assert (Hf : forall tf, In tf tfs -> fine m ks tf (sites tf)).
    { intros [t f] Hi. apply Htf in Hi. destruct Hi as (Hg & Hp & Et). destruct (probe_tramp m endbr f Hm (Hr f Hg)) as (P1 & P2 & P3).
      apply (probe_traceable m endbr true f Hm) in Hp. destruct Hp as [_ Hp].
      assert (Hcase : (exists t', jumps_to m (entry_of endbr f) t') \/ forall t', ~ jumps_to m (entry_of endbr f) t').
      { destruct (m (entry_of endbr f)) as [b|] eqn:Eb.
        - destruct (Z.eq_dec b 233) as [->|Hb]; [left; apply P3; reflexivity|right].
          intros t' (d0 & d1 & d2 & d3 & Hh & _). specialize (Hh 0%nat ltac:(cbn; lia)). rewrite Z.add_0_r, Eb in Hh. injection Hh as X. cbn in X. congruence.
        - right. intros t' (d0 & d1 & d2 & d3 & Hh & _). specialize (Hh 0%nat ltac:(cbn; lia)). rewrite Z.add_0_r, Eb in Hh. discriminate. }
      intros buff0. cbn [fst]. destruct Hcase as [(t' & Ht')|Hno].
      - rewrite (P1 _ Ht') in Et. subst t'. destruct (Hj f t Hg Ht') as (B1 & B2 & B3 & d & i & l & Hd & Hh & D).
        destruct (Hlen t ltac:(lia)) as [Hgb Hlb].
        destruct (disasm_ok m ks buff0 t (len t) Hgb Hlb ltac:(lia) B2 B3 d (i :: l) Hd Hh D ltac:(discriminate)) as (buff' & E).
        exists (i :: l), buff'. split; [exact E|]. intros ip. pose proof (trim_len_le d).
        rewrite (sites_iff _ _ _ D ltac:(lia) ltac:(lia)). unfold sites, calls_back. cbn [fst snd]. split.
        + intros (a & r & Hi & ->). split; [exact Ht'|]. exists d, (i :: l), a, r. auto.
        + intros (_ & d' & l' & a & r & Hd' & Hh' & D' & Hi & ->).
          assert (d' = d) by (apply (holds_unique m t); auto; lia). subst d'. rewrite (Decoded_det _ _ _ D _ D'). eauto.
      - rewrite (P2 Hno) in Et. subst t. destruct (Hlen 0 ltac:(lia)) as [Hgb Hlb]. destruct (disasm_zero m ks buff0 (len 0) Hgb Hlb H0 Hz) as (l & buff' & E & Hs).
        exists l, buff'. split; [exact E|]. intros ip. rewrite Hs. unfold sites. cbn [fst snd]. split; [intros []|]. intros [X _]. exact (Hno _ X). }
    destruct (tramp_ips_ok m ks sites tfs Hf buff []) as (ips & E & H1 & H2). exists ips. split; [exact E|]. split.
    - intros ip f Hi. apply H1 in Hi. destruct Hi as [(t & Hi & Hs)|Hi]; [|discriminate]. apply Htf in Hi. split; [tauto|]. exists t. exact Hs.
    - intros ip f t Hg Ht Hc. apply H2. left. exists (t, f). split; [|split; assumption].
      apply Htf. destruct (probe_tramp m endbr f Hm (Hr f Hg)) as (P1 & _). split; [exact Hg|]. split; [|symmetry; apply P1; exact Ht].
      apply (probe_traceable m endbr true f Hm). split; [apply Hr; exact Hg|]. right. right.
      destruct Ht as (d0 & d1 & d2 & d3 & Hh & _). specialize (Hh 0%nat ltac:(cbn; lia)). rewrite Z.add_0_r in Hh. exact Hh.
  Qed.
End Tramp.
