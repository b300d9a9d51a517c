(** * Proofs for C99. *)
From Coq Require Import List Bool String ZArith Arith Lia.
From Verif Require Import M_Go P_Go M_Bytes M_Disasm S_Disasm P_Disasm M_LbrOpen S_LbrOpen.
Import ListNotations.
Open Scope list_scope.
Open Scope Z_scope.

(** ** branch types *)
Lemma bit_known s : match branch_bit s with Some b => exists i, 0 <= i /\ In (s, i) names /\ b = 2 ^ i /\ (forall j, In (s, j) names -> j = i)
                    | None => ~ known s end.
Proof.
  unfold branch_bit, known.
  repeat (match goal with |- context [(s =? ?x)%string] => destruct (String.eqb_spec s x) as [E|?N] end;
    [subst s; match goal with |- exists i, _ /\ _ /\ ?b = _ /\ _ => exists (Z.log2 b) end;
     split; [vm_compute; discriminate|]; split; [cbn; repeat (first [left; reflexivity | right])|]; split; [reflexivity|];
     intros j Hj; cbn in Hj; repeat (destruct Hj as [Hj|Hj]; [injection Hj; try discriminate; intros; subst; reflexivity|]); destruct Hj
    |]).
  intros [i Hi]. cbn in Hi. repeat (destruct Hi as [Hi|Hi]; [injection Hi; intros; subst; congruence|]). exact Hi.
Qed.
Lemma mask_some types : forall acc, (exists m, branch_mask acc types = Some m) <-> (forall s, In s types -> known s).
Proof.
  induction types as [|t ts IH]; intro acc; cbn [branch_mask].
  - split; [intros _ s []|intros _; eauto].
  - pose proof (bit_known t) as Hb. destruct (branch_bit t) as [b|].
    + rewrite IH. destruct Hb as (i & _ & Hi & _). split.
      * intros H s [<-|Hs]; [exists i; exact Hi|auto].
      * intros H s Hs. apply H. right. exact Hs.
    + split; [intros [m Hm]; discriminate|]. intros H. exfalso. apply Hb, H. left. reflexivity.
Qed.
Lemma mask_bits types : forall acc m i, branch_mask acc types = Some m ->
  (Z.testbit m i = true <-> Z.testbit acc i = true \/ exists s, In s types /\ In (s, i) names).
Proof.
  induction types as [|t ts IH]; intros acc m i; cbn [branch_mask].
  - intros H. injection H as <-. split; [tauto|]. intros [H|(s & [] & _)]. exact H.
  - pose proof (bit_known t) as Hb. destruct (branch_bit t) as [b|]; [|discriminate]. intros H.
    rewrite (IH _ _ i H), Z.lor_spec, orb_true_iff. destruct Hb as (k & Hk & Hin & -> & Huniq).
    assert (Hpow : Z.testbit (2 ^ k) i = true <-> i = k).
    { destruct (Z.eq_dec i k) as [E|E].
      - subst i. rewrite Z.pow2_bits_true by exact Hk. tauto.
      - rewrite Z.pow2_bits_false by congruence. split; [discriminate|congruence]. }
    rewrite Hpow. split.
    + intros [[Ha|Ha]|(s & Hs & Hn)]; [auto| |].
      * right. exists t. split; [left; reflexivity|]. subst. exact Hin.
      * right. exists s. split; [right; exact Hs|exact Hn].
    + intros [Ha|(s & [<-|Hs] & Hn)]; [auto| |].
      * left. right. apply Huniq. exact Hn.
      * right. eauto.
Qed.
Lemma mask_asked types m : branch_mask PERF_SAMPLE_BRANCH_KERNEL types = Some m -> forall i, Z.testbit m i = true <-> asked types i.
Proof.
  intros H i. rewrite (mask_bits _ _ _ i H). unfold asked, PERF_SAMPLE_BRANCH_KERNEL, kernel_bit.
  change 2 with (2 ^ 1). destruct (Z.eq_dec i 1) as [E|E].
  - subst i. rewrite Z.pow2_bits_true by lia. tauto.
  - rewrite Z.pow2_bits_false by congruence. intuition congruence.
Qed.

(** ** one event per CPU *)
Section Open.
  Variable f : Z -> Z -> option Z.
  Lemma loop_spec types : forall left i fds fds' ok, open_loop f left i types fds = (fds', ok) ->
    exists new, fds' = fds ++ new /\ (List.length new <= left)%nat /\
      (forall k, (k < List.length new)%nat -> exists fd, nth_error new k = Some fd /\ open_lbr f (i + Z.of_nat k) types = Some fd) /\
      (if ok then List.length new = left else (List.length new < left)%nat /\ open_lbr f (i + Z.of_nat (List.length new)) types = None).
  Proof.
    induction left as [|k IH]; intros i fds fds' ok; cbn [open_loop].
    - intros H. injection H as <- <-. exists []. rewrite app_nil_r. repeat split; cbn; [lia|]. intros; lia.
    - destruct (open_lbr f i types) as [fd|] eqn:E.
      + intros H. destruct (IH _ _ _ _ H) as (new & -> & Hl & Hn & Hok). exists (fd :: new). rewrite <- app_assoc. split; [reflexivity|].
        split; [cbn; lia|]. split.
        * intros [|j] Hj; cbn in Hj |- *.
          -- exists fd. rewrite Z.add_0_r. auto.
          -- destruct (Hn j ltac:(lia)) as (x & Hx & Ho). exists x. split; [exact Hx|]. replace (i + Z.pos (Pos.of_succ_nat j)) with (i + 1 + Z.of_nat j) by lia. exact Ho.
        * cbn [List.length]. destruct ok; [lia|]. destruct Hok as [A B]. split; [lia|].
          replace (i + Z.of_nat (S (List.length new))) with (i + 1 + Z.of_nat (List.length new)) by lia. exact B.
      + intros H. injection H as <- <-. exists []. rewrite app_nil_r. repeat split; cbn; try lia. rewrite Z.add_0_r. exact E.
  Qed.
  Lemma open_good n types fds : op_result (open_all f (Some n) types) = Some fds -> (0 < n)%nat ->
    (exists m, branch_mask PERF_SAMPLE_BRANCH_KERNEL types = Some m /\ per_cpu (fun c => f c m) n fds) /\ op_open (open_all f (Some n) types) = fds.
  Proof.
    unfold open_all. destruct (open_loop f n 0 types []) as [l ok] eqn:E. cbn [op_result op_open]. destruct ok; [|discriminate].
    intros H Hn. injection H as <-. destruct (loop_spec _ _ _ _ _ _ E) as (new & -> & Hl & Hk & Hlen). cbn [app]. split; [|reflexivity].
    destruct (branch_mask PERF_SAMPLE_BRANCH_KERNEL types) as [m|] eqn:Em.
    - exists m. split; [reflexivity|]. split; [exact Hlen|]. intros i Hi. destruct (Hk i ltac:(lia)) as (fd & A & B). exists fd. split; [exact A|].
      unfold open_lbr in B. rewrite Em in B. exact B.
    - exfalso. destruct (Hk 0%nat ltac:(lia)) as (fd & A & B). unfold open_lbr in B. rewrite Em in B. discriminate.
  Qed.
  Lemma open_bad n types : op_result (open_all f (Some n) types) = None ->
    exists k, (k < n)%nat /\ open_lbr f (Z.of_nat k) types = None /\ per_cpu (fun c => open_lbr f c types) k (op_open (open_all f (Some n) types)).
  Proof.
    unfold open_all. destruct (open_loop f n 0 types []) as [l ok] eqn:E. cbn [op_result op_open]. destruct ok; [discriminate|]. intros _.
    destruct (loop_spec _ _ _ _ _ _ E) as (new & -> & Hl & Hk & Hlen & Hnone). cbn [app]. exists (List.length new).
    split; [exact Hlen|]. split; [exact Hnone|]. split; [reflexivity|]. exact Hk.
  Qed.
  Lemma open_unknown n types s : In s types -> ~ known s -> (0 < n)%nat -> open_all f (Some n) types = {| op_result := None; op_open := [] |}.
  Proof.
    intros Hs Hk Hn. destruct n as [|n]; [lia|]. unfold open_all. cbn [open_loop]. unfold open_lbr.
    destruct (branch_mask PERF_SAMPLE_BRANCH_KERNEL types) as [m|] eqn:Em; [|reflexivity].
    exfalso. apply Hk. apply (proj1 (mask_some types PERF_SAMPLE_BRANCH_KERNEL)); eauto.
  Qed.
  Lemma open_works n types m : branch_mask PERF_SAMPLE_BRANCH_KERNEL types = Some m -> (forall i, (i < n)%nat -> f (Z.of_nat i) m <> None) ->
    exists fds, op_result (open_all f (Some n) types) = Some fds.
  Proof.
    intros Em Hf. destruct (op_result (open_all f (Some n) types)) eqn:E; [eauto|]. exfalso.
    destruct (open_bad _ _ E) as (k & Hk & Hn & _). unfold open_lbr in Hn. rewrite Em in Hn. exact (Hf k Hk Hn).
  Qed.
End Open.
Lemma close_nil fds : forall o, incl o fds -> lbr_close fds o = [].
Proof.
  unfold lbr_close. induction fds as [|x fds IH]; intros o H; cbn [fold_left].
  - destruct o as [|y o]; [reflexivity|]. destruct (H y). left. reflexivity.
  - apply IH. intros y Hy. apply filter_In in Hy. destruct Hy as [Hy Hne]. destruct (H y Hy) as [E|Hi]; [|exact Hi].
    subst. rewrite Z.eqb_refl in Hne. discriminate.
Qed.

(** ** Mask *)
Lemma wrap_small x : - 2 ^ 63 <= x < 2 ^ 63 -> int_wrap x = x.
Proof. intros H. unfold int_wrap. rewrite Z.mod_small; lia. Qed.
Lemma log2_up_le v b : 0 <= b -> v <= 2 ^ b -> Z.log2_up v <= b.
Proof. intros Hb H. rewrite <- (Z.log2_up_pow2 b) by lia. apply Z.log2_up_le_mono. exact H. Qed.
Lemma below_up n : 1 <= n -> n <= 2 ^ Z.log2_up n.
Proof. intros H. destruct (Z.eq_dec n 1) as [E|E]; [subst; cbn; lia|apply Z.log2_up_spec; lia]. Qed.
Lemma mask_loop_done v d : forall k fuel, 1 <= v <= 2 ^ 62 -> Z.log2_up v = Z.of_nat k + Z.of_nat d -> (d < fuel)%nat ->
  mask_loop fuel (2 ^ Z.of_nat k) v = Some (2 ^ Z.log2_up v - 1).
Proof.
  induction d as [|d IH]; intros k fuel Hv Hd Hf; (destruct fuel as [|fuel]; [lia|]); cbn [mask_loop].
  - rewrite Z.add_0_r in Hd. rewrite <- Hd. pose proof (below_up v ltac:(lia)).
    destruct (Z.ltb_spec (2 ^ Z.log2_up v) v); [lia|]. rewrite wrap_small; [reflexivity|].
    pose proof (log2_up_le v 62 ltac:(lia) ltac:(lia)).
    assert (2 ^ Z.log2_up v <= 2 ^ 62) by (apply Z.pow_le_mono_r; lia). pose proof (Z.log2_up_nonneg v). lia.
  - assert (Hlt : 2 ^ Z.of_nat k < v).
    { destruct (Z_lt_le_dec (2 ^ Z.of_nat k) v); [assumption|]. exfalso.
      pose proof (log2_up_le v (Z.of_nat k) ltac:(lia) ltac:(lia)). lia. }
    destruct (Z.ltb_spec (2 ^ Z.of_nat k) v); [|lia]. rewrite wrap_small by (pose proof (Z.pow_pos_nonneg 2 (Z.of_nat k)); lia).
    replace (2 ^ Z.of_nat k * 2) with (2 ^ Z.of_nat (S k)) by (rewrite Nat2Z.inj_succ, Z.pow_succ_r by lia; lia).
    apply IH; lia.
Qed.
Lemma mask_value v fuel : 1 <= v <= 2 ^ 62 -> (63 <= fuel)%nat -> mask fuel v = Some (2 ^ Z.log2_up v - 1).
Proof.
  intros Hv Hf. unfold mask. destruct (Z.eqb_spec v max_int) as [E|_]; [unfold max_int in E; lia|].
  pose proof (Z.log2_up_nonneg v). pose proof (log2_up_le v 62 ltac:(lia) ltac:(lia)).
  change 1 with (2 ^ Z.of_nat 0) at 1. apply (mask_loop_done v (Z.to_nat (Z.log2_up v)) 0); lia.
Qed.
Lemma wrap_double_zero v : forall fuel, 0 < v -> mask_loop fuel 0 v = None.
Proof.
  induction fuel as [|fuel IH]; intro H; cbn [mask_loop]; [reflexivity|]. destruct (Z.ltb_spec 0 v); [|lia].
  change (int_wrap (0 * 2)) with 0. auto.
Qed.
Lemma mask_loop_low v : 2 ^ 62 < v < max_int -> forall fuel k, (k <= 62)%nat -> mask_loop fuel (2 ^ Z.of_nat k) v = None.
Proof.
  intros Hv. induction fuel as [|fuel IH]; intros k Hk; cbn [mask_loop]; [reflexivity|].
  assert (2 ^ Z.of_nat k <= 2 ^ 62) by (apply Z.pow_le_mono_r; lia).
  destruct (Z.ltb_spec (2 ^ Z.of_nat k) v); [|lia].
  destruct (Nat.eq_dec k 62) as [E|E].
  - subst k. change (int_wrap (2 ^ Z.of_nat 62 * 2)) with (- 2 ^ 63). destruct fuel as [|fuel]; [reflexivity|]. cbn [mask_loop].
    destruct (Z.ltb_spec (- 2 ^ 63) v); [|lia]. change (int_wrap (- 2 ^ 63 * 2)) with 0. apply wrap_double_zero. lia.
  - rewrite wrap_small.
    + replace (2 ^ Z.of_nat k * 2) with (2 ^ Z.of_nat (S k)) by (rewrite Nat2Z.inj_succ, Z.pow_succ_r by lia; lia). apply IH. lia.
    + assert (2 ^ Z.of_nat k <= 2 ^ 61) by (apply Z.pow_le_mono_r; lia). pose proof (Z.pow_pos_nonneg 2 (Z.of_nat k)). lia.
Qed.
Lemma mask_never v : 2 ^ 62 < v < max_int -> forall fuel, mask fuel v = None.
Proof.
  intros Hv fuel. unfold mask. destruct (Z.eqb_spec v max_int); [lia|]. change 1 with (2 ^ Z.of_nat 0). apply mask_loop_low; [exact Hv|lia].
Qed.

(** ** the buffers *)
Lemma cpu_mask_value n fuel : 1 <= n <= 2 ^ 32 -> (63 <= fuel)%nat -> cpu_mask fuel n = Some (Z.ones (Z.log2_up n)).
Proof.
  intros Hn Hf. unfold cpu_mask. rewrite mask_value by lia. f_equal. rewrite Z.ones_equiv. unfold Z.pred.
  pose proof (log2_up_le n 32 ltac:(lia) ltac:(lia)). assert (2 ^ Z.log2_up n <= 2 ^ 32) by (apply Z.pow_le_mono_r; lia).
  pose proof (Z.log2_up_nonneg n). pose proof (Z.pow_pos_nonneg 2 (Z.log2_up n)). rewrite Z.mod_small; lia.
Qed.
Lemma cpu_mask_big n fuel : 2 ^ 32 < n <= 2 ^ 62 -> (63 <= fuel)%nat -> cpu_mask fuel n = Some (2 ^ 32 - 1).
Proof.
  intros Hn Hf. unfold cpu_mask. rewrite mask_value by lia. f_equal.
  assert (Hl : 32 < Z.log2_up n) by (apply Z.log2_up_lt_pow2; lia).
  replace (2 ^ Z.log2_up n - 1) with (2 ^ 32 - 1 + (2 ^ (Z.log2_up n - 32) - 1) * 2 ^ 32).
  2:{ replace (Z.log2_up n) with (Z.log2_up n - 32 + 32) at 2 by lia. rewrite Z.pow_add_r by lia. lia. }
  rewrite Z_mod_plus_full. reflexivity.
Qed.
Lemma size_value n : 0 <= n -> lbr_data_size * n < 2 ^ 32 -> lbrs_value_size n = lbr_data_size * n.
Proof.
  intros H0 H. unfold lbrs_value_size. assert (n < 2 ^ 32) by (unfold lbr_data_size in H; lia).
  rewrite (Z.mod_small lbr_data_size) by (unfold lbr_data_size; lia). rewrite (Z.mod_small n) by lia. apply Z.mod_small. unfold lbr_data_size in *. lia.
Qed.
Lemma offset_own n m c fuel : 1 <= n -> lbr_data_size * n < 2 ^ 32 -> cpu_mask fuel n = Some m -> (63 <= fuel)%nat -> 0 <= c < n -> lbr_offset m c = lbr_data_size * c.
Proof.
  intros Hn Hs Hm Hf Hc. assert (n <= 2 ^ 32) by (unfold lbr_data_size in Hs; lia). rewrite cpu_mask_value in Hm by lia. injection Hm as <-.
  unfold lbr_offset. rewrite Z.land_ones by apply Z.log2_up_nonneg. pose proof (below_up n Hn). rewrite Z.mod_small; lia.
Qed.
Lemma own_buffers n m fuel : 1 <= n -> lbr_data_size * n < 2 ^ 32 -> cpu_mask fuel n = Some m -> (63 <= fuel)%nat ->
  forall c b, 0 <= c < n -> buffer m c b -> 0 <= b < lbrs_value_size n /\ forall c', 0 <= c' < n -> buffer m c' b -> c' = c.
Proof.
  intros Hn Hs Hm Hf c b Hc Hb. unfold buffer in *. rewrite (offset_own n m c fuel) in Hb by assumption. rewrite size_value by lia.
  split; [unfold lbr_data_size in *; nia|]. intros c' Hc' Hb'. rewrite (offset_own n m c' fuel) in Hb' by assumption. unfold lbr_data_size in *. nia.
Qed.
Lemma mask_in_bounds n m fuel : 1 <= n -> lbr_data_size * n < 2 ^ 32 -> cpu_mask fuel n = Some m -> (63 <= fuel)%nat ->
  ((forall c b, 0 <= c < 2 ^ 32 -> buffer m c b -> b < lbrs_value_size n) <-> pow2 n).
Proof.
  intros Hn Hs Hm Hf. assert (Hn2 : n <= 2 ^ 32) by (unfold lbr_data_size in Hs; lia). rewrite cpu_mask_value in Hm by lia. injection Hm as <-.
  pose proof (below_up n Hn) as Hup. pose proof (Z.log2_up_nonneg n) as Hnn. rewrite size_value by lia.
  unfold buffer, lbr_offset. split.
  - intros H. exists (Z.log2_up n). split; [exact Hnn|]. pose proof (log2_up_le n 32 ltac:(lia) Hn2).
    assert (2 ^ Z.log2_up n <= 2 ^ 32) by (apply Z.pow_le_mono_r; lia).
    specialize (H (2 ^ Z.log2_up n - 1) (lbr_data_size * (2 ^ Z.log2_up n - 1)) ltac:(lia)).
    rewrite Z.land_ones, Z.mod_small in H by lia. unfold lbr_data_size in *. lia.
  - intros (k & Hk & ->) c b Hc. rewrite Z.log2_up_pow2 in * by exact Hk. rewrite Z.land_ones by exact Hk.
    pose proof (Z.mod_pos_bound c (2 ^ k)). unfold lbr_data_size in *. lia.
Qed.

(** ** lbr_nr *)
Lemma find_at pre m post name : mb_name m = name -> (forall x, In x pre -> mb_name x <> name) -> find_member (pre ++ m :: post) name = Some (mb_bit m / 8).
Proof.
  intros Hm. induction pre as [|x pre IH]; intros H; cbn.
  - rewrite Hm, String.eqb_refl. reflexivity.
  - destruct (String.eqb_spec (mb_name x) name) as [E|_]; [destruct (H x); [left; reflexivity|exact E]|]. apply IH. intros y Hy. apply H. right. exact Hy.
Qed.
Lemma find_none ms name : (forall x, In x ms -> mb_name x <> name) -> find_member ms name = None.
Proof.
  induction ms as [|x ms IH]; intros H; cbn; [reflexivity|].
  destruct (String.eqb_spec (mb_name x) name) as [E|_]; [destruct (H x); [left; reflexivity|exact E]|]. apply IH. intros y Hy. apply H. right. exact Hy.
Qed.
Lemma word_bytes mem a n l : word32 mem a n -> holds mem a l -> List.length l = 4%nat -> le_bytes l = n.
Proof.
  intros [Hr Hw] Hh Hl. destruct l as [|b0 [|b1 [|b2 [|b3 [|]]]]]; try discriminate. cbn [le_bytes].
  pose proof (Hh 0%nat ltac:(cbn; lia)) as A0. pose proof (Hh 1%nat ltac:(cbn; lia)) as A1. pose proof (Hh 2%nat ltac:(cbn; lia)) as A2. pose proof (Hh 3%nat ltac:(cbn; lia)) as A3.
  cbn [nth Z.of_nat Pos.of_succ_nat Pos.succ] in A0, A1, A2, A3.
  rewrite (Hw 0) in A0 by lia. rewrite (Hw 1) in A1 by lia. rewrite (Hw 2) in A2 by lia. rewrite (Hw 3) in A3 by lia.
  assert (D2 : n / 2 ^ (8 * 2) = n / 256 / 256) by (rewrite Z.div_div by lia; reflexivity).
  assert (D3 : n / 2 ^ (8 * 3) = n / 256 / 256 / 256) by (rewrite !Z.div_div by lia; reflexivity).
  change (2 ^ (8 * 0)) with 1 in A0. rewrite Z.div_1_r in A0. change (2 ^ (8 * 1)) with 256 in A1. rewrite D2 in A2. rewrite D3 in A3.
  injection A0 as <-. injection A1 as <-. injection A2 as <-. injection A3 as <-.
  assert (n / 256 / 256 / 256 < 256) by (rewrite !Z.div_div by lia; apply Z.div_lt_upper_bound; lia).
  assert (0 <= n / 256 / 256 / 256) by (rewrite !Z.div_div by lia; apply Z.div_pos; lia).
  rewrite (Z.mod_small (n / 256 / 256 / 256)) by lia.
  pose proof (Z.div_mod n 256). pose proof (Z.div_mod (n / 256) 256). pose proof (Z.div_mod (n / 256 / 256) 256). lia.
Qed.
Lemma lbr_nr_read mem buff pmu pre m post n : pmu <> 0 -> mb_name m = "lbr_nr"%string -> (forall x, In x pre -> mb_name x <> "lbr_nr"%string) ->
  0 <= pmu -> 0 <= mb_bit m -> pmu + mb_bit m / 8 < 2 ^ 64 -> readable mem (pmu + mb_bit m / 8) 8 -> word32 mem (pmu + mb_bit m / 8) n ->
  read_lbr_nr mem buff pmu (Some (BStruct (pre ++ m :: post))) = if n =? 0 then NrFatal else NrSet n.
Proof.
  intros Hp Hm Hpre Hp0 Hb Hlt Hr Hw. unfold read_lbr_nr. destruct (Z.eqb_spec pmu 0); [contradiction|]. rewrite find_at by assumption.
  assert (0 <= mb_bit m / 8) by (apply Z.div_pos; lia). unfold u64. change W64 with (2 ^ 64). rewrite Z.mod_small by lia.
  destruct (read_ok mem buff (pmu + mb_bit m / 8) 4 ltac:(lia) Hr) as (l & -> & Hl & Hh). rewrite (word_bytes mem _ n l Hw Hh) by lia. reflexivity.
Qed.
Lemma lbr_nr_unreadable mem buff pmu pre m post i : pmu <> 0 -> mb_name m = "lbr_nr"%string -> (forall x, In x pre -> mb_name x <> "lbr_nr"%string) ->
  0 <= pmu -> 0 <= mb_bit m -> pmu + mb_bit m / 8 < 2 ^ 64 -> 0 <= i < 8 -> mem (pmu + mb_bit m / 8 + i) = None ->
  read_lbr_nr mem buff pmu (Some (BStruct (pre ++ m :: post))) = NrFatal.
Proof.
  intros Hp Hm Hpre Hp0 Hb Hlt Hi Hn. unfold read_lbr_nr. destruct (Z.eqb_spec pmu 0); [contradiction|]. rewrite find_at by assumption.
  assert (0 <= mb_bit m / 8) by (apply Z.div_pos; lia). unfold u64. change W64 with (2 ^ 64). rewrite Z.mod_small by lia.
  rewrite (read_zeros mem buff (pmu + mb_bit m / 8) 4 i); [reflexivity|lia|exact Hi|exact Hn].
Qed.
Lemma lbr_nr_missing mem buff pmu ty : pmu = 0 \/ ty = None \/ ty = Some BOther \/ (exists ms, ty = Some (BStruct ms) /\ forall x, In x ms -> mb_name x <> "lbr_nr"%string) ->
  read_lbr_nr mem buff pmu ty = NrErr.
Proof.
  intros H. unfold read_lbr_nr. destruct (Z.eqb_spec pmu 0); [reflexivity|]. destruct H as [H|[->|[->|(ms & -> & H)]]]; [contradiction|reflexivity|reflexivity|].
  rewrite find_none by exact H. reflexivity.
Qed.
