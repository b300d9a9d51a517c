(** * The printed rows of a histogram. *)
From Coq Require Import ZArith List Bool String Lia.
From Verif Require Import M_Go P_Go M_Kallsyms M_Bytes P_Bytes.
Import ListNotations.
Open Scope Z_scope.

Lemma idx_max_go_spec l : forall i best, best < i -> let r := idx_max_go l i best in
  best <= r < i + Z.of_nat (List.length l) /\ (forall k, 0 < nth k l 0 -> i + Z.of_nat k <= r).
Proof.
  induction l as [|v l IH]; intros i best Hb; cbn [idx_max_go List.length].
  - cbv zeta. split; [lia|]. intros k H. destruct k; cbn in H; lia.
  - specialize (IH (i + 1) (if 0 <? v then i else best)). cbv zeta in *.
    destruct IH as [IH1 IH2]; [destruct (0 <? v); lia|].
    split; [destruct (0 <? v); lia|]. intros [|k] H.
    + cbn in H. destruct (Z.ltb_spec 0 v); lia.
    + cbn [nth] in H. specialize (IH2 k H). lia.
Qed.
Lemma idx_max_spec l : -1 <= idx_max l < Z.of_nat (List.length l) /\ forall k, 0 < nth k l 0 -> Z.of_nat k <= idx_max l.
Proof. destruct (idx_max_go_spec l 0 (-1)) as [A B]; [lia|]. split; [exact A|]. intros k H. specialize (B k H). fold (idx_max l) in B. lia. Qed.

Lemma hist_adds_len l : forall h h', hist_adds h l = Some h' -> List.length (log2 h') = List.length (log2 h).
Proof.
  induction l as [|[d n] l IH]; intros h h' E; cbn in E; [congruence|].
  unfold hist_add in E. destruct (_ || _); [discriminate|]. apply IH in E. rewrite E. cbn [log2].
  clear. generalize (Z.to_nat (i2h (bytes2i d n))) as p. induction (log2 h) as [|x l IH]; intros [|p]; cbn; auto.
Qed.
Lemma filter_ext_in' {A} (f g : A -> bool) l : (forall x, In x l -> f x = g x) -> filter f l = filter g l.
Proof. induction l as [|x l IH]; intros H; cbn; [reflexivity|]. rewrite (H x (or_introl eq_refl)), IH; [reflexivity|]. intros; apply H; right; assumption. Qed.

Lemma rows_cover l :
  Forall (fun s => Forall is_byte (fst s) /\ 0 < bytes2i (fst s) (snd s) < 2 ^ 63) l ->
  Z.of_nat (List.length l) < 2 ^ 64 ->
  exists h, hist_adds new_histogram l = Some h /\
    (forall lo hi c, In (lo, hi, c) (hist_rows h) ->
       c = Z.of_nat (List.length (filter (fun s => (lo <=? bytes2i (fst s) (snd s)) && (bytes2i (fst s) (snd s) <=? hi)) l))) /\
    (forall s, In s l -> exists lo hi c, In (lo, hi, c) (hist_rows h) /\ lo <= bytes2i (fst s) (snd s) <= hi).
Proof.
  intros Hall Hlen. destruct (hist_counts' l) as (h & E & C & _); [|exact Hlen|].
  { eapply Forall_impl; [|exact Hall]. intros s [A B]. split; [exact A|lia]. }
  exists h. split; [exact E|]. rewrite Forall_forall in Hall.
  destruct (idx_max_spec (log2 h)) as [Hm1 Hm2].
  rewrite (hist_adds_len _ _ _ E) in Hm1. cbn [new_histogram log2] in Hm1. rewrite repeat_length in Hm1. change (Z.of_nat 64) with 64 in Hm1.
  assert (Hb63 : forall s, In s l -> in_bucket 63 (bytes2i (fst s) (snd s)) = false).
  { intros s Hs. destruct (Hall s Hs) as [_ H]. unfold in_bucket. destruct (Z.leb_spec (2 ^ 63) (bytes2i (fst s) (snd s))); [lia|reflexivity]. }
  assert (Htop : nth 63 (log2 h) 0 = 0).
  { change 63%nat with (Z.to_nat 63). rewrite (C 63) by lia. unfold countb. rewrite (filter_ext_in' _ (fun _ => false)) by exact Hb63.
    clear. induction l; cbn; auto. }
  assert (Hm : idx_max (log2 h) <= 62 ).
  { destruct (Z.eq_dec (idx_max (log2 h)) 63) as [Hx|]; [|lia]. exfalso.
    (* the maximum is attained *)
    assert (Hatt : forall v i best, best < i -> idx_max_go v i best = best \/ exists k, idx_max_go v i best = i + Z.of_nat k /\ 0 < nth k v 0).
    { clear. induction v as [|x v IH]; intros i best Hb; cbn [idx_max_go]; [left; reflexivity|].
      destruct (Z.ltb_spec 0 x).
      - destruct (IH (i + 1) i ltac:(lia)) as [->|(k & -> & Hk)]; right; [exists 0%nat; cbn; lia|exists (S k); cbn [nth]; lia].
      - destruct (IH (i + 1) best ltac:(lia)) as [->|(k & -> & Hk)]; [left; reflexivity|right; exists (S k); cbn [nth]; lia]. }
    destruct (Hatt (log2 h) 0 (-1) ltac:(lia)) as [Hy|(k & Hy & Hk)]; fold (idx_max (log2 h)) in Hy; [lia|].
    assert (k = 63%nat) by lia. subst k. lia. }
  split.
  - intros lo hi c Hin. unfold hist_rows in Hin. apply in_map_iff in Hin as (i & Hi & Hs). apply in_seq in Hs.
    injection Hi as <- <- <-.
    assert (Hk : 0 <= Z.of_nat i <= 62) by lia.
    destruct (bucket_bounds (Z.of_nat i) Hk) as [Hh Hl]. rewrite Hh, Hl.
    rewrite <- (Nat2Z.id i) at 1. rewrite (C (Z.of_nat i)) by lia. unfold countb. do 2 f_equal. apply filter_ext_in'.
    intros s Hs'. destruct (Hall s Hs') as [_ Hv]. unfold in_bucket. set (v := bytes2i (fst s) (snd s)) in *.
    assert (Hlt : (v <? 2 ^ (Z.of_nat i + 1)) = (v <=? 2 ^ (Z.of_nat i + 1) - 1)).
    { destruct (Z.ltb_spec v (2 ^ (Z.of_nat i + 1))), (Z.leb_spec v (2 ^ (Z.of_nat i + 1) - 1)); auto; lia. }
    rewrite Hlt. f_equal. destruct (Z.eqb_spec (Z.of_nat i) 0) as [->|]; [|reflexivity].
    change (2 ^ 0) with 1. destruct (Z.leb_spec 1 v), (Z.leb_spec 0 v); auto; lia.
  - intros s Hs. destruct (Hall s Hs) as [_ Hv]. set (v := bytes2i (fst s) (snd s)) in *.
    pose proof (Z.log2_spec v ltac:(lia)) as Hlog. pose proof (Z.log2_nonneg v) as Hnn.
    assert (Hk : Z.log2 v <= 62). { destruct (Z.le_gt_cases (Z.log2 v) 62); [assumption|]. exfalso.
      assert (2 ^ 63 <= 2 ^ Z.log2 v) by (apply Z.pow_le_mono_r; lia). lia. }
    destruct (bucket_bounds (Z.log2 v) ltac:(lia)) as [Hh Hl].
    exists (bucket_low (Z.log2 v)), (bucket_high (Z.log2 v)), (nth (Z.to_nat (Z.log2 v)) (log2 h) 0). split.
    + unfold hist_rows. apply in_map_iff. exists (Z.to_nat (Z.log2 v)). rewrite Z2Nat.id by lia. split; [reflexivity|].
      apply in_seq. assert (Hp : 0 < nth (Z.to_nat (Z.log2 v)) (log2 h) 0).
      { rewrite (C (Z.log2 v)) by lia. unfold countb.
        assert (Hin : In s (filter (fun s0 => in_bucket (Z.log2 v) (bytes2i (fst s0) (snd s0))) l)).
        { apply filter_In. split; [exact Hs|]. fold v. unfold in_bucket. replace (Z.log2 v + 1) with (Z.succ (Z.log2 v)) by lia.
          apply andb_true_intro. split; [apply Z.leb_le|apply Z.ltb_lt]; lia. }
        destruct (filter _ l); [contradiction|cbn [List.length]; lia]. }
      specialize (Hm2 _ Hp). lia.
    + rewrite Hh, Hl. replace (Z.log2 v + 1) with (Z.succ (Z.log2 v)) by lia. destruct (Z.log2 v =? 0); lia.
Qed.
