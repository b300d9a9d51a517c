(** * Proofs about t-digest tables. *)
From Coq Require Import List Bool ZArith Arith Lia Sorted.
From Verif Require Import M_Go M_Tdigest S_Tdigest.
Import ListNotations.
Open Scope Z_scope.

Lemma set_length l : forall i v, List.length (set_nth l i v) = List.length l.
Proof. induction l as [|x l IH]; intros [|i] v; cbn [set_nth List.length]; auto. Qed.
Lemma nth_set l : forall i j v, (i < List.length l)%nat -> nth j (set_nth l i v) 0 = if (j =? i)%nat then v else nth j l 0.
Proof.
  induction l as [|x l IH]; intros i j v H; [cbn in H; lia|]. cbn [List.length] in H. destruct i as [|i], j as [|j]; cbn [set_nth nth Nat.eqb]; try reflexivity.
  apply IH. lia.
Qed.
Lemma firstn_set_out l : forall i k v, (k <= i)%nat -> firstn k (set_nth l i v) = firstn k l.
Proof.
  induction l as [|x l IH]; intros i k v H; [reflexivity|]. destruct i as [|i], k as [|k]; cbn [set_nth firstn]; try reflexivity; [lia|]. f_equal. apply IH. lia.
Qed.
Lemma firstn_S_nth (l : list Z) : forall k, (k < List.length l)%nat -> firstn (S k) l = firstn k l ++ [nth k l 0].
Proof.
  induction l as [|x l IH]; intros k H; [cbn in H; lia|]. cbn [List.length] in H. destruct k as [|k]; [reflexivity|].
  change (firstn (S (S k)) (x :: l)) with (x :: firstn (S k) l). rewrite IH by lia. reflexivity.
Qed.

(** one more centroid; the groups are kept newest first *)
Definition add1 (acc : list (Z * Z)) (c : Z * Z) : list (Z * Z) :=
  match acc with
  | (m, n) :: acc' => if m =? fst c then (m, n + snd c) :: acc' else c :: acc
  | [] => [c]
  end.
Definition grp (l : list (Z * Z)) : list (Z * Z) := fold_left add1 l [].
Lemma grp_snoc l c : grp (l ++ [c]) = add1 (grp l) c.
Proof. unfold grp. rewrite fold_left_app. reflexivity. Qed.

Lemma firstn_app_nth (l : list (Z * Z)) i : (i < List.length l)%nat -> firstn (S i) l = firstn i l ++ [nth i l (0, 0)].
Proof.
  revert i. induction l as [|x l IH]; intros i H; [cbn in H; lia|]. cbn [List.length] in H. destruct i as [|i]; [reflexivity|].
  change (firstn (S (S i)) (x :: l)) with (x :: firstn (S i) l). rewrite IH by lia. reflexivity.
Qed.
Lemma samples_nonneg l : (forall c, In c l -> 0 <= snd c) -> 0 <= samples l.
Proof. unfold samples. induction l as [|c l IH]; intros H; cbn [map fold_right]; [lia|]. pose proof (H c (or_introl eq_refl)). specialize (IH (fun x Hx => H x (or_intror Hx))). lia. Qed.
Lemma samples_app l l' : samples (l ++ l') = samples l + samples l'.
Proof. unfold samples. induction l as [|c l IH]; cbn [app map fold_right]; lia. Qed.
Lemma grp_samples l : samples (grp l) = samples l.
Proof.
  induction l as [|c l IH] using rev_ind; [reflexivity|]. rewrite grp_snoc, samples_app, <- IH. unfold add1. destruct (grp l) as [|[m n] acc]; [unfold samples; cbn; lia|].
  destruct (m =? fst c); unfold samples; cbn [map fold_right snd]; lia.
Qed.
Lemma grp_pos l : (forall c, In c l -> 0 < snd c) -> forall c, In c (grp l) -> 0 < snd c.
Proof.
  induction l as [|x l IH] using rev_ind; intros H c Hc; [destruct Hc|]. rewrite grp_snoc in Hc.
  assert (H' : forall c, In c l -> 0 < snd c) by (intros; apply H; apply in_or_app; auto).
  assert (Hx : 0 < snd x) by (apply H; apply in_or_app; right; left; reflexivity). specialize (IH H').
  unfold add1 in Hc. destruct (grp l) as [|[m n] acc]; [destruct Hc as [<-|[]]; exact Hx|].
  destruct (m =? fst x).
  - destruct Hc as [<-|Hc]; [|apply IH; right; exact Hc]. cbn [snd]. pose proof (IH (m, n) (or_introl eq_refl)) as F. cbn [snd] in F. lia.
  - destruct Hc as [<-|Hc]; [exact Hx|]. apply IH. exact Hc.
Qed.
Lemma samples_one l c : (forall x, In x l -> 0 <= snd x) -> In c l -> snd c <= samples l.
Proof.
  intros H Hc. induction l as [|x l IH]; [destruct Hc|]. unfold samples in *. cbn [map fold_right].
  pose proof (H x (or_introl eq_refl)) as H0. pose proof (samples_nonneg l (fun y Hy => H y (or_intror Hy))) as H1. unfold samples in H1.
  destruct Hc as [<-|Hc]; [lia|]. specialize (IH (fun y Hy => H y (or_intror Hy)) Hc). lia.
Qed.
Lemma firstn_samples l i : (forall c, In c l -> 0 <= snd c) -> samples (firstn i l) <= samples l.
Proof.
  intros H. rewrite <- (firstn_skipn i l) at 2. rewrite samples_app. pose proof (samples_nonneg (skipn i l)) as P.
  assert (0 <= samples (skipn i l)); [|lia]. apply P. intros c Hc. apply H. rewrite <- (firstn_skipn i l). apply in_or_app. right. exact Hc.
Qed.

(** ** The in-place loop *)
Section Loop.
  Variable l : list (Z * Z).
  Hypothesis Hpos : forall c, In c l -> 0 < snd c.
  Hypothesis Hbig : samples l < 2 ^ 64.
  Lemma nth_fst k : nth k (map fst l) 0 = fst (nth k l (0, 0)).
  Proof. exact (map_nth fst l (0, 0) k). Qed.
  Lemma nth_snd k : nth k (map snd l) 0 = snd (nth k l (0, 0)).
  Proof. exact (map_nth snd l (0, 0) k). Qed.

  Record linv (i j : nat) (means counts : list Z) : Prop := {
    v_ij : (j < i <= List.length l)%nat;
    v_lm : List.length means = List.length l;
    v_lc : List.length counts = List.length l;
    v_m : forall k, (i - 1 <= k)%nat -> nth k means 0 = fst (nth k l (0, 0));
    v_c : forall k, (i <= k)%nat -> nth k counts 0 = snd (nth k l (0, 0));
    v_g : rev (combine (firstn (S j) means) (firstn (S j) counts)) = grp (firstn i l);
    v_last : nth j means 0 = fst (nth (i - 1) l (0, 0)) }.
  Lemma combine_snoc (a b : list Z) x y : List.length a = List.length b -> combine (a ++ [x]) (b ++ [y]) = combine a b ++ [(x, y)].
  Proof. revert b. induction a as [|u a IH]; intros [|v b] H; try discriminate; [reflexivity|]. cbn [app combine]. f_equal. apply IH. now injection H. Qed.
  Lemma merge_ok n : forall i j means counts, linv i j means counts -> (i + n = List.length l)%nat ->
    forall j' m' c', merge n i j means counts = (j', m', c') -> linv (List.length l) j' m' c'.
  Proof.
    induction n as [|n IH]; intros i j means counts Hi Hn j' m' c' H.
    - cbn [merge] in H. injection H as <- <- <-. replace (List.length l) with i by lia. exact Hi.
    - cbn [merge] in H. destruct Hi as [Hij Hlm Hlc Hm Hc Hg Hlast].
      assert (Hil : (i < List.length l)%nat) by lia.
      rewrite (Hm (i - 1)%nat), (Hm i), (Hc i) in H by lia.
      assert (Hgj : firstn (S j) means = firstn j means ++ [nth j means 0]) by (apply firstn_S_nth; lia).
      assert (Hcj : firstn (S j) counts = firstn j counts ++ [nth j counts 0]) by (apply firstn_S_nth; lia).
      assert (Hll : List.length (firstn j means) = List.length (firstn j counts)) by (rewrite !firstn_length; lia).
      assert (Hacc : grp (firstn i l) = (nth j means 0, nth j counts 0) :: rev (combine (firstn j means) (firstn j counts))).
      { rewrite <- Hg, Hgj, Hcj, combine_snoc by exact Hll. rewrite rev_app_distr. reflexivity. }
      destruct (Z.eqb_spec (fst (nth (i - 1) l (0, 0))) (fst (nth i l (0, 0)))) as [E|E].
      + refine (IH _ _ _ _ _ _ _ _ _ H); [|lia]. split.
        * lia.
        * exact Hlm.
        * rewrite set_length. exact Hlc.
        * intros k Hk. apply Hm. lia.
        * intros k Hk. rewrite nth_set by lia. destruct (Nat.eqb_spec k j); [lia|]. apply Hc. lia.
        * rewrite firstn_app_nth by lia. rewrite grp_snoc, Hacc. cbn [add1]. rewrite Hlast, E, Z.eqb_refl.
          rewrite Hgj. rewrite (firstn_S_nth (set_nth _ _ _)) by (rewrite set_length; lia). rewrite firstn_set_out by lia. rewrite combine_snoc by exact Hll.
          rewrite rev_app_distr. cbn [rev app]. rewrite nth_set by lia. rewrite Nat.eqb_refl. rewrite Hlast, E. f_equal. f_equal.
          unfold u64. apply Z.mod_small.
          assert (Hin : In (nth j means 0, nth j counts 0) (grp (firstn i l))) by (rewrite Hacc; left; reflexivity).
          assert (Hp1 : forall c, In c (firstn i l) -> 0 < snd c) by (intros c F; apply Hpos; rewrite <- (firstn_skipn i l); apply in_or_app; left; exact F).
          pose proof (grp_pos _ Hp1 _ Hin) as P1. cbn [snd] in P1.
          assert (P2 : 0 < snd (nth i l (0, 0))) by (apply Hpos; apply nth_In; exact Hil).
          pose proof (samples_one (grp (firstn i l)) _ (fun x F => Z.lt_le_incl _ _ (grp_pos _ Hp1 x F)) Hin) as P3. cbn [snd] in P3. rewrite grp_samples in P3.
          pose proof (firstn_samples l (S i) (fun c F => Z.lt_le_incl _ _ (Hpos c F))) as P4. rewrite firstn_app_nth, samples_app in P4 by lia.
          assert (E2 : samples [nth i l (0, 0)] = snd (nth i l (0, 0))) by (unfold samples; cbn; lia). change W64 with (2 ^ 64). lia.
        * replace (S i - 1)%nat with i by lia. rewrite <- E. exact Hlast.
      + refine (IH _ _ _ _ _ _ _ _ _ H); [|lia]. split.
        * lia.
        * rewrite set_length. exact Hlm.
        * rewrite set_length. exact Hlc.
        * intros k Hk. rewrite nth_set by lia. destruct (Nat.eqb_spec k (S j)) as [->|]; [|apply Hm; lia]. replace (S j) with i by lia. reflexivity.
        * intros k Hk. rewrite nth_set by lia. destruct (Nat.eqb_spec k (S j)); [lia|]. apply Hc. lia.
        * rewrite firstn_app_nth by lia. rewrite grp_snoc, Hacc. cbn [add1]. rewrite Hlast. destruct (Z.eqb_spec (fst (nth (i - 1) l (0, 0))) (fst (nth i l (0, 0)))); [congruence|].
          rewrite (firstn_S_nth (set_nth means _ _) (S j)), (firstn_S_nth (set_nth counts _ _) (S j)) by (rewrite set_length; lia). rewrite !firstn_set_out by lia. rewrite combine_snoc by (rewrite !firstn_length; lia).
          rewrite rev_app_distr. cbn [rev app]. rewrite !nth_set by lia. rewrite Nat.eqb_refl. f_equal; [destruct (nth i l (0, 0)); reflexivity|].
          rewrite Hgj, Hcj, combine_snoc by exact Hll. rewrite rev_app_distr. cbn [rev app]. rewrite Hlast. reflexivity.
        * rewrite nth_set by lia. rewrite Nat.eqb_refl. f_equal. f_equal. lia.
  Qed.
  Lemma linv0 : l <> [] -> linv 1 0 (map fst l) (map snd l).
  Proof.
    intros Hne. destruct l as [|c r] eqn:E; [congruence|]. rewrite <- E in *. assert (Hl : (1 <= List.length l)%nat) by (rewrite E; cbn; lia).
    split.
    - lia.
    - apply map_length.
    - apply map_length.
    - intros k _. apply nth_fst.
    - intros k _. apply nth_snd.
    - rewrite E. destruct c. reflexivity.
    - rewrite nth_fst. reflexivity.
  Qed.
End Loop.

(** ** Groups of an ascending list *)
Lemma at_cons v c l : samples_at v (c :: l) = (if fst c =? v then snd c else 0) + samples_at v l.
Proof. unfold samples_at. cbn [filter]. destruct (fst c =? v); cbn [map fold_right]; lia. Qed.
Lemma at_app v l l' : samples_at v (l ++ l') = samples_at v l + samples_at v l'.
Proof. induction l as [|c l IH]; cbn [app]; [reflexivity|]. rewrite !at_cons, IH. lia. Qed.
Lemma grp_at v l : samples_at v (grp l) = samples_at v l.
Proof.
  induction l as [|c l IH] using rev_ind; [reflexivity|]. rewrite grp_snoc, at_app, <- IH. unfold add1. destruct (grp l) as [|[m n] acc]; [rewrite !at_cons; cbn; lia|].
  assert (E0 : samples_at v [] = 0) by reflexivity.
  destruct (Z.eqb_spec m (fst c)) as [->|E]; rewrite !at_cons; cbn [fst snd]; [destruct (fst c =? v)|destruct (fst c =? v), (m =? v)]; lia.
Qed.
Lemma sorted_snoc l x : StronglySorted Z.le (l ++ [x]) -> StronglySorted Z.le l /\ Forall (fun y => y <= x) l.
Proof.
  induction l as [|y l IH]; cbn [app]; intros H; [split; constructor|]. inversion H as [|? ? H1 H2]; subst. destruct (IH H1) as [A B].
  apply Forall_app in H2. destruct H2 as [H2 H3]. inversion H3; subst. split; [constructor; assumption|]. constructor; assumption.
Qed.
Lemma grp_sorted l : ascending l -> StronglySorted Z.gt (map fst (grp l)) /\
  (forall v, In v (map fst (grp l)) <-> In v (map fst l)) .
Proof.
  unfold ascending. induction l as [|c l IH] using rev_ind; intros H; [split; [constructor|tauto]|]. rewrite map_app in H. cbn [map] in H. apply sorted_snoc in H. destruct H as [H1 H2].
  destruct (IH H1) as [I1 I2]. rewrite grp_snoc. unfold add1. destruct (grp l) as [|[m n] acc] eqn:E.
  - split; [constructor; [constructor|constructor]|]. intros v. rewrite map_app, in_app_iff. rewrite <- I2. cbn [map In]. tauto.
  - destruct (Z.eqb_spec m (fst c)) as [Em|Em].
    + split; [exact I1|]. intros v. rewrite map_app, in_app_iff, <- I2. cbn [map In fst]. rewrite <- Em. tauto.
    + split.
      * cbn [map]. constructor; [exact I1|]. assert (Hm : m <= fst c). { rewrite Forall_forall in H2. apply H2. apply I2. left. reflexivity. }
        cbn [map fst] in I1. inversion I1 as [|? ? _ Hall]; subst. constructor; [cbn [fst]; lia|]. eapply Forall_impl; [|exact Hall]. intros x Hx. cbn beta in Hx. lia.
      * intros v. rewrite map_app, in_app_iff, <- I2. cbn [map In fst]. tauto.
Qed.
Lemma at_unique l v n : StronglySorted Z.gt (map fst l) -> In (v, n) l -> samples_at v l = n.
Proof.
  induction l as [|[m c] l IH]; intros Hs Hi; [destruct Hi|]. cbn [map fst] in Hs. inversion Hs as [|? ? H1 H2]; subst. unfold samples_at. cbn [filter fst].
  destruct Hi as [E|Hi].
  - injection E as <- <-. rewrite Z.eqb_refl. cbn [map fold_right snd]. replace (filter (fun c0 => fst c0 =? m) l) with (@nil (Z * Z)); [cbn; lia|].
    symmetry. clear - H2. induction l as [|[a b] l IH]; [reflexivity|]. cbn [map fst filter] in *. inversion H2; subst. destruct (Z.eqb_spec a m); [lia|]. apply IH. assumption.
  - destruct (Z.eqb_spec m v) as [->|]; [|apply IH; assumption]. exfalso. rewrite Forall_forall in H2. specialize (H2 v (in_map fst _ _ Hi)). lia.
Qed.
Lemma sorted_rev l : StronglySorted Z.gt l -> StronglySorted Z.lt (rev l).
Proof.
  induction l as [|x l IH]; intros H; [constructor|]. inversion H as [|? ? H1 H2]; subst. cbn [rev]. specialize (IH H1).
  assert (Hall : Forall (fun y => y < x) (rev l)) by (rewrite Forall_forall in *; intros y Hy; apply in_rev in Hy; specialize (H2 y Hy); lia).
  clear - IH Hall. induction (rev l) as [|y r IHr]; cbn [app]; [constructor; constructor|]. inversion IH; subst. inversion Hall; subst. constructor; [apply IHr; assumption|].
  apply Forall_app. split; [assumption|]. constructor; [assumption|constructor].
Qed.

Lemma max_fold l : forall m, fold_left (fun m v => if m <? v then v else m) l m = fold_left Z.max l m.
Proof. induction l as [|x l IH]; intros m; [reflexivity|]. cbn [fold_left]. rewrite IH. f_equal. destruct (Z.ltb_spec m x); lia. Qed.
Lemma fold_max_spec l : forall m, m <= fold_left Z.max l m /\ (forall x, In x l -> x <= fold_left Z.max l m) /\ (fold_left Z.max l m = m \/ In (fold_left Z.max l m) l).
Proof.
  induction l as [|x l IH]; intros m; cbn [fold_left]; [split; [lia|split; [intros ? []|auto]]|]. destruct (IH (Z.max m x)) as [A [B C]]. split; [lia|]. split.
  - intros y [<-|Hy]; [lia|auto].
  - cbn [In]. destruct C as [C|C]; [|auto]. rewrite C. destruct (Z.max_spec m x) as [[_ E]|[_ E]]; rewrite E; auto.
Qed.

Lemma filter_samples (l : list (Z * Z)) : samples (filter (fun c => negb (snd c =? 0)) l) = samples l.
Proof. unfold samples. induction l as [|c l IH]; [reflexivity|]. cbn [filter map fold_right]. destruct (Z.eqb_spec (snd c) 0); cbn [negb map fold_right]; lia. Qed.
Lemma filter_at v (l : list (Z * Z)) : samples_at v (filter (fun c => negb (snd c =? 0)) l) = samples_at v l.
Proof.
  induction l as [|c l IH]; [reflexivity|]. cbn [filter]. destruct (Z.eqb_spec (snd c) 0) as [E|E]; cbn [negb]; rewrite ?at_cons, IH; destruct (fst c =? v); lia.
Qed.
Lemma filter_asc (p : Z * Z -> bool) l : ascending l -> ascending (filter p l).
Proof.
  unfold ascending. induction l as [|c l IH]; intros H; [constructor|]. cbn [map] in H. inversion H as [|? ? H1 H2]; subst. cbn [filter]. destruct (p c); [|apply IH; exact H1].
  cbn [map]. constructor; [apply IH; exact H1|]. rewrite Forall_forall in *. intros x Hx. apply H2. apply in_map_iff in Hx. destruct Hx as [y [<- Hy]]. apply in_map. apply filter_In in Hy. tauto.
Qed.

Lemma map_snd_combine (a : list Z) : forall b : list Z, List.length a = List.length b -> map snd (combine a b) = b.
Proof. induction a as [|x a IH]; intros [|y b] H; try discriminate; [reflexivity|]. cbn [combine map snd]. f_equal. apply IH. now injection H. Qed.

Theorem render_ok cs : ascending cs -> (forall c, In c cs -> 0 <= snd c) -> 0 < samples cs -> 40 * samples cs < 2 ^ 64 -> forall total, total <> 0 ->
  exists rs mx, render total cs = Some rs /\
    StronglySorted Z.lt (map (fun r => fst (fst r)) rs) /\
    (forall v c bar, In (v, c, bar) rs -> c = samples_at v cs /\ 0 < c <= mx /\ bar_ok c mx bar) /\
    (forall v c, In (v, c) cs -> 0 < c -> exists c' bar, In (v, c', bar) rs) /\
    fold_right Z.add 0 (map (fun r => snd (fst r)) rs) = samples cs /\
    (exists v, In (v, mx, (40, 0, false)) rs).
Proof.
  intros Hasc Hnn Hpos Hbig total Ht. unfold render. destruct (Z.eqb_spec total 0); [congruence|]. unfold collect.
  set (l := filter (fun c => negb (snd c =? 0)) cs).
  assert (Hl : forall c, In c l -> 0 < snd c). { intros c Hc. apply filter_In in Hc. destruct Hc as [Hc Hn]. specialize (Hnn c Hc). destruct (Z.eqb_spec (snd c) 0); [discriminate|]. lia. }
  assert (Hsl : samples l = samples cs) by apply filter_samples.
  assert (Hne : l <> []). { intros E. rewrite E in Hsl. unfold samples in Hsl at 1. cbn in Hsl. lia. }
  rewrite map_length. destruct (merge (List.length l - 1) 1 0 (map fst l) (map snd l)) as [[j m'] c'] eqn:E.
  assert (Hll : (1 <= List.length l)%nat) by (destruct l; [congruence|cbn; lia]).
  assert (Hbig' : samples l < 2 ^ 64) by (rewrite Hsl; lia).
  assert (Hl0 : linv l 1 0 (map fst l) (map snd l)) by (first [exact (linv0 l Hne)|exact (linv0 l Hl Hne)|exact (linv0 l Hl Hbig' Hne)]).
  assert (Hlen1 : (1 + (List.length l - 1) = List.length l)%nat) by lia.
  pose proof (merge_ok l Hl Hbig' _ _ _ _ _ Hl0 Hlen1 _ _ _ E) as [Hij Hlm Hlc _ _ Hg _].
  rewrite firstn_all in Hg.
  destruct (Nat.ltb_spec (List.length m') (S j)); [lia|].
  set (mm := firstn (S j) m') in *. set (ccn := firstn (S j) c') in *.
  assert (Hlen : List.length mm = List.length ccn) by (unfold mm, ccn; rewrite !firstn_length; lia).
  assert (Hcomb : combine mm ccn = rev (grp l)) by (rewrite <- Hg, rev_involutive; reflexivity).
  assert (Hccn : ccn = map snd (rev (grp l))).
  { rewrite <- Hcomb. symmetry. apply map_snd_combine. exact Hlen. }
  destruct (grp_sorted l (filter_asc _ _ Hasc)) as [Hs1 Hs2].
  exists (rows mm ccn), (max_count ccn). split; [reflexivity|]. unfold rows. rewrite !map_map. cbn [fst snd].
  assert (Emap1 : map (fun x : Z * Z => fst x) (combine mm ccn) = rev (map fst (grp l))) by (rewrite Hcomb; apply map_rev).
  assert (Emap2 : map (fun x : Z * Z => snd x) (combine mm ccn) = ccn) by (rewrite Hcomb, Hccn; reflexivity).
  set (mx := max_count ccn).
  assert (Hmx : forall x, In x ccn -> x <= mx). { intros x Hx. unfold mx, max_count. rewrite max_fold. apply fold_max_spec. exact Hx. }
  assert (Hccpos : forall x, In x ccn -> 0 < x). { intros x Hx. rewrite Hccn in Hx. apply in_map_iff in Hx. destruct Hx as [y [<- Hy]]. apply in_rev in Hy. exact (grp_pos l Hl y Hy). }
  assert (Hccle : forall x, In x ccn -> x <= samples cs).
  { intros x Hx. rewrite Hccn in Hx. apply in_map_iff in Hx. destruct Hx as [y [<- Hy]]. apply in_rev in Hy. rewrite <- Hsl, <- grp_samples. apply samples_one; [|exact Hy].
    intros z Hz. apply Z.lt_le_incl. exact (grp_pos l Hl z Hz). }
  assert (Hne2 : ccn <> []). { intros F. pose proof (f_equal (@List.length Z) F) as F2. unfold ccn in F2. rewrite firstn_length in F2. cbn [List.length] in F2. lia. }
  assert (Hmxin : In mx ccn).
  { unfold mx, max_count. rewrite max_fold. destruct (fold_max_spec ccn (hd 0 ccn)) as [_ [_ [C|C]]]; [|exact C]. rewrite C. destruct ccn; [congruence|left; reflexivity]. }
  assert (Hbar : forall c, In c ccn -> bar_ok c mx (print_stars c mx 40)).
  { intros c Hc. pose proof (Hmx c Hc). pose proof (Hccpos c Hc). pose proof (Hccle c Hc). unfold bar_ok, print_stars. rewrite Z.min_l by lia. unfold u64. change W64 with (2 ^ 64).
    rewrite Z.mod_small by lia. rewrite (Z.mul_comm c 40). destruct (Z.ltb_spec mx c); [lia|reflexivity]. }
  split; [rewrite Emap1; apply sorted_rev; exact Hs1|]. split; [|split; [|split]].
  - intros v c bar Hi. apply in_map_iff in Hi. destruct Hi as [[v' c''] [Ei Hi]]. cbn [fst snd] in Ei. injection Ei as <- <- <-.
    assert (Hc : In c'' ccn) by (rewrite <- Emap2; exact (in_map (fun x : Z * Z => snd x) _ _ Hi)).
    rewrite Hcomb in Hi. apply in_rev in Hi. split; [|split; [split; [apply Hccpos; exact Hc|apply Hmx; exact Hc]|apply Hbar; exact Hc]].
    rewrite <- filter_at. fold l. rewrite <- grp_at. symmetry. apply at_unique; assumption.
  - intros v c Hi Hc. assert (Hv : In v (map fst (grp l))). { apply Hs2. apply (in_map fst l (v, c)). unfold l. apply filter_In. split; [exact Hi|]. cbn [snd]. destruct (Z.eqb_spec c 0); [lia|reflexivity]. }
    apply in_map_iff in Hv. destruct Hv as [[v' n'] [Ev Hv]]. cbn [fst] in Ev. subst v'. exists n', (print_stars n' mx 40). apply in_map_iff. exists (v, n'). split; [reflexivity|].
    rewrite Hcomb. apply -> in_rev. exact Hv.
  - rewrite Emap2, Hccn, map_rev. transitivity (samples (grp l)); [|rewrite grp_samples; exact Hsl]. unfold samples. induction (map snd (grp l)) as [|x r IH]; [reflexivity|]. cbn [rev fold_right].
    rewrite fold_right_app. cbn [fold_right]. rewrite Z.add_0_r. clear - IH. rewrite <- IH. clear IH. generalize (rev r) as q. intros q. revert x. induction q as [|y q IHq]; intros x; cbn [fold_right]; [lia|].
    rewrite IHq. lia.
  - rewrite <- Emap2 in Hmxin. apply in_map_iff in Hmxin. destruct Hmxin as [[v c] [Ev Hi]]. exists v. apply in_map_iff. exists (v, c). cbn [fst snd] in *. split; [|exact Hi].
    assert (Hc : In c ccn) by (rewrite <- Emap2; exact (in_map (fun x : Z * Z => snd x) _ _ Hi)). rewrite (Hbar c Hc). rewrite Ev. rewrite Z.div_mul by (pose proof (Hccpos c Hc); lia). reflexivity.
Qed.
