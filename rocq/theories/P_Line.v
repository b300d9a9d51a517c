(** * Proofs for M_Line *)
From Coq Require Import List Bool String Ascii ZArith Lia Permutation Sorted.
From Verif Require Import M_Line.
Import ListNotations.
Open Scope Z_scope.

Definition asc (x : list Z) : Prop := forall i j, (i <= j < List.length x)%nat -> nth i x 0 <= nth j x 0.
Lemma bsearch_loop_ok fuel x t i j : asc x -> (j - i <= fuel)%nat -> (i <= j <= List.length x)%nat ->
  (forall k, (k < i)%nat -> nth k x 0 < t) -> (forall k, (j <= k < List.length x)%nat -> t <= nth k x 0) ->
  let r := bsearch_loop fuel x t i j in (r <= List.length x)%nat /\ (forall k, (k < r)%nat -> nth k x 0 < t) /\ (forall k, (r <= k < List.length x)%nat -> t <= nth k x 0).
Proof.
  intros Ha. revert i j. induction fuel as [|fuel IH]; intros i j Hf Hij Hl Hr; cbn [bsearch_loop].
  - cbv zeta. replace j with i in * by lia. split; [lia|]. split; assumption.
  - destruct (Nat.ltb_spec i j) as [H|H].
    + cbv zeta. assert (Hh : (i <= Nat.div2 (i + j) < j)%nat) by (rewrite PeanoNat.Nat.div2_div; split; [apply PeanoNat.Nat.div_le_lower_bound; lia|apply PeanoNat.Nat.div_lt_upper_bound; lia]).
      set (h := Nat.div2 (i + j)) in *. destruct (Z.ltb_spec (nth h x 0) t) as [E|E].
      * apply IH; [lia|lia| |exact Hr]. intros k Hk. apply Z.le_lt_trans with (nth h x 0); [apply Ha; lia|exact E].
      * apply IH; [lia|lia|exact Hl|]. intros k Hk. apply Z.le_trans with (nth h x 0); [exact E|apply Ha; lia].
    + cbv zeta. replace j with i in * by lia. split; [lia|]. split; assumption.
Qed.
Lemma bsearch_ok x t : asc x -> let '(i, ok) := bsearch x t in
  (i <= List.length x)%nat /\ (forall k, (k < i)%nat -> nth k x 0 < t) /\ (forall k, (i <= k < List.length x)%nat -> t <= nth k x 0) /\
  (ok = true <-> (i < List.length x)%nat /\ nth i x 0 = t).
Proof.
  intros Ha. unfold bsearch. destruct (bsearch_loop_ok (List.length x) x t 0 (List.length x) Ha) as (H1 & H2 & H3); try lia.
  set (i := bsearch_loop _ _ _ _ _) in *. split; [exact H1|]. split; [exact H2|]. split; [exact H3|].
  destruct (nth_error x i) as [y|] eqn:E.
  - assert (Hi : (i < List.length x)%nat) by (apply nth_error_Some; congruence). apply (nth_error_nth _ _ 0) in E. rewrite E, Z.eqb_eq. tauto.
  - apply nth_error_None in E. split; [discriminate|lia].
Qed.

Lemma asc_tail a x : asc (a :: x) -> asc x.
Proof. intros H i j Hij. apply (H (S i) (S j)). cbn [List.length]. lia. Qed.
Lemma asc_sorted x : Sorted Z.le x -> asc x.
Proof.
  intros H. apply Sorted_StronglySorted in H; [|intros a b c; lia]. induction H as [|a x Hs IH Hf]; intros i j Hij; [cbn in Hij; lia|].
  destruct j as [|j]; [replace i with 0%nat by lia; lia|]. destruct i as [|i]; cbn [nth].
  - rewrite Forall_forall in Hf. apply Hf. apply nth_In. cbn [List.length] in Hij. lia.
  - apply IH. cbn [List.length] in Hij. lia.
Qed.
Lemma sorted_filter {A} (p : Z * A -> bool) tab : Sorted Z.le (map fst tab) -> Sorted Z.le (map fst (filter p tab)).
Proof.
  intros H. apply Sorted_StronglySorted in H; [|intros a b c; lia]. apply StronglySorted_Sorted.
  induction tab as [|[a l] tab IH]; cbn [filter map fst] in *; [constructor|]. inversion H; subst. destruct (p (a, l)); [|apply IH; assumption].
  cbn [map fst]. constructor; [apply IH; assumption|]. rewrite Forall_forall in *. intros y Hy. apply H3. apply in_map_iff in Hy as (z & <- & Hz).
  apply filter_In in Hz as [Hz _]. apply in_map. exact Hz.
Qed.

Section One.
  Variables (start len : Z) (name : string) (tab : list (Z * line)).
  Hypothesis Hs : Sorted Z.le (map fst tab).
  Let f := new_func start len name tab.
  Let mine := filter (fun p => (start <=? fst p) && (fst p <? start + len)) tab.

  Lemma mine_in p : In p mine <-> In p tab /\ start <= fst p < start + len.
  Proof. unfold mine. rewrite filter_In, andb_true_iff, Z.leb_le, Z.ltb_lt. tauto. Qed.
  Lemma mine_nth k p : nth_error mine k = Some p -> nth_error (pf_addrs f) k = Some (fst p) /\ nth_error (pf_lines f) k = Some (snd p).
  Proof. intros H. unfold f, new_func. cbn [pf_addrs pf_lines]. fold mine. rewrite !nth_error_map, H. split; reflexivity. Qed.
  Lemma nth_addr k : nth k (pf_addrs f) 0 = match nth_error mine k with Some p => fst p | None => 0 end.
  Proof.
    unfold f, new_func. cbn [pf_addrs]. fold mine. destruct (nth_error mine k) as [p|] eqn:E.
    - apply nth_error_nth. rewrite nth_error_map, E. reflexivity.
    - apply nth_overflow. rewrite map_length. apply nth_error_None. exact E.
  Qed.
  Theorem get_covering a : start <= a < start + len -> (exists p, In p tab /\ start <= fst p <= a) ->
    exists b l, In (b, l) tab /\ start <= b <= a /\ (forall p, In p tab -> fst p <= a -> fst p <= b) /\
      func_get f a = LOk {| li_func := name; li_start := start; li_file := short_name (l_file l); li_line := l_num l |}.
  Proof.
    intros Ha (p0 & Hp0 & Hp0a). unfold func_get. assert (Hc : contains_addr f a = true) by (unfold contains_addr, f, new_func; cbn; rewrite andb_true_iff, Z.leb_le, Z.ltb_lt; lia).
    rewrite Hc. cbn [negb]. assert (Hasc : asc (pf_addrs f)) by (apply asc_sorted; apply sorted_filter; exact Hs).
    pose proof (bsearch_ok (pf_addrs f) a Hasc) as Hb. destruct (bsearch (pf_addrs f) a) as [i ok]. destruct Hb as (H1 & H2 & H3 & H4).
    assert (Hlen : List.length (pf_addrs f) = List.length mine) by (unfold f, new_func; cbn [pf_addrs]; apply map_length). rewrite Hlen in *.
    assert (Hp0m : In p0 mine) by (apply mine_in; split; [exact Hp0|lia]). apply In_nth_error in Hp0m as (k0 & Hk0).
    assert (Hk0l : (k0 < List.length mine)%nat) by (apply nth_error_Some; congruence).
    assert (Fin : forall k, (k < List.length mine)%nat -> nth k (pf_addrs f) 0 <= a -> (forall k', (k' < List.length mine)%nat -> nth k' (pf_addrs f) 0 <= a -> nth k' (pf_addrs f) 0 <= nth k (pf_addrs f) 0) ->
      exists b l, In (b, l) tab /\ start <= b <= a /\ (forall p, In p tab -> fst p <= a -> fst p <= b) /\ nth_error (pf_lines f) k = Some l).
    { intros k Hk Hka Hmax. destruct (nth_error mine k) as [[b l]|] eqn:E; [|apply nth_error_None in E; lia].
      assert (Eb : nth k (pf_addrs f) 0 = b) by (rewrite nth_addr, E; reflexivity). rewrite Eb in *.
      pose proof (nth_error_In _ _ E) as Hi. apply mine_in in Hi as [Hi Hr]. cbn [fst] in Hr. exists b, l. split; [exact Hi|]. split; [lia|]. split; [|apply (mine_nth k (b, l)); exact E].
      intros q Hq Hqa. destruct (Z.lt_ge_cases (fst q) start); [lia|]. assert (Hqm : In q mine) by (apply mine_in; split; [exact Hq|lia]).
      apply In_nth_error in Hqm as (k' & Hk'). assert (Hk'l : (k' < List.length mine)%nat) by (apply nth_error_Some; congruence).
      specialize (Hmax k' Hk'l). rewrite nth_addr, Hk' in Hmax. apply Hmax. exact Hqa. }
    destruct ok.
    - destruct (proj1 H4 eq_refl) as [Hi Ei]. destruct (Fin i Hi ltac:(lia)) as (b & l & A1 & A2 & A3 & A4); [intros; lia|].
      exists b, l. split; [exact A1|]. split; [exact A2|]. split; [exact A3|]. destruct (Z.ltb_spec (Z.of_nat i) 0); [lia|]. rewrite Nat2Z.id, A4. reflexivity.
    - assert (Hi0 : (0 < i)%nat).
      { destruct i as [|i]; [|lia]. exfalso. pose proof (H3 0%nat ltac:(lia)) as Q1.
        assert (Q2 : nth 0 (pf_addrs f) 0 <= nth k0 (pf_addrs f) 0) by (apply Hasc; rewrite Hlen; lia). rewrite (nth_addr k0), Hk0 in Q2.
        assert (false = true) by (apply H4; split; [lia|lia]). discriminate. }
      destruct (Fin (i - 1)%nat ltac:(lia)) as (b & l & A1 & A2 & A3 & A4).
      + apply Z.lt_le_incl. apply H2. lia.
      + intros k' Hk' Hk'a. destruct (Nat.lt_ge_cases k' i) as [Hlt|Hge]; [apply Hasc; rewrite Hlen; lia|]. exfalso.
        assert (Hii : (i < List.length mine)%nat) by lia. assert (a <= nth i (pf_addrs f) 0) by (apply H3; lia).
        assert (nth i (pf_addrs f) 0 <= nth k' (pf_addrs f) 0) by (apply Hasc; rewrite Hlen; lia).
        assert (E : nth i (pf_addrs f) 0 = a) by lia. assert (false = true) by (apply H4; split; assumption). discriminate.
      + exists b, l. split; [exact A1|]. split; [exact A2|]. split; [exact A3|]. destruct (Z.ltb_spec (Z.of_nat i - 1) 0); [lia|].
        replace (Z.to_nat (Z.of_nat i - 1)) with (i - 1)%nat by lia. rewrite A4. reflexivity.
  Qed.
  Theorem get_crash a : start <= a < start + len -> (forall p, In p tab -> start <= fst p -> a < fst p) -> func_get f a = LPanic.
  Proof.
    intros Ha Hno. unfold func_get. assert (Hc : contains_addr f a = true) by (unfold contains_addr, f, new_func; cbn; rewrite andb_true_iff, Z.leb_le, Z.ltb_lt; lia).
    rewrite Hc. cbn [negb]. assert (Hasc : asc (pf_addrs f)) by (apply asc_sorted; apply sorted_filter; exact Hs).
    pose proof (bsearch_ok (pf_addrs f) a Hasc) as Hb. destruct (bsearch (pf_addrs f) a) as [i ok]. destruct Hb as (H1 & H2 & H3 & H4).
    assert (Hlen : List.length (pf_addrs f) = List.length mine) by (unfold f, new_func; cbn [pf_addrs]; apply map_length). rewrite Hlen in *.
    assert (Hall : forall k, (k < List.length mine)%nat -> a < nth k (pf_addrs f) 0).
    { intros k Hk. rewrite nth_addr. destruct (nth_error mine k) as [p|] eqn:E; [|apply nth_error_None in E; lia].
      apply nth_error_In in E. apply mine_in in E as [E1 E2]. apply Hno; [exact E1|lia]. }
    assert (Hi : i = 0%nat). { destruct i as [|i]; [reflexivity|]. specialize (H2 0%nat ltac:(lia)). specialize (Hall 0%nat ltac:(lia)). lia. }
    subst i. destruct ok; [|reflexivity]. destruct (proj1 H4 eq_refl) as [Hi Ei]. specialize (Hall 0%nat Hi). lia.
  Qed.
End One.

Lemma get_outside f a : contains_addr f a = false -> func_get f a = LNone.
Proof. intros H. unfold func_get. rewrite H. reflexivity. Qed.
Lemma get_inside f a : contains_addr f a = true -> func_get f a <> LNone.
Proof.
  intros H. unfold func_get. rewrite H. cbn [negb]. destruct (bsearch (pf_addrs f) a) as [i ok]. destruct (_ <? 0); [discriminate|].
  destruct (nth_error _ _); discriminate.
Qed.
Definition disjoint (fs : list pfunc) : Prop := forall a i j f g, nth_error fs i = Some f -> nth_error fs j = Some g -> contains_addr f a = true -> contains_addr g a = true -> i = j.
Lemma progs_none fs a : (forall f, In f fs -> contains_addr f a = false) -> progs_get fs a = LNone.
Proof. induction fs as [|f fs IH]; intros H; [reflexivity|]. cbn [progs_get]. rewrite get_outside by (apply H; left; reflexivity). apply IH. intros g Hg. apply H. right. exact Hg. Qed.
Lemma progs_in fs a f : (forall g, In g fs -> contains_addr g a = true -> g = f) -> In f fs -> contains_addr f a = true -> progs_get fs a = func_get f a.
Proof.
  induction fs as [|g fs IH]; intros H Hi Hc; [destruct Hi|]. cbn [progs_get]. destruct (contains_addr g a) eqn:E.
  - rewrite (H g (or_introl eq_refl) E). pose proof (get_inside f a Hc). destruct (func_get f a); congruence.
  - rewrite (get_outside g a E). apply IH; [intros k Hk; apply H; right; exact Hk| |exact Hc]. destruct Hi as [->|Hi]; [congruence|exact Hi].
Qed.
Theorem progs_order fs fs' a : disjoint fs -> Permutation fs fs' -> progs_get fs a = progs_get fs' a.
Proof.
  intros Hd Hp. destruct (existsb (fun f => contains_addr f a) fs) eqn:E.
  - apply existsb_exists in E as (f & Hf & Hc).
    assert (U : forall g, In g fs -> contains_addr g a = true -> g = f).
    { intros g Hg Hgc. apply In_nth_error in Hg as (i & Hi). apply In_nth_error in Hf as (j & Hj). rewrite (Hd a i j g f Hi Hj Hgc Hc) in Hi. congruence. }
    rewrite (progs_in fs a f U Hf Hc). symmetry. apply progs_in; [|eapply Permutation_in; eassumption|exact Hc].
    intros g Hg. apply U. eapply Permutation_in; [apply Permutation_sym; exact Hp|exact Hg].
  - assert (N : forall f, In f fs -> contains_addr f a = false).
    { intros f Hf. destruct (contains_addr f a) eqn:Ec; [|reflexivity]. exfalso. assert (existsb (fun f => contains_addr f a) fs = true) by (apply existsb_exists; exists f; split; assumption). congruence. }
    rewrite (progs_none fs a N). symmetry. apply progs_none. intros f Hf. apply N. eapply Permutation_in; [apply Permutation_sym; exact Hp|exact Hf].
Qed.
