(** * Lemmas about the Go primitives. *)
From Coq Require Import ZArith List Bool String Lia Sorting.Permutation Sorting.Sorted.
From Verif Require Import M_Go.
Import ListNotations.
Open Scope Z_scope.

Definition eqb_ok {K} (eqb : K -> K -> bool) := forall a b, reflect (a = b) (eqb a b).

Lemma Zeqb_ok : eqb_ok Z.eqb.
Proof. intros a b. apply Z.eqb_spec. Qed.
Lemma Seqb_ok : eqb_ok String.eqb.
Proof. intros a b. apply String.eqb_spec. Qed.

Lemma aget_aput {K V} eqb (H : eqb_ok eqb) (k k' : K) (v : V) m :
  aget eqb k' (aput eqb k v m) = if eqb k' k then Some v else aget eqb k' m.
Proof.
  induction m as [|[a b] m IH]; cbn; [reflexivity|].
  destruct (H k a); cbn.
  - subst. destruct (H k' a); reflexivity.
  - rewrite IH. destruct (H k' a); [|reflexivity]. subst. destruct (H a k); congruence.
Qed.

Lemma aget_None {K V} eqb (H : eqb_ok eqb) (k : K) (m : list (K * V)) :
  aget eqb k m = None <-> ~ In k (keys m).
Proof.
  induction m as [|[a b] m IH]; cbn; [tauto|].
  destruct (H k a); [subst; split; [discriminate|intros X; exfalso; auto]|].
  rewrite IH. split; intuition congruence.
Qed.

Lemma aget_In {K V} eqb (H : eqb_ok eqb) (k : K) (v : V) m :
  aget eqb k m = Some v -> In (k, v) m.
Proof.
  induction m as [|[a b] m IH]; cbn; [discriminate|].
  destruct (H k a); [|auto]. intros [= ->]. subst. auto.
Qed.

Lemma keys_aput {K V} eqb (H : eqb_ok eqb) (k : K) (v : V) m x :
  In x (keys (aput eqb k v m)) <-> x = k \/ In x (keys m).
Proof.
  induction m as [|[a b] m IH]; cbn; [intuition|].
  destruct (H k a); cbn; [subst; intuition|]. rewrite IH. intuition.
Qed.

Lemma NoDup_aput {K V} eqb (H : eqb_ok eqb) (k : K) (v : V) m :
  NoDup (keys m) -> NoDup (keys (aput eqb k v m)).
Proof.
  induction m as [|[a b] m IH]; cbn; intros Hn.
  - constructor; [auto|constructor].
  - inversion Hn; subst. destruct (H k a); cbn.
    + subst. constructor; assumption.
    + constructor; [|apply IH; assumption]. intros X. apply (keys_aput eqb H) in X. destruct X; [congruence|contradiction].
Qed.

Lemma aget_adel {K V} eqb (H : eqb_ok eqb) (k k' : K) (m : list (K * V)) :
  NoDup (keys m) ->
  aget eqb k' (adel eqb k m) = if eqb k' k then None else aget eqb k' m.
Proof.
  induction m as [|[a b] m IH]; cbn; intros Hn.
  - destruct (eqb k' k); reflexivity.
  - inversion Hn; subst. destruct (H k a); cbn.
    + subst. destruct (H k' a); [|reflexivity]. subst. apply aget_None; assumption.
    + rewrite IH by assumption. destruct (H k' a); [|reflexivity]. subst.
      destruct (H a k); congruence.
Qed.

Lemma keys_adel_incl {K V} eqb (k : K) (m : list (K * V)) x :
  In x (keys (adel eqb k m)) -> In x (keys m).
Proof.
  induction m as [|[a b] m IH]; cbn; [tauto|].
  destruct (eqb k a); cbn; intuition.
Qed.
Lemma NoDup_adel {K V} eqb (k : K) (m : list (K * V)) :
  NoDup (keys m) -> NoDup (keys (adel eqb k m)).
Proof.
  induction m as [|[a b] m IH]; cbn; intros Hn; [constructor|].
  inversion Hn; subst. destruct (eqb k a); cbn; [assumption|].
  constructor; [|auto]. intros X. apply keys_adel_incl in X. contradiction.
Qed.

Lemma insert_perm {A} leb (x : A) l : Permutation (x :: l) (insert leb x l).
Proof.
  induction l as [|y l IH]; cbn; [reflexivity|].
  destruct (leb x y); [reflexivity|].
  rewrite perm_swap. constructor. exact IH.
Qed.
Lemma isort_perm {A} leb (l : list A) : Permutation l (isort leb l).
Proof.
  induction l as [|x l IH]; cbn; [reflexivity|].
  rewrite <- insert_perm. constructor. exact IH.
Qed.

Lemma isort_In {A} leb (x : A) l : In x (isort leb l) <-> In x l.
Proof.
  split; apply Permutation_in; [symmetry|]; apply isort_perm.
Qed.

Lemma insert_sorted {A} (R : A -> A -> Prop) leb (x : A) l :
  (forall a b, leb a b = true -> R a b) -> (forall a b, leb a b = false -> R b a) ->
  (forall a b c, R a b -> R b c -> R a c) ->
  StronglySorted R l -> StronglySorted R (insert leb x l).
Proof.
  intros H1 H2 Ht Hs. induction Hs as [|y l Hs IH Hf]; cbn.
  - constructor; constructor.
  - destruct (leb x y) eqn:E.
    + constructor; [constructor; assumption|]. constructor; [auto|].
      eapply Forall_impl; [|exact Hf]. intros z Hz. eapply Ht; [apply H1; exact E|exact Hz].
    + constructor; [exact IH|]. rewrite <- insert_perm.
      constructor; [auto|exact Hf].
Qed.
Lemma isort_sorted {A} (R : A -> A -> Prop) leb (l : list A) :
  (forall a b, leb a b = true -> R a b) -> (forall a b, leb a b = false -> R b a) ->
  (forall a b c, R a b -> R b c -> R a c) ->
  StronglySorted R (isort leb l).
Proof.
  intros; induction l; cbn; [constructor|]. eapply insert_sorted; eassumption.
Qed.

Lemma isort_Z_sorted l : StronglySorted Z.le (isort Z.leb l).
Proof.
  apply isort_sorted; intros; [apply Z.leb_le; assumption|apply Z.leb_gt in H; lia|lia].
Qed.
Lemma isort_Z_strict l : NoDup l -> StronglySorted Z.lt (isort Z.leb l).
Proof.
  intros Hn. pose proof (isort_Z_sorted l) as Hs.
  assert (Hn' : NoDup (isort Z.leb l)) by (eapply Permutation_NoDup; [apply isort_perm|assumption]).
  induction Hs as [|a l' Hs IH Hf]; [constructor|].
  inversion Hn'; subst. constructor; [auto|].
  rewrite Forall_forall in *. intros x Hx. specialize (Hf x Hx).
  assert (a <> x) by (intros ->; contradiction). lia.
Qed.

Lemma nth_sorted_lt l i j d :
  StronglySorted Z.lt l -> (i < j)%nat -> (j < List.length l)%nat -> nth i l d < nth j l d.
Proof.
  intros Hs; revert i j; induction Hs as [|a l Hs IH Hf]; intros i j Hij Hj; cbn in Hj; [lia|].
  destruct j as [|j]; [lia|]. destruct i as [|i]; cbn.
  - rewrite Forall_forall in Hf. apply Hf. apply nth_In. lia.
  - apply IH; lia.
Qed.

Lemma le_bytes_range l : Forall is_byte l -> 0 <= le_bytes l < 256 ^ Z.of_nat (List.length l).
Proof.
  induction 1 as [|b l Hb Hl IH]; cbn [le_bytes List.length]; [cbn; lia|].
  rewrite Nat2Z.inj_succ, Z.pow_succ_r by lia. unfold is_byte in Hb. nia.
Qed.
