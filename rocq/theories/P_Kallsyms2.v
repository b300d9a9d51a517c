(** * Look-up by name. *)
From Coq Require Import ZArith List Bool String Lia Permutation.
From Verif Require Import M_Go P_Go M_Kallsyms S_Kallsyms P_Kallsyms.
Import ListNotations.
Open Scope Z_scope.

Lemma In_aget {K V} eqb (H : eqb_ok eqb) (k : K) (v : V) m : NoDup (keys m) -> In (k, v) m -> aget eqb k m = Some v.
Proof.
  induction m as [|[k' v'] m IH]; intros Hnd Hin; [contradiction|]. cbn [aget]. unfold keys in Hnd. cbn [map fst] in Hnd. inversion Hnd; subst.
  destruct (H k k') as [->|Hne].
  - destruct Hin as [Hin|Hin]; [congruence|]. exfalso. apply H2. apply (in_map fst) in Hin. exact Hin.
  - destruct Hin as [Hin|Hin]; [congruence|]. apply IH; assumption.
Qed.
Lemma nth_first_named syms p a n : nth_error syms p = Some (a, n) ->
  (forall j s, (j < p)%nat -> nth_error syms j = Some s -> snd s <> n) -> first_named syms (a, n).
Proof.
  intros Hp Hf. destruct (nth_error_split _ _ Hp) as (pre & post & E & L). exists pre, post. split; [exact E|].
  intros s' Hs. destruct (In_nth_error _ _ Hs) as (j & Hj).
  assert (j < List.length pre)%nat by (apply nth_error_Some; congruence).
  cbn [snd]. apply (Hf j); [lia|]. rewrite E, nth_error_app1 by assumption. exact Hj.
Qed.
Lemma pos_named ks syms n p : inv ks syms -> aget String.eqb n (n2s ks) = Some p ->
  exists e, nth_error (heap ks) p = Some e /\ kname e = n /\ first_named syms (kaddr e, kname e).
Proof.
  intros I E. pose proof (i_n2s _ _ I n) as Hn. rewrite E in Hn. destruct Hn as [(a & Hp) Hf].
  pose proof Hp as Hp'. rewrite <- (i_heap _ _ I), nth_error_map in Hp'.
  destruct (nth_error (heap ks) p) as [e|] eqn:Ee; [|discriminate]. cbn in Hp'. injection Hp' as Hea Hen.
  exists e. split; [reflexivity|]. split; [exact Hen|]. rewrite Hea, Hen. eapply nth_first_named; eassumption.
Qed.
Lemma unlisted ks ls n : inv ks (text_syms ls) -> (~ listed ls n <-> aget String.eqb n (n2s ks) = None).
Proof.
  intros I. pose proof (i_n2s _ _ I n) as Hn. destruct (aget String.eqb n (n2s ks)) as [p|] eqn:E.
  - destruct Hn as [(a & Hp) _]. split; [|discriminate]. intros H. exfalso. apply H. exists (a, n). split; [|reflexivity].
    eapply nth_error_In; exact Hp.
  - split; [reflexivity|]. intros _ (s & Hs & Hsn). exact (Hn s Hs Hsn).
Qed.
Lemma first_suffix_app m sym pre sfx p : (forall s, In s pre -> aget String.eqb (String.append sym s) m = None) ->
  forall post, aget String.eqb (String.append sym sfx) m = Some p -> first_suffix m sym (pre ++ sfx :: post) = Some p.
Proof.
  induction pre as [|s pre IH]; intros Hn post Hp; cbn [first_suffix app].
  - rewrite Hp. reflexivity.
  - rewrite (Hn s (or_introl eq_refl)). apply IH; [|exact Hp]. intros x Hx. apply Hn. right. exact Hx.
Qed.
Lemma first_suffix_none m sym sfx : (forall s, In s sfx -> aget String.eqb (String.append sym s) m = None) -> first_suffix m sym sfx = None.
Proof.
  induction sfx as [|s sfx IH]; intros Hn; cbn [first_suffix]; [reflexivity|].
  rewrite (Hn s (or_introl eq_refl)). apply IH. intros x Hx. apply Hn. right. exact Hx.
Qed.
Lemma prefix_clone p n : prefix p n = true <-> exists h, n = String.append p h.
Proof.
  revert n. induction p as [|c p IH]; intros n; [cbn|].
  - split; [eauto|destruct n; reflexivity].
  - destruct n as [|d n]; [split; [discriminate|intros (h & H); discriminate]|]. change (prefix (String c p) (String d n)) with (if Ascii.ascii_dec c d then prefix p n else false).
    destruct (Ascii.ascii_dec c d) as [->|Hc].
    + rewrite IH. split; intros (h & H); exists h; [rewrite H; reflexivity|injection H; auto].
    + split; [discriminate|]. intros (h & H). injection H as H _. congruence.
Qed.
Lemma first_prefix_spec pfx order : match first_prefix order pfx with
  | Some p => exists n, In (n, p) order /\ prefix pfx n = true
  | None => forall n p, In (n, p) order -> prefix pfx n = false
  end.
Proof.
  induction order as [|[n p] o IH]; cbn [first_prefix]; [intros n p H; contradiction|].
  destruct (prefix pfx n) eqn:E; [exists n; split; [left; reflexivity|exact E]|].
  destruct (first_prefix o pfx) as [q|].
  - destruct IH as (m & Hm & Hp). exists m. split; [right; exact Hm|exact Hp].
  - intros m q [H|H]; [injection H as -> _; exact E|eapply IH; exact H].
Qed.

Lemma by_suffix ls ks order sym pre sfx post : new_kallsyms ls = Some ks ->
  ~ listed ls sym -> clone_suffixes = pre ++ sfx :: post -> (forall s, In s pre -> ~ listed ls (String.append sym s)) ->
  listed ls (String.append sym sfx) ->
  exists e, find_by_symbol ks order sym = Some e /\ kname e = String.append sym sfx /\ first_named (text_syms ls) (kaddr e, kname e).
Proof.
  intros H H0 Hs Hpre Hin. pose proof (load_inv _ _ H) as I. unfold find_by_symbol.
  apply (unlisted ks) in H0; [|exact I]. rewrite H0.
  destruct (aget String.eqb (String.append sym sfx) (n2s ks)) as [p|] eqn:E.
  2:{ exfalso. apply (unlisted ks ls) in E; [contradiction|exact I]. }
  change suffixes with clone_suffixes. rewrite Hs, (first_suffix_app _ _ _ _ p); [|intros s Hi; apply (unlisted ks ls); auto|exact E].
  destruct (pos_named _ _ _ _ I E) as (e & He & Hn & Hf). exists e. cbn [entry_pos]. auto.
Qed.
Lemma by_llvm ls ks order sym : new_kallsyms ls = Some ks -> Permutation order (n2s ks) ->
  ~ listed ls sym -> (forall s, In s clone_suffixes -> ~ listed ls (String.append sym s)) ->
  match find_by_symbol ks order sym with
  | Some e => llvm_clone sym (kname e) /\ first_named (text_syms ls) (kaddr e, kname e)
  | None => forall n, llvm_clone sym n -> ~ listed ls n
  end.
Proof.
  intros H Hperm H0 Hsfx. pose proof (load_inv _ _ H) as I. unfold find_by_symbol.
  apply (unlisted ks) in H0; [|exact I]. rewrite H0.
  rewrite first_suffix_none by (intros s Hi; apply (unlisted ks ls); auto).
  pose proof (first_prefix_spec (String.append sym ".llvm.") order) as Hp.
  destruct (first_prefix order (String.append sym ".llvm.")) as [p|].
  - destruct Hp as (n & Hin & Hpf). apply (Permutation_in _ Hperm) in Hin.
    assert (E : aget String.eqb n (n2s ks) = Some p) by (apply (In_aget _ Seqb_ok); [exact (i_nd1 _ _ I)|exact Hin]).
    destruct (pos_named _ _ _ _ I E) as (e & He & Hn & Hf). cbn [entry_pos]. rewrite He. split; [|exact Hf].
    rewrite Hn. apply prefix_clone. exact Hpf.
  - cbn [entry_pos]. intros n Hc Hl. destruct (aget String.eqb n (n2s ks)) as [p|] eqn:E.
    + apply (aget_In _ Seqb_ok) in E. apply (Permutation_in _ (Permutation_sym Hperm)) in E.
      apply Hp in E. apply prefix_clone in Hc. congruence.
    + apply (unlisted ks ls) in E; [contradiction|exact I].
Qed.
