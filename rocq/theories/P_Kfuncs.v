(** * Proofs about kernel-function selection *)
From Coq Require Import List Bool String Ascii ZArith Lia Sorting.Sorted Permutation.
From Verif Require Import M_Go P_Go M_Flags M_Kfuncs S_Kfuncs.
Import ListNotations.
Open Scope string_scope.
Open Scope list_scope.

Definition first_at (ps : list param) (name : string) (i : nat) (p : param) : Prop :=
  nth_error ps i = Some p /\ pm_name p = name /\ forall j q, (j < i)%nat -> nth_error ps j = Some q -> pm_name q <> name.
Lemma first_at_cons ps name i p x : pm_name x <> name -> first_at ps name i p <-> first_at (x :: ps) name (S i) p.
Proof.
  intros Hx. unfold first_at. cbn [nth_error]. split; intros (A & B & C); repeat split; auto.
  - intros [|j] q Hj Hq; cbn in Hq; [injection Hq as <-; exact Hx|]. apply (C j q); [lia|exact Hq].
  - intros j q Hj Hq. apply (C (S j) q); [lia|exact Hq].
Qed.
Lemma first_at_head ps name i p x : pm_name x = name -> first_at (x :: ps) name i p <-> (i = O /\ p = x).
Proof.
  intros Hx. unfold first_at. split.
  - intros (A & B & C). destruct i as [|i]; [cbn in A; injection A as <-; auto|]. exfalso. apply (C O x); [lia|reflexivity|exact Hx].
  - intros [-> ->]. repeat split; auto. intros j q Hj. lia.
Qed.
Lemma match_arg_iff arg typ ps : match_arg arg typ ps = true <-> exists i p, first_at ps arg i p /\ (typ = "" \/ pm_type p = typ).
Proof.
  induction ps as [|x ps IH]; cbn [match_arg].
  - split; [discriminate|]. intros (i & p & (A & _) & _). destruct i; discriminate.
  - destruct (String.eqb_spec (pm_name x) arg) as [E|E].
    + rewrite orb_true_iff, !String.eqb_eq. split.
      * intros H. exists O, x. split; [apply first_at_head; auto|]. destruct H; auto.
      * intros (i & p & H & Ht). apply first_at_head in H; [|exact E]. destruct H as [-> ->]. destruct Ht; auto.
    + rewrite IH. split; intros (i & p & H & Ht).
      * exists (S i), p. split; [apply first_at_cons; assumption|exact Ht].
      * destruct i as [|i]; [destruct H as (A & B & _); cbn in A; congruence|]. exists i, p. split; [apply <- first_at_cons; [exact H|exact E]|exact Ht].
Qed.
Lemma arg_within_iff name i max ps : arg_within name i max ps = true <-> exists j p, first_at ps name j p /\ (i + Z.of_nat j < max)%Z.
Proof.
  revert i. induction ps as [|x ps IH]; intros i; cbn [arg_within].
  - split; [discriminate|]. intros (j & p & (A & _) & _). destruct j; discriminate.
  - destruct (String.eqb_spec (pm_name x) name) as [E|E].
    + rewrite Z.ltb_lt. split.
      * intros H. exists O, x. split; [apply first_at_head; auto|lia].
      * intros (j & p & H & Ht). apply first_at_head in H; [|exact E]. destruct H as [-> ->]. lia.
    + rewrite IH. split; intros (j & p & H & Ht).
      * exists (S j), p. split; [apply first_at_cons; assumption|lia].
      * destruct j as [|j]; [destruct H as (A & B & _); cbn in A; congruence|]. exists j, p. split; [apply <- first_at_cons; [exact H|exact E]|lia].
Qed.
Lemma variadic_iff fn : variadic fn = true <-> has_varargs fn.
Proof.
  unfold variadic, has_varargs. split.
  - destruct (rev (fn_params fn)) as [|p r] eqn:E; [discriminate|]. unfold is_valist. intros H. apply andb_prop in H as [H1 H2]. apply String.eqb_eq in H1.
    exists (rev r), p. apply (f_equal (@rev _)) in E. rewrite rev_involutive in E. cbn in E. auto.
  - intros (l & p & E & H1 & H2). rewrite E, rev_app_distr. cbn. unfold is_valist. rewrite H1, H2. reflexivity.
Qed.
Section G.
  Variable glob : string -> string -> bool.
  Variable syms : string -> option ksym.
  Lemma pmatch_iff m fn : pmatch glob m fn = true <-> fits glob m fn.
  Proof.
    unfold pmatch, fits. rewrite andb_true_iff, orb_true_iff, String.eqb_eq, match_arg_iff. reflexivity.
  Qed.
  Lemma match_kfunc_iff fn ms m : match_kfunc glob fn ms = Some m <-> first_fit glob ms m fn.
  Proof.
    induction ms as [|x ms IH]; cbn [match_kfunc].
    - split; [discriminate|]. intros (l1 & l2 & E & _). destruct l1; discriminate.
    - destruct (pmatch glob x fn) eqn:E.
      + apply pmatch_iff in E. split.
        * intros H. injection H as <-. exists [], ms. split; [reflexivity|]. split; [exact E|intros q []].
        * intros ([|y l1] & l2 & El & Hf & Hn); cbn in El; injection El as -> El; [reflexivity|]. exfalso. apply (Hn y); [left; reflexivity|exact E].
      + assert (E' : ~ fits glob x fn) by (intros H; apply pmatch_iff in H; congruence). rewrite IH. split.
        * intros (l1 & l2 & -> & Hf & Hn). exists (x :: l1), l2. split; [reflexivity|]. split; [exact Hf|]. intros q [<-|Hq]; auto.
        * intros ([|y l1] & l2 & El & Hf & Hn); cbn in El; injection El as -> El; [congruence|]. exists l1, l2. split; [exact El|]. split; [exact Hf|]. intros q Hq. apply Hn. right. exact Hq.
  Qed.
  Theorem match_iff ms max fn m k : match_kernel_func glob syms ms max fn = Some (m, k) <-> selected glob syms ms max fn m k.
  Proof.
    unfold match_kernel_func, selected. destruct (match_kfunc glob fn ms) as [m'|] eqn:Em.
    2:{ split; [discriminate|]. intros [H _]. apply match_kfunc_iff in H. congruence. }
    assert (Eq : first_fit glob ms m fn <-> m = m').
    { rewrite <- match_kfunc_iff, Em. split; congruence. }
    rewrite Eq. unfold traceable. destruct (variadic fn) eqn:Ev.
    { split; [discriminate|]. intros (_ & H & _). apply variadic_iff in Ev. contradiction. }
    assert (Hv : ~ has_varargs fn) by (intros H; apply variadic_iff in H; congruence).
    destruct (fn_ret_struct fn). { split; [discriminate|]. intros (_ & _ & H & _). discriminate. }
    destruct (syms (fn_name fn)) as [k'|]. 2:{ split; [discriminate|]. intros (_ & _ & _ & _ & H & _). discriminate. }
    destruct (ky_duped k' && negb (f_multi m')) eqn:Ed.
    { apply andb_prop in Ed as [Ed1 Ed2]. split; [discriminate|]. intros (-> & _ & _ & _ & H & Hd & _). injection H as ->. rewrite (Hd Ed1) in Ed2. discriminate. }
    assert (Hd : ky_duped k' = true -> f_multi m' = true) by (intros H; rewrite H in Ed; cbn in Ed; destruct (f_multi m'); [reflexivity|discriminate]).
    destruct (fn_params_ok fn); cbn [negb]. 2:{ split; [discriminate|]. intros (_ & _ & _ & H & _). discriminate. }
    destruct (Z.leb_spec (Z.of_nat (List.length (fn_params fn))) max) as [Hl|Hl].
    - split; [intros H; injection H as <- <-; repeat split; auto|]. intros (-> & _ & _ & _ & H & _). congruence.
    - destruct (f_multi m' && arg_within (f_argName m') 0 max (fn_params fn)) eqn:Ea.
      + apply andb_prop in Ea as [Ea1 Ea2]. apply arg_within_iff in Ea2 as (j & p & Hj & Hlt). split; [intros H; injection H as <- <-; repeat split; auto|intros (-> & _ & _ & _ & H & _); congruence].
        right. split; [exact Ea1|]. exists j, p. split; [exact Hj|lia].
      + split; [discriminate|]. intros (-> & _ & _ & _ & _ & _ & [H|[H (i & p & Hi & Hlt)]]); [lia|]. rewrite H in Ea. cbn in Ea.
        assert (arg_within (f_argName m') 0 max (fn_params fn) = true) by (apply arg_within_iff; exists i, p; split; [exact Hi|lia]). congruence.
  Qed.

  Lemma find_app ms max l x : find_funcs glob syms ms max (l ++ [x]) = visit glob syms ms max (find_funcs glob syms ms max l) x.
  Proof. unfold find_funcs. rewrite fold_left_app. reflexivity. Qed.
  Theorem find_iff ms max all a kf : aget Z.eqb a (find_funcs glob syms ms max all) = Some kf <-> the_last glob syms ms max a all kf.
  Proof.
    induction all as [|[b f] l IH] using rev_ind.
    - cbn. split; [discriminate|]. intros (l1 & l2 & k & E & _). destruct l1; discriminate.
    - rewrite find_app. unfold visit. cbn [fst snd]. destruct (match_kernel_func glob syms ms max f) as [[m k]|] eqn:Em.
      + apply match_iff in Em. rewrite (aget_aput _ Zeqb_ok). destruct (Z.eqb_spec a (ky_addr k)) as [E|E].
        * subst a. split.
          -- intros H. injection H as <-. exists l, [], k. split; [reflexivity|]. split; [exact Em|]. split; [reflexivity|]. intros b' f' m' k' [].
          -- intros (l1 & l2 & k2 & El & Hs & Ha & Hn). destruct l2 as [|y l2] using rev_ind.
             ++ apply app_inj_tail in El as [_ El]. destruct kf as [ff fm fb]; cbn in *. injection El as <- <-. f_equal. f_equal. apply match_iff in Em, Hs. congruence.
             ++ clear IHl2. rewrite app_comm_cons, app_assoc in El. apply app_inj_tail in El as [_ <-]. exfalso. apply (Hn b f m k); [apply in_or_app; right; left; reflexivity|exact Em|reflexivity].
        * rewrite IH. split; intros (l1 & l2 & k2 & El & Hs & Ha & Hn).
          -- exists l1, (l2 ++ [(b, f)]), k2. split; [rewrite El, <- app_assoc; reflexivity|]. split; [exact Hs|]. split; [exact Ha|]. intros b' f' m' k' Hin Hs'.
             apply in_app_or in Hin as [Hin|[Hin|[]]]; [exact (Hn b' f' m' k' Hin Hs')|]. injection Hin as <- <-. apply match_iff in Em, Hs'. congruence.
          -- destruct l2 as [|y l2] using rev_ind.
             ++ apply app_inj_tail in El as [_ El]. injection El as -> ->. exfalso. apply E. rewrite <- Ha. apply match_iff in Em, Hs. congruence.
             ++ clear IHl2. rewrite app_comm_cons, app_assoc in El. apply app_inj_tail in El as [El _]. exists l1, l2, k2. split; [exact El|]. split; [exact Hs|]. split; [exact Ha|].
                intros b' f' m' k' Hin. apply (Hn b' f' m' k'). apply in_or_app. auto.
      + rewrite IH. split; intros (l1 & l2 & k2 & El & Hs & Ha & Hn).
        * exists l1, (l2 ++ [(b, f)]), k2. split; [rewrite El, <- app_assoc; reflexivity|]. split; [exact Hs|]. split; [exact Ha|]. intros b' f' m' k' Hin Hs'.
          apply in_app_or in Hin as [Hin|[Hin|[]]]; [exact (Hn b' f' m' k' Hin Hs')|]. injection Hin as <- <-. apply match_iff in Hs'. congruence.
        * destruct l2 as [|y l2] using rev_ind.
          -- apply app_inj_tail in El as [_ El]. injection El as -> ->. apply match_iff in Hs. congruence.
          -- clear IHl2. rewrite app_comm_cons, app_assoc in El. apply app_inj_tail in El as [El _]. exists l1, l2, k2. split; [exact El|]. split; [exact Hs|]. split; [exact Ha|].
             intros b' f' m' k' Hin. apply (Hn b' f' m' k'). apply in_or_app. auto.
  Qed.
  Lemma find_nodup ms max all : NoDup (keys (find_funcs glob syms ms max all)).
  Proof.
    induction all as [|x l IH] using rev_ind; [constructor|]. rewrite find_app. unfold visit. destruct (match_kernel_func glob syms ms max (snd x)) as [[m k]|]; [|exact IH].
    apply (NoDup_aput _ Zeqb_ok). exact IH.
  Qed.
  Lemma aget_filter (P : Z * kfunc -> bool) (l : kfuncs) a kf : NoDup (keys l) ->
    aget Z.eqb a (filter P l) = Some kf <-> aget Z.eqb a l = Some kf /\ P (a, kf) = true.
  Proof.
    induction l as [|[k v] l IH]; intros Hn; cbn [filter aget]; [split; [discriminate|intros [H _]; discriminate]|]. inversion Hn as [|? ? H1 H2]; subst.
    destruct (P (k, v)) eqn:E; cbn [aget]; destruct (Z.eqb_spec a k) as [Ea|Ea].
    - subst k. split; [intros H; injection H as <-; auto|intros [H _]; exact H].
    - apply IH. exact H2.
    - subst k. rewrite IH by exact H2. split; [intros [H _]|intros [H Hp]; injection H as <-; congruence]. exfalso. apply H1. apply (aget_In _ Zeqb_ok) in H. apply (in_map fst) in H. exact H.
    - apply IH. exact H2.
  Qed.
  Lemma mem_iff x l : mem x l = true <-> In x l.
  Proof. unfold mem. rewrite existsb_exists. split; [intros (y & Hy & E); apply String.eqb_eq in E; subst; exact Hy|intros H; exists x; split; [exact H|apply String.eqb_refl]]. Qed.
  Theorem search_iff ex ms max all a kf : aget Z.eqb a (search_funcs glob syms ex ms max all) = Some kf <->
    the_last glob syms ms max a all kf /\ ~ In (fn_name (kf_func kf)) deny /\
    ~ ((ex = true \/ f_both (kf_flag kf) = true \/ f_insn (kf_flag kf) = true \/ f_graph (kf_flag kf) = true) /\ In (fn_name (kf_func kf)) noreturn).
  Proof.
    unfold search_funcs. rewrite (aget_filter _ _ a kf (find_nodup ms max all)), find_iff. cbn [snd].
    rewrite <- !mem_iff.
    destruct (mem (fn_name (kf_func kf)) noreturn), (mem (fn_name (kf_func kf)) deny), ex, (f_both (kf_flag kf)), (f_insn (kf_flag kf)), (f_graph (kf_flag kf)); cbn; intuition congruence.
  Qed.
End G.

(** ** BTF files *)
Lemma compact_In {A} (eqb : A -> A -> bool) (H : eqb_ok eqb) (x : A) l : In x (compact eqb l) <-> In x l.
Proof.
  induction l as [|a l IH]; cbn [compact]; [reflexivity|]. destruct l as [|b l]; [reflexivity|]. destruct (H a b) as [E|E].
  - rewrite IH. subst. cbn. tauto.
  - cbn [In] in *. rewrite IH. tauto.
Qed.
Lemma sort_compact_In x l : In x (sort_compact l) <-> In x l.
Proof. unfold sort_compact. rewrite (compact_In _ Seqb_ok), isort_In. reflexivity. Qed.
Definition sle (a b : string) : Prop := String.leb a b = true.
Lemma ascii_cmp_trans a b c : Ascii.compare a b = Lt -> Ascii.compare b c = Lt -> Ascii.compare a c = Lt.
Proof. unfold Ascii.compare. rewrite !N.compare_lt_iff. lia. Qed.
Lemma ascii_cmp_eq a b : Ascii.compare a b = Eq -> a = b.
Proof. apply Ascii.compare_eq_iff. Qed.
Lemma str_lt_trans a : forall b c, String.compare a b = Lt -> String.compare b c = Lt -> String.compare a c = Lt.
Proof.
  induction a as [|x a IH]; intros [|y b] [|z c]; cbn [String.compare]; intros H1 H2; try discriminate; auto.
  destruct (Ascii.compare x y) eqn:E1; try discriminate; destruct (Ascii.compare y z) eqn:E2; try discriminate.
  - apply ascii_cmp_eq in E1, E2. subst. assert (Ascii.compare z z = Eq) as -> by (unfold Ascii.compare; apply N.compare_refl). eapply IH; eassumption.
  - apply ascii_cmp_eq in E1. subst. rewrite E2. reflexivity.
  - apply ascii_cmp_eq in E2. subst. rewrite E1. reflexivity.
  - rewrite (ascii_cmp_trans _ _ _ E1 E2). reflexivity.
Qed.
Lemma str_cmp_refl a : String.compare a a = Eq.
Proof. induction a as [|x a IH]; cbn [String.compare]; [reflexivity|]. unfold Ascii.compare. rewrite N.compare_refl. exact IH. Qed.
Lemma leb_lt_eq a b : String.leb a b = true <-> String.compare a b = Lt \/ a = b.
Proof.
  unfold String.leb. destruct (String.compare a b) eqn:E; split; intros H; auto; try discriminate.
  - right. apply String.compare_eq_iff in E. exact E.
  - destruct H as [H|H]; [discriminate|]. subst. assert (H := str_cmp_refl b). congruence.
Qed.
Lemma sle_trans a b c : sle a b -> sle b c -> sle a c.
Proof.
  unfold sle. rewrite !leb_lt_eq. intros [H1|H1] [H2|H2]; subst; auto. left. eapply str_lt_trans; eassumption.
Qed.
Lemma sle_total a b : String.leb a b = false -> sle b a.
Proof.
  unfold sle, String.leb. rewrite (String.compare_antisym b a). destruct (String.compare a b); cbn; congruence.
Qed.
Lemma sorted_sort l : StronglySorted sle (isort String.leb l).
Proof. apply isort_sorted; first [exact sle_trans|exact sle_total|intros; assumption]. Qed.
Lemma compact_nodup l : StronglySorted sle l -> NoDup (compact String.eqb l).
Proof.
  induction l as [|a l IH]; intros H; [constructor|]. inversion H as [|? ? H1 H2]; subst. cbn [compact]. destruct l as [|b l]; [repeat constructor; auto|].
  destruct (String.eqb_spec a b) as [E|E]; [apply IH; exact H1|]. constructor; [|apply IH; exact H1]. rewrite (compact_In _ Seqb_ok). intros Hin.
  inversion H1 as [|? ? H3 H4]; subst. destruct Hin as [<-|Hin]; [congruence|].
  rewrite Forall_forall in H2, H4. specialize (H2 b (or_introl eq_refl)). specialize (H4 a Hin). unfold sle in H2, H4. apply leb_lt_eq in H2, H4.
  destruct H2 as [H2|H2]; [|congruence]. destruct H4 as [H4|H4]; [|congruence]. assert (H5 := str_lt_trans _ _ _ H2 H4).
  assert (H6 := str_cmp_refl a). congruence.
Qed.
Lemma sort_compact_nodup l : NoDup (sort_compact l).
Proof. apply compact_nodup, sorted_sort. Qed.
Lemma compact_sorted l : StronglySorted sle l -> StronglySorted sle (compact String.eqb l).
Proof.
  induction l as [|a l IH]; intros H; [constructor|]. inversion H as [|? ? H1 H2]; subst. cbn [compact]. destruct l as [|b l]; [repeat constructor|].
  destruct (String.eqb_spec a b) as [E|E]; [apply IH; exact H1|]. constructor; [apply IH; exact H1|].
  rewrite Forall_forall in *. intros x Hx. apply H2. apply (proj1 (compact_In _ Seqb_ok x _)). exact Hx.
Qed.
Lemma sort_compact_sorted l : StronglySorted sle (sort_compact l).
Proof. apply compact_sorted, sorted_sort. Qed.
Lemma index_of_spec x l : match index_of x l with
  | Some i => exists l1 l2, l = l1 ++ x :: l2 /\ List.length l1 = i /\ ~ In x l1
  | None => ~ In x l end.
Proof.
  induction l as [|y l IH]; cbn [index_of]; [intros []|]. destruct (String.eqb_spec x y) as [E|E].
  - subst. exists [], l. auto.
  - destruct (index_of x l) as [i|]; cbn [option_map].
    + destruct IH as (l1 & l2 & -> & <- & Hn). exists (y :: l1), l2. split; [reflexivity|]. split; [reflexivity|]. intros [H|H]; [congruence|auto].
    + intros [H|H]; [congruence|auto].
Qed.
Lemma sorted_app_le l1 x l2 y : StronglySorted sle (l1 ++ x :: l2) -> In y l2 -> sle x y.
Proof.
  induction l1 as [|a l1 IH]; cbn; intros H Hy; inversion H as [|? ? H1 H2]; subst; [|auto]. rewrite Forall_forall in H2. auto.
Qed.
Lemma sorted_app_ge l1 x l2 y : StronglySorted sle (l1 ++ x :: l2) -> In y l1 -> sle y x.
Proof.
  induction l1 as [|a l1 IH]; cbn; intros H Hy; inversion H as [|? ? H1 H2]; subst; [contradiction|]. destruct Hy as [<-|Hy]; [|auto].
  rewrite Forall_forall in H2. apply H2. apply in_or_app. right. left. reflexivity.
Qed.
(** the modules before "vmlinux" in the sorted list are those smaller than it *)
Lemma before_iff x l : In x l -> exists l1 l2, sort_compact l = l1 ++ x :: l2 /\ index_of x (sort_compact l) = Some (List.length l1) /\ NoDup l1 /\
  (forall y, In y l1 <-> In y l /\ String.ltb y x = true).
Proof.
  intros Hx. assert (S := index_of_spec x (sort_compact l)). destruct (index_of x (sort_compact l)) as [i|]; [|exfalso; apply S, sort_compact_In, Hx].
  destruct S as (l1 & l2 & E & <- & Hn). exists l1, l2. split; [exact E|]. split; [reflexivity|].
  assert (ND := sort_compact_nodup l). assert (SS := sort_compact_sorted l). rewrite E in ND, SS. split.
  { clear -ND. induction l1 as [|a l1 IH]; [constructor|]. cbn in ND. inversion ND as [|? ? H1 H2]; subst. constructor; [intros H; apply H1, in_or_app; auto|auto]. }
  assert (Hl : forall y, String.ltb y x = true <-> sle y x /\ y <> x).
  { intros y. unfold sle. rewrite leb_lt_eq. unfold String.ltb. destruct (String.compare y x) eqn:Ec; split; intros H; try discriminate.
    - apply String.compare_eq_iff in Ec. tauto.
    - split; [auto|]. intros ->. rewrite str_cmp_refl in Ec. discriminate.
    - reflexivity.
    - destruct H as [[H|H] H']; [discriminate|congruence]. }
  intros y. rewrite Hl. split.
  - intros Hy. split; [apply sort_compact_In; rewrite E; apply in_or_app; auto|]. split; [eapply sorted_app_ge; eassumption|intros ->; contradiction].
  - intros [Hy [Hle Hne]]. apply sort_compact_In in Hy. rewrite E in Hy. apply in_app_or in Hy as [Hy|[Hy|Hy]]; [exact Hy|congruence|].
    assert (Hge := sorted_app_le _ _ _ _ SS Hy). unfold sle in *. apply leb_lt_eq in Hle, Hge. destruct Hle as [Hle|Hle]; [|congruence]. destruct Hge as [Hge|Hge]; [|congruence].
    assert (H := str_lt_trans _ _ _ Hle Hge). rewrite str_cmp_refl in H. discriminate.
Qed.
Lemma btfs_no_vmlinux files kmods : ~ In "vmlinux" kmods -> In "vmlinux" files -> exists r,
  btfs false files kmods = Some ("vmlinux" :: r) /\ NoDup ("vmlinux" :: r) /\ forall m, In m r <-> In m kmods /\ In m files.
Proof.
  intros Hk Hf. assert (Hm : mem "vmlinux" files = true) by (apply mem_iff; exact Hf).
  unfold btfs. destruct kmods as [|k ks]. { exists []. split; [reflexivity|]. split; [repeat constructor; intros []|]. intros m. cbn. tauto. }
  set (l := k :: ks) in *. assert (S := index_of_spec "vmlinux" (sort_compact l)). destruct (index_of "vmlinux" (sort_compact l)) as [i|].
  { destruct S as (l1 & l2 & E & _). exfalso. apply Hk, sort_compact_In. rewrite E. apply in_or_app. right. left. reflexivity. }
  exists (filter (fun m => mem m files) (sort_compact l)). cbn [filter]. rewrite Hm. split; [reflexivity|].
  assert (H : forall m, In m (filter (fun m => mem m files) (sort_compact l)) <-> In m l /\ In m files) by (intros m; rewrite filter_In, sort_compact_In, mem_iff; reflexivity).
  split; [|exact H]. constructor; [rewrite H; tauto|]. apply NoDup_filter, sort_compact_nodup.
Qed.
Lemma btfs_all files kmods : NoDup files -> exists r,
  btfs true files kmods = Some ("vmlinux" :: r) /\ NoDup ("vmlinux" :: r) /\ forall m, In m r <-> In m files /\ m <> "vmlinux".
Proof.
  intros Hf. exists (isort String.leb (filter (fun f => negb (String.eqb f "vmlinux")) files)). split; [reflexivity|].
  assert (H : forall m, In m (isort String.leb (filter (fun f => negb (String.eqb f "vmlinux")) files)) <-> In m files /\ m <> "vmlinux").
  { intros m. rewrite isort_In, filter_In. destruct (String.eqb_spec m "vmlinux"); cbn; intuition congruence. }
  split; [|exact H]. constructor; [rewrite H; tauto|]. eapply Permutation_NoDup; [apply isort_perm|]. apply NoDup_filter, Hf.
Qed.
Lemma nodup_two {A} (l : list A) : NoDup l -> ((2 <= List.length l)%nat <-> exists a b, a <> b /\ In a l /\ In b l).
Proof.
  intros H. split.
  - destruct l as [|a [|b l]]; cbn; try lia. intros _. inversion H as [|? ? H1 _]; subst. exists a, b. split; [intros ->; apply H1; left; reflexivity|]. auto.
  - intros (a & b & Hab & Ha & Hb). destruct l as [|x [|y l]]; cbn in *; [contradiction| |lia]. exfalso. apply Hab. intuition congruence.
Qed.
Lemma btfs_crash files kmods : In "vmlinux" kmods ->
  (btfs false files kmods = None <-> exists a b, a <> b /\ In a kmods /\ In b kmods /\ String.ltb a "vmlinux" = true /\ String.ltb b "vmlinux" = true).
Proof.
  intros Hk. destruct (before_iff "vmlinux" kmods Hk) as (l1 & l2 & E & Ei & Nd & Hi). destruct kmods as [|k ks]; [destruct Hk|]. set (l := k :: ks) in *.
  assert (H : btfs false files l = None <-> (2 <= List.length l1)%nat).
  { change (btfs false files l) with (match (match index_of "vmlinux" (sort_compact l) with Some idx => option_map (cons "vmlinux") (slices_delete (sort_compact l) idx 1) | None => Some ("vmlinux" :: sort_compact l) end) with None => None | Some q => Some (filter (fun m => mem m files) q) end).
    rewrite Ei. unfold slices_delete. rewrite E. rewrite app_length. cbn [List.length].
    destruct (Nat.leb_spec (List.length l1) 1) as [H1|H1]; cbn [andb].
    - destruct (Nat.leb_spec 1 (List.length l1 + S (List.length l2))); [|lia]. cbn. split; [discriminate|lia].
    - cbn. split; [lia|reflexivity]. }
  rewrite H, (nodup_two _ Nd). split; intros (a & b & Hab & A & B); exists a, b.
  - apply Hi in A, B. tauto.
  - rewrite !Hi. tauto.
Qed.
(** one module sorts before: vmlinux is searched twice *)
Lemma btfs_twice files kmods a : In "vmlinux" kmods -> In "vmlinux" files -> In a kmods -> String.ltb a "vmlinux" = true ->
  (forall b, In b kmods -> String.ltb b "vmlinux" = true -> b = a) -> exists r, btfs false files kmods = Some ("vmlinux" :: r) /\ In "vmlinux" r.
Proof.
  intros Hk Hf Ha Hlt Hu. destruct (before_iff "vmlinux" kmods Hk) as (l1 & l2 & E & Ei & Nd & Hi). destruct kmods as [|k ks]; [destruct Hk|]. set (l := k :: ks) in *.
  assert (El : List.length l1 = 1%nat).
  { destruct l1 as [|x [|y l1]]; cbn; auto.
    - exfalso. apply (proj2 (Hi a)). auto.
    - exfalso. inversion Nd as [|? ? H1 _]; subst. apply H1. destruct (proj1 (Hi x) ltac:(left; reflexivity)) as [X1 X2]. destruct (proj1 (Hi y) ltac:(right; left; reflexivity)) as [Y1 Y2].
      rewrite (Hu x X1 X2), (Hu y Y1 Y2). left. reflexivity. }
  change (btfs false files l) with (match (match index_of "vmlinux" (sort_compact l) with Some idx => option_map (cons "vmlinux") (slices_delete (sort_compact l) idx 1) | None => Some ("vmlinux" :: sort_compact l) end) with None => None | Some q => Some (filter (fun m => mem m files) q) end).
  rewrite Ei, El. unfold slices_delete. rewrite E. rewrite app_length. cbn [List.length]. destruct (Nat.leb_spec 1 (List.length l1 + S (List.length l2))); [|lia]. cbn [Nat.leb andb option_map].
  cbn [filter]. assert (Hm : mem "vmlinux" files = true) by (apply mem_iff; exact Hf). rewrite Hm. rewrite firstn_skipn. eexists. split; [reflexivity|]. apply filter_In. split; [apply in_or_app; right; left; reflexivity|exact Hm].
Qed.

(** ** modules inferred from the patterns *)
Lemma add_new_In x y l : In x (add_new y l) <-> In x l \/ x = y.
Proof. unfold add_new. destruct (mem y l) eqn:E; [apply mem_iff in E; intuition congruence|]. rewrite in_app_iff. cbn. intuition congruence. Qed.
Lemma fold_add_In (h : string -> option string) fs x : forall acc,
  In x (fold_left (fun acc f => match h f with Some m => if String.eqb m "" then acc else add_new m acc | None => acc end) fs acc) <->
  In x acc \/ exists f, In f fs /\ h f = Some x /\ x <> "".
Proof.
  induction fs as [|f fs IH]; intros acc; cbn [fold_left].
  - split; [auto|]. intros [H|(f & [] & _)]. exact H.
  - rewrite IH. destruct (h f) as [m|] eqn:E; [destruct (String.eqb_spec m "") as [Em|Em]|].
    + subst m. split; intros [H|(g & Hg & H1 & H2)]; auto; right; [exists g; cbn; auto|]. destruct Hg as [<-|Hg]; [congruence|]. exists g. auto.
    + rewrite add_new_In. split.
      * intros [[H| ->]|(g & Hg & H1 & H2)]; auto; right; [exists f; cbn; auto|exists g; cbn; auto].
      * intros [H|(g & [<-|Hg] & H1 & H2)]; auto; [left; right; congruence|right; exists g; auto].
    + split; intros [H|(g & Hg & H1 & H2)]; auto; right; [exists g; cbn; auto|]. destruct Hg as [<-|Hg]; [congruence|]. exists g. auto.
Qed.
Theorem prepare_iff mods sym_mod kmods fs x : In x (prepare mods sym_mod kmods fs) <->
  In x kmods \/ (x <> "" /\ exists f, In f fs /\ (first_mod mods f = Some x \/ sym_mod f = Some x)).
Proof.
  unfold prepare. rewrite sort_compact_In, fold_add_In. unfold infer. rewrite sort_compact_In, fold_add_In. split.
  - intros [[H|(f & A & B & C)]|(f & A & B & C)]; auto; right; split; auto; exists f; auto.
  - intros [H|(C & f & A & [B|B])]; auto; [left; right|right]; exists f; auto.
Qed.
