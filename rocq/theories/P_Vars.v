(** * Proofs about the variables of expressions *)
From Coq Require Import List Bool String Sorted.
From Verif Require Import M_Go P_Go M_Cc M_OutArg M_Kfuncs P_Kfuncs M_Vars S_Vars.
Import ListNotations.
Open Scope list_scope.

Definition wlist := fix go (l : list node) := match l with [] => [] | k :: l' => walk k ++ go l' end.
Lemma node_ind2 (P : node -> Prop) : (forall x, P (NName x)) -> P NLeaf -> (forall l, Forall P l -> P (NOp l)) -> (forall f l, P f -> Forall P l -> P (NCall f l)) -> forall e, P e.
Proof.
  intros H1 H2 H3 H4. fix IH 1. intros [x| |l|f l]; [apply H1|apply H2|apply H3|apply H4; [apply IH|]].
  - induction l as [|k l IHl]; constructor; [apply IH|exact IHl].
  - induction l as [|k l IHl]; constructor; [apply IH|exact IHl].
Qed.
Lemma wlist_In x l : In x (wlist l) <-> exists k, In k l /\ In x (walk k).
Proof.
  induction l as [|k l IH]; cbn [wlist].
  - split; [intros []|intros (k & [] & _)].
  - rewrite in_app_iff, IH. split.
    + intros [H|(k' & Hk & H)]; [exists k; split; [left; reflexivity|exact H]|exists k'; split; [right; exact Hk|exact H]].
    + intros (k' & [<-|Hk] & H); [left; exact H|right; exists k'; auto].
Qed.
Lemma walk_occurs x e : In x (walk e) <-> occurs x e.
Proof.
  induction e as [y| |l IH|f l IHf IH] using node_ind2.
  - split; [intros [<-|[]]; constructor|]. intros H. inversion H; subst. left. reflexivity.
  - split; [intros []|intros H; inversion H].
  - change (walk (NOp l)) with (wlist l). rewrite wlist_In. rewrite Forall_forall in IH. split.
    + intros (k & Hk & H). apply (oc_op x l k Hk). apply IH; auto.
    + intros H. inversion H; subst. eexists. split; [eassumption|]. apply IH; auto.
  - change (walk (NCall f l)) with (walk f ++ wlist l). rewrite in_app_iff, wlist_In, IHf. rewrite Forall_forall in IH. split.
    + intros [H|(k & Hk & H)]; [apply oc_fn; exact H|]. apply (oc_arg x f l k Hk). apply IH; auto.
    + intros H. inversion H; subst; [left; assumption|right]. eexists. split; [eassumption|]. apply IH; auto.
Qed.
Lemma ss_lt l : NoDup l -> StronglySorted sle l -> StronglySorted slt l.
Proof.
  induction l as [|a l IH]; intros HN HS; [constructor|]. inversion HN as [|? ? Hn HN']; inversion HS as [|? ? HS' HF]; subst. constructor; [auto|].
  rewrite Forall_forall in *. intros b Hb. specialize (HF b Hb). unfold sle, String.leb in HF. unfold slt. destruct (String.compare a b) eqn:E; [|reflexivity|discriminate].
  apply String.compare_eq_iff in E. subst. contradiction.
Qed.
Lemma extract_ok e l : extract e = Some l -> exists t, looked_at e = Some t /\ (forall x, In x l <-> occurs x t) /\ StronglySorted slt l.
Proof.
  assert (G : forall t, (forall x, In x (sort_compact (walk t)) <-> occurs x t) /\ StronglySorted slt (sort_compact (walk t))).
  { intros t. split; [intros x; rewrite sort_compact_In; apply walk_occurs|apply ss_lt; [apply sort_compact_nodup|apply sort_compact_sorted]]. }
  unfold extract, looked_at. destruct e as [x| |k|f [|a args]]; intros H; try discriminate; injection H as <-; eexists; (split; [reflexivity|]); match goal with |- context [occurs _ ?t] => exact (G t) end.
Qed.
(** the names used by the model of --output-arg *)
Lemma expr_ind2 (P : expr -> Prop) : (forall x, P (EName x)) -> (forall t, P (ENum t)) -> P EOther ->
  (forall a m, P a -> P (EArrow a m)) -> (forall a m, P a -> P (EDot a m)) -> (forall a, P a -> P (EIndir a)) -> (forall a, P a -> P (EAddr a)) -> (forall t a, P a -> P (ECast t a)) ->
  (forall a, P a -> P (EParen a)) -> (forall a, P a -> P (ENot a)) -> (forall a, P a -> P (ETwid a)) -> (forall a, P a -> P (EMinus a)) -> (forall a, P a -> P (EPlus a)) ->
  (forall a, P a -> P (EPreInc a)) -> (forall a, P a -> P (EPreDec a)) -> (forall a b, P a -> P b -> P (EIndex a b)) -> (forall o a b, P a -> P b -> P (EBin o a b)) ->
  (forall o a b, P a -> P b -> P (ECmp o a b)) -> (forall a b, P a -> P b -> P (EAndAnd a b)) -> (forall a b, P a -> P b -> P (EOrOr a b)) -> (forall a b c, P a -> P b -> P c -> P (ECond a b c)) ->
  (forall f l, P f -> Forall P l -> P (ECall f l)) -> forall e, P e.
Proof.
  intros Hn Hm Ho Har Hdo Hin Had Hca Hpa Hno Htw Hmi Hpl Hpi Hpd Hix Hbi Hcm Han Hor Hco Hcl. fix IH 1. intros e. destruct e;
    [apply Hn|apply Hm|apply Har|apply Hdo|apply Hix|apply Hin|apply Had|apply Hca|apply Hpa|apply Hbi|apply Hcm|apply Han|apply Hor|apply Hno|apply Htw|apply Hmi|apply Hpl|apply Hpi|apply Hpd|apply Hco|apply Hcl|apply Ho]; try apply IH.
  induction args as [|k l IHl]; constructor; [apply IH|exact IHl].
Qed.
Lemma tree_names x e : In x (names e) <-> occurs x (tree e).
Proof.
  rewrite <- walk_occurs. induction e as [| | | | | | | | | | | | | | | | | | | | |f l IHe H] using expr_ind2; cbn [names tree]; try reflexivity;
    try (cbn [walk]; rewrite ?app_nil_r; rewrite ?in_app_iff; tauto).
  change (walk (NCall (tree f) (map tree l))) with (walk (tree f) ++ wlist (map tree l)). rewrite !in_app_iff, IHe, wlist_In, in_flat_map. rewrite Forall_forall in H. clear IHe.
  assert (G : (exists k, In k l /\ In x (names k)) <-> (exists k, In k (map tree l) /\ In x (walk k))); [|tauto]. split.
  - intros (k & Hk & Hx). exists (tree k). split; [apply in_map, Hk|apply H; auto].
  - intros (k & Hk & Hx). apply in_map_iff in Hk as (k' & <- & Hk). exists k'. split; [exact Hk|apply H; auto].
Qed.
