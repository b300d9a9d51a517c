(** * Names in expressions: proofs *)
From Coq Require Import ZArith List String Bool.
From Verif Require P_CcMach P_CcOps.
From Verif Require Import M_Ebpf M_CcNum M_Cc S_CcNames.
Import ListNotations.
Open Scope Z_scope. Open Scope string_scope. Open Scope list_scope.

Definition values (K : cfg) (o : operator) (s : cst) (l r : value) : res value :=
  match o with OBin o => bin_values K o s l r | OCmp o => cmp_values K o s l r | OAnd => andand_values K s l r | OOr => oror_values K s l r end.
Lemma apply_eval K o a b s : evaluate K (apply o a b) s = bind (evaluate K a s) (fun l s1 => bind (evaluate K b s1) (fun r s2 => values K o s2 l r)).
Proof. destruct o; reflexivity. Qed.
Lemma values_same K o s l r l' r' : resolve_enums l r = resolve_enums l' r' -> values K o s l r = values K o s l' r'.
Proof. intros H. destruct o; cbn [values]; unfold bin_values, cmp_values, andand_values, oror_values; rewrite H; reflexivity. Qed.
Lemma values_none K o s l r : resolve_enums l r = None -> values K o s l r = RErr.
Proof. intros H. destruct o; cbn [values]; unfold bin_values, cmp_values, andand_values, oror_values; rewrite H; reflexivity. Qed.
Lemma var_index_none l x : forall k, ~ In x (map fst l) -> var_index l x k = None.
Proof.
  induction l as [|[y t] l IH]; intros k H; [reflexivity|]. cbn [map fst In] in H. cbn [var_index].
  destruct (String.eqb_spec x y); [subst; tauto|]. apply IH. tauto.
Qed.
Lemma eval_foreign K x : foreign (cf_vars K) x -> eval_name K x = VEnum x None.
Proof.
  intros [Hv Hw]. cbn [In] in Hw. unfold eval_name.
  destruct (String.eqb_spec x "NULL"); [subst; tauto|]. destruct (String.eqb_spec x "false"); [subst; tauto|].
  destruct (String.eqb_spec x "true"); [subst; tauto|]. cbn [orb]. rewrite var_index_none by exact Hv. reflexivity.
Qed.
Lemma assoc_first before x n after : ~ In x (map fst before) -> assoc (before ++ (x, n) :: after) x = Some n.
Proof.
  induction before as [|[y m] l IH]; intros H; cbn [app assoc].
  - rewrite String.eqb_refl. reflexivity.
  - cbn [map fst In] in H. destruct (String.eqb_spec y x); [tauto|]. apply IH. tauto.
Qed.
Lemma assoc_split l x n : assoc l x = Some n -> exists before after, l = before ++ (x, n) :: after /\ ~ In x (map fst before).
Proof.
  induction l as [|[y m] l IH]; cbn [assoc]; [discriminate|]. destruct (String.eqb_spec y x) as [->|Hn]; intros H.
  - injection H as ->. exists [], l. split; [reflexivity|intros []].
  - destruct (IH H) as (b & a & -> & Hb). exists ((y, m) :: b), a. split; [reflexivity|]. cbn [map fst In]. intuition congruence.
Qed.
Lemma extract_iff t x n : extract_enum t x = Some n <-> enumerator t x n.
Proof.
  split.
  - unfold extract_enum. destruct t as [u|]; [|discriminate]. destruct (under u) as [| |size vals| | | | | |] eqn:E; try discriminate.
    intros H. destruct (assoc_split _ _ _ H) as (b & a & -> & Hb). exists u, size, b, a. auto.
  - intros (u & size & b & a & -> & E & Hb). cbn [extract_enum]. rewrite E. apply assoc_first. exact Hb.
Qed.
Lemma extract_none t x : no_enumerator t x -> extract_enum t x = None.
Proof. intros H. destruct (extract_enum t x) as [n|] eqn:E; [|reflexivity]. apply extract_iff in E. exfalso. exact (H n E). Qed.
Lemma run_time v : known_at_run_time v -> runtime v = true.
Proof. destruct v; cbn; intros []; reflexivity. Qed.
Lemma resolve_right v x n : known_at_run_time v -> extract_enum (v_btf v) x = Some n -> resolve_enums v (VEnum x None) = Some (v, VConst (s64 n) None).
Proof. intros Hv E. destruct v; try destruct Hv; unfold resolve_enums; cbn [runtime is_mat is_pend orb]; rewrite E; reflexivity. Qed.
Lemma resolve_left v x n : known_at_run_time v -> extract_enum (v_btf v) x = Some n -> resolve_enums (VEnum x None) v = Some (VConst (s64 n) None, v).
Proof. intros Hv E. destruct v; try destruct Hv; unfold resolve_enums; cbn [runtime is_mat is_pend orb]; rewrite E; reflexivity. Qed.
Lemma resolve_right_none v x : known_at_run_time v -> extract_enum (v_btf v) x = None -> resolve_enums v (VEnum x None) = None.
Proof. intros Hv E. destruct v; try destruct Hv; unfold resolve_enums; cbn [runtime is_mat is_pend orb]; rewrite E; reflexivity. Qed.
Lemma resolve_left_none v x : known_at_run_time v -> extract_enum (v_btf v) x = None -> resolve_enums (VEnum x None) v = None.
Proof. intros Hv E. destruct v; try destruct Hv; unfold resolve_enums; cbn [runtime is_mat is_pend orb]; rewrite E; reflexivity. Qed.
Lemma resolve_const_r v n t : known_at_run_time v -> resolve_enums v (VConst n t) = Some (v, VConst n t).
Proof. destruct v; cbn; intros []; reflexivity. Qed.
Lemma resolve_const_l v n t : known_at_run_time v -> resolve_enums (VConst n t) v = Some (VConst n t, v).
Proof. destruct v; cbn; intros []; reflexivity. Qed.
Lemma number_range t n : parse_number t = inl n -> s64 n = n.
Proof.
  intros H. assert (E : exists k, n = s64 k).
  { unfold parse_number in H. destruct (parse_unsigned _) as [k|]; [|discriminate]. destruct (has_prefix "-" t); injection H as <-; eexists; reflexivity. }
  destruct E as (k & ->). apply P_CcMach.s64_id. apply P_CcOps.s64_range.
Qed.
Lemma right_number K o a x t s v s1 n : evaluate K a s = ROk v s1 -> known_at_run_time v -> foreign (cf_vars K) x -> enumerator (v_btf v) x n ->
  parse_number t = inl n -> evaluate K (apply o a (EName x)) s = evaluate K (apply o a (ENum t)) s.
Proof.
  intros Ea Hv Hx He Ht. pose proof (number_range t n Ht) as Hn. rewrite !apply_eval, Ea. cbn [bind evaluate]. rewrite (eval_foreign K x Hx), Ht. cbn [bind].
  apply values_same. apply extract_iff in He. rewrite (resolve_right v x n Hv He), (resolve_const_r v n None Hv), Hn. reflexivity.
Qed.
Lemma left_number K o a x t s v s1 n : evaluate K a s = ROk v s1 -> known_at_run_time v -> foreign (cf_vars K) x -> enumerator (v_btf v) x n ->
  parse_number t = inl n -> evaluate K (apply o (EName x) a) s = evaluate K (apply o (ENum t) a) s.
Proof.
  intros Ea Hv Hx He Ht. pose proof (number_range t n Ht) as Hn. rewrite !apply_eval. cbn [evaluate]. rewrite (eval_foreign K x Hx), Ht. cbn [bind]. rewrite Ea. cbn [bind].
  apply values_same. apply extract_iff in He. rewrite (resolve_left v x n Hv He), (resolve_const_l v n None Hv), Hn. reflexivity.
Qed.
Lemma refused K o a x s v s1 : evaluate K a s = ROk v s1 -> known_at_run_time v -> foreign (cf_vars K) x -> no_enumerator (v_btf v) x ->
  evaluate K (apply o a (EName x)) s = RErr /\ evaluate K (apply o (EName x) a) s = RErr.
Proof.
  intros Ea Hv Hx He. rewrite !apply_eval, Ea. cbn [bind evaluate]. rewrite (eval_foreign K x Hx). cbn [bind]. rewrite Ea. cbn [bind].
  apply extract_none in He. split; apply values_none; [apply resolve_right_none|apply resolve_left_none]; assumption.
Qed.
