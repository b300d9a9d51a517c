(** * Proofs about what a run needs. *)
From Coq Require Import List Bool String.
From Verif Require Import M_Flags S_Flags P_Flags S_Ltest P_Ltest M_Need S_Need.
Import ListNotations.
Open Scope string_scope.
Open Scope list_scope.

Lemma fold_or {A} (p : A -> bool) l : forall r, fold_left (fun r s => r || p s) l r = r || existsb p l.
Proof. induction l as [|x l IH]; intros r; cbn; [rewrite orb_false_r; reflexivity|]. rewrite IH, orb_assoc. reflexivity. Qed.
Lemma required_lbr_eq a : required_lbr a = a_lbr a || existsb (contains "(l)") (a_kfuncs a) || existsb (contains "(l)") (a_progs a).
Proof. unfold required_lbr. rewrite !(fold_or (contains "(l)")). reflexivity. Qed.
Lemma wants_lines_eq a : wants_lines a = existsb (contains "(s)") (a_kfuncs a) || existsb (contains "(s)") (a_ktps a) || existsb (contains "(s)") (a_progs a).
Proof. unfold wants_lines. rewrite !(fold_or (contains "(s)")). reflexivity. Qed.
Lemma option_text x t k : text (Tok x) = t -> In x [Ks; Kl; Km] -> has_option x k -> contains t k = true.
Proof.
  intros Et Hx (ts & body & -> & _ & H). subst t. revert H. induction ts as [|u ts IH]; [discriminate|]. cbn [asked existsb texts]. rewrite app_assoc_s.
  rewrite orb_true_iff. intros [H|H].
  - destruct u as [[]|[] [] []]; destruct Hx as [<-|[<-|[<-|[]]]]; try discriminate; destruct (texts ts ++ body)%string; reflexivity.
  - specialize (IH H). assert (K : forall u s, contains (text (Tok x)) s = true -> contains (text (Tok x)) (u ++ s)%string = true).
    { intros w s Hs. apply contains_iff in Hs as (p & q & ->). apply contains_iff. exists (w ++ p)%string, q. symmetry. apply app_assoc_s. }
    apply K, IH.
Qed.
Lemma some_option x t ks k : text (Tok x) = t -> In x [Ks; Kl; Km] -> In k ks -> has_option x k -> existsb (contains t) ks = true.
Proof. intros Et Hx Hk Ho. apply existsb_exists. exists k. split; [exact Hk|]. eapply option_text; eauto. Qed.
Lemma asks_required a : asks_branches a -> required_lbr a = true.
Proof.
  intros [H|(k & Hk & Ho)]; rewrite required_lbr_eq; [rewrite H; reflexivity|]. apply in_app_or in Hk as [Hk|Hk].
  - rewrite (some_option Kl "(l)" _ k eq_refl (or_intror (or_introl eq_refl)) Hk Ho), orb_true_r. reflexivity.
  - rewrite (some_option Kl "(l)" _ k eq_refl (or_intror (or_introl eq_refl)) Hk Ho), orb_true_r. reflexivity.
Qed.
Lemma required_text a : required_lbr a = true <-> a_lbr a = true \/ mentions_text "(l)" (a_kfuncs a ++ a_progs a).
Proof.
  rewrite required_lbr_eq, <- orb_assoc, <- existsb_app, orb_true_iff, existsb_exists. unfold mentions_text.
  split; (intros [H|(k & H & E)]; [left; exact H|right; exists k; split; [exact H|apply contains_iff, E]]).
Qed.
Lemma asks_lines a : asks_stacks a \/ asks_branches a -> wants_lines a || out_stack a || a_lbr a || required_lbr a = true.
Proof.
  intros [[[H|H]|(k & Hk & Ho)]|H].
  - unfold out_stack. rewrite H, !orb_true_r. reflexivity.
  - unfold out_stack. rewrite H, !orb_true_r. reflexivity.
  - rewrite wants_lines_eq, <- !existsb_app, <- app_assoc, (some_option Ks "(s)" _ k eq_refl (or_introl eq_refl) Hk Ho). reflexivity.
  - rewrite (asks_required a H), !orb_true_r. reflexivity.
Qed.
Lemma filter_none {A} (p : A -> bool) l : (forall x, In x l -> p x = false) -> filter p l = [].
Proof. induction l as [|x l IH]; intros H; [reflexivity|]. cbn. rewrite (H x (or_introl eq_refl)). apply IH. intros y Hy. apply H. right. exact Hy. Qed.
Lemma one_any b e vs : one_enum b e vs -> any_type b e = Some (NEnum vs).
Proof.
  intros (b1 & b2 & -> & H). unfold any_type. rewrite filter_app. cbn. rewrite String.eqb_refl.
  rewrite (filter_none _ b1), (filter_none _ b2); [reflexivity| |]; intros x Hx; apply String.eqb_neq, H, in_or_app; auto.
Qed.
Lemma any_one b e vs : any_type b e = Some (NEnum vs) -> one_enum b e vs.
Proof.
  unfold any_type. destruct (filter (fun p => String.eqb (fst p) e) b) as [|p [|]] eqn:E; try discriminate. destruct p as [n t]. cbn [snd]. intros Et. injection Et as ->.
  assert (H : In (n, NEnum vs) (filter (fun p => String.eqb (fst p) e) b)) by (rewrite E; left; reflexivity).
  apply filter_In in H as [H Hn]. apply String.eqb_eq in Hn. cbn in Hn. subst n. apply in_split in H as (b1 & b2 & ->). exists b1, b2. split; [reflexivity|].
  rewrite filter_app in E. cbn in E. rewrite String.eqb_refl in E. intros p Hp Heq.
  assert (Hf : In p (filter (fun p => String.eqb (fst p) e) b1 ++ filter (fun p => String.eqb (fst p) e) b2)).
  { apply in_app_or in Hp as [Hp|Hp]; apply in_or_app; [left|right]; apply filter_In; split; auto; apply String.eqb_eq, Heq. }
  remember (filter (fun p => String.eqb (fst p) e) b1) as l1. remember (filter (fun p => String.eqb (fst p) e) b2) as l2. clear - E Hf.
  destruct l1 as [|x1 l1]; [|destruct l1; discriminate]. cbn in E, Hf. injection E as ->. exact Hf.
Qed.
Lemma existsb_In v vs : existsb (fun u => String.eqb u v) vs = true <-> In v vs.
Proof. rewrite existsb_exists. split; [intros (u & H & E); apply String.eqb_eq in E; subst; exact H|intros H; exists v; split; [exact H|apply String.eqb_refl]]. Qed.
Lemma enum_value_iff b e vs v : one_enum b e vs -> exists r, btf_enum_value b e v = Some r /\ (r = true <-> offers b e v).
Proof.
  intros H. unfold btf_enum_value. rewrite (one_any b e vs H). exists (existsb (fun u => String.eqb u v) vs). split; [reflexivity|]. rewrite existsb_In.
  destruct H as (b1 & b2 & -> & Hn). split.
  - intros Hv. exists vs. split; [apply in_elt|exact Hv].
  - intros (vs' & Hi & Hv). apply in_app_or in Hi as [Hi|[Hi|Hi]].
    + exfalso. exact (Hn _ (in_or_app _ _ _ (or_introl Hi)) eq_refl).
    + injection Hi as ->. exact Hv.
    + exfalso. exact (Hn _ (in_or_app _ _ _ (or_intror Hi)) eq_refl).
Qed.
Lemma enum_value_some b e v r : btf_enum_value b e v = Some r -> exists vs, one_enum b e vs.
Proof. unfold btf_enum_value. destruct (any_type b e) as [[vs|]|] eqn:E; try discriminate. intros _. exists vs. apply any_one, E. Qed.
Lemma core_exists_iff b e v : core_exists b e v = true <-> offers b e v.
Proof.
  unfold core_exists, offers. rewrite existsb_exists. split.
  - intros ([n t] & Hi & E). apply andb_true_iff in E as [En E]. apply String.eqb_eq in En. cbn in En, E. subst n. destruct t as [vs|]; [|discriminate].
    exists vs. split; [exact Hi|apply existsb_In, E].
  - intros (vs & Hi & Hv). exists (e, NEnum vs). split; [exact Hi|]. cbn. rewrite String.eqb_refl. apply existsb_In, Hv.
Qed.
(** when the features suffice *)
Lemma detect_iff a b loaded ran endbr : (exists f, detect a b loaded ran endbr = Some f) <->
  loaded = true /\ ran = true /\ endbr <> None /\ readable b /\ ringbuf_offered b /\ (required_lbr a = true -> branches_offered b) /\ (asks_stacks_everywhere a -> stacks_offered b).
Proof.
  assert (Hs : out_stack a = true <-> asks_stacks_everywhere a) by (unfold out_stack, asks_stacks_everywhere; rewrite orb_true_iff; reflexivity).
  unfold detect. destruct loaded; cbn [negb]; [|split; [intros (f & E); discriminate|intros (E & _); discriminate]].
  unfold decode, bss. destruct ran; cbn [nth n_run n_ringbuf n_branch n_stackid negb]; [|split; [intros (f & E); discriminate|intros (_ & E & _); discriminate]].
  unfold ringbuf_offered, branches_offered, stacks_offered. rewrite <- !core_exists_iff.
  destruct (core_exists b "bpf_map_type" "BPF_MAP_TYPE_RINGBUF"); cbn [negb]; [|split; [intros (f & E); discriminate|intros (_ & _ & _ & _ & E & _); discriminate]].
  destruct (btf_enum_value b "bpf_func_id" "BPF_FUNC_get_branch_snapshot") as [br|] eqn:Eb.
  2:{ split; [intros (f & E); discriminate|]. intros (_ & _ & _ & ((vs & Hr) & _) & _). destruct (enum_value_iff b _ vs "BPF_FUNC_get_branch_snapshot" Hr) as (r & E & _). congruence. }
  destruct (enum_value_some _ _ _ _ Eb) as (vs1 & H1). destruct (enum_value_iff b _ vs1 "BPF_FUNC_get_branch_snapshot" H1) as (r & E & Hbr). rewrite Eb in E. injection E as <-.
  rewrite <- core_exists_iff in Hbr.
  destruct (required_lbr a) eqn:Er; destruct br; cbn [negb andb].
  3,4: idtac.
  2:{ split; [intros (f & E); discriminate|]. intros (_ & _ & _ & _ & _ & E & _). apply Hbr in E; [discriminate|reflexivity]. }
  all: (destruct (out_stack a); destruct (core_exists b "bpf_func_id" "BPF_FUNC_get_stackid"); cbn [negb andb];
    [| split; [intros (f & E); discriminate|intros (_ & _ & _ & _ & _ & _ & E); exfalso; assert (X : false = true) by (apply E, Hs; reflexivity); discriminate] | |]).
  all: (destruct (btf_enum_value b "bpf_attach_type" "BPF_TRACE_FSESSION") as [fs|] eqn:Ef;
    [|split; [intros (f & E); discriminate|]; intros (_ & _ & _ & (_ & (vs & Hr)) & _); destruct (enum_value_iff b _ vs "BPF_TRACE_FSESSION" Hr) as (r & E & _); congruence];
    destruct (enum_value_some _ _ _ _ Ef) as (vs2 & H2);
    destruct (enum_value_iff b _ vs2 "BPF_TRACE_KPROBE_MULTI" H2) as (r1 & -> & _); destruct (enum_value_iff b _ vs2 "BPF_TRACE_KPROBE_SESSION" H2) as (r2 & -> & _);
    destruct endbr as [e|]; [|split; [intros (f & E); discriminate|intros (_ & _ & E & _); exfalso; apply E; reflexivity]];
    split; [intros _|intros _; eexists; reflexivity];
    split; [reflexivity|]; split; [reflexivity|]; split; [discriminate|]; split; [split; eexists; eassumption|]; split; [reflexivity|];
    split; intros X; try reflexivity; try discriminate; try (apply Hbr; reflexivity); apply Hs in X; discriminate).
Qed.
Lemma detect_kmulti a b loaded ran endbr f : detect a b loaded ran endbr = Some f -> (has_kmulti f = true <-> multi_offered b) /\
  (has_ksession f = true <-> offers b "bpf_attach_type" "BPF_TRACE_KPROBE_SESSION") /\ (has_fsession f = true <-> offers b "bpf_attach_type" "BPF_TRACE_FSESSION") /\ endbr = Some (has_endbr f).
Proof.
  intros H. assert (Hr : readable b) by (apply (detect_iff a b loaded ran endbr); exists f; exact H). destruct Hr as (_ & vs & Hv).
  unfold detect in H. destruct (negb loaded); [discriminate|]. cbv zeta in H. destruct (negb (n_run (decode (bss b ran)))); [discriminate|].
  destruct (negb (n_ringbuf (decode (bss b ran)))); [discriminate|]. destruct (btf_enum_value b "bpf_func_id" "BPF_FUNC_get_branch_snapshot") as [br|]; [|discriminate].
  destruct (required_lbr a && negb br); [discriminate|]. destruct (out_stack a && negb (n_stackid (decode (bss b ran)))); [discriminate|].
  destruct (enum_value_iff b _ vs "BPF_TRACE_FSESSION" Hv) as (r0 & E0 & I0). destruct (enum_value_iff b _ vs "BPF_TRACE_KPROBE_MULTI" Hv) as (r1 & E1 & I1).
  destruct (enum_value_iff b _ vs "BPF_TRACE_KPROBE_SESSION" Hv) as (r2 & E2 & I2). rewrite E0, E1, E2 in H. destruct endbr as [e|]; [|discriminate]. injection H as <-. cbn. auto.
Qed.
Lemma start_go a b loaded ran endbr lbr_ok vm a2l_ok f br ln : start a b loaded ran endbr lbr_ok vm a2l_ok = SGo f br ln ->
  detect a b loaded ran endbr = Some f /\ br = required_lbr a /\ (br = true -> lbr_ok = true) /\ (filter (contains "(m)") (a_kfuncs a) <> [] -> has_kmulti f = true) /\
  ((ln = true <-> vm = VFound /\ required_vmlinux a = true)).
Proof.
  unfold start. destruct (detect a b loaded ran endbr) as [f'|]; [|discriminate]. destruct (required_lbr a) eqn:Er; destruct lbr_ok; cbn [andb negb]; try discriminate.
  all: (destruct (filter (contains "(m)") (a_kfuncs a)) as [|k ks] eqn:Em; [|destruct (has_kmulti f') eqn:Ek]; cbn [negb]; try discriminate).
  all: (destruct vm; try discriminate; try (destruct (required_vmlinux a) eqn:Ev); try (destruct a2l_ok); intros E; try discriminate; injection E as <- <- <-).
  all: (split; [reflexivity|]; split; [reflexivity|]; split; [auto|]; split; [auto; intros X; contradiction|]; split; [intros X; try discriminate; auto|intros [X Y]; congruence]).
Qed.
Lemma start_runs a b loaded ran endbr lbr_ok vm a2l_ok f : detect a b loaded ran endbr = Some f -> (required_lbr a = true -> lbr_ok = true) ->
  (filter (contains "(m)") (a_kfuncs a) <> [] -> has_kmulti f = true) -> vm <> VError -> (required_vmlinux a = true -> vm = VFound -> a2l_ok = true) ->
  exists ln, start a b loaded ran endbr lbr_ok vm a2l_ok = SGo f (required_lbr a) ln.
Proof.
  intros E Hl Hm Hv Ha. unfold start. rewrite E. replace (required_lbr a && negb lbr_ok) with false
    by (destruct (required_lbr a); [rewrite (Hl eq_refl)|]; reflexivity).
  destruct (filter (contains "(m)") (a_kfuncs a)); [|rewrite Hm by discriminate]; cbn [negb];
  (destruct vm; [destruct (required_vmlinux a) eqn:Er; [rewrite (Ha eq_refl eq_refl)|]; eexists; reflexivity|eexists; reflexivity|contradiction]).
Qed.
