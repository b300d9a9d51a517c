(** * Proofs about graph membership. *)
From Coq Require Import List Bool String ZArith Lia Arith.
From Verif Require Import M_Go P_Go M_Flags M_Kfuncs S_Kfuncs P_Kfuncs M_Gmember S_Gmember.
From Verif Require M_Kallsyms S_Kallsyms P_Kallsyms.
Import ListNotations.
Open Scope string_scope.
Open Scope list_scope.

(** ** The symbol table *)
Fixpoint text_mods (ls : list (list string)) : list (Z * string * string) :=
  match ls with
  | [] => []
  | (fa :: ft :: fn :: rest) :: ls' =>
      if String.eqb ft "t" || String.eqb ft "T" then
        match M_Kallsyms.parse_hex fa with
        | Some a => (a, fn, match rest with m :: _ => m | [] => EmptyString end) :: text_mods ls'
        | None => text_mods ls'
        end
      else text_mods ls'
  | _ :: ls' => text_mods ls'
  end.
Lemma mods_syms ls : map fst (text_mods ls) = S_Kallsyms.text_syms ls.
Proof.
  induction ls as [|l ls IH]; [reflexivity|]. destruct l as [|fa [|ft [|fn rest]]]; cbn [text_mods S_Kallsyms.text_syms]; auto.
  destruct (String.eqb ft "t" || String.eqb ft "T"); [|exact IH]. destruct (M_Kallsyms.parse_hex fa); [|exact IH]. cbn [map fst]. f_equal. exact IH.
Qed.
Definition emod (e : M_Kallsyms.ksym) := (M_Kallsyms.kaddr e, M_Kallsyms.kname e, M_Kallsyms.kmod e).
Lemma heap_mods ls : forall ks ks', M_Kallsyms.ks_lines ks ls = Some ks' -> map emod (M_Kallsyms.heap ks') = map emod (M_Kallsyms.heap ks) ++ text_mods ls.
Proof.
  induction ls as [|l ls IH]; intros ks ks' H; cbn [M_Kallsyms.ks_lines text_mods] in *.
  - injection H as <-. rewrite app_nil_r. reflexivity.
  - destruct (M_Kallsyms.ks_line ks l) as [k1|] eqn:E; [|discriminate]. rewrite (IH _ _ H).
    destruct l as [|fa [|ft [|fn rest]]]; cbn [M_Kallsyms.ks_line] in E; try (injection E as <-; reflexivity).
    destruct (String.eqb ft "t" || String.eqb ft "T").
    + destruct (M_Kallsyms.parse_hex fa) as [a|]; [|discriminate]. injection E as <-. cbn [M_Kallsyms.heap]. rewrite map_app, <- app_assoc. cbn [map app emod].
      f_equal. destruct (aget String.eqb fn (M_Kallsyms.n2s ks)); [|reflexivity]. apply P_Kallsyms.upd_nth_map. reflexivity.
    + destruct (String.eqb ft "D" || String.eqb ft "d").
      * destruct (M_Kallsyms.mem_str fn M_Kallsyms.data_specials); [destruct (M_Kallsyms.parse_hex fa); [|discriminate]|]; injection E as <-; reflexivity.
      * destruct (String.eqb ft "R" || String.eqb ft "r"); [|injection E as <-; reflexivity].
        destruct (String.eqb fn "btf_id_deny"); [destruct (M_Kallsyms.parse_hex fa); [|discriminate]|]; injection E as <-; reflexivity.
Qed.
Lemma bpf_line_iff ls a n : bpf_line ls a n <-> In (a, n, "bpf") (text_mods ls).
Proof.
  unfold bpf_line. split.
  - intros (fa & ft & rest & Hin & Hft & Hp). induction ls as [|l ls IH]; [destruct Hin|]. destruct Hin as [->|Hin].
    + cbn [text_mods]. replace (String.eqb ft "t" || String.eqb ft "T") with true by (destruct Hft; subst; reflexivity). rewrite Hp. left. reflexivity.
    + specialize (IH Hin). destruct l as [|fa' [|ft' [|fn' rest']]]; cbn [text_mods]; auto. destruct (String.eqb ft' "t" || String.eqb ft' "T"); auto. destruct (M_Kallsyms.parse_hex fa'); auto. right. exact IH.
  - induction ls as [|l ls IH]; [intros []|].
    assert (K : In (a, n, "bpf") (text_mods ls) -> exists fa ft rest, In (fa :: ft :: n :: "bpf" :: rest) (l :: ls) /\ (ft = "t" \/ ft = "T") /\ M_Kallsyms.parse_hex fa = Some a).
    { intros H. destruct (IH H) as (fa & ft & rest & H1 & H2). exists fa, ft, rest. split; [right; exact H1|exact H2]. }
    destruct l as [|fa [|ft [|fn rest]]]; cbn [text_mods]; auto. destruct (String.eqb ft "t" || String.eqb ft "T") eqn:E; auto. destruct (M_Kallsyms.parse_hex fa) as [a'|] eqn:Ep; auto.
    intros [H|H]; [|auto]. injection H as -> -> Hm. destruct rest as [|m rest]; [discriminate|]. subst m. exists fa, ft, rest. split; [left; reflexivity|]. split; [|exact Ep].
    apply orb_prop in E as [E|E]; apply String.eqb_eq in E; auto.
Qed.

Lemma once_iff ls ks i e : M_Kallsyms.new_kallsyms ls = Some ks -> nth_error (M_Kallsyms.heap ks) i = Some e ->
  (M_Kallsyms.kduped e = false <-> once ls (M_Kallsyms.kname e)).
Proof.
  intros H He. destruct (P_Kallsyms.dup_marks ls ks H) as [Hm Hd]. specialize (Hd i e He).
  assert (Hi : nth_error (S_Kallsyms.text_syms ls) i = Some (M_Kallsyms.kaddr e, M_Kallsyms.kname e)).
  { rewrite <- Hm, nth_error_map, He. reflexivity. }
  split.
  - intros Hf. destruct (nth_error_split _ _ Hi) as (l1 & l2 & E & Hl). exists l1, (M_Kallsyms.kaddr e), l2. split; [exact E|]. intros s Hs Hn.
    assert (Hj : exists j, j <> i /\ nth_error (S_Kallsyms.text_syms ls) j = Some s).
    { rewrite E. apply in_app_or in Hs as [Hs|Hs]; destruct (In_nth_error _ _ Hs) as (k & Hk).
      - exists k. assert (k < List.length l1)%nat by (apply nth_error_Some; congruence). split; [lia|]. rewrite nth_error_app1 by assumption. exact Hk.
      - exists (S (List.length l1 + k)). split; [lia|]. rewrite nth_error_app2 by lia. replace (S (List.length l1 + k) - List.length l1)%nat with (S k) by lia. exact Hk. }
    destruct Hj as (j & Hj & Hjs). assert (M_Kallsyms.kduped e = true) by (apply Hd; exists j, s; auto). congruence.
  - intros (l1 & a & l2 & E & Hu). destruct (M_Kallsyms.kduped e) eqn:Ed; [|reflexivity]. exfalso. destruct (proj1 Hd eq_refl) as (j & s & Hj & Hs & Hn).
    assert (K : forall k t, nth_error (S_Kallsyms.text_syms ls) k = Some t -> snd t = M_Kallsyms.kname e -> k = List.length l1).
    { intros k t Hk Ht. rewrite E in Hk. destruct (Nat.lt_trichotomy k (List.length l1)) as [L|[L|L]]; [|exact L|].
      - exfalso. rewrite nth_error_app1 in Hk by assumption. apply (Hu t); [apply in_or_app; left; eapply nth_error_In; exact Hk|exact Ht].
      - exfalso. rewrite nth_error_app2 in Hk by lia. destruct (k - List.length l1)%nat as [|q] eqn:Eq; [lia|]. cbn in Hk. apply (Hu t); [apply in_or_app; right; eapply nth_error_In; exact Hk|exact Ht]. }
    assert (X1 := K i _ Hi eq_refl). assert (X2 := K j _ Hs Hn). congruence.
Qed.
Lemma sym_of_once ls ks n : M_Kallsyms.new_kallsyms ls = Some ks ->
  (once ls n <-> exists k, sym_of ks n = Some k /\ ky_duped k = false).
Proof.
  intros H. assert (I := P_Kallsyms.load_inv _ _ H). unfold sym_of. assert (Hn := P_Kallsyms.i_n2s _ _ I n).
  destruct (aget String.eqb n (M_Kallsyms.n2s ks)) as [p|].
  - destruct Hn as [(a & Hp) _]. rewrite <- (P_Kallsyms.i_heap _ _ I), nth_error_map in Hp. destruct (nth_error (M_Kallsyms.heap ks) p) as [e|] eqn:Ee; [|discriminate].
    cbn in Hp. injection Hp as Ha En. subst n. rewrite <- (once_iff ls ks p e H Ee). cbn [option_map]. split.
    + intros Hd. eexists. split; [reflexivity|exact Hd].
    + intros (k & Hk & Hd). injection Hk as <-. exact Hd.
  - split; [|intros (k & Hk & _); discriminate]. intros (l1 & a & l2 & E & _). exfalso. apply (Hn (a, n)); [rewrite E; apply in_or_app; right; left; reflexivity|reflexivity].
Qed.
Lemma sym_at_spec ls ks ip : M_Kallsyms.new_kallsyms ls = Some ks ->
  match sym_at ks ip with
  | Some e => exists i, nth_error (M_Kallsyms.heap ks) i = Some e /\ M_Kallsyms.kaddr e = ip /\ S_Kallsyms.last_at (S_Kallsyms.text_syms ls) (ip, M_Kallsyms.kname e)
  | None => forall n, ~ S_Kallsyms.last_at (S_Kallsyms.text_syms ls) (ip, n)
  end.
Proof.
  intros H. assert (I := P_Kallsyms.load_inv _ _ H). unfold sym_at. assert (Ha := P_Kallsyms.i_a2s _ _ I ip).
  destruct (aget Z.eqb ip (M_Kallsyms.a2s ks)) as [p|] eqn:E.
  - destruct Ha as [(n & Hn) Hl]. assert (Hn' := Hn). rewrite <- (P_Kallsyms.i_heap _ _ I), nth_error_map in Hn'. destruct (nth_error (M_Kallsyms.heap ks) p) as [e|] eqn:Ee; [|discriminate].
    cbn in Hn'. injection Hn' as Ea En. exists p. split; [exact Ee|]. split; [exact Ea|]. rewrite En. destruct (nth_error_split _ _ Hn) as (l1 & l2 & Hs & Hl1). exists l1, l2. split; [exact Hs|].
    intros s' Hs'. cbn [fst]. destruct (In_nth_error _ _ Hs') as (k & Hk). apply (Hl (p + 1 + k)%nat); [lia|]. rewrite Hs, nth_error_app2 by lia.
    replace (p + 1 + k - List.length l1)%nat with (S k) by lia. exact Hk.
  - intros n (l1 & l2 & Hs & _). apply (Ha (ip, n)); [rewrite Hs; apply in_or_app; right; left; reflexivity|reflexivity].
Qed.
Lemma last_at_fun l a n n' : S_Kallsyms.last_at l (a, n) -> S_Kallsyms.last_at l (a, n') -> n = n'.
Proof.
  intros (l1 & l2 & E & H) (k1 & k2 & E' & H'). rewrite E in E'. revert k1 E'. induction l1 as [|x l1 IH] in l, E |- *; intros k1 E'.
  - destruct k1 as [|y k1]; cbn in E'; injection E' as Ex El; [congruence|]. exfalso. apply (H (a, n')); [rewrite El; apply in_or_app; right; left; reflexivity|reflexivity].
  - destruct k1 as [|y k1]; cbn in E'; injection E' as Ex El.
    + exfalso. apply (H' (a, n)); [rewrite <- El; apply in_or_app; right; left; reflexivity|reflexivity].
    + exact (IH _ eq_refl k1 El).
Qed.
Lemma once_inj ls n s s' : once ls n -> In s (S_Kallsyms.text_syms ls) -> In s' (S_Kallsyms.text_syms ls) -> snd s = n -> snd s' = n -> s = s'.
Proof.
  intros (l1 & a & l2 & E & Hu) H H' Hn Hn'. rewrite E in H, H'.
  assert (K : forall t, In t (l1 ++ (a, n) :: l2) -> snd t = n -> t = (a, n)).
  { intros t Ht Hs. apply in_app_or in Ht as [Ht|[Ht|Ht]]; [|congruence|]; exfalso; apply (Hu t); auto; apply in_or_app; auto. }
  rewrite (K s H Hn), (K s' H' Hn'). reflexivity.
Qed.
Lemma entry_mod ls ks i e : M_Kallsyms.new_kallsyms ls = Some ks -> nth_error (M_Kallsyms.heap ks) i = Some e -> once ls (M_Kallsyms.kname e) ->
  (M_Kallsyms.kmod e = "bpf" <-> bpf_line ls (M_Kallsyms.kaddr e) (M_Kallsyms.kname e)).
Proof.
  intros H He Ho. assert (Hm := heap_mods ls _ _ H). cbn [M_Kallsyms.ks_empty M_Kallsyms.heap map app] in Hm. rewrite bpf_line_iff.
  assert (Hi : nth_error (text_mods ls) i = Some (emod e)) by (rewrite <- Hm, nth_error_map, He; reflexivity). split.
  - intros Eb. apply nth_error_In in Hi. unfold emod in Hi. rewrite Eb in Hi. exact Hi.
  - intros Hin. destruct Ho as (l1 & a & l2 & E & Hu). rewrite <- mods_syms in E.
    assert (K : forall k t, nth_error (text_mods ls) k = Some t -> snd (fst t) = M_Kallsyms.kname e -> k = List.length l1).
    { intros k t Hk Ht. assert (Hk' : nth_error (map fst (text_mods ls)) k = Some (fst t)) by (rewrite nth_error_map, Hk; reflexivity). rewrite E in Hk'.
      destruct (Nat.lt_trichotomy k (List.length l1)) as [L|[L|L]]; [|exact L|].
      - exfalso. rewrite nth_error_app1 in Hk' by assumption. apply (Hu (fst t)); [apply in_or_app; left; eapply nth_error_In; exact Hk'|exact Ht].
      - exfalso. rewrite nth_error_app2 in Hk' by lia. destruct (k - List.length l1)%nat as [|q] eqn:Eq; [lia|]. cbn in Hk'. apply (Hu (fst t)); [apply in_or_app; right; eapply nth_error_In; exact Hk'|exact Ht]. }
    destruct (In_nth_error _ _ Hin) as (j & Hj). assert (X1 := K i _ Hi eq_refl). assert (X2 := K j _ Hj eq_refl). rewrite X1 in Hi. rewrite X2 in Hj. rewrite Hi in Hj. injection Hj as Ej. exact Ej.
Qed.

(** ** Declarations *)
Lemma func_named_iff ts n d : declared ts n d <-> func_named ts n = (Some (to_func n d), Some d).
Proof.
  unfold declared, func_named. split.
  - intros (l1 & t & l2 & -> & Hn & Hd & Hu). rewrite filter_app. cbn [filter]. rewrite Hn, String.eqb_refl.
    assert (K : forall l, (forall t', In t' l -> t_name t' <> n) -> filter (fun t => String.eqb (t_name t) n) l = []).
    { induction l as [|x l IH]; intros Hl; [reflexivity|]. cbn [filter]. destruct (String.eqb_spec (t_name x) n) as [E|E]; [exfalso; apply (Hl x); [left; reflexivity|exact E]|]. apply IH. intros t' Ht. apply Hl. right. exact Ht. }
    rewrite (K l1), (K l2) by (intros t' Ht; apply Hu; apply in_or_app; auto). cbn [app]. rewrite Hd. reflexivity.
  - induction ts as [|t ts IH]; cbn [filter]; [discriminate|]. destruct (String.eqb_spec (t_name t) n) as [E|E].
    + destruct (filter (fun t0 => String.eqb (t_name t0) n) ts) as [|x l] eqn:Ef; [|discriminate]. intros H. exists [], t, ts. split; [reflexivity|]. split; [exact E|].
      split; [injection H as _ H; exact H|]. cbn [app]. intros t' Ht En. assert (In t' []) as []. rewrite <- Ef. apply filter_In. split; [exact Ht|apply String.eqb_eq; exact En].
    + intros H. destruct (IH H) as (l1 & t' & l2 & -> & Hn & Hd & Hu). exists (t :: l1), t', l2. split; [reflexivity|]. split; [exact Hn|]. split; [exact Hd|]. intros x [<-|Hx]; auto.
Qed.
Lemma func_named_cases ts n : (exists d, declared ts n d /\ func_named ts n = (Some (to_func n d), Some d)) \/ ((forall d, ~ declared ts n d) /\ func_named ts n = (None, None)).
Proof.
  destruct (func_named ts n) as [f o] eqn:E. assert (K : (exists d, (f, o) = (Some (to_func n d), Some d)) \/ (f, o) = (None, None)).
  { unfold func_named in E. destruct (filter _ ts) as [|t [|? ?]]; try (injection E as <- <-; auto; fail). destruct (t_decl t) as [d|]; injection E as <- <-; [left; exists d; reflexivity|right; reflexivity]. }
  destruct K as [(d & K)|K].
  - left. exists d. rewrite func_named_iff, E. auto.
  - right. split; [|exact K]. intros d H. apply func_named_iff in H. rewrite E, K in H. discriminate.
Qed.
Lemma declared_fun ts n d d' : declared ts n d -> declared ts n d' -> d = d'.
Proof. rewrite !func_named_iff. intros H H'. rewrite H in H'. congruence. Qed.
Lemma params_ok_iff d : params_ok d = true <-> small d.
Proof.
  unfold params_ok, small. rewrite forallb_forall. split; intros H p Hp; specialize (H p Hp); [apply negb_true_iff in H; apply Z.ltb_ge in H; exact H|apply negb_true_iff; apply Z.ltb_ge; exact H].
Qed.
Lemma reg_count_eq d : reg_count d = regs d.
Proof.
  unfold reg_count, regs. induction (d_params d) as [|p l IH]; [reflexivity|]. cbn [fold_right List.length filter]. rewrite IH. destruct (8 <? snd p)%Z; cbn [List.length]; lia.
Qed.

Section G.
  Variable glob : string -> string -> bool.
  Variable w : mworld.
  Variable ls : list (list string).
  Hypothesis Hks : M_Kallsyms.new_kallsyms ls = Some (mw_ks w).
  Hypothesis Hmulti : no_multi w.
  Variable n : string.
  Hypothesis Honce : once ls n.

  Lemma traceable_iff d : (exists k, traceable (msyms w) (to_func n d) false = Some k) <-> plain n d.
  Proof.
    unfold traceable, plain, msyms. cbn [fn_ret_struct fn_name to_func]. destruct (variadic (to_func n d)) eqn:Ev.
    - apply variadic_iff in Ev. split; [intros (k & H); discriminate|intros [H _]; contradiction].
    - assert (Hv : ~ has_varargs (to_func n d)) by (intros H; apply variadic_iff in H; congruence). destruct (d_ret_struct d).
      + split; [intros (k & H); discriminate|intros [_ H]; discriminate].
      + apply (sym_of_once ls (mw_ks w) n Hks) in Honce. destruct Honce as (k & Hk & Hd). rewrite Hk, Hd. cbn [andb]. split; [auto|]. intros _. exists k. reflexivity.
  Qed.
  Lemma traceable_none d : traceable (msyms w) (to_func n d) false = None <-> ~ plain n d.
  Proof.
    rewrite <- traceable_iff. split; [intros H (k & Hk); congruence|]. intros H. destruct (traceable (msyms w) (to_func n d) false) as [k|]; [exfalso; apply H; exists k; reflexivity|reflexivity].
  Qed.
  Lemma first_fit_ex ms fn : (exists m, first_fit glob ms m fn) <-> exists m, In m ms /\ fits glob m fn.
  Proof.
    split.
    - intros (m & l1 & l2 & -> & Hf & _). exists m. split; [apply in_or_app; right; left; reflexivity|exact Hf].
    - intros (m & Hm & Hf). destruct (match_kfunc glob fn ms) as [m'|] eqn:E; [exists m'; apply match_kfunc_iff; exact E|]. exfalso.
      induction ms as [|x ms IH]; [destruct Hm|]. cbn [match_kfunc] in E. destruct (pmatch glob x fn) eqn:Ex; [discriminate|]. destruct Hm as [<-|Hm]; [|auto].
      apply pmatch_iff in Hf. congruence.
  Qed.
  Lemma match_any ms d : (forall m, In m ms -> f_multi m = false) ->
    (exists x, match_kernel_func glob (msyms w) ms (mw_max w) (to_func n d) = Some x) <->
    any_fits glob ms n d /\ plain n d /\ small d /\ (Z.of_nat (List.length (d_params d)) <= mw_max w)%Z.
  Proof.
    intros Hm. unfold any_fits. rewrite <- first_fit_ex, <- traceable_iff. split.
    - intros ([m k] & H). apply match_iff in H as (Hf & Hv & Hr & Hp & Hs & Hd & Hl). cbn [to_func fn_params_ok fn_params fn_name fn_ret_struct] in *. rewrite map_length in Hl.
      assert (Em : f_multi m = false). { destruct Hf as (l1 & l2 & -> & _). apply Hm. apply in_or_app. right. left. reflexivity. }
      split; [exists m; exact Hf|]. split; [|split; [apply params_ok_iff; exact Hp|destruct Hl as [Hl|[Hl _]]; [exact Hl|congruence]]].
      apply traceable_iff. split; [exact Hv|exact Hr].
    - intros ((m & Hf) & (k & Hk) & Hp & Hl). exists (m, k). apply match_iff.
      assert (P : plain n d) by (apply traceable_iff; exists k; exact Hk). destruct P as [Hv Hr]. unfold selected. cbn [to_func fn_params_ok fn_params fn_name fn_ret_struct]. rewrite map_length.
      unfold traceable in Hk. destruct (variadic (to_func n d)); [discriminate|]. cbn [to_func fn_ret_struct fn_name] in Hk. rewrite Hr in Hk.
      destruct (msyms w n) as [k'|] eqn:Es; [|discriminate]. destruct (ky_duped k') eqn:Ed; [discriminate|]. cbn [andb] in Hk. injection Hk as ->.
      repeat split; auto. + apply params_ok_iff. exact Hp. + congruence.
  Qed.
  Lemma match_none ms d : (forall m, In m ms -> f_multi m = false) ->
    match_kernel_func glob (msyms w) ms (mw_max w) (to_func n d) = None <->
    ~ (any_fits glob ms n d /\ plain n d /\ small d /\ (Z.of_nat (List.length (d_params d)) <= mw_max w)%Z).
  Proof.
    intros Hm. rewrite <- (match_any ms d Hm). split; [intros H (x & Hx); congruence|]. intros H. destruct (match_kernel_func _ _ _ _ _) as [x|]; [exfalso; apply H; exists x; reflexivity|reflexivity].
  Qed.
  Lemma excluded_iff ss : excluded glob w n ss = true <->
    exists b ts d, In (b, ts) ss /\ declared ts n d /\ plain n d /\ small d /\ (Z.of_nat (List.length (d_params d)) <= mw_max w)%Z /\ any_fits glob (mw_excludes w) n d.
  Proof.
    assert (Hm : forall m, In m (mw_excludes w) -> f_multi m = false) by (intros m H; apply Hmulti; right; exact H).
    induction ss as [|[b ts] ss IH]; cbn [excluded]; [split; [discriminate|intros (b & ts & d & [] & _)]|].
    assert (K : excluded glob w n ss = true <-> exists b0 ts0 d, In (b0, ts0) ss /\ declared ts0 n d /\ plain n d /\ small d /\ (Z.of_nat (List.length (d_params d)) <= mw_max w)%Z /\ any_fits glob (mw_excludes w) n d) by exact IH.
    destruct (func_named_cases ts n) as [(d & Hd & E)|(Hd & E)]; rewrite E.
    - destruct (match_kernel_func glob (msyms w) (mw_excludes w) (mw_max w) (to_func n d)) as [x|] eqn:Ex.
      + split; [|reflexivity]. intros _. destruct (proj1 (match_any _ d Hm) (ex_intro _ x Ex)) as (H1 & H2 & H3 & H4). exists b, ts, d. split; [left; reflexivity|]. auto.
      + apply (match_none _ d Hm) in Ex. rewrite K. split.
        * intros (b0 & ts0 & d0 & Hin & H). exists b0, ts0, d0. split; [right; exact Hin|exact H].
        * intros (b0 & ts0 & d0 & [Hin|Hin] & H0 & H); [|exists b0, ts0, d0; auto]. exfalso. injection Hin as <- <-. rewrite (declared_fun _ _ _ _ Hd H0) in Ex. apply Ex. tauto.
    - rewrite K. split.
      + intros (b0 & ts0 & d0 & Hin & H). exists b0, ts0, d0. split; [right; exact Hin|exact H].
      + intros (b0 & ts0 & d0 & [Hin|Hin] & H0 & H); [|exists b0, ts0, d0; auto]. exfalso. injection Hin as <- <-. exact (Hd d0 H0).
  Qed.

  Definition hit (s : spec) : Prop := exists d, declared (snd s) n d /\ (allowed glob w n d \/ fatal w n d).
  (** What the head of the list contributes. *)
  Lemma included_step b ts (ss : list spec) :
    (exists d, declared ts n d /\ allowed glob w n d /\ included glob w n (@cons spec (b, ts) ss) = FYes b d) \/
    (exists d, declared ts n d /\ fatal w n d /\ included glob w n (@cons spec (b, ts) ss) = FErr) \/
    (~ hit (b, ts) /\ included glob w n (@cons spec (b, ts) ss) = included glob w n ss).
  Proof.
    assert (Hm : forall m, In m (mw_includes w) -> f_multi m = false) by (intros m H; apply Hmulti; left; exact H).
    cbn [included]. destruct (func_named_cases ts n) as [(d & Hd & E)|(Hd & E)]; rewrite E.
    2:{ right. right. split; [|reflexivity]. intros (d & H & _). exact (Hd d H). }
    destruct (traceable (msyms w) (to_func n d) false) as [k|] eqn:Et.
    2:{ right. right. split; [|reflexivity]. intros (d' & H & Ha). rewrite (declared_fun _ _ _ _ H Hd) in Ha. apply traceable_none in Et. destruct Ha as [[Ha _]|(_ & Ha & _)]; contradiction. }
    assert (Pl : plain n d) by (apply traceable_iff; exists k; exact Et).
    unfold allowed, fatal, hit. destruct (mw_includes w) as [|m ms] eqn:Ei.
    - destruct (params_ok d) eqn:Ep; cbn [negb].
      + apply params_ok_iff in Ep. rewrite reg_count_eq. destruct (Z.leb_spec (regs d) (mw_max w)) as [Hr|Hr].
        * left. exists d. auto.
        * right. right. split; [|reflexivity]. intros (d' & H & Ha). rewrite (declared_fun _ _ _ _ H Hd) in Ha. unfold allowed, fatal in Ha. rewrite Ei in Ha. destruct Ha as [(_ & _ & Ha)|(_ & _ & Ha)]; [lia|contradiction].
      + right. left. exists d. split; [exact Hd|]. split; [|reflexivity]. split; [reflexivity|]. split; [exact Pl|]. intros H. apply params_ok_iff in H. congruence.
    - destruct (match_kernel_func glob (msyms w) (m :: ms) (mw_max w) (to_func n d)) as [x|] eqn:Ex.
      + left. exists d. destruct (proj1 (match_any _ d Hm) (ex_intro _ x Ex)) as (H1 & H2 & H3 & H4). auto 6.
      + right. right. split; [|reflexivity]. intros (d' & H & Ha). rewrite (declared_fun _ _ _ _ H Hd) in Ha. apply (match_none _ d Hm) in Ex. unfold allowed, fatal in Ha. rewrite Ei in Ha.
        destruct Ha as [(_ & Hs & Ha & Hb)|(Ha & _)]; [apply Ex; auto|discriminate].
  Qed.
  Lemma first_cons (Q : spec -> Prop) s ss x : first_spec Q (s :: ss) x <-> (Q s /\ x = s) \/ (~ Q s /\ first_spec Q ss x).
  Proof.
    split.
    - intros ([|y l1] & l2 & E & Hq & Hn); cbn in E; injection E as -> E; [left; auto|]. right. split; [apply Hn; left; reflexivity|]. exists l1, l2. split; [exact E|]. split; [exact Hq|]. intros s' Hs. apply Hn. right. exact Hs.
    - intros [[Hq ->]|[Hq (l1 & l2 & -> & Hx & Hn)]]; [exists [], ss; split; [reflexivity|]; split; [exact Hq|intros s' []]|].
      exists (s :: l1), l2. split; [reflexivity|]. split; [exact Hx|]. intros s' [<-|Hs]; auto.
  Qed.
  Lemma first_nil (Q : spec -> Prop) x : ~ first_spec Q [] x.
  Proof. intros ([|y l1] & l2 & E & _); discriminate. Qed.
  Lemma not_both d : allowed glob w n d -> fatal w n d -> False.
  Proof. intros (_ & H & _) (_ & _ & H'). contradiction. Qed.
  Lemma included_yes ss b d : included glob w n ss = FYes b d <-> exists ts, first_spec hit ss (b, ts) /\ declared ts n d /\ allowed glob w n d.
  Proof.
    induction ss as [|[b0 ts0] ss IH].
    - cbn. split; [discriminate|]. intros (ts & H & _). exfalso. exact (first_nil _ _ H).
    - destruct (included_step b0 ts0 ss) as [(d0 & Hd & Ha & E)|[(d0 & Hd & Hf & E)|(Hn & E)]]; rewrite E.
      + assert (Hh : hit (b0, ts0)) by (exists d0; auto). split.
        * intros H. injection H as <- <-. exists ts0. split; [apply first_cons; left; auto|auto].
        * intros (ts & H & Hd' & _). apply first_cons in H as [[_ H]|[H _]]; [|contradiction]. injection H as -> ->. rewrite (declared_fun _ _ _ _ Hd Hd'). reflexivity.
      + assert (Hh : hit (b0, ts0)) by (exists d0; auto). split; [discriminate|]. intros (ts & H & Hd' & Ha). apply first_cons in H as [[_ H]|[H _]]; [|contradiction]. injection H as -> ->.
        rewrite (declared_fun _ _ _ _ Hd' Hd) in Ha. exfalso. exact (not_both _ Ha Hf).
      + rewrite IH. split; intros (ts & H & H'); exists ts; (split; [|exact H']); [apply first_cons; right; auto|]. apply first_cons in H as [[H _]|[_ H]]; [contradiction|exact H].
  Qed.
  Lemma included_err ss : included glob w n ss = FErr <-> exists b ts d, first_spec hit ss (b, ts) /\ declared ts n d /\ fatal w n d.
  Proof.
    induction ss as [|[b0 ts0] ss IH].
    - cbn. split; [discriminate|]. intros (b & ts & d & H & _). exfalso. exact (first_nil _ _ H).
    - destruct (included_step b0 ts0 ss) as [(d0 & Hd & Ha & E)|[(d0 & Hd & Hf & E)|(Hn & E)]]; rewrite E.
      + assert (Hh : hit (b0, ts0)) by (exists d0; auto). split; [discriminate|]. intros (b & ts & d & H & Hd' & Hf). apply first_cons in H as [[_ H]|[H _]]; [|contradiction]. injection H as -> ->.
        rewrite (declared_fun _ _ _ _ Hd' Hd) in Hf. exfalso. exact (not_both _ Ha Hf).
      + assert (Hh : hit (b0, ts0)) by (exists d0; auto). split; [|reflexivity]. intros _. exists b0, ts0, d0. split; [apply first_cons; left; auto|auto].
      + rewrite IH. split; intros (b & ts & d & H & H'); exists b, ts, d; (split; [|exact H']); [apply first_cons; right; auto|]. apply first_cons in H as [[H _]|[_ H]]; [contradiction|exact H].
  Qed.
End G.

Lemma deny_iff x : mem x deny = true <-> denied x.
Proof. rewrite mem_iff. unfold denied, deny. cbn. tauto. Qed.
Lemma noreturn_iff x : mem x noreturn = true <-> never_returns x.
Proof. rewrite mem_iff. unfold never_returns, noreturn. cbn. tauto. Qed.

Section T.
  Variable glob : string -> string -> bool.
  Variable w : mworld.
  Variable ls : list (list string).
  Hypothesis Hks : M_Kallsyms.new_kallsyms ls = Some (mw_ks w).
  Hypothesis Hmulti : no_multi w.
  Lemma join_cases taken ip : mw_progs w ip = None ->
    (exists n, kernel_function ls w ip n /\
       may_join glob w taken ip = if excluded glob w n (mw_specs w) then VSkip else
         match included glob w n (mw_specs w) with FErr => VErr | FNone => VSkip | FYes b d => if mem n taken then VSkip else VFunc n b d end) \/
    ((forall n, ~ kernel_function ls w ip n) /\ may_join glob w taken ip = VSkip).
  Proof.
    intros Hp. unfold may_join. rewrite Hp. assert (Ha := sym_at_spec ls (mw_ks w) ip Hks). destruct (sym_at (mw_ks w) ip) as [e|].
    2:{ right. split; [|reflexivity]. intros n (_ & H & _). exact (Ha n H). }
    destruct Ha as (i & Hi & Ka & Hl). assert (Ho := once_iff ls (mw_ks w) i e Hks Hi). cbv zeta.
    assert (U : forall n, S_Kallsyms.last_at (S_Kallsyms.text_syms ls) (ip, n) -> n = M_Kallsyms.kname e) by (intros n H; exact (last_at_fun _ _ _ _ H Hl)).
    destruct (M_Kallsyms.kduped e) eqn:Ed.
    { right. split; [|reflexivity]. intros n (_ & H & H1 & _). rewrite (U n H) in H1. apply Ho in H1. discriminate. }
    assert (H1 : once ls (M_Kallsyms.kname e)) by (apply Ho; reflexivity). assert (Hb := entry_mod ls (mw_ks w) i e Hks Hi H1). rewrite Ka in Hb.
    destruct (String.eqb_spec (M_Kallsyms.kmod e) "bpf") as [Eb|Eb].
    { right. split; [|reflexivity]. intros n (_ & H & _ & H2 & _). rewrite (U n H) in H2. apply H2. apply Hb. exact Eb. }
    destruct (mem (M_Kallsyms.kname e) deny) eqn:E1; cbn [orb].
    { right. split; [|reflexivity]. intros n (_ & H & _ & _ & H2 & _). rewrite (U n H) in H2. apply H2. apply deny_iff. exact E1. }
    destruct (mem (M_Kallsyms.kname e) noreturn) eqn:E2.
    { right. split; [|reflexivity]. intros n (_ & H & _ & _ & _ & H2). rewrite (U n H) in H2. apply H2. apply noreturn_iff. exact E2. }
    left. exists (M_Kallsyms.kname e). split; [|reflexivity]. split; [exact Hp|]. split; [exact Hl|]. split; [exact H1|]. split; [intros H; apply Eb; apply Hb; exact H|].
    split; [intros H; apply deny_iff in H; congruence|intros H; apply noreturn_iff in H; congruence].
  Qed.
  Lemma kf_fun ip n n' : kernel_function ls w ip n -> kernel_function ls w ip n' -> n = n'.
  Proof. intros (_ & H & _) (_ & H' & _). exact (last_at_fun _ _ _ _ H H'). Qed.
  Theorem member_iff taken ip n b d : may_join glob w taken ip = VFunc n b d <->
    kernel_function ls w ip n /\ ~ ruled_out glob w n /\ ~ In n taken /\
    exists ts, first_spec (fun s => exists d', declared (snd s) n d' /\ (allowed glob w n d' \/ fatal w n d')) (mw_specs w) (b, ts) /\ declared ts n d /\ allowed glob w n d.
  Proof.
    destruct (mw_progs w ip) as [p|] eqn:Hp.
    { unfold may_join. rewrite Hp. split; [destruct (can_trace _ p); discriminate|]. intros ((H & _) & _). congruence. }
    destruct (join_cases taken ip Hp) as [(m & Hk & E)|(Hk & E)]; rewrite E.
    2:{ split; [discriminate|]. intros (H & _). exfalso. exact (Hk n H). }
    assert (Ho : once ls m) by apply Hk. assert (Hx := excluded_iff glob w ls Hks Hmulti m Ho (mw_specs w)).
    assert (Hi := fun b d => included_yes glob w ls Hks Hmulti m Ho (mw_specs w) b d).
    split.
    - destruct (excluded glob w m (mw_specs w)); [discriminate|]. destruct (included glob w m (mw_specs w)) as [| |b' d']; try discriminate.
      destruct (mem m taken) eqn:Em; [discriminate|]. intros H. injection H as -> -> ->. split; [exact Hk|]. split; [intros H; apply Hx in H; discriminate|].
      split; [intros H; apply mem_iff in H; congruence|]. apply Hi. reflexivity.
    - intros (H & Hr & Ht & He). assert (Em := kf_fun _ _ _ H Hk). subst m. apply Hi in He. rewrite He.
      destruct (excluded glob w n (mw_specs w)); [exfalso; apply Hr; apply Hx; reflexivity|]. destruct (mem n taken) eqn:Em; [apply mem_iff in Em; contradiction|reflexivity].
  Qed.
  Theorem abort_iff taken ip : may_join glob w taken ip = VErr <->
    exists n, kernel_function ls w ip n /\ ~ ruled_out glob w n /\
    exists b ts d, first_spec (fun s => exists d', declared (snd s) n d' /\ (allowed glob w n d' \/ fatal w n d')) (mw_specs w) (b, ts) /\ declared ts n d /\ fatal w n d.
  Proof.
    destruct (mw_progs w ip) as [p|] eqn:Hp.
    { unfold may_join. rewrite Hp. split; [destruct (can_trace _ p); discriminate|]. intros (n & (H & _) & _). congruence. }
    destruct (join_cases taken ip Hp) as [(m & Hk & E)|(Hk & E)]; rewrite E.
    2:{ split; [discriminate|]. intros (n & H & _). exfalso. exact (Hk n H). }
    assert (Ho : once ls m) by apply Hk. assert (Hx := excluded_iff glob w ls Hks Hmulti m Ho (mw_specs w)).
    assert (Hi := included_err glob w ls Hks Hmulti m Ho (mw_specs w)).
    split.
    - destruct (excluded glob w m (mw_specs w)); [discriminate|]. destruct (included glob w m (mw_specs w)) as [| |b' d']; try discriminate; [|destruct (mem m taken); discriminate].
      intros _. exists m. split; [exact Hk|]. split; [intros H; apply Hx in H; discriminate|]. apply Hi. reflexivity.
    - intros (n & H & Hr & He). assert (Em := kf_fun _ _ _ H Hk). subst m. apply Hi in He. rewrite He.
      destruct (excluded glob w n (mw_specs w)); [exfalso; apply Hr; apply Hx; reflexivity|reflexivity].
  Qed.
  (** Two functions that may join have different names: p.syms refuses nothing. *)
  Theorem names_distinct ip ip' n : kernel_function ls w ip n -> kernel_function ls w ip' n -> ip = ip'.
  Proof.
    intros (_ & (l1 & l2 & E & _) & Ho & _) (_ & (k1 & k2 & E' & _) & _).
    assert (X : (ip, n) = (ip', n)). { apply (once_inj ls n); auto; [rewrite E|rewrite E']; apply in_or_app; right; left; reflexivity. } congruence.
  Qed.
End T.

Lemma links_spec ls id : match aget Z.eqb id (new_links ls) with Some l => last_link ls id l | None => forall l, In l ls -> l_prog l <> id end.
Proof.
  unfold new_links. induction ls as [|x ls IH] using rev_ind; [intros l []|]. rewrite fold_left_app. cbn [fold_left]. rewrite (aget_aput _ Zeqb_ok).
  destruct (Z.eqb_spec id (l_prog x)) as [E|E].
  - exists ls, []. split; [reflexivity|]. split; [auto|intros l' []].
  - destruct (aget Z.eqb id _) as [l|].
    + destruct IH as (l1 & l2 & -> & Hl & Hn). exists l1, (l2 ++ [x]). split; [rewrite <- app_assoc; reflexivity|]. split; [exact Hl|]. intros l' H. apply in_app_or in H as [H|[<-|[]]]; auto.
    + intros l H. apply in_app_or in H as [H|[<-|[]]]; auto.
Qed.
Lemma last_link_fun ls id l l' : last_link ls id l -> last_link ls id l' -> l = l'.
Proof.
  intros (a & c & E & Hi & Hn) (a' & c' & E' & Hi' & Hn'). rewrite E in E'. clear E. revert a' E'. induction a as [|x a IH]; intros [|y a'] E'; cbn in E'; injection E' as Ex E'.
  - exact Ex.
  - exfalso. apply (Hn l'); [rewrite E'; apply in_or_app; right; left; reflexivity|exact Hi'].
  - exfalso. apply (Hn' l); [rewrite <- E'; apply in_or_app; right; left; reflexivity|exact Hi].
  - exact (IH a' E').
Qed.
Theorem prog_iff glob w taken ip p : may_join glob w taken ip = VProg p <->
  mw_progs w ip = Some p /\ (b_tracing p = true -> forall l, last_link (mw_links w) (b_id p) l -> l_fentry_exit l = true -> l_target l = 0%Z).
Proof.
  unfold may_join. destruct (mw_progs w ip) as [q|].
  - assert (L := links_spec (mw_links w) (b_id q)). unfold can_trace. destruct (b_tracing q) eqn:Et; cbn [negb].
    2:{ split; [intros H; injection H as <-; split; [reflexivity|congruence]|intros (H & _); congruence]. }
    destruct (aget Z.eqb (b_id q) (new_links (mw_links w))) as [l|] eqn:El.
    + destruct (l_fentry_exit l) eqn:Ef.
      * destruct (Z.eqb_spec (l_target l) 0) as [E0|E0].
        -- split; [intros H; injection H as <-; split; [reflexivity|]|intros (H & _); congruence]. intros _ l' Hl' _. rewrite (last_link_fun _ _ _ _ Hl' L). exact E0.
        -- split; [discriminate|]. intros (H & K). injection H as <-. exfalso. apply E0. exact (K Et l L Ef).
      * split; [intros H; injection H as <-; split; [reflexivity|]|intros (H & _); congruence]. intros _ l' Hl' Hf. rewrite (last_link_fun _ _ _ _ Hl' L) in Hf. congruence.
    + split; [intros H; injection H as <-; split; [reflexivity|]|intros (H & _); congruence]. intros _ l (a & c & E & Hi & _). exfalso. apply (L l); [rewrite E; apply in_or_app; right; left; reflexivity|exact Hi].
  - split; [|intros (H & _); discriminate]. destruct (sym_at (mw_ks w) ip) as [e|]; [|discriminate]. cbv zeta.
    intros H. exfalso. revert H. repeat match goal with |- context [if ?x then _ else _] => destruct x; try discriminate end; match goal with |- context [included ?a ?b ?c ?d] => destruct (included a b c d); discriminate end.
Qed.
