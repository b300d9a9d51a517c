(** * Proofs about filter selection and kprobe.multi groups *)
From Coq Require Import List Bool String ZArith Arith Lia.
From Verif Require Import M_Go P_Go M_Flags M_Multi S_Multi.
Import ListNotations.
Open Scope string_scope.
Open Scope list_scope.

Lemma Nateqb_ok : eqb_ok Nat.eqb.
Proof. intros a b. apply Nat.eqb_spec. Qed.
Lemma In_aget {K V} eqb (H : eqb_ok eqb) (k : K) (v : V) m : NoDup (keys m) -> In (k, v) m -> aget eqb k m = Some v.
Proof.
  induction m as [|[k' v'] m IH]; cbn; intros Hn; [intros []|]. inversion Hn as [|? ? H1 H2]; subst. intros [E|Hin].
  - injection E as -> ->. destruct (H k k); [reflexivity|congruence].
  - destruct (H k k') as [E|E]; [|exact (IH H2 Hin)]. subst. exfalso. apply H1. apply (in_map fst) in Hin. exact Hin.
Qed.
Lemma memb_iff x l : memb x l = true <-> In x l.
Proof. unfold memb. rewrite existsb_exists. split; [intros (y & Hy & E); apply String.eqb_eq in E; subst; exact Hy|intros H; exists x; split; [exact H|apply String.eqb_refl]]. Qed.
Lemma match_params_iff a ps : match_params a ps = true <-> about a ps.
Proof. unfold match_params, about. rewrite existsb_exists. split; intros (x & A & B); exists x; apply memb_iff in B || rewrite memb_iff; auto. Qed.
Lemma match_params_false a ps : match_params a ps = false <-> ~ about a ps.
Proof. rewrite <- match_params_iff. destruct (match_params a ps); split; intros; congruence. Qed.
Section F.
  Context {I : Type} (compile : string -> list string -> option I).
  Lemma finj_spec params args : forall i, match finj compile params i args with
    | FSkipped => forall a, In a args -> ~ about a params
    | FErr => exists a, first_about args params a /\ compile (fa_expr a) params = None
    | FInjected j e c => exists a, first_about args params a /\ e = fa_expr a /\ compile e params = Some c end.
  Proof.
    induction args as [|a args IH]; intros i; cbn [finj]; [intros a []|]. destruct (match_params a params) eqn:E; cbn [negb].
    - apply match_params_iff in E. assert (first_about (a :: args) params a) by (exists [], args; split; [reflexivity|split; [exact E|intros b []]]).
      destruct (compile (fa_expr a) params) eqn:Ec; exists a; auto.
    - apply match_params_false in E. specialize (IH (S i)).
      assert (H : forall b, first_about args params b -> first_about (a :: args) params b).
      { intros b (l1 & l2 & -> & Hb & Hn). exists (a :: l1), l2. split; [reflexivity|]. split; [exact Hb|]. intros q [<-|Hq]; auto. }
      destruct (finj compile params (S i) args).
      + intros b [<-|Hb]; auto.
      + destruct IH as (b & Hb & Hc). exists b. auto.
      + destruct IH as (b & Hb & Hc). exists b. auto.
  Qed.
  Lemma first_about_unique args params a b : first_about args params a -> first_about args params b -> a = b.
  Proof.
    intros (l1 & l2 & -> & Ha & Hna) (m1 & m2 & E & Hb & Hnb).
    revert m1 E Hnb. induction l1 as [|x l1 IH]; intros [|y m1] E Hnb; cbn in E; injection E as E1 E2; subst.
    - reflexivity.
    - exfalso. apply (Hnb y); [left; reflexivity|exact Ha].
    - exfalso. apply (Hna b); [left; reflexivity|exact Hb].
    - apply (IH ltac:(intros q Hq; apply Hna; right; exact Hq) m1 E2). intros q Hq. apply Hnb. right. exact Hq.
  Qed.
  Theorem inject_iff args params :
    (inject_filter compile args params = Some None <-> forall a, In a args -> ~ about a params) /\
    (forall c, inject_filter compile args params = Some (Some c) <-> exists a, first_about args params a /\ compile (fa_expr a) params = Some c) /\
    (inject_filter compile args params = None <-> exists a, first_about args params a /\ compile (fa_expr a) params = None).
  Proof.
    assert (S := finj_spec params args 0). unfold inject_filter.
    assert (X : forall a, first_about args params a -> In a args /\ about a params) by (intros a (l1 & l2 & -> & H & _); split; [apply in_or_app; right; left; reflexivity|exact H]).
    destruct (finj compile params 0 args) as [| |j e c].
    - split; [split; [intros _; exact S|reflexivity]|]. split; [intros c|]; (split; [discriminate|]); intros (a & Ha & _); apply X in Ha as [A B]; exfalso; exact (S a A B).
    - destruct S as (a & Ha & Hc). split; [split; [discriminate|intros H; apply X in Ha as [A B]; exfalso; exact (H a A B)]|].
      split; [intros c; split; [discriminate|]|split; [intros _; exists a; auto|reflexivity]]. intros (b & Hb & Hc'). rewrite (first_about_unique _ _ _ _ Hb Ha) in Hc'. congruence.
    - destruct S as (a & Ha & -> & Hc). split; [split; [discriminate|intros H; apply X in Ha as [A B]; exfalso; exact (H a A B)]|].
      split; [intros c'; split|split; [discriminate|]].
      + intros E. injection E as <-. exists a. auto.
      + intros (b & Hb & Hc'). rewrite (first_about_unique _ _ _ _ Hb Ha) in Hc'. congruence.
      + intros (b & Hb & Hc'). rewrite (first_about_unique _ _ _ _ Hb Ha) in Hc'. congruence.
  Qed.

  (** ** groups *)
  Definition of_index (i : nat) (f : mfn) : bool := match arg_index f with Some j => Nat.eqb i j | None => false end.
  Definition grouped (fns : list mfn) (i : nat) : option group := match filter (of_index i) fns with [] => None | f :: r => Some {| gr_rep := f; gr_fns := f :: r |} end.
  Lemma groups_ok fns : forall done acc gs, (forall i, aget Nat.eqb i acc = grouped done i) -> NoDup (keys acc) ->
    groups acc fns = Some gs -> (forall i, aget Nat.eqb i gs = grouped (done ++ fns) i) /\ NoDup (keys gs).
  Proof.
    induction fns as [|f fns IH]; intros done acc gs Ha Hn; cbn [groups].
    - intros E. injection E as <-. rewrite app_nil_r. auto.
    - destruct (arg_index f) as [i|] eqn:Ei; [|discriminate]. intros E. assert (Ed : done ++ f :: fns = (done ++ [f]) ++ fns) by (rewrite <- app_assoc; reflexivity). rewrite Ed.
      eapply IH; [| |exact E].
      + intros j. rewrite (aget_aput _ Nateqb_ok). unfold grouped. rewrite filter_app. cbn [filter]. unfold of_index at 2. rewrite Ei.
        destruct (Nat.eqb_spec j i) as [Eji|Eji].
        * subst j. rewrite Ha. unfold grouped. destruct (filter (of_index i) done) as [|x r]; reflexivity.
        * rewrite app_nil_r. apply Ha.
      + apply (NoDup_aput _ Nateqb_ok). exact Hn.
  Qed.
  Lemma groups_total fns : forall acc, (forall f, In f fns -> arg_index f <> None) -> groups acc fns <> None.
  Proof.
    induction fns as [|f fns IH]; intros acc H; cbn [groups]; [discriminate|]. destruct (arg_index f) eqn:E; [apply IH; intros g Hg; apply H; right; exact Hg|].
    exfalso. apply (H f); [left; reflexivity|exact E].
  Qed.
  Lemma groups_idx fns : forall acc gs, groups acc fns = Some gs -> forall f, In f fns -> arg_index f <> None.
  Proof.
    induction fns as [|f fns IH]; intros acc gs; cbn [groups]; [intros _ g []|]. destruct (arg_index f) eqn:E; [|discriminate]. intros H g [<-|Hg]; [congruence|eapply IH; eassumption].
  Qed.
  Lemma filter_head {A} (P : A -> bool) l x r : filter P l = x :: r -> exists l1 l2, l = l1 ++ x :: l2 /\ P x = true /\ forall q, In q l1 -> P q = false.
  Proof.
    induction l as [|a l IH]; cbn [filter]; [discriminate|]. destruct (P a) eqn:E.
    - intros H. injection H as <- _. exists [], l. split; [reflexivity|]. split; [exact E|intros q []].
    - intros H. destruct (IH H) as (l1 & l2 & -> & Hx & Hn). exists (a :: l1), l2. split; [reflexivity|]. split; [exact Hx|]. intros q [<-|Hq]; auto.
  Qed.
  Lemma of_index_iff i f : of_index i f = true <-> arg_index f = Some i.
  Proof. unfold of_index. destruct (arg_index f) as [j|]; [destruct (Nat.eqb_spec i j); subst; split; congruence|split; discriminate]. Qed.
  (** a group of the final map, in words *)
  Lemma grouped_spec fns i g : grouped fns i = Some g ->
    (forall f, In f (gr_fns g) <-> In f fns /\ arg_index f = Some i) /\ (forall f, arg_index f = Some i -> stands_for fns (gr_rep g) f) /\ In (gr_rep g) (gr_fns g).
  Proof.
    unfold grouped. destruct (filter (of_index i) fns) as [|x r] eqn:E; [discriminate|]. intros H. injection H as <-. cbn [gr_rep gr_fns]. split; [|split; [|left; reflexivity]].
    - intros f. rewrite <- E, filter_In, of_index_iff. reflexivity.
    - intros f Hf. apply filter_head in E as (l1 & l2 & -> & Hx & Hn). exists l1, l2. split; [reflexivity|]. apply of_index_iff in Hx. split; [congruence|].
      intros q Hq Eq. apply Hn in Hq. assert (of_index i q = true) by (apply of_index_iff; congruence). congruence.
  Qed.
  Lemma filter_symbols_keep avail syms s : In s (fst (filter_symbols avail syms)) <-> In s syms /\ attachable avail s.
  Proof.
    clear compile I. unfold filter_symbols, attachable. cbn [fst]. rewrite filter_In, andb_true_iff, memb_iff, negb_true_iff. unfold skip_symbol.
    assert (X : existsb (fun e => has_prefix e s) skip_entries = false <-> forall e, In e skip_entries -> has_prefix e s = false).
    { split.
      - intros H e He. destruct (has_prefix e s) eqn:E; [|reflexivity]. assert (existsb (fun e => has_prefix e s) skip_entries = true) by (apply existsb_exists; exists e; auto). congruence.
      - intros H. destruct (existsb _ skip_entries) eqn:E; [|reflexivity]. apply existsb_exists in E as (e & He & E). rewrite (H e He) in E. discriminate. }
    rewrite X. tauto.
  Qed.
  Lemma filter_symbols_partition avail syms s : In s syms <-> In s (fst (filter_symbols avail syms)) \/ In s (snd (filter_symbols avail syms)).
  Proof.
    unfold filter_symbols. cbn [fst snd]. rewrite !filter_In. destruct (negb (skip_symbol s) && memb s avail); cbn; intuition congruence.
  Qed.

  Variables (args outs : list farg) (has_session mode_exit : bool) (avail : list string).
  Notation all_links := (all_links compile args outs has_session mode_exit avail).
  Notation group_links := (group_links compile args outs has_session mode_exit).
  Lemma all_links_In gs : forall ls, all_links gs = Some ls -> forall a, In a ls <->
    exists i g l, In (i, g) gs /\ fst (filter_symbols avail (map mf_name (gr_fns g))) <> [] /\ group_links g (fst (filter_symbols avail (map mf_name (gr_fns g)))) = Some l /\ In a l.
  Proof.
    induction gs as [|[i g] gs IH]; intros ls; cbn [M_Multi.all_links].
    - intros E a. injection E as <-. split; [intros []|intros (i & g & l & [] & _)].
    - remember (fst (filter_symbols avail (map mf_name (gr_fns g)))) as syms eqn:Es. destruct syms as [|s syms].
      + intros E a. rewrite (IH ls E a). split; intros (i' & g' & l & Hin & H); exists i', g', l; (split; [|exact H]); [right; exact Hin|]. destruct Hin as [Hin|Hin]; [|exact Hin].
        injection Hin as <- <-. rewrite <- Es in H. destruct H as [H _]. congruence.
      + destruct (group_links g (s :: syms)) as [l|] eqn:El; [|discriminate]. destruct (all_links gs) as [l'|] eqn:El'; [|discriminate]. intros E a. injection E as <-.
        rewrite in_app_iff, (IH l' eq_refl a). split.
        * intros [H|(i' & g' & q & Hin & H)]; [exists i, g, l; rewrite <- Es; split; [left; reflexivity|split; [discriminate|auto]]|exists i', g', q; split; [right; exact Hin|exact H]].
        * intros (i' & g' & q & [Hin|Hin] & H); [injection Hin as <- <-; rewrite <- Es in H; destruct H as (_ & H1 & H2); left; congruence|right; exists i', g', q; auto].
  Qed.
  (** links of one group *)
  Definition right_link (g : group) (syms : list string) (a : attach I) : Prop :=
    at_syms a = syms /\ at_opts a = mf_opts (gr_rep g) /\
    (at_exit a = false -> inject_filter compile args (mf_params (gr_rep g)) = Some (at_filter a)) /\ (at_exit a = true -> at_filter a = None).
  Lemma mode_link_ok g syms e s a : mode_link compile args outs g syms e s = Some a -> right_link g syms a /\ at_exit a = e /\ at_session a = s.
  Proof.
    unfold mode_link, right_link. destruct (valid_output outs (gr_rep g)); cbn [negb]; [|discriminate]. destruct e.
    - intros E. injection E as <-. cbn. repeat split; auto. discriminate.
    - destruct (inject_filter compile args (mf_params (gr_rep g))) as [fl|]; [|discriminate]. intros E. injection E as <-. cbn. repeat split; auto. discriminate.
  Qed.
  Lemma group_links_ok g syms l : group_links g syms = Some l -> l <> [] /\ (forall a, In a l -> right_link g syms a) /\
    (mo_both (mf_opts (gr_rep g)) = true -> exists a, In a l /\ at_exit a = false) /\
    (mo_both (mf_opts (gr_rep g)) = true -> exists a, In a l /\ (at_exit a = true \/ at_session a = true)) /\
    (mo_both (mf_opts (gr_rep g)) = false -> forall a, In a l -> at_exit a = mode_exit /\ at_session a = false).
  Proof.
    unfold M_Multi.group_links. destruct (mo_both (mf_opts (gr_rep g))); cbn [andb].
    - destruct has_session.
      + destruct (mode_link compile args outs g syms false true) as [a|] eqn:E; [|discriminate]. cbn. intros H. injection H as <-. apply mode_link_ok in E as (H1 & H2 & H3).
        split; [discriminate|]. split; [intros b [<-|[]]; exact H1|]. split; [intros _; exists a; split; [left; reflexivity|exact H2]|]. split; [intros _; exists a; split; [left; reflexivity|auto]|discriminate].
      + destruct (mode_link compile args outs g syms false false) as [a|] eqn:E1; [|discriminate]. destruct (mode_link compile args outs g syms true false) as [b|] eqn:E2; [|discriminate].
        intros H. injection H as <-. apply mode_link_ok in E1 as (A1 & A2 & A3), E2 as (B1 & B2 & B3). split; [discriminate|]. split; [intros c [<-|[<-|[]]]; assumption|].
        split; [intros _; exists a; split; [left; reflexivity|exact A2]|]. split; [intros _; exists b; split; [right; left; reflexivity|auto]|discriminate].
    - destruct (mode_link compile args outs g syms mode_exit false) as [a|] eqn:E; [|discriminate]. cbn. intros H. injection H as <-. apply mode_link_ok in E as (H1 & H2 & H3).
      split; [discriminate|]. split; [intros b [<-|[]]; exact H1|]. split; [discriminate|]. split; [discriminate|]. intros _ b [<-|[]]. auto.
  Qed.
  (** every attachable function is attached, with the flags and the filter of the function that stands for it *)
  Theorem traced_all fns ls : trace_multi compile args outs has_session mode_exit avail fns = Some ls ->
    forall f, In f fns -> attachable avail (mf_name f) -> exists r a, stands_for fns r f /\ In a ls /\ In (mf_name f) (at_syms a) /\ at_opts a = mf_opts r /\
      (at_exit a = false -> inject_filter compile args (mf_params r) = Some (at_filter a)).
  Proof.
    unfold trace_multi. destruct (groups [] fns) as [gs|] eqn:Eg; [|discriminate]. intros Hl f Hf Ha.
    destruct (groups_ok fns [] [] gs (fun i => eq_refl) ltac:(constructor) Eg) as [Hget Hnd]. cbn [app] in Hget.
    destruct (arg_index f) as [i|] eqn:Ei; [|exfalso; eapply groups_idx; eassumption].
    specialize (Hget i). destruct (grouped fns i) as [g|] eqn:Egr.
    2:{ unfold grouped in Egr. destruct (filter (of_index i) fns) eqn:E; [|discriminate]. assert (In f (filter (of_index i) fns)) by (apply filter_In; split; [exact Hf|apply of_index_iff; exact Ei]). rewrite E in H. destruct H. }
    destruct (grouped_spec _ _ _ Egr) as (G1 & G2 & _). apply (aget_In _ Nateqb_ok) in Hget.
    set (syms := fst (filter_symbols avail (map mf_name (gr_fns g)))). assert (Hs : In (mf_name f) syms) by (apply filter_symbols_keep; split; [apply in_map, G1; auto|exact Ha]).
    assert (Hne : syms <> []) by (intros E; rewrite E in Hs; destruct Hs).
    assert (exists l, group_links g syms = Some l) as [l El].
    { clear -Hl Hget Hne. subst syms. revert ls Hl. induction gs as [|[j h] gs IH]; intros ls Hl; [destruct Hget|]. cbn [M_Multi.all_links] in Hl.
      remember (fst (filter_symbols avail (map mf_name (gr_fns h)))) as sy eqn:Es. destruct Hget as [E|Hin].
      - injection E as -> ->. rewrite <- Es in Hne |- *. destruct sy as [|s sy]; [congruence|]. destruct (group_links g (s :: sy)) as [l|]; [exists l; reflexivity|discriminate].
      - destruct sy as [|s sy]; [exact (IH Hin ls Hl)|]. destruct (group_links h (s :: sy)); [|discriminate]. destruct (all_links gs) as [l'|] eqn:E; [|discriminate]. exact (IH Hin l' eq_refl). }
    destruct (group_links_ok _ _ _ El) as (N & R & _). destruct l as [|a l]; [congruence|]. destruct (R a ltac:(left; reflexivity)) as (R1 & R2 & R3 & R4).
    exists (gr_rep g), a. split; [apply G2, Ei|]. split; [apply (all_links_In gs ls Hl); exists i, g, (a :: l); split; [exact Hget|]; split; [exact Hne|]; split; [exact El|left; reflexivity]|].
    split; [rewrite R1; exact Hs|]. split; [exact R2|exact R3].
  Qed.
  (** nothing else is, and every link at a symbol is that of the function that stands for one of that name *)
  Theorem traced_only fns ls : trace_multi compile args outs has_session mode_exit avail fns = Some ls ->
    forall a s, In a ls -> In s (at_syms a) -> attachable avail s /\ exists f r, In f fns /\ mf_name f = s /\ stands_for fns r f /\ at_opts a = mf_opts r /\
      (at_exit a = false -> inject_filter compile args (mf_params r) = Some (at_filter a)) /\ (at_exit a = true -> at_filter a = None) /\
      (mo_both (mf_opts r) = false -> at_exit a = mode_exit).
  Proof.
    unfold trace_multi. destruct (groups [] fns) as [gs|] eqn:Eg; [|discriminate]. intros Hl a s Ha Hs.
    destruct (groups_ok fns [] [] gs (fun i => eq_refl) ltac:(constructor) Eg) as [Hget Hnd]. cbn [app] in Hget.
    apply (all_links_In gs ls Hl) in Ha as (i & g & l & Hin & Hne & El & Hal). destruct (group_links_ok _ _ _ El) as (_ & R & _ & _ & R').
    destruct (R a Hal) as (R1 & R2 & R3 & R4). rewrite R1 in Hs. apply filter_symbols_keep in Hs as [Hs Hat]. split; [exact Hat|].
    apply in_map_iff in Hs as (f & Hf & Hfg). apply (In_aget _ Nateqb_ok) in Hin; [|exact Hnd]. rewrite Hget in Hin. destruct (grouped_spec _ _ _ Hin) as (G1 & G2 & _).
    apply G1 in Hfg as [F1 F2]. exists f, (gr_rep g). split; [exact F1|]. split; [exact Hf|]. split; [apply G2, F2|]. split; [exact R2|]. split; [exact R3|]. split; [exact R4|].
    intros Hb. apply (R' Hb a Hal).
  Qed.
  Lemma stands_unique fns r r' f : stands_for fns r f -> stands_for fns r' f -> r = r'.
  Proof.
    intros (l1 & l2 & -> & Hr & Hn) (m1 & m2 & E & Hr' & Hn'). revert m1 E Hn'. induction l1 as [|x l1 IH]; intros [|y m1] E Hn'; cbn in E; injection E as E1 E2; subst.
    - reflexivity.
    - exfalso. apply (Hn' y); [left; reflexivity|exact Hr].
    - exfalso. apply (Hn r'); [left; reflexivity|exact Hr'].
    - apply (IH ltac:(intros q Hq; apply Hn; right; exact Hq) m1 E2). intros q Hq. apply Hn'. right. exact Hq.
  Qed.
End F.
