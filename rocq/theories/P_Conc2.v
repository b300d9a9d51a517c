From Coq Require Import ZArith List Bool String Lia Permutation.
From Verif Require Import M_Go P_Go M_Sess S_Sess P_Sess P_Sess2 M_Conc S_Conc P_Conc.
Import ListNotations.
Open Scope Z_scope.

Lemma seen_app a b c d : seen a b -> seen c d -> seen (a ++ c) (b ++ d).
Proof. induction 1; intros; cbn [app]; auto using seen. Qed.
Lemma of_own t l : (forall a, In a l -> actor a = t) -> of_task t l = l.
Proof.
  induction l as [|a l IH]; intros H; [reflexivity|]. cbn [of_task filter]. rewrite (H a (or_introl eq_refl)), Z.eqb_refl. f_equal.
  apply IH. intros b Hb. apply H. right. exact Hb.
Qed.
Lemma of_else t l : (forall a, In a l -> actor a <> t) -> of_task t l = [].
Proof.
  induction l as [|a l IH]; intros H; [reflexivity|]. cbn [of_task filter]. destruct (Z.eqb_spec (actor a) t) as [E|_]; [exfalso; apply (H a); [left; reflexivity|exact E]|].
  apply IH. intros b Hb. apply H. right. exact Hb.
Qed.
Lemma step_progress tasks prog s l s' : progress prog s -> cstep tasks s l = Some s' -> progress prog s'.
Proof.
  intros Hp Hs u. destruct (step_moved _ _ _ _ Hs) as (d & (Hl & Ho & Hd) & _). set (t := mover l) in *.
  destruct (Hp u) as (Hact & pre & He & Hseen). rewrite Hl, of_task_app. destruct (Z.eq_dec u t) as [->|Hne].
  - destruct Hd as [[-> Ht]|(a & Ht & Ha)].
    + rewrite Ht. split; [exact Hact|]. exists pre. split; [exact He|]. cbn [of_task filter]. rewrite app_nil_r. exact Hseen.
    + rewrite Ht in *. split; [intros b Hb; apply Hact; right; exact Hb|]. exists (pre ++ [a]). rewrite <- app_assoc. split; [exact He|].
      pose proof (Hact a (or_introl eq_refl)) as Hat. apply seen_app; [exact Hseen|].
      destruct Ha as [->|Ha]; [|destruct a; subst d].
      * cbn [of_task filter]. rewrite Hat, Z.eqb_refl. apply seen_one. apply seen_nil.
      * cbn [of_task filter actor] in *. rewrite Hat, Z.eqb_refl. apply seen_call. apply seen_nil.
      * apply seen_ret. apply seen_nil.
  - rewrite (Ho u Hne). split; [exact Hact|]. exists pre. split; [exact He|].
    assert (Hd0 : of_task u d = []).
    { apply of_else. intros b Hb. destruct Hd as [[-> _]|(a & Ht & Ha)]; [destruct Hb|].
      assert (Hat : actor a = t) by (apply (proj1 (Hp t)); rewrite Ht; left; reflexivity).
      destruct Ha as [->|Ha]; [destruct Hb as [<-|[]]; congruence|]. destruct a; subst d; [destruct Hb as [<-|[]]; cbn [actor] in *; congruence|destruct Hb]. }
    rewrite Hd0, app_nil_r. exact Hseen.
Qed.
Lemma run_progress tasks prog ls : forall s s', progress prog s -> crun tasks s ls = Some s' -> progress prog s'.
Proof.
  induction ls as [|l ls IH]; intros s s' I; cbn [crun]; [intros [= <-]; exact I|].
  destruct (cstep tasks s l) as [s1|] eqn:E; [|discriminate]. apply IH. exact (step_progress _ _ _ _ _ I E).
Qed.
Definition exact_progress (prog : Z -> list action) (s : cstate) : Prop :=
  forall t, (forall a, In a (t_todo (c_task s t)) -> actor a = t) /\ prog t = of_task t (c_log s) ++ t_todo (c_task s t).
Lemma step_exact tasks prog s l s' : (forall t cpu, l <> LMissed t cpu) -> exact_progress prog s -> cstep tasks s l = Some s' -> exact_progress prog s'.
Proof.
  intros Hnm Hp Hs u. destruct (step_moved _ _ _ _ Hs) as (d & (Hl & Ho & _) & Hd). specialize (Hd Hnm). set (t := mover l) in *.
  destruct (Hp u) as (Hact & He). rewrite Hl, of_task_app. destruct (Z.eq_dec u t) as [->|Hne].
  - destruct Hd as [[-> Ht]|(a & -> & Ht)].
    + rewrite Ht. cbn [of_task filter]. rewrite app_nil_r. auto.
    + rewrite Ht in *. split; [intros b Hb; apply Hact; right; exact Hb|]. rewrite (of_own t [a]), <- app_assoc; [exact He|].
      intros b [<-|[]]. apply Hact. left. reflexivity.
  - rewrite (Ho u Hne). split; [exact Hact|]. rewrite (of_else u d), app_nil_r; [exact He|].
    intros b Hb. destruct Hd as [[-> _]|(a & -> & Ht)]; [destruct Hb|]. destruct Hb as [<-|[]].
    assert (Hat : actor a = t) by (apply (proj1 (Hp t)); rewrite Ht; left; reflexivity). congruence.
Qed.
Lemma run_exact tasks prog ls : no_misses ls -> forall s s', exact_progress prog s -> crun tasks s ls = Some s' -> exact_progress prog s'.
Proof.
  intros Hn. induction ls as [|l ls IH]; intros s s' I; cbn [crun]; [intros [= <-]; exact I|].
  destruct (cstep tasks s l) as [s1|] eqn:E; [|discriminate]. apply IH; [intros t c Hi; apply (Hn t c); right; exact Hi|].
  apply (step_exact tasks prog s l s1); [|exact I|exact E]. intros t c ->. apply (Hn t c). left. reflexivity.
Qed.

Lemma workload_wl tasks prog : workload tasks prog -> exists ks, wl tasks prog ks.
Proof. intros (Hp & ks & Hl & Hk). exists ks. split; [exact Hl|]. split; assumption. Qed.
Lemma reach_inv tasks prog ls s : workload tasks prog -> reaches tasks prog ls s -> exists ks, wl tasks prog ks /\ cinv tasks prog ks s.
Proof. intros W R. destruct (workload_wl _ _ W) as (ks & Hw). exists ks. split; [exact Hw|]. exact (run_inv _ _ _ _ Hw _ _ (init_inv tasks prog ks) R). Qed.
Lemma as_if_atomic tasks prog ls s : workload tasks prog -> reaches tasks prog ls s ->
  c_ring s = ring_map [] (c_log s) /\
  (forall t, exists pre, prog t = pre ++ t_todo (c_task s t) /\ seen pre (of_task t (c_log s))) /\
  (no_misses ls -> forall t, prog t = of_task t (c_log s) ++ t_todo (c_task s t)).
Proof.
  intros W R. destruct (reach_inv _ _ _ _ W R) as (ks & (_ & Hp & _) & I). split; [exact (i_ring _ _ _ _ I)|].
  assert (Hact : forall t a, In a (t_todo (c_task (cinit prog) t)) -> actor a = t) by (intros t a Ha; apply (Hp t a Ha)).
  split.
  - assert (Hpr : progress prog s) by (apply (run_progress tasks prog ls (cinit prog)); [|exact R]; intros t; split; [apply Hact|]; exists []; split; [reflexivity|apply seen_nil]).
    intros t. apply Hpr.
  - intros Hn. assert (Hpr : exact_progress prog s) by (apply (run_exact tasks prog ls Hn (cinit prog)); [|exact R]; intros t; split; [apply Hact|reflexivity]).
    intros t. apply Hpr.
Qed.
Lemma never_stuck tasks prog ls s t : workload tasks prog -> reaches tasks prog ls s -> t_todo (c_task s t) <> [] -> can_move tasks s t.
Proof.
  intros W R Ht. destruct (reach_inv _ _ _ _ W R) as (ks & (Hl & Hp & Hk) & I).
  assert (Hd : t_pc (c_task s t) = Out \/ t_pc (c_task s t) <> Out) by (destruct (t_pc (c_task s t)); auto; right; discriminate).
  destruct Hd as [Hpc|Hpc].
  - destruct (t_todo (c_task s t)) as [|a l] eqn:E; [contradiction|]. destruct (busy tasks s a 0) eqn:Hb.
    + exists (LMissed t 0). eexists. split; [cbn [cstep]; rewrite E, Hpc, Hb; reflexivity|reflexivity].
    + exists (LStart t 0). eexists. split; [cbn [cstep]; rewrite E, Hpc, Hb; reflexivity|reflexivity].
  - destruct (access_inv tasks prog ks s t (Z.lt_le_incl _ _ Hl) Hp Hk I Hpc) as (s' & E & _). exists (LAccess t), s'. split; [exact E|reflexivity].
Qed.

(** Histories and their tasks' parts. *)
Lemma of_cons_self t a h : actor a = t -> of_task t (a :: h) = a :: of_task t h.
Proof. intros H. cbn [of_task filter]. rewrite H, Z.eqb_refl. reflexivity. Qed.
Lemma of_cons_else t a h : actor a <> t -> of_task t (a :: h) = of_task t h.
Proof. intros H. cbn [of_task filter]. destruct (Z.eqb_spec (actor a) t); [contradiction|reflexivity]. Qed.
Lemma of_actor t h a : In a (of_task t h) -> actor a = t.
Proof. intros H. apply filter_In in H as [_ H]. apply Z.eqb_eq. exact H. Qed.
Definition after (st : stacks) (a : action) : stacks :=
  match a with
  | Call t f sid ns pass txt => upds st t ({| f_func := f; f_sid := sid; f_ns := ns; f_pass := pass; f_text := txt |} :: st t)
  | Ret t f ns txt => upds st t (tl (st t))
  end.
Lemma after_else st a u : u <> actor a -> after st a u = st u.
Proof. intros H. destruct a; cbn [after actor] in *; apply upds_ne; exact H. Qed.
Definition same (st st' : stacks) : Prop := forall x, st x = st' x.
Lemma after_same st st' a : same st st' -> same (after st a) (after st' a).
Proof. intros H x. destruct a; cbn [after]; unfold upds; rewrite H; destruct (x =? _); auto. Qed.
Lemma ret_nil st t f ns txt : st t = [] -> same st (after st (Ret t f ns txt)).
Proof. intros H x. cbn [after]. unfold upds. destruct (Z.eqb_spec x t) as [->|]; [rewrite H; reflexivity|reflexivity]. Qed.
Definition fits (st : stacks) (a : action) : Prop :=
  match a with Call _ _ _ _ _ _ => True | Ret t f _ _ => match st t with [] => True | fr :: _ => f_func fr = f end end.
Lemma nested_same h : forall st st', same st st' -> nested st h -> nested st' h.
Proof.
  induction h as [|[t f sid ns pass txt|t f ns txt] h IH]; intros st1 st2 H; [auto|..]; cbn [nested].
  - apply IH. exact (after_same _ _ (Call t f sid ns pass txt) H).
  - rewrite <- (H t). destruct (st1 t) as [|fr l] eqn:E; [apply IH; exact H|]. intros [Hf Hn]. split; [exact Hf|]. revert Hn. apply IH.
    intros x. unfold upds. rewrite H. reflexivity.
Qed.
Lemma nested_cons st a h : nested st (a :: h) <-> fits st a /\ nested (after st a) h.
Proof.
  destruct a as [t f sid ns pass txt|t f ns txt]; cbn [nested fits]; [tauto|]. cbn [after]. destruct (st t) as [|fr l] eqn:E; [|reflexivity].
  split; [intros H; split; [exact I|]|intros [_ H]]; revert H; apply nested_same; pose proof (ret_nil st t f ns txt E) as Hs; cbn [after] in Hs; rewrite E in Hs; [exact Hs|].
  intros x. symmetry. apply Hs.
Qed.
Definition lims (st : stacks) (a : action) : Prop :=
  match a with
  | Call t f _ _ pass _ => (pass = true -> Z.of_nat (List.length (open_calls st t f)) < 64) /\ (pass = false -> open_calls st t f = [])
  | Ret _ _ _ _ => True
  end.
Definition cover (st : stacks) (ks : list skey) : Prop := forall t f, open_calls st t f <> [] -> In (t, f) ks.
Lemma cover_after st ks a : cover st ks -> In (key a) ks -> cover (after st a) ks.
Proof.
  intros Hc Hk t' f' Ho. destruct a as [t f sid ns pass txt|t f ns txt]; cbn [after] in Ho.
  - rewrite open_push in Ho. cbn [f_func f_pass] in Ho. destruct (Z.eqb_spec t' t) as [->|]; cbn [andb] in Ho; [|apply Hc; exact Ho].
    destruct (Z.eq_dec f f') as [E|E]; [subst f'; exact Hk|]. apply Hc. intros Hx. apply Ho. apply Z.eqb_neq in E. rewrite E. exact Hx.
  - apply Hc. intros Hn. apply Ho. clear Ho. destruct (st t) as [|fr l] eqn:E.
    + unfold open_calls in *. unfold upds. destruct (Z.eqb_spec t' t) as [->|]; [reflexivity|exact Hn].
    + rewrite (open_pop _ _ _ _ t' f' E) in Hn. destruct (_ && _ && _); [discriminate|exact Hn].
Qed.
Lemma within_cons st a h : within_limits st (a :: h) -> lims st a /\ within_limits (after st a) h.
Proof.
  destruct a as [t f sid ns pass txt|t f ns txt]; cbn [within_limits lims after]; [|tauto]. intros (H1 & H2 & H3). split; [|exact H3]. split; [|exact H2]. intros Hp. apply (H1 Hp).
Qed.
Lemma within_intro ks st a h : Z.of_nat (List.length ks) < 65536 -> cover st ks -> lims st a -> within_limits (after st a) h -> within_limits st (a :: h).
Proof.
  intros Hl Hc. destruct a as [t f sid ns pass txt|t f ns txt]; cbn [within_limits lims after]; [|tauto]. intros [H1 H2] H3. split; [|split; assumption].
  intros Hp. split; [exact (H1 Hp)|]. exists ks. split; assumption.
Qed.
(** only the task's own stack matters *)
Fixpoint own_ok (st : stacks) (h : list action) : Prop :=
  match h with [] => True | a :: h' => fits st a /\ lims st a /\ own_ok (after st a) h' end.
Lemma own_ext u h : (forall a, In a h -> actor a = u) -> forall st st', st u = st' u -> own_ok st h -> own_ok st' h.
Proof.
  induction h as [|a h IH]; intros Ha st st' He; [auto|]. pose proof (Ha a (or_introl eq_refl)) as Hau.
  cbn [own_ok]. intros (H1 & H2 & H3). split; [|split].
  - destruct a; cbn [actor fits] in *; [exact I|]. subst. rewrite <- He. exact H1.
  - destruct a; cbn [actor lims] in *; [|exact I]. subst. unfold open_calls in *. rewrite <- He. exact H2.
  - revert H3. apply IH; [intros b Hb; apply Ha; right; exact Hb|]. destruct a; cbn [actor after] in *; subst; rewrite !upds_eq, He; reflexivity.
Qed.
Lemma own_merge h : forall st, (forall t, own_ok st (of_task t h)) -> own_ok st h.
Proof.
  induction h as [|a h IH]; intros st H; [exact I|]. cbn [own_ok].
  pose proof (H (actor a)) as Ha. rewrite of_cons_self in Ha by reflexivity. cbn [own_ok] in Ha. destruct Ha as (H1 & H2 & H3).
  split; [exact H1|]. split; [exact H2|]. apply IH. intros t. destruct (Z.eq_dec (actor a) t) as [<-|E]; [exact H3|].
  specialize (H t). rewrite of_cons_else in H by exact E. revert H. apply (own_ext t); [apply of_actor|]. rewrite after_else; [reflexivity|congruence].
Qed.
Lemma own_of h : forall st, nested st h -> within_limits st h -> own_ok st h.
Proof.
  induction h as [|a h IH]; intros st Hn Hw; [exact I|]. apply nested_cons in Hn as [H1 Hn]. apply within_cons in Hw as [H2 Hw]. cbn [own_ok]. auto.
Qed.
Lemma own_nested h : forall st, own_ok st h -> nested st h.
Proof. induction h as [|a h IH]; intros st H; [exact I|]. destruct H as (H1 & H2 & H3). apply nested_cons. auto. Qed.
Lemma own_within ks h : Z.of_nat (List.length ks) < 65536 -> (forall a, In a h -> In (key a) ks) -> forall st, cover st ks -> own_ok st h -> within_limits st h.
Proof.
  intros Hl. induction h as [|a h IH]; intros Hk st Hc H; [exact I|]. destruct H as (H1 & H2 & H3). apply (within_intro ks); try assumption.
  apply IH; [intros b Hb; apply Hk; right; exact Hb| |exact H3]. apply cover_after; [exact Hc|]. apply Hk. left. reflexivity.
Qed.
Lemma own_app a b : forall st, own_ok st (a ++ b) -> own_ok st a.
Proof. induction a as [|x a IH]; intros st H; [exact I|]. destruct H as (H1 & H2 & H3). split; [exact H1|split; [exact H2|apply IH; exact H3]]. Qed.

(** What is expected, task by task. *)
Definition shown (dur : Z -> Z -> Z) (delta : Z) (st : stacks) (a : action) : list (list item) :=
  match a with
  | Call _ _ _ _ _ _ => []
  | Ret t f ns txt => match st t with [] => [] | fr :: _ => let d := dur (f_ns fr) ns in if f_pass fr && negb (d <? delta) then [[line (f_text fr) None; line txt (Some d)]] else [] end
  end.
Lemma expected_same dur delta h : forall st st', same st st' -> expected dur delta st h = expected dur delta st' h.
Proof.
  induction h as [|[t f sid ns pass txt|t f ns txt] h IH]; intros st1 st2 H; [reflexivity|..]; cbn [expected].
  - apply IH. exact (after_same _ _ (Call t f sid ns pass txt) H).
  - rewrite <- (H t). destruct (st1 t) as [|fr l] eqn:E; [apply IH; exact H|]. f_equal. apply IH. intros x. unfold upds. rewrite H. reflexivity.
Qed.
Lemma expected_cons dur delta st a h : expected dur delta st (a :: h) = shown dur delta st a ++ expected dur delta (after st a) h.
Proof.
  destruct a as [t f sid ns pass txt|t f ns txt]; cbn [expected shown]; [reflexivity|]. cbn [after]. destruct (st t) as [|fr l] eqn:E; [|reflexivity].
  apply expected_same. pose proof (ret_nil st t f ns txt E) as Hs. cbn [after] in Hs. rewrite E in Hs. exact Hs.
Qed.
Lemma expected_ext dur delta u h : (forall a, In a h -> actor a = u) -> forall st st', st u = st' u -> expected dur delta st h = expected dur delta st' h.
Proof.
  induction h as [|a h IH]; intros Ha st st' He; [reflexivity|]. pose proof (Ha a (or_introl eq_refl)) as Hau. rewrite !expected_cons. f_equal.
  - destruct a; cbn [actor shown] in *; [reflexivity|]. subst. rewrite He. reflexivity.
  - apply IH; [intros b Hb; apply Ha; right; exact Hb|]. destruct a; cbn [actor after] in *; subst; rewrite !upds_eq, He; reflexivity.
Qed.
Lemma flat_map_one {A} (F G : Z -> list A) g t l : NoDup l -> In t l -> F t = g ++ G t -> (forall u, u <> t -> F u = G u) ->
  Permutation (flat_map F l) (g ++ flat_map G l).
Proof.
  intros Hn Hin Ht Ho. induction l as [|x l IH]; [destruct Hin|]. apply NoDup_cons_iff in Hn as [Hx Hn]. cbn [flat_map].
  destruct Hin as [->|Hin].
  - rewrite Ht, <- app_assoc. replace (flat_map F l) with (flat_map G l); [reflexivity|].
    clear -Hx Ho. induction l as [|y l IH]; [reflexivity|]. cbn [flat_map]. rewrite (Ho y), IH; [reflexivity| |].
    + intros H. apply Hx. right. exact H.
    + intros ->. apply Hx. left. reflexivity.
  - rewrite (Ho x) by (intros ->; contradiction). rewrite (IH Hn Hin). rewrite !app_assoc. apply Permutation_app_tail. apply Permutation_app_comm.
Qed.
Lemma expected_split dur delta tasks h : NoDup tasks -> (forall a, In a h -> In (actor a) tasks) -> forall st,
  Permutation (expected dur delta st h) (flat_map (fun t => expected dur delta st (of_task t h)) tasks).
Proof.
  intros Hnd. induction h as [|a h IH]; intros Hin st.
  - cbn [expected of_task filter]. clear. induction tasks; [constructor|exact IHtasks].
  - rewrite expected_cons. symmetry. etransitivity.
    + apply (flat_map_one _ (fun t => expected dur delta (after st a) (of_task t h)) (shown dur delta st a) (actor a)); [exact Hnd|apply Hin; left; reflexivity| |].
      * rewrite of_cons_self by reflexivity. apply expected_cons.
      * intros u Hu. rewrite of_cons_else by congruence. apply (expected_ext _ _ u); [apply of_actor|]. rewrite after_else; [reflexivity|exact Hu].
    + apply Permutation_app_head. symmetry. apply IH. intros b Hb. apply Hin. right. exact Hb.
Qed.
Lemma of_task_In h a : In a h -> In a (of_task (actor a) h).
Proof. intros H. apply filter_In. split; [exact H|apply Z.eqb_refl]. Qed.

Lemma printed_log tasks prog ls s delta : workload tasks prog -> reaches tasks prog ls s -> no_misses ls ->
  (forall t, nested no_calls (prog t)) -> (forall t, within_limits no_calls (prog t)) -> fresh_ids no_calls (c_log s) ->
  printed delta (c_ring s) = expected dur32 delta no_calls (c_log s).
Proof.
  intros W R Hm Hn Hw Hf. destruct (as_if_atomic _ _ _ _ W R) as (Hr & _ & He). specialize (He Hm).
  destruct (workload_wl _ _ W) as (ks & Hl & Hp & Hk).
  assert (Hown : own_ok no_calls (c_log s)). { apply own_merge. intros t. apply own_app with (b := t_todo (c_task s t)). rewrite <- He. apply own_of; auto. }
  rewrite Hr. apply map_mode_pairs; [apply own_nested; exact Hown|exact Hf|]. apply (own_within ks); [exact Hl| | |exact Hown].
  - intros a Ha. apply of_task_In in Ha. unfold key. apply Hk. rewrite (He (actor a)). apply in_or_app. left. exact Ha.
  - intros t f Ho. contradiction Ho. reflexivity.
Qed.
Lemma printed_tasks tasks prog ls s delta : NoDup tasks -> workload tasks prog -> reaches tasks prog ls s -> no_misses ls -> done s ->
  (forall t, nested no_calls (prog t)) -> (forall t, within_limits no_calls (prog t)) -> fresh_ids no_calls (c_log s) ->
  Permutation (printed delta (c_ring s)) (flat_map (fun t => expected dur32 delta no_calls (prog t)) tasks).
Proof.
  intros Hnd W R Hm Hd Hn Hw Hf. rewrite (printed_log tasks prog ls s delta); try assumption.
  destruct (as_if_atomic _ _ _ _ W R) as (_ & _ & He). specialize (He Hm).
  assert (Hall : forall t, of_task t (c_log s) = prog t) by (intros t; rewrite (He t), (Hd t), app_nil_r; reflexivity).
  etransitivity; [apply (expected_split _ _ tasks)|].
  - exact Hnd.
  - intros a Ha. apply of_task_In in Ha. rewrite Hall in Ha. apply (proj1 W) in Ha. apply Ha.
  - replace (flat_map (fun t => expected dur32 delta no_calls (of_task t (c_log s))) tasks) with (flat_map (fun t => expected dur32 delta no_calls (prog t)) tasks); [reflexivity|].
    apply flat_map_ext. intros t. rewrite Hall. reflexivity.
Qed.
