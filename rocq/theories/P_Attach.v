From Coq Require Import List Bool String Arith Lia.
From Verif Require Import M_Attach S_Attach.
Import ListNotations.
Open Scope list_scope.

Lemma nth_set {A} (l : list A) i x k : nth_error (set_nth i x l) k = if Nat.eqb k i then match nth_error l i with Some _ => Some x | None => None end else nth_error l k.
Proof.
  revert i k. induction l as [|y l IH]; intros i k; cbn [set_nth].
  - destruct i, k; cbn; try reflexivity. destruct (Nat.eqb k i); reflexivity.
  - destruct i, k; cbn; try reflexivity. apply IH.
Qed.
Lemma len_set {A} (l : list A) i x : List.length (set_nth i x l) = List.length l.
Proof. revert i. induction l; intros [|i]; cbn; auto. Qed.
Lemma id_eqb_ok a b : id_eqb a b = true <-> a = b.
Proof.
  unfold id_eqb. destruct a as [a1 a2], b as [b1 b2]. cbn [fst snd]. rewrite andb_true_iff, !Nat.eqb_eq. split.
  - intros [-> ->]. reflexivity.
  - intro H. injection H as -> ->. auto.
Qed.
Lemma In_drop x y l : In x (drop y l) <-> In x l /\ x <> y.
Proof.
  unfold drop. rewrite filter_In, negb_true_iff. split; intros [A B]; split; auto.
  - intro E. subst. assert (id_eqb y y = true) by (apply id_eqb_ok; auto). congruence.
  - destruct (id_eqb y x) eqn:E; auto. apply id_eqb_ok in E. congruence.
Qed.
Lemma In_drops x all l : In x (fold_left (fun l y => drop y l) all l) <-> In x l /\ ~ In x all.
Proof.
  revert l. induction all as [|y all IH]; intro l; cbn [fold_left]. { split; [intros H; split; auto | tauto]. }
  rewrite IH, In_drop. cbn [In]. split.
  - intros [[A B] C]. split; auto. intros [D|D]; auto.
  - intros [A B]. split; [split|]; auto.
Qed.
Lemma all_out {A} (l : list A) : (forall x, ~ In x l) -> l = [].
Proof. destruct l as [|a l]; intro H; auto. exfalso. apply (H a). left; auto. Qed.

(** ** the tables *)
Lemma is_In e t : is e t = true <-> In t e.
Proof.
  unfold is. rewrite existsb_exists. split.
  - intros (x & A & B). destruct t, x; cbn in B; try discriminate; exact A.
  - intro H. exists t. split; auto. destruct t; reflexivity.
Qed.
Lemma load_ok k e : ignore_load k e = true <-> tolerable k false e.
Proof.
  unfold tolerable. split.
  - destruct k; cbn [ignore_load]; try discriminate; rewrite !orb_true_iff, !is_In; intros [[H|H]|H]; eexists; (split; [|exact H]); cbn; tauto.
  - intros (t & A & B). cbn in A.
    repeat (destruct A as [A|A]; [try discriminate; injection A as <- <-; cbn [ignore_load]; rewrite !orb_true_iff, !is_In; tauto|]). destruct A.
Qed.
Lemma attach_ok k e : ignore_attach k e = true <-> tolerable k true e.
Proof.
  unfold tolerable. split.
  - destruct k; cbn [ignore_attach]; try discriminate; rewrite ?orb_true_iff, !is_In.
    + intro H. eexists; (split; [|exact H]); cbn; tauto.
    + intros [[[[H|H]|H]|H]|H]; eexists; (split; [|exact H]); cbn; tauto.
    + intros [[H|H]|H]; eexists; (split; [|exact H]); cbn; tauto.
    + intros [[[[H|H]|H]|H]|H]; eexists; (split; [|exact H]); cbn; tauto.
  - intros (t & A & B). cbn in A.
    repeat (destruct A as [A|A]; [try discriminate; injection A as <- <-; cbn [ignore_attach]; rewrite ?orb_true_iff, !is_In; tauto|]). destruct A.
Qed.
Lemma multi_never att e : ~ tolerable KMulti att e.
Proof. intros (t & A & _). cbn in A. repeat (destruct A as [A|A]; [discriminate|]). destruct A. Qed.

(** ** the jobs *)
Lemma In_jobs c j : In j (jobs c) <->
  (exists f, In f (c_progs c) /\ In j (prog_jobs c f)) \/ (exists f, In f (c_fns c) /\ In j (fn_jobs c f)) \/ (exists g, In g (c_multi c) /\ multi_job c g = j)
  \/ (exists t, In t (c_insns c) /\ insn_job t = j) \/ (exists g, In g (c_graphs c) /\ In j (graph_jobs c g)).
Proof.
  unfold jobs. rewrite !in_app_iff, !in_flat_map, !in_map_iff. firstorder.
Qed.
Lemma job_len c j : In j (jobs c) -> (0 < List.length (j_probes j))%nat /\ (j_kind j = KMulti \/ List.length (j_probes j) = 1).
Proof.
  rewrite In_jobs. intros [(f & _ & H)|[(f & _ & H)|[(g & _ & <-)|[(t & _ & <-)|(g & _ & H)]]]].
  - unfold prog_jobs in H. destruct (a_graph f || a_both f), (c_fsession c); cbn in H; intuition; subst j; cbn; auto.
  - unfold fn_jobs in H. destruct (a_tp f), (a_insn f || a_graph f || a_both f), (c_fsession c); cbn in H; intuition; subst j; cbn; auto.
  - unfold multi_job; cbn [j_probes j_kind]. destruct (snd g && c_ksession c), (snd g); cbn; auto with arith.
  - cbn; auto.
  - unfold graph_jobs in H. destruct (snd g), (c_fsession c); cbn in H; intuition; subst j; cbn; auto.
Qed.
Ltac pick := cbn; intuition (subst; cbn; auto; try congruence; try discriminate).
Lemma wanted_ok c k t p : wanted c k t p <-> exists j, In j (jobs c) /\ j_kind j = k /\ j_target j = t /\ In p (j_probes j).
Proof.
  split.
  - destruct k; cbn [wanted].
    + intros (f & Hf & <- & H).
      assert (X : exists j, In j (prog_jobs c f) /\ j_kind j = KProg /\ j_target j = a_target f /\ In p (j_probes j)).
      { unfold prog_jobs, ends, place in *.
        destruct (a_graph f), (a_both f), (c_fsession c), (c_exit c); cbn in H |- *;
          destruct H as [[[H|H] E]|[[H H'] E]]; try discriminate; try (destruct E as [E|E]); subst p;
          first [ eexists; (split; [left; reflexivity|]); cbn; auto; fail | eexists; (split; [right; left; reflexivity|]); cbn; auto; fail ]. }
      destruct X as (j & A & B). exists j. split; [apply In_jobs; left; eauto|exact B].
    + intros (f & Hf & <- & H).
      assert (X : exists j, In j (fn_jobs c f) /\ j_kind j = KFn /\ j_target j = a_target f /\ In p (j_probes j)).
      { unfold fn_jobs, ends, place in *. destruct H as [[T ->]|[(T & H & E)|(T & (H1 & H2 & H3) & E)]].
        - rewrite T. eexists; split; [left; reflexivity|]. cbn; auto.
        - rewrite T. assert (Y : a_insn f || a_graph f || a_both f = true) by (rewrite !orb_true_iff; tauto). rewrite Y.
          destruct (c_fsession c); try (destruct E as [E|E]); subst p;
          first [ eexists; (split; [left; reflexivity|]); cbn; auto; fail | eexists; (split; [right; left; reflexivity|]); cbn; auto; fail ].
        - rewrite T, H1, H2, H3. cbn. destruct (c_exit c); subst p; eexists; (split; [left; reflexivity|]); cbn; auto. }
      destruct X as (j & A & B). exists j. split; [apply In_jobs; right; left; eauto|exact B].
    + intros (b & Hb & H). exists (multi_job c (t, b)). split; [apply In_jobs; do 2 right; left; eauto|]. split; [reflexivity|]. split; [reflexivity|].
      unfold multi_job, ends, place in *; cbn [j_probes fst snd]. destruct b; cbn [andb].
      * destruct (c_ksession c); cbn; intuition.
      * destruct (c_exit c); cbn; intuition.
    + intros (H & ->). exists (insn_job t). split; [apply In_jobs; do 3 right; left; eauto|]. cbn; auto.
    + intros (H & E).
      assert (X : exists j, In j (graph_jobs c (t, false)) /\ j_kind j = KGraph /\ j_target j = t /\ In p (j_probes j)).
      { unfold graph_jobs, ends in *; cbn [snd fst]. destruct (c_fsession c); try (destruct E as [E|E]); subst p;
          first [ eexists; (split; [left; reflexivity|]); cbn; auto; fail | eexists; (split; [right; left; reflexivity|]); cbn; auto; fail ]. }
      destruct X as (j & A & B). exists j. split; [apply In_jobs; do 4 right; eauto|exact B].
  - intros (j & H & <- & <- & Hp). apply In_jobs in H. destruct H as [(f & Hf & H)|[(f & Hf & H)|[(g & Hg & <-)|[(t' & Ht & <-)|(g & Hg & H)]]]].
    + unfold prog_jobs in H. destruct (a_graph f || a_both f) eqn:E; [apply orb_true_iff in E | apply orb_false_iff in E].
      * destruct (c_fsession c) eqn:F; cbn in H; repeat destruct H as [H|H]; try contradiction; subst j; cbn in Hp; destruct Hp as [Hp|[]]; subst p;
          cbn [j_kind j_target wanted]; exists f; unfold ends; rewrite F; auto 6.
      * cbn in H. destruct H as [H|[]]. subst j. cbn in Hp. destruct Hp as [Hp|[]]. cbn [j_kind j_target wanted]. exists f. unfold place. destruct (c_exit c); auto 8.
    + unfold fn_jobs in H. destruct (a_tp f) eqn:T.
      * cbn in H. destruct H as [H|[]]. subst j. cbn in Hp. destruct Hp as [Hp|[]]. cbn [j_kind j_target wanted]. exists f. auto 6.
      * destruct (a_insn f || a_graph f || a_both f) eqn:E.
        -- rewrite !orb_true_iff in E.
           destruct (c_fsession c) eqn:F; cbn in H; repeat destruct H as [H|H]; try contradiction; subst j; cbn in Hp; destruct Hp as [Hp|[]]; subst p;
             cbn [j_kind j_target wanted]; exists f; unfold ends; rewrite F; tauto.
        -- rewrite !orb_false_iff in E. cbn in H. destruct H as [H|[]]. subst j. cbn in Hp. destruct Hp as [Hp|[]]. cbn [j_kind j_target wanted]. exists f. unfold place.
           destruct (c_exit c); subst p; tauto.
    + destruct g as [t b]. unfold multi_job in *; cbn [j_kind j_target j_probes fst snd wanted] in *. exists b. split; auto. unfold ends, place. destruct b; cbn [andb] in Hp.
      * destruct (c_ksession c); cbn in Hp; intuition.
      * destruct (c_exit c); cbn in Hp; intuition.
    + cbn in Hp |- *. intuition.
    + unfold graph_jobs in H. destruct g as [t [|]]; cbn [snd fst] in H; [destruct H|].
      destruct (c_fsession c) eqn:F; cbn in H; repeat destruct H as [H|H]; try contradiction; subst j; cbn in Hp; destruct Hp as [Hp|[]]; subst p;
        cbn [j_kind j_target wanted]; unfold ends; rewrite F; auto.
Qed.

(** ** the invariant *)
Definition at_ (s : st) (x : id) (g : stage) : Prop := nth_error (js s) (fst x) = Some (JRun (snd x) g).
Definition good (o : option jst) : Prop := o = Some JDone \/ o = Some JSkipped.
Definition over (o : option jst) : Prop := good o \/ o = Some JFailed.
Record inv (c : cfg) (s : st) : Prop := {
  i_len : List.length (js s) = List.length (jobs c);
  i_links : forall x, In x (links s) <-> attached s x;
  i_nodup : NoDup (links s);
  i_open : forall x, In x (opened s) <-> In x (links s) \/ at_ s x SLoaded;
  i_rec : forall x, In x (links s) <-> In x (progs s) \/ at_ s x SAttached;
  i_lists : forall x, In x (progs s) <-> In x (bprgs s ++ kfns s ++ insns s ++ grphs s);
  i_range : forall i n g j, nth_error (js s) i = Some (JRun n g) -> nth_error (jobs c) i = Some j -> n < List.length (j_probes j);
  i_new : forall x a n g, In (x, true, a) (log s) -> nth_error (js s) (fst x) = Some (JRun n g) -> snd x < n \/ snd x = n /\ g = SAttached;
  i_log : forall x att a, In (x, att, a) (log s) -> exists j, nth_error (jobs c) (fst x) = Some j /\ snd x < List.length (j_probes j) /\
    match a with
    | AOk => True
    | AErr e => tolerable (j_kind j) att e /\ nth_error (js s) (fst x) = Some JSkipped \/ nth_error (js s) (fst x) = Some JFailed
    | AInject => nth_error (js s) (fst x) = Some JFailed
    end;
  i_prog : forall i j m, nth_error (jobs c) i = Some j -> m < List.length (j_probes j) ->
    match nth_error (js s) i with
    | Some (JRun n _) => m < n -> attached s (i, m)
    | Some JDone => attached s (i, m)
    | Some JSkipped => exists att e, refused s (i, m) att e /\ tolerable (j_kind j) att e
    | Some JFailed => exists x, fst x = i /\ real c s x
    | None => False
    end;
  i_main : pc s = MReturned true -> forall i j, nth_error (jobs c) i = Some j -> good (nth_error (js s) i);
  i_gr : forall i j, nth_error (jobs c) i = Some j -> j_kind j = KGraph ->
    match gr s with
    | GInit => nth_error (js s) i = Some (JRun 0 SReady)
    | GRun => True
    | GDone true => good (nth_error (js s) i)
    | GDone false => over (nth_error (js s) i) \/ nth_error (js s) i = Some (JRun 0 SReady)
    end;
  i_pc : gr s <> GInit -> pc s = MWait \/ pc s = MReturned true }.
Lemma nth_init c i : nth_error (js (init c)) i = match nth_error (jobs c) i with Some _ => Some (JRun 0 SReady) | None => None end.
Proof. cbn [js init]. rewrite nth_error_map. destruct (nth_error (jobs c) i); reflexivity. Qed.
Lemma inv_init c : inv c (init c).
Proof.
  constructor; try (intros; cbn in *; tauto).
  - cbn. apply map_length.
  - cbn. constructor.
  - intro x. unfold at_. rewrite nth_init. cbn. destruct (nth_error (jobs c) (fst x)); split; try tauto; intros [[]|H]; congruence.
  - intro x. unfold at_. rewrite nth_init. cbn. destruct (nth_error (jobs c) (fst x)); split; try tauto; intros [[]|H]; congruence.
  - intros i n g j H J. rewrite nth_init, J in H. injection H as <- _. apply (job_len c). eapply nth_error_In; eauto.
  - intros i j m J L. rewrite nth_init, J. lia.
  - cbn. discriminate.
  - intros i j J _. cbn [gr init]. rewrite nth_init, J. reflexivity.
Qed.
Lemma nth_js c s i j : inv c s -> nth_error (jobs c) i = Some j -> exists x, nth_error (js s) i = Some x.
Proof.
  intros I J. assert (L : i < List.length (js s)) by (rewrite (i_len c s I); apply nth_error_Some; congruence).
  apply nth_error_Some in L. destruct (nth_error (js s) i); [eauto|congruence].
Qed.
Lemma In_combine_nth {A B} (l : list A) (m : list B) x y : In (x, y) (combine l m) <-> exists i, nth_error l i = Some x /\ nth_error m i = Some y.
Proof.
  revert m. induction l as [|a l IH]; intros [|b m]; cbn [combine In].
  - split; [intros []|intros (i & H & _); destruct i; discriminate].
  - split; [intros []|intros (i & H & _); destruct i; discriminate].
  - split; [intros []|intros (i & _ & H); destruct i; discriminate].
  - rewrite IH. split.
    + intros [H|(i & P & Q)]; [injection H as <- <-; exists 0; auto | exists (S i); auto].
    + intros ([|i] & P & Q); cbn in *; [left; congruence | right; eauto].
Qed.
Lemma kind_eqb_ok a b : kind_eqb a b = true <-> a = b.
Proof. destruct a, b; cbn; split; congruence. Qed.
Lemma of_kind_In k J l y : In y (of_kind k J l) <-> exists i j, nth_error J i = Some j /\ j_kind j = k /\ nth_error l i = Some y.
Proof.
  unfold of_kind. rewrite in_map_iff. split.
  - intros ([j z] & <- & H). apply filter_In in H. destruct H as [H K]. apply kind_eqb_ok in K. apply In_combine_nth in H. destruct H as (i & A & B). eauto 6.
  - intros (i & j & A & K & B). exists (j, y). split; auto. apply filter_In. split; [apply In_combine_nth; eauto | apply kind_eqb_ok; auto].
Qed.
Lemma not_kind_In k J l y : In y (not_kind k J l) <-> exists i j, nth_error J i = Some j /\ j_kind j <> k /\ nth_error l i = Some y.
Proof.
  unfold not_kind. rewrite in_map_iff. split.
  - intros ([j z] & <- & H). apply filter_In in H. destruct H as [H K]. apply negb_true_iff in K. apply In_combine_nth in H. destruct H as (i & A & B).
    exists i, j. repeat split; auto. intro E. apply kind_eqb_ok in E. cbn [fst] in K. congruence.
  - intros (i & j & A & K & B). exists (j, y). split; auto. apply filter_In. split; [apply In_combine_nth; eauto|]. cbn [fst].
    destruct (kind_eqb (j_kind j) k) eqn:E; auto. apply kind_eqb_ok in E. contradiction.
Qed.
Lemma all_over c s (I : inv c s) i j l : nth_error (jobs c) i = Some j -> (forall y, nth_error (js s) i = Some y -> In y l) -> forallb finished l = true ->
  over (nth_error (js s) i) /\ (existsb failed l = false -> good (nth_error (js s) i)).
Proof.
  intros J H F. destruct (nth_js c s i j I J) as [y Y]. specialize (H y Y). rewrite forallb_forall in F. specialize (F y H). rewrite Y. unfold over, good.
  split.
  - destruct y; cbn in F; try discriminate; auto.
  - intro E. assert (failed y = false) by (destruct (failed y) eqn:G; auto; rewrite <- E; symmetry; apply existsb_exists; eauto).
    destruct y; cbn in *; try discriminate; auto.
Qed.
(** a change of the program counters only *)
Lemma inv_pcs c s s' : inv c s -> js s' = js s -> opened s' = opened s -> links s' = links s -> progs s' = progs s -> bprgs s' = bprgs s -> kfns s' = kfns s ->
  insns s' = insns s -> grphs s' = grphs s -> log s' = log s ->
  (pc s' = MReturned true -> forall i j, nth_error (jobs c) i = Some j -> good (nth_error (js s) i)) ->
  (forall i j, nth_error (jobs c) i = Some j -> j_kind j = KGraph ->
    match gr s' with
    | GInit => nth_error (js s) i = Some (JRun 0 SReady)
    | GRun => True
    | GDone true => good (nth_error (js s) i)
    | GDone false => over (nth_error (js s) i) \/ nth_error (js s) i = Some (JRun 0 SReady)
    end) ->
  (gr s' <> GInit -> pc s' = MWait \/ pc s' = MReturned true) -> inv c s'.
Proof.
  intros I E1 E2 E3 E4 E5 E6 E7 E8 E9 A B C.
  constructor; unfold real, at_, attached, refused; rewrite ?E1, ?E2, ?E3, ?E4, ?E5, ?E6, ?E7, ?E8, ?E9; try apply I; try assumption.
Qed.
Definition closing (c : cfg) (s s' : st) : Prop := inv c s /\ pc s = MWait /\ s' = set_pc (close s) (MReturned false) /\
  (exists gok, gr s = GDone gok /\ (existsb failed (not_kind KGraph (jobs c) (js s)) = true \/ gok = false)) /\ forallb finished (not_kind KGraph (jobs c) (js s)) = true.
Lemma inv_main c s ok s' : inv c s -> step c s (LMain ok) = Some s' -> inv c s' \/ closing c s s'.
Proof.
  intros I H. cbn [step] in H. destruct (pc s) as [| | | | | b] eqn:P.
  - left. injection H as <-. apply (inv_pcs c s); auto; cbn; [discriminate | apply I | intro G; destruct (i_pc c s I G); congruence].
  - left. injection H as <-. apply (inv_pcs c s); auto; cbn; [destruct ok; discriminate | apply I | intro G; destruct (i_pc c s I G); congruence].
  - left. injection H as <-. apply (inv_pcs c s); auto; cbn; [destruct (ok || _); discriminate | apply I | intro G; destruct (i_pc c s I G); congruence].
  - left. injection H as <-. apply (inv_pcs c s); auto; cbn; [discriminate | apply I ].
  - destruct (gr s) as [| |gok] eqn:G; try discriminate. destruct (forallb finished (not_kind KGraph (jobs c) (js s))) eqn:F; try discriminate.
    destruct (negb (existsb failed (not_kind KGraph (jobs c) (js s))) && gok) eqn:K; injection H as <-.
    + left. apply andb_true_iff in K. destruct K as [K ->]. apply negb_true_iff in K. apply (inv_pcs c s); auto; cbn.
      * intros _ i j J. destruct (kind_eqb (j_kind j) KGraph) eqn:E.
        -- apply kind_eqb_ok in E. pose proof (i_gr c s I i j J E) as Q. rewrite G in Q. exact Q.
        -- refine (proj2 (all_over c s I i j _ J _ F) K). intros y Y. apply not_kind_In. exists i, j. repeat split; auto. intro X. apply kind_eqb_ok in X. congruence.
      * apply I.
    + right. split; auto. split; auto. split; auto. split; auto. exists gok. split; auto. apply andb_false_iff in K. destruct K as [K|K]; auto. apply negb_false_iff in K. auto.
  - discriminate.
Qed.
Lemma inv_graph c s ok s' : inv c s -> step c s (LGraph ok) = Some s' -> inv c s'.
Proof.
  intros I H. cbn [step] in H. destruct (gr s) as [| |b] eqn:G; [| |discriminate].
  - destruct (pc s) eqn:P; try discriminate. injection H as <-. apply (inv_pcs c s); auto; cbn.
    + congruence.
    + intros i j J K. pose proof (i_gr c s I i j J K) as Q. rewrite G in Q. destruct (c_has_graphs c) eqn:X; [destruct ok; auto|].
      exfalso. apply nth_error_In in J. apply In_jobs in J. unfold c_has_graphs in X. destruct (c_graphs c) eqn:Y; [|discriminate].
      destruct J as [(f & _ & J)|[(f & _ & J)|[(g & _ & <-)|[(t & _ & <-)|(g & J & _)]]]]; [| |discriminate|discriminate|].
      * unfold prog_jobs in J. destruct (a_graph f || a_both f), (c_fsession c); cbn in J; intuition; subst j; discriminate.
      * unfold fn_jobs in J. destruct (a_tp f), (a_insn f || a_graph f || a_both f), (c_fsession c); cbn in J; intuition; subst j; discriminate.
      * destruct J.
  - destruct (pc s) eqn:P; try discriminate. destruct (forallb finished (of_kind KGraph (jobs c) (js s))) eqn:F; [|discriminate]. injection H as <-. apply (inv_pcs c s); auto; cbn.
    + congruence.
    + intros i j J K. assert (Y : forall y, nth_error (js s) i = Some y -> In y (of_kind KGraph (jobs c) (js s))) by (intros y Y; apply of_kind_In; eauto).
      destruct (all_over c s I i j _ J Y F) as [O Gd]. destruct (negb (existsb failed (of_kind KGraph (jobs c) (js s))) && ok) eqn:Z; auto.
      apply andb_true_iff in Z. destruct Z as [Z _]. apply negb_true_iff in Z. auto.
Qed.

Lemma snoc_In {A} (x y : A) l : In x (l ++ [y]) <-> In x l \/ x = y.
Proof. rewrite in_app_iff. cbn. intuition. Qed.
Lemma NoDup_snoc {A} (x : A) l : NoDup l -> ~ In x l -> NoDup (l ++ [x]).
Proof. intros N H. apply NoDup_rev in N. rewrite <- (rev_involutive (l ++ [x])). apply NoDup_rev. rewrite rev_app_distr. cbn. constructor; auto. rewrite <- in_rev. auto. Qed.
Lemma real_mono c s s' x : (forall e, In e (log s) -> In e (log s')) -> real c s x -> real c s' x.
Proof. unfold real, refused. intros M [H|(k & t & p & att & e & A & B & C)]; [left; auto | right; exists k, t, p, att, e; auto]. Qed.
Lemma probe_of c i n j : nth_error (jobs c) i = Some j -> n < List.length (j_probes j) -> exists p, is_probe c (i, n) (j_kind j) (j_target j) p.
Proof.
  intros J L. apply nth_error_Some in L. destruct (nth_error (j_probes j) n) as [p|] eqn:P; [|congruence]. exists p, j. auto.
Qed.
Ltac flds := cbn [pc gr js opened links progs bprgs kfns insns grphs log] in *.
Ltac at_i i i' := destruct (Nat.eqb_spec i' i) as [EQ|NE]; [first [subst i' | rewrite EQ in * | idtac]|].

Section step.
Variable c : cfg. Variable s : st. Variable i : nat. Variable n : nat. Variable j : job.
Hypothesis I : inv c s. Hypothesis J : nth_error (jobs c) i = Some j. Hypothesis ST : started s (j_kind j) = true.
Let x : id := (i, n).
Lemma busy g : nth_error (js s) i = Some (JRun n g) -> pc s <> MReturned true /\ (j_kind j = KGraph -> gr s = GRun).
Proof.
  intro H. split.
  - intro P. pose proof (i_main c s I P i j J) as G. rewrite H in G. destruct G; discriminate.
  - intro K. rewrite K in ST. cbn in ST. destruct (gr s); congruence.
Qed.
Lemma gr_keep y : nth_error (js s) i <> None -> (exists g, nth_error (js s) i = Some (JRun n g)) -> forall i' j', nth_error (jobs c) i' = Some j' -> j_kind j' = KGraph ->
    match gr s with
    | GInit => nth_error (set_nth i y (js s)) i' = Some (JRun 0 SReady)
    | GRun => True
    | GDone true => good (nth_error (set_nth i y (js s)) i')
    | GDone false => over (nth_error (set_nth i y (js s)) i') \/ nth_error (set_nth i y (js s)) i' = Some (JRun 0 SReady)
    end.
Proof.
  intros _ [g H] i' j' J' K'. rewrite nth_set. at_i i i'.
  - rewrite J in J'. injection J' as <-. destruct (busy g H) as [_ B]. rewrite (B K'). exact Logic.I.
  - apply (i_gr c s I i' j' J' K').
Qed.

Lemma inv_loaded : nth_error (js s) i = Some (JRun n SReady) ->
  inv c {| pc := pc s; gr := gr s; js := set_nth i (JRun n SLoaded) (js s); opened := opened s ++ [x]; links := links s; progs := progs s; bprgs := bprgs s; kfns := kfns s; insns := insns s; grphs := grphs s;
           log := log s ++ [(x, false, AOk)] |}.
Proof.
  intro H. constructor; unfold at_, attached, refused; flds.
  - rewrite len_set. apply I.
  - intro y. rewrite snoc_In, (i_links c s I). unfold attached. intuition congruence.
  - apply I.
  - intro y. rewrite snoc_In, (i_open c s I), nth_set. unfold at_. at_i i (fst y).
    + rewrite H. split; [intros [[A|A]|A]|intros [A|A]]; auto; try congruence.
      * right. rewrite A. reflexivity.
      * right. injection A as ->. unfold x. destruct y; cbn in EQ |- *; subst; reflexivity.
    + split; [intros [[A|A]|A]|intros [A|A]]; auto. exfalso. apply NE. rewrite A. reflexivity.
  - intro y. rewrite (i_rec c s I), nth_set. unfold at_. at_i i (fst y); [rewrite H|]; intuition congruence.
  - apply I.
  - intros i' n' g' j' H' J'. rewrite nth_set in H'. at_i i i'; [rewrite H in H'; injection H' as <- <-; eapply i_range; eauto | eapply i_range; eauto].
  - intros y a n' g' L H'. apply snoc_In in L. destruct L as [L|L]; [|discriminate]. rewrite nth_set in H'. at_i i (fst y).
    + rewrite H in H'. injection H' as <- <-. destruct (i_new c s I y a n SReady L (eq_trans (f_equal (nth_error (js s)) EQ) H)) as [Q|[_ Q]]; [auto|discriminate].
    + eapply i_new; eauto.
  - intros y att a L. apply snoc_In in L. destruct L as [L|L].
    + destruct (i_log c s I y att a L) as (j' & J' & R & Q). exists j'. split; [auto|]. split; [auto|]. rewrite nth_set. at_i i (fst y); auto.
      rewrite H in *. destruct a; auto; [destruct Q as [[_ Q]|Q]|]; discriminate.
    + injection L as -> -> ->. exists j. split; [exact J|]. split; [cbn; eapply i_range; eauto|exact Logic.I].
  - intros i' j' m J' M. pose proof (i_prog c s I i' j' m J' M) as Q. unfold attached, refused in Q. rewrite nth_set. at_i i i'.
    + rewrite H in *. intro Z. apply snoc_In. left. apply Q. exact Z.
    + destruct (nth_error (js s) i') as [[n' g'| | |]|]; auto.
      * intro Z. apply snoc_In. left. auto.
      * apply snoc_In. left. auto.
      * destruct Q as (att & e & A & B). exists att, e. split; auto. apply snoc_In. left; auto.
      * destruct Q as (y & A & B). exists y. split; auto. eapply real_mono; [|exact B]. intros. flds. apply snoc_In; auto.
  - intro P. exfalso. apply (proj1 (busy _ H)). exact P.
  - apply gr_keep; [congruence|eauto].
  - apply I.
Qed.
Lemma inv_attached : nth_error (js s) i = Some (JRun n SLoaded) ->
  inv c {| pc := pc s; gr := gr s; js := set_nth i (JRun n SAttached) (js s); opened := opened s; links := links s ++ [x]; progs := progs s; bprgs := bprgs s; kfns := kfns s; insns := insns s; grphs := grphs s;
           log := log s ++ [(x, true, AOk)] |}.
Proof.
  intro H.
  assert (N : ~ In x (links s)). { intro L. apply (i_links c s I) in L. destruct (i_new c s I x AOk n SLoaded L H) as [Q|[_ Q]]; [unfold x in Q; cbn in Q; lia|discriminate]. }
  constructor; unfold at_, attached, refused; flds.
  - rewrite len_set. apply I.
  - intro y. rewrite !snoc_In, (i_links c s I). unfold attached. intuition congruence.
  - apply NoDup_snoc; [apply I|exact N].
  - intro y. rewrite snoc_In, (i_open c s I), nth_set. unfold at_. at_i i (fst y).
    + rewrite H. split; [intros [A|A]|intros [[A|A]|A]]; auto; try congruence.
      * left. right. injection A as ->. unfold x. destruct y; cbn in EQ |- *; subst; reflexivity.
      * right. rewrite A. reflexivity.
    + split; [intros [A|A]|intros [[A|A]|A]]; auto. exfalso. apply NE. rewrite A. reflexivity.
  - intro y. rewrite snoc_In, (i_rec c s I), nth_set. unfold at_. at_i i (fst y).
    + rewrite H. split; [intros [[A|A]|A]|intros [A|A]]; auto; try congruence.
      * right. rewrite A. reflexivity.
      * right. injection A as ->. unfold x. destruct y; cbn in EQ |- *; subst; reflexivity.
    + split; [intros [[A|A]|A]|intros [A|A]]; auto. exfalso. apply NE. rewrite A. reflexivity.
  - apply I.
  - intros i' n' g' j' H' J'. rewrite nth_set in H'. at_i i i'; [rewrite H in H'; injection H' as <- <-; eapply i_range; eauto | eapply i_range; eauto].
  - intros y a n' g' L H'. apply snoc_In in L. rewrite nth_set in H'. destruct L as [L|L].
    + at_i i (fst y).
      * rewrite H in H'. injection H' as <- <-. destruct (i_new c s I y a n SLoaded L (eq_trans (f_equal (nth_error (js s)) EQ) H)) as [Q|[_ Q]]; [auto|discriminate].
      * eapply i_new; eauto.
    + injection L as -> ->. cbn [fst x snd] in *. rewrite Nat.eqb_refl, H in H'. injection H' as <- <-. right; auto.
  - intros y att a L. apply snoc_In in L. destruct L as [L|L].
    + destruct (i_log c s I y att a L) as (j' & J' & R & Q). exists j'. split; [auto|]. split; [auto|]. rewrite nth_set. at_i i (fst y); auto.
      rewrite H in *. destruct a; auto; [destruct Q as [[_ Q]|Q]|]; discriminate.
    + injection L as -> -> ->. exists j. split; [exact J|]. split; [cbn; eapply i_range; eauto|exact Logic.I].
  - intros i' j' m J' M. pose proof (i_prog c s I i' j' m J' M) as Q. unfold attached, refused in Q. rewrite nth_set. at_i i i'.
    + rewrite H in *. intro Z. apply snoc_In. left. apply Q. exact Z.
    + destruct (nth_error (js s) i') as [[n' g'| | |]|]; auto.
      * intro Z. apply snoc_In. left. auto.
      * apply snoc_In. left. auto.
      * destruct Q as (att & e & A & B). exists att, e. split; auto. apply snoc_In. left; auto.
      * destruct Q as (y & A & B). exists y. split; auto. eapply real_mono; [|exact B]. intros. flds. apply snoc_In; auto.
  - intro P. exfalso. apply (proj1 (busy _ H)). exact P.
  - apply gr_keep; [congruence|eauto].
  - apply I.
Qed.
(** a refusal *)
Lemma inv_refused (att : bool) (a : answer) (y : jst) : nth_error (js s) i = Some (JRun n (if att then SLoaded else SReady)) ->
  (y = JSkipped /\ (exists e, a = AErr e /\ tolerable (j_kind j) att e) \/ y = JFailed /\ (a = AInject /\ att = false \/ exists e, a = AErr e /\ ~ tolerable (j_kind j) att e)) ->
  inv c {| pc := pc s; gr := gr s; js := set_nth i y (js s); opened := if att then drop x (opened s) else opened s; links := links s; progs := progs s; bprgs := bprgs s; kfns := kfns s; insns := insns s; grphs := grphs s;
           log := log s ++ [(x, att, a)] |}.
Proof.
  intros H Y.
  assert (Na : a <> AOk) by (destruct Y as [[_ (e & -> & _)]|[_ [[-> _]|(e & -> & _)]]]; congruence).
  assert (Ny : forall n g, y <> JRun n g) by (destruct Y as [[-> _]|[-> _]]; congruence).
  assert (N : att = true -> ~ In x (links s)).
  { intros -> L. apply (i_links c s I) in L. destruct (i_new c s I x AOk n SLoaded L H) as [Q|[_ Q]]; [unfold x in Q; cbn in Q; lia|discriminate]. }
  constructor; unfold at_, attached, refused; flds.
  - rewrite len_set. apply I.
  - intro z. rewrite !snoc_In, (i_links c s I). unfold attached. intuition congruence.
  - apply I.
  - intro z. rewrite nth_set. destruct att.
    + rewrite In_drop, (i_open c s I). unfold at_. at_i i (fst z).
      * rewrite H. split; [intros [[A|A] B]|intros [A|A]]; auto.
        -- exfalso. apply B. injection A as ->. unfold x. destruct z; cbn in EQ |- *; subst; reflexivity.
        -- split; auto. intros ->. apply N; auto.
        -- exfalso. injection A as A. eapply Ny; eauto.
      * split; [intros [[A|A] B]|intros [A|A]]; auto; (split; [auto|intros ->; apply NE; reflexivity]).
    + rewrite (i_open c s I). unfold at_. at_i i (fst z); [|tauto]. rewrite H. split; (intros [A|A]; [auto|]); [discriminate|].
      exfalso. injection A as A. eapply Ny; eauto.
  - intro z. rewrite (i_rec c s I), nth_set. unfold at_. at_i i (fst z); [|tauto]. rewrite H. split; (intros [A|A]; [auto|]).
    + destruct att; discriminate.
    + exfalso. injection A as A. eapply Ny; eauto.
  - apply I.
  - intros i' n' g' j' H' J'. rewrite nth_set in H'. at_i i i'; [rewrite H in H'; injection H' as H'; exfalso; eapply Ny; eauto | eapply i_range; eauto].
  - intros z a' n' g' L H'. apply snoc_In in L. rewrite nth_set in H'. at_i i (fst z).
    + rewrite H in H'. injection H' as H'. exfalso. eapply Ny; eauto.
    + destruct L as [L|L]; [eapply i_new; eauto|]. exfalso. apply NE. injection L as -> _. reflexivity.
  - intros z att' a' L. apply snoc_In in L. destruct L as [L|L].
    + destruct (i_log c s I z att' a' L) as (j' & J' & R & Q). exists j'. split; [auto|]. split; [auto|]. rewrite nth_set. at_i i (fst z); auto.
      rewrite H in *. destruct a'; auto; [destruct Q as [[_ Q]|Q]|]; discriminate.
    + injection L as -> -> ->. exists j. split; [exact J|]. split; [cbn; eapply i_range; eauto|]. rewrite nth_set. cbn [fst x]. rewrite Nat.eqb_refl, H.
      destruct Y as [[-> (e & -> & T)]|[-> [[-> _]|(e & -> & _)]]]; auto.
  - intros i' j' m J' M. pose proof (i_prog c s I i' j' m J' M) as Q. unfold attached, refused in Q. rewrite nth_set. at_i i i'.
    + rewrite J in J'. injection J' as <-. rewrite H in *. destruct Y as [[-> (e & -> & T)]|[-> Y]].
      * exists att, e. split; auto. apply snoc_In. right. unfold x. f_equal. f_equal. f_equal.
        pose proof (i_range c s I i n _ j H J). destruct (job_len c j (nth_error_In _ _ J)) as [_ [K|K]]; [|lia]. rewrite K in T. exfalso. eapply multi_never; eauto.
      * exists x. split; [reflexivity|]. destruct Y as [[-> ->]|(e & -> & T)]; [left; flds; apply snoc_In; auto|].
        right. destruct (probe_of c i n j J (i_range c s I i n _ j H J)) as [p P]. exists (j_kind j), (j_target j), p, att, e. split; auto. split; auto. unfold refused; flds. apply snoc_In; auto.
    + destruct (nth_error (js s) i') as [[n' g'| | |]|]; auto.
      * intro Z. apply snoc_In. left. auto.
      * apply snoc_In. left. auto.
      * destruct Q as (att' & e & A & B). exists att', e. split; auto. apply snoc_In. left; auto.
      * destruct Q as (z & A & B). exists z. split; auto. eapply real_mono; [|exact B]. intros. flds. apply snoc_In; auto.
  - intro P. exfalso. apply (proj1 (busy _ H)). exact P.
  - apply gr_keep; [congruence|eauto].
  - apply I.
Qed.
Lemma inv_recorded b k r g : nth_error (js s) i = Some (JRun n SAttached) ->
  (forall y, In y (b ++ k ++ r ++ g) <-> In y (bprgs s ++ kfns s ++ insns s ++ grphs s) \/ y = x) ->
  inv c {| pc := pc s; gr := gr s; js := set_nth i (if Nat.ltb (S n) (List.length (j_probes j)) then JRun (S n) SReady else JDone) (js s);
           opened := opened s; links := links s; progs := progs s ++ [x]; bprgs := b; kfns := k; insns := r; grphs := g; log := log s |}.
Proof.
  intros H B. set (y := if Nat.ltb (S n) (List.length (j_probes j)) then JRun (S n) SReady else JDone).
  assert (Y : y = JRun (S n) SReady /\ S n < List.length (j_probes j) \/ y = JDone /\ S n = List.length (j_probes j)).
  { unfold y. pose proof (i_range c s I i n _ j H J). destruct (Nat.ltb_spec (S n) (List.length (j_probes j))); [left|right]; split; auto; lia. }
  assert (X : attached s x). { apply (i_links c s I), (i_rec c s I). right. exact H. }
  clearbody y. constructor; unfold at_, attached, refused; flds.
  - rewrite len_set. apply I.
  - apply I.
  - apply I.
  - intro z. rewrite (i_open c s I), nth_set. unfold at_. at_i i (fst z); [|tauto]. rewrite H. destruct Y as [[-> _]|[-> _]]; intuition congruence.
  - intro z. rewrite snoc_In, (i_rec c s I), nth_set. unfold at_. at_i i (fst z).
    + rewrite H. split; [intros [A|A]|intros [[A|A]|A]]; auto.
      * left; right. injection A as ->. unfold x. destruct z; cbn in EQ |- *; subst; reflexivity.
      * right. rewrite A. reflexivity.
      * destruct Y as [[-> _]|[-> _]]; discriminate.
    + split; [intros [A|A]|intros [[A|A]|A]]; auto. exfalso. apply NE. rewrite A. reflexivity.
  - intro z. rewrite snoc_In, B, (i_lists c s I). reflexivity.
  - intros i' n' g' j' H' J'. rewrite nth_set in H'. at_i i i'; [|eapply i_range; eauto]. rewrite H in H'. injection H' as H'.
    destruct Y as [[-> Y]|[-> Y]]; [|discriminate]. rewrite J in J'. injection J' as <-. injection H' as <- <-. exact Y.
  - intros z a' n' g' L H'. rewrite nth_set in H'. at_i i (fst z); [|eapply i_new; eauto]. rewrite H in H'. injection H' as H'.
    destruct Y as [[-> Y]|[-> Y]]; [|discriminate]. injection H' as <- <-. left. destruct (i_new c s I z a' n SAttached L (eq_trans (f_equal (nth_error (js s)) EQ) H)) as [Q|[Q _]]; lia.
  - intros z att' a' L. destruct (i_log c s I z att' a' L) as (j' & J' & R & Q). exists j'. split; [auto|]. split; [auto|]. rewrite nth_set. at_i i (fst z); auto.
    rewrite H in *. destruct a'; auto; [destruct Q as [[_ Q]|Q]|]; discriminate.
  - intros i' j' m J' M. pose proof (i_prog c s I i' j' m J' M) as Q. unfold attached, refused in Q. rewrite nth_set. at_i i i'.
    + rewrite J in J'. injection J' as <-. rewrite H in *. unfold attached in *.
      assert (Z : m < S n -> In (i, m, true, AOk) (log s)). { intro Z. destruct (Nat.eq_dec m n) as [->|]; [exact X|]. apply Q. lia. }
      destruct Y as [[-> Y]|[-> Y]]; auto. apply Z. lia.
    + destruct (nth_error (js s) i') as [[n' g'| | |]|]; auto.
  - intro P. exfalso. apply (proj1 (busy _ H)). exact P.
  - apply gr_keep; [congruence|eauto].
  - apply I.
Qed.
End step.
Lemma inv_job c s i a s' : inv c s -> step c s (LJob i a) = Some s' -> inv c s'.
Proof.
  intros I H. cbn [step] in H. destruct (nth_error (jobs c) i) as [j|] eqn:J; [|discriminate]. destruct (started s (j_kind j)) eqn:S; [|discriminate].
  unfold job_step in H. destruct (nth_error (js s) i) as [[n [| |]| | |]|] eqn:N; try discriminate.
  - injection H as <-. destruct a as [|e|].
    + apply (inv_loaded c s i n j); auto.
    + apply (inv_refused c s i n j I J S false (AErr e)); auto. destruct (ignore_load (j_kind j) e) eqn:E; [left|right].
      * split; auto. exists e. split; auto. apply load_ok; auto.
      * split; auto. right. exists e. split; auto. intro T. apply load_ok in T. congruence.
    + apply (inv_refused c s i n j I J S false AInject); auto.
  - destruct a as [|e|]; [| |discriminate]; injection H as <-.
    + apply (inv_attached c s i n j); auto.
    + apply (inv_refused c s i n j I J S true (AErr e)); auto. destruct (ignore_attach (j_kind j) e) eqn:E; [left|right].
      * split; auto. exists e. split; auto. apply attach_ok; auto.
      * split; auto. right. exists e. split; auto. intro T. apply attach_ok in T. congruence.
  - injection H as <-. apply (inv_recorded c s i n j); auto. intro y. destruct (j_kind j); cbn [kind_eqb orb]; rewrite !in_app_iff; cbn; intuition.
Qed.

(** ** executions *)
Lemma run_app c ls ls' s : run c (ls ++ ls') s = match run c ls s with Some s' => run c ls' s' | None => None end.
Proof. revert s. induction ls as [|l ls IH]; intro s; cbn [run app]; auto. destruct (step c s l); auto. Qed.
Lemma run_snoc c ls l s s' : run c (ls ++ [l]) s = Some s' <-> exists s0, run c ls s = Some s0 /\ step c s0 l = Some s'.
Proof.
  rewrite run_app. destruct (run c ls s) as [s0|]; cbn [run].
  - split; [intro H; exists s0; split; auto; destruct (step c s0 l); congruence | intros (s1 & E & H); injection E as <-; rewrite H; auto].
  - split; [discriminate | intros (s1 & E & _); discriminate].
Qed.
Lemma inv_step c s l s' : inv c s -> step c s l = Some s' -> inv c s' \/ closing c s s'.
Proof.
  intros I H. destruct l as [ok|ok|i a]; [eapply inv_main; eauto | left; eapply inv_graph; eauto | left; eapply inv_job; eauto].
Qed.
Lemma closing_state c s s' : closing c s s' -> links s' = [] /\ opened s' = [] /\ pc s' = MReturned false /\ (forall l, step c s' l = None).
Proof.
  intros (I & P & -> & (gok & G & _) & F).
  assert (N : forall i j n g, nth_error (jobs c) i = Some j -> nth_error (js s) i = Some (JRun n g) -> j_kind j = KGraph /\ g = SReady).
  { intros i j n g J H. destruct (kind_eqb (j_kind j) KGraph) eqn:K.
    - apply kind_eqb_ok in K. split; auto. pose proof (i_gr c s I i j J K) as Q. rewrite G, H in Q. destruct gok; unfold over, good in Q; intuition congruence.
    - exfalso. rewrite forallb_forall in F. specialize (F (JRun n g)). cbn in F. discriminate F. apply not_kind_In. exists i, j. repeat split; auto. intro X. apply kind_eqb_ok in X. congruence. }
  assert (M : forall x g, g <> SReady -> ~ at_ s x g).
  { intros x g D A. unfold at_ in A. assert (L : fst x < List.length (jobs c)) by (rewrite <- (i_len c s I); apply nth_error_Some; congruence).
    apply nth_error_Some in L. destruct (nth_error (jobs c) (fst x)) as [j|] eqn:J; [|congruence]. apply D. eapply N; eauto. }
  assert (R : forall x, In x (links s) -> In x (bprgs s ++ kfns s ++ insns s ++ grphs s)).
  { intros x H. apply (i_lists c s I). apply (i_rec c s I) in H. destruct H as [H|H]; auto. exfalso. eapply M; [|exact H]. discriminate. }
  split; [|split; [|split]].
  - apply all_out. intros x H. cbn in H. apply In_drops in H. destruct H as [A B]. apply B, R, A.
  - apply all_out. intros x H. cbn in H. apply In_drops in H. destruct H as [A B]. apply B, R. apply (i_open c s I) in A. destruct A as [A|A]; auto. exfalso. eapply M; [|exact A]. discriminate.
  - reflexivity.
  - intros [ok|ok|i a]; cbn [step]; cbn [set_pc close pc gr js].
    + reflexivity.
    + rewrite G. reflexivity.
    + destruct (nth_error (jobs c) i) as [j|] eqn:J; auto. destruct (started _ (j_kind j)) eqn:S; auto. unfold job_step; cbn [set_pc close pc gr js].
      destruct (nth_error (js s) i) as [[n g| | |]|] eqn:H; auto. exfalso. destruct (N i j n g J H) as [K _]. rewrite K in S. cbn in S. rewrite G in S. discriminate.
Qed.
Lemma reached_inv c ls s : run c ls (init c) = Some s -> inv c s \/ exists ls0 ok s0, ls = ls0 ++ [LMain ok] /\ run c ls0 (init c) = Some s0 /\ closing c s0 s.
Proof.
  revert s. induction ls as [|l ls IH] using rev_ind; intros s H.
  - cbn in H. injection H as <-. left. apply inv_init.
  - apply run_snoc in H. destruct H as (s0 & R & H). destruct (IH s0 R) as [I|(ls0 & ok & s1 & -> & R1 & C)].
    + destruct (inv_step c s0 l s I H) as [X|X]; auto. right. exists ls. destruct l as [ok|ok|i a].
      * exists ok, s0. auto.
      * exfalso. destruct X as (_ & _ & -> & (gok & G & _) & _). cbn [step] in H. rewrite G in H. discriminate.
      * exfalso. destruct X as (_ & P & -> & _ & _). cbn [step] in H. destruct (nth_error (jobs c) i) as [j|]; [|discriminate]. destruct (started s0 (j_kind j)); [|discriminate].
        unfold job_step in H. destruct (nth_error (js s0) i) as [[n [| |]| | |]|]; try discriminate.
        -- injection H as H1. destruct a; [| |]; injection H1 as E; cbn in E; congruence.
        -- destruct a; try discriminate; injection H as E; cbn in E; congruence.
        -- injection H as E; cbn in E; congruence.
    + exfalso. destruct (closing_state c s1 s0 C) as (_ & _ & _ & N). rewrite N in H. discriminate.
Qed.
Lemma ok_inv c s : reached c s -> pc s <> MReturned false -> inv c s.
Proof.
  intros [ls R] P. destruct (reached_inv c ls s R) as [I|(ls0 & ok & s0 & _ & _ & C)]; auto. exfalso. apply P. apply (closing_state c s0 s C).
Qed.

(** ** success *)
Lemma success c s : reached c s -> pc s = MReturned true ->
  (forall x, In x (links s) <-> attached s x) /\ (forall x, In x (opened s) <-> In x (links s)) /\ NoDup (links s) /\
  (forall k t p, wanted c k t p -> exists x, is_probe c x k t p /\ (In x (links s) \/ exists att e, refused s x att e /\ tolerable k att e)) /\
  (forall x, In x (links s) -> exists k t p, wanted c k t p /\ is_probe c x k t p) /\
  (forall x, ~ real c s x).
Proof.
  intros R P. assert (I : inv c s) by (apply ok_inv; congruence). pose proof (i_main c s I P) as M.
  assert (F : forall i j n g, nth_error (jobs c) i = Some j -> nth_error (js s) i <> Some (JRun n g)).
  { intros i j n g J H. specialize (M i j J). rewrite H in M. destruct M; discriminate. }
  split; [|split; [|split; [|split; [|split]]]].
  - apply I.
  - intro x. rewrite (i_open c s I). split; auto. intros [H|H]; auto. exfalso. unfold at_ in H.
    assert (L : fst x < List.length (jobs c)) by (rewrite <- (i_len c s I); apply nth_error_Some; congruence).
    apply nth_error_Some in L. destruct (nth_error (jobs c) (fst x)) as [j|] eqn:J; [|congruence]. eapply F; eauto.
  - apply I.
  - intros k t p W. apply wanted_ok in W. destruct W as (j & Hj & K & T & Hp). apply In_nth_error in Hj. destruct Hj as [i J]. apply In_nth_error in Hp. destruct Hp as [m Hm].
    exists (i, m). split; [exists j; auto|]. assert (L : m < List.length (j_probes j)) by (apply nth_error_Some; congruence).
    pose proof (i_prog c s I i j m J L) as Q. destruct (M i j J) as [E|E]; rewrite E in Q.
    + left. apply (i_links c s I). exact Q.
    + right. rewrite K in Q. exact Q.
  - intros x H. apply (i_links c s I) in H. destruct (i_log c s I x true AOk H) as (j & J & L & _). destruct x as [i n]; cbn [fst snd] in *.
    destruct (probe_of c i n j J L) as [p Pr]. exists (j_kind j), (j_target j), p. split; auto. apply wanted_ok. exists j. split; [eapply nth_error_In; eauto|]. split; auto. split; auto.
    destruct Pr as (j' & J' & _ & _ & N). cbn [fst snd] in *. rewrite J in J'. injection J' as <-. eapply nth_error_In; eauto.
  - intros x [H|(k & t & p & att & e & Pr & H & T)].
    + destruct (i_log c s I x false AInject H) as (j & J & _ & Q). specialize (M _ _ J). rewrite Q in M. destruct M; discriminate.
    + destruct (i_log c s I x att (AErr e) H) as (j & J & _ & Q). specialize (M _ _ J). destruct Pr as (j' & J' & K & _). rewrite J in J'. injection J' as <-. subst k.
      destruct Q as [[Q _]|Q]; [contradiction|]. rewrite Q in M. destruct M; discriminate.
Qed.
Lemma have c s : reached c s -> pc s = MReturned true -> (have_tracing s = true <-> links s <> []).
Proof.
  intros R P. assert (I : inv c s) by (apply ok_inv; congruence).
  assert (E : forall x, In x (links s) <-> In x (progs s)).
  { intro x. rewrite (i_rec c s I). split; auto. intros [H|H]; auto. exfalso. unfold at_ in H.
    assert (L : fst x < List.length (jobs c)) by (rewrite <- (i_len c s I); apply nth_error_Some; congruence).
    apply nth_error_Some in L. destruct (nth_error (jobs c) (fst x)) as [j|] eqn:J; [|congruence]. pose proof (i_main c s I P _ _ J) as M. rewrite H in M. destruct M; discriminate. }
  unfold have_tracing. destruct (progs s) as [|y l] eqn:Q.
  - split; [discriminate|]. intro H. exfalso. apply H. apply all_out. intros x X. apply E in X. destruct X.
  - split; auto. intros _ H. assert (In y (links s)) by (apply E; left; auto). rewrite H in H0. destruct H0.
Qed.
(** ** failure *)
Lemma failed_stays c s l s' i : step c s l = Some s' -> nth_error (js s) i = Some JFailed -> nth_error (js s') i = Some JFailed.
Proof.
  intros H F. destruct l as [ok|ok|k a]; cbn [step] in H.
  - destruct (pc s); try (injection H as <-; exact F); try discriminate. destruct (gr s); try discriminate. destruct (forallb _ _); [|discriminate]. injection H as <-. destruct (negb _ && _); exact F.
  - destruct (gr s), (pc s); try discriminate; [injection H as <-; exact F|]. destruct (forallb _ _); [|discriminate]. injection H as <-. exact F.
  - destruct (nth_error (jobs c) k) as [j|]; [|discriminate]. destruct (started s (j_kind j)); [|discriminate]. unfold job_step in H.
    destruct (nth_error (js s) k) as [[n [| |]| | |]|] eqn:N; try discriminate.
    + injection H as <-. destruct a; cbn [js]; rewrite nth_set; destruct (Nat.eqb_spec i k); auto; congruence.
    + destruct a; try discriminate; injection H as <-; cbn [js]; rewrite nth_set; destruct (Nat.eqb_spec i k); auto; congruence.
    + injection H as <-. cbn [js]. rewrite nth_set; destruct (Nat.eqb_spec i k); auto; congruence.
Qed.
Lemma graph_failed c ls s : run c ls (init c) = Some s -> gr s = GDone false -> (exists i, nth_error (js s) i = Some JFailed) \/ In (LGraph false) ls.
Proof.
  revert s. induction ls as [|l ls IH] using rev_ind; intros s H G.
  - cbn in H. injection H as <-. discriminate.
  - apply run_snoc in H. destruct H as (s0 & R & H). rewrite in_app_iff.
    assert (K : gr s0 = GDone false -> (exists i, nth_error (js s) i = Some JFailed) \/ In (LGraph false) ls \/ In (LGraph false) [l]).
    { intro G0. destruct (IH s0 R G0) as [[i Q]|Q]; [left; exists i; eapply failed_stays; eauto | auto]. }
    destruct l as [ok|[|]|k a]; cbn [step] in H.
    + apply K. destruct (pc s0); try (injection H as <-; exact G); try discriminate. destruct (gr s0) eqn:G0; try discriminate. destruct (forallb _ _); [|discriminate]. injection H as <-.
      destruct (negb _ && _); cbn in G; congruence.
    + destruct (gr s0) as [| |b] eqn:G0; destruct (pc s0); try discriminate.
      * injection H as <-. cbn in G. destruct (c_has_graphs c); discriminate.
      * destruct (forallb _ _) eqn:F; [|discriminate]. injection H as <-. cbn in G. rewrite andb_true_r in G.
        destruct (existsb failed (of_kind KGraph (jobs c) (js s0))) eqn:X; [|discriminate]. apply existsb_exists in X. destruct X as (y & Y & Z). apply of_kind_In in Y. destruct Y as (i & j & _ & _ & Y).
        left. exists i. cbn. destruct y; try discriminate. exact Y.
    + right; right; left; reflexivity.
    + apply K. destruct (nth_error (jobs c) k) as [j|]; [|discriminate]; destruct (started s0 (j_kind j)); [|discriminate]; unfold job_step in H;
      destruct (nth_error (js s0) k) as [[n [| |]| | |]|] eqn:N; try discriminate; try (destruct a; try discriminate); injection H as <-; exact G.
Qed.
Lemma failure c ls s ok s' : run c ls (init c) = Some s -> pc s = MWait -> step c s (LMain ok) = Some s' -> pc s' = MReturned false ->
  links s' = [] /\ opened s' = [] /\ (forall l, step c s' l = None) /\ ((exists x, real c s x) \/ In (LGraph false) ls).
Proof.
  intros R P H P'. assert (I : inv c s) by (apply ok_inv; [exists ls; auto|congruence]).
  assert (C : closing c s s'). { destruct (inv_main c s ok s' I H) as [I'|C]; auto. exfalso. cbn [step] in H. rewrite P in H. destruct (gr s) as [| |gok] eqn:G; try discriminate.
    destruct (forallb _ _); [|discriminate]. destruct (negb _ && gok); injection H as <-; [cbn in P'; discriminate|]. destruct (i_pc c _ I'); cbn in *; congruence. }
  destruct (closing_state c s s' C) as (A & B & _ & D). split; auto. split; auto. split; auto.
  assert (X : forall i, nth_error (js s) i = Some JFailed -> exists x, real c s x).
  { intros i E. assert (L : i < List.length (jobs c)) by (rewrite <- (i_len c s I); apply nth_error_Some; congruence).
    apply nth_error_Some in L. destruct (nth_error (jobs c) i) as [j|] eqn:J; [|congruence].
    pose proof (i_prog c s I i j 0 J (proj1 (job_len c j (nth_error_In _ _ J)))) as Q. rewrite E in Q. destruct Q as (x & _ & Q). eauto. }
  destruct C as (_ & _ & _ & (gok & G & [F|F]) & _).
  - left. apply existsb_exists in F. destruct F as (y & Y & Z). apply not_kind_In in Y. destruct Y as (i & j & _ & _ & Y). destruct y; try discriminate. eapply X; eauto.
  - subst gok. destruct (graph_failed c ls s R G) as [[i E]|E]; [left; eapply X; eauto|auto].
Qed.
(** ** termination and progress *)
Definition jw (x : job * jst) : nat :=
  match snd x with JRun n g => 3 * (List.length (j_probes (fst x)) - n) - match g with SReady => 0 | SLoaded => 1 | SAttached => 2 end | _ => 0 end.
Definition sum (l : list nat) : nat := fold_right plus 0 l.
Definition mw (p : mpc) : nat := match p with MStart => 5 | MMulti => 4 | MInsns => 3 | MGraphs => 2 | MWait => 1 | MReturned _ => 0 end.
Definition gw (g : gpc) : nat := match g with GInit => 2 | GRun => 1 | GDone _ => 0 end.
Definition weight (c : cfg) (s : st) : nat := mw (pc s) + gw (gr s) + sum (map jw (combine (jobs c) (js s))).
Lemma sum_set J l i j x y : nth_error J i = Some j -> nth_error l i = Some x -> jw (j, y) < jw (j, x) -> sum (map jw (combine J (set_nth i y l))) < sum (map jw (combine J l)).
Proof.
  revert l i. induction J as [|j' J IH]; intros [|x' l] [|i] HJ HL H; try discriminate; cbn in HJ, HL.
  - injection HJ as ->. injection HL as ->. cbn [set_nth combine map sum fold_right]. lia.
  - cbn [set_nth combine map sum fold_right]. specialize (IH l i HJ HL H). unfold sum in IH. lia.
Qed.
Lemma weight_step c s l s' : inv c s -> step c s l = Some s' -> weight c s' < weight c s.
Proof.
  intros I H. unfold weight. destruct l as [ok|ok|i a]; cbn [step] in H.
  - destruct (pc s) eqn:P; try discriminate; try (injection H as <-; cbn; lia).
    + injection H as <-. destruct ok; cbn; lia.
    + injection H as <-. destruct (ok || _); cbn; lia.
    + destruct (gr s) eqn:G; try discriminate. destruct (forallb _ _); [|discriminate]. injection H as <-. destruct (negb _ && _); cbn; rewrite G; cbn; lia.
  - destruct (gr s) eqn:G; destruct (pc s) eqn:P; try discriminate.
    + injection H as <-. cbn. rewrite P. destruct (c_has_graphs c), ok; cbn; lia.
    + destruct (forallb _ _); [|discriminate]. injection H as <-. cbn. rewrite P. cbn. lia.
  - destruct (nth_error (jobs c) i) as [j|] eqn:J; [|discriminate]. destruct (started s (j_kind j)); [|discriminate]. unfold job_step in H.
    destruct (nth_error (js s) i) as [[n g| | |]|] eqn:N; try discriminate. pose proof (i_range c s I i n g j N J) as R. destruct g.
    + injection H as <-. destruct a; cbn [pc gr js]; apply Nat.add_lt_mono_l; eapply sum_set; eauto; unfold jw; cbn [fst snd]; try lia. destruct (ignore_load (j_kind j) e); cbn [snd fst]; lia.
    + destruct a; try discriminate; injection H as <-; cbn [pc gr js]; apply Nat.add_lt_mono_l; eapply sum_set; eauto; unfold jw; cbn [fst snd]; try lia. destruct (ignore_attach (j_kind j) e); cbn [snd fst]; lia.
    + injection H as <-. cbn [pc gr js]; apply Nat.add_lt_mono_l; eapply sum_set; eauto; unfold jw; cbn [fst snd]. destruct (Nat.ltb_spec (S n) (List.length (j_probes j))); lia.
Qed.
Lemma weight_init c : weight c (init c) = 7 + 3 * sum (map (fun j => List.length (j_probes j)) (jobs c)).
Proof.
  unfold weight. cbn [pc gr init mw gw js]. f_equal. induction (jobs c) as [|j l IH]; cbn [map combine sum fold_right]; auto. unfold sum in IH. rewrite IH. unfold jw; cbn [fst snd]. lia.
Qed.
Lemma bounded c ls s : run c ls (init c) = Some s -> List.length ls + weight c s <= weight c (init c).
Proof.
  revert s. induction ls as [|l ls IH] using rev_ind; intros s H.
  - cbn in H. injection H as <-. cbn [List.length]. lia.
  - apply run_snoc in H. destruct H as (s0 & R & H). specialize (IH s0 R). rewrite app_length; cbn [List.length].
    destruct (reached_inv c ls s0 R) as [I|(ls0 & ok & s1 & _ & _ & C)].
    + pose proof (weight_step c s0 l s I H). lia.
    + destruct (closing_state c s1 s0 C) as (_ & _ & _ & N). rewrite N in H. discriminate.
Qed.
Lemma progress c s : reached c s -> (forall ok, pc s <> MReturned ok) -> exists l s', step c s l = Some s'.
Proof.
  intros R P. assert (I : inv c s) by (apply ok_inv; auto).
  assert (W : forall i j n g, nth_error (jobs c) i = Some j -> started s (j_kind j) = true -> nth_error (js s) i = Some (JRun n g) -> exists l s', step c s l = Some s').
  { intros i j n g J S N. exists (LJob i AOk). cbn [step]. rewrite J, S. unfold job_step. rewrite N. destruct g; eauto. }
  assert (X : forall l, forallb finished l = false -> exists n g, In (JRun n g) l).
  { induction l as [|y l IH]; cbn; [discriminate|]. destruct y as [n g| | |]; cbn; [eauto| | |]; intro H; destruct (IH H) as (n & g & Y); eauto. }
  destruct (pc s) eqn:E; try (exists (LMain true); cbn [step]; rewrite E; eauto; fail).
  - destruct (gr s) eqn:G.
    + exists (LGraph true). cbn [step]. rewrite G, E. eauto.
    + destruct (forallb finished (of_kind KGraph (jobs c) (js s))) eqn:F; [exists (LGraph true); cbn [step]; rewrite G, E, F; eauto|].
      destruct (X _ F) as (n & g & Y). apply of_kind_In in Y. destruct Y as (i & j & J & K & N). apply (W i j n g); auto. rewrite K. cbn. rewrite G. reflexivity.
    + destruct (forallb finished (not_kind KGraph (jobs c) (js s))) eqn:F; [exists (LMain true); cbn [step]; rewrite E, G, F; eauto|].
      destruct (X _ F) as (n & g & Y). apply not_kind_In in Y. destruct Y as (i & j & J & K & N). apply (W i j n g); auto. unfold started. rewrite E. destruct (j_kind j); auto.
  - exfalso. eapply P; eauto.
Qed.
(** ** all answers yes *)
Lemma all_yes c s : reached c s -> pc s = MReturned true -> (forall x att e, ~ refused s x att e) -> forall k t p, wanted c k t p <-> exists x, In x (links s) /\ is_probe c x k t p.
Proof.
  intros R P N k t p. destruct (success c s R P) as (_ & _ & _ & A & B & _). split.
  - intro W. destruct (A k t p W) as (x & Pr & [L|(att & e & H & _)]); eauto. exfalso. eapply N; eauto.
  - intros (x & L & Pr). destruct (B x L) as (k' & t' & p' & W & Pr'). destruct Pr as (j & J & K & T & Q), Pr' as (j' & J' & K' & T' & Q').
    rewrite J in J'. injection J' as <-. rewrite Q in Q'. injection Q' as <-. subst. exact W.
Qed.

(** ** two things a user may be surprised by *)
Definition half_cfg : cfg := {| c_fsession := false; c_ksession := false; c_exit := false; c_progs := []; c_multi := []; c_insns := []; c_graphs := [];
  c_fns := [{| a_target := "do_exit"; a_tp := false; a_insn := false; a_graph := false; a_both := true |}] |}.
Definition half_run : list label := [LMain true; LMain true; LMain true; LMain true; LGraph true; LJob 0 AOk; LJob 1 AOk; LJob 1 (AErr [EINVAL]); LJob 0 AOk; LJob 0 AOk; LMain true].
Lemma half : exists s, run half_cfg half_run (init half_cfg) = Some s /\ pc s = MReturned true /\ links s = [(0, 0)] /\ is_probe half_cfg (0, 0) KFn "do_exit" PEntry /\
  wanted half_cfg KFn "do_exit" PExit /\ (forall x, In x (links s) -> ~ is_probe half_cfg x KFn "do_exit" PExit).
Proof.
  eexists. split; [vm_compute; reflexivity|]. split; [reflexivity|]. split; [reflexivity|]. split; [eexists; repeat split; reflexivity|]. split.
  - cbn. eexists. split; [left; reflexivity|]. split; [reflexivity|]. right; left. cbn; auto.
  - cbn [links In]. intros x [<-|[]] (j & J & _ & _ & P). cbn in J. injection J as <-. cbn in P. discriminate.
Qed.
Definition leak_cfg : cfg := {| c_fsession := true; c_ksession := true; c_exit := false; c_progs := []; c_multi := []; c_insns := []; c_graphs := [];
  c_fns := [{| a_target := "tcp_connect"; a_tp := false; a_insn := false; a_graph := false; a_both := false |}] |}.
Lemma leak : exists s, run leak_cfg [LMain true; LJob 0 AOk; LJob 0 AOk; LMain false] (init leak_cfg) = Some s /\ pc s = MReturned false /\ links s = [(0, 0)] /\ c_multi leak_cfg = [].
Proof. eexists. split; [vm_compute; reflexivity|]. auto. Qed.
