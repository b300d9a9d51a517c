(** * Proofs about background start-up *)
From Coq Require Import List Bool ZArith Lia.
From Verif Require Import M_Ready.
Import ListNotations.
Open Scope Z_scope.

(** ** addr2line *)
Lemma run_app ok s a b : a2l_run ok s (a ++ b) = a2l_run ok (a2l_run ok s a) b.
Proof. unfold a2l_run. apply fold_left_app. Qed.
Definition stuck (s : a2l) : Prop := g_ready s = false /\ g_closed s = false /\ (g_c s = CBuild \/ g_c s = CEnd) /\ (g_w s = WReady \/ g_w s = WWait).
Lemma stuck_step s who : stuck s -> stuck (a2l_step false s who).
Proof.
  intros (H1 & H2 & H3 & H4). destruct s as [c w r cl e t]; cbn in *. subst r cl.
  destruct who; cbn [a2l_step create_step wait_step g_c g_w g_ready g_closed]; destruct H3 as [->| ->], H4 as [->| ->]; cbn; repeat split; auto.
Qed.
Lemma stuck_run l : forall s, stuck s -> stuck (a2l_run false s l).
Proof. induction l as [|w l IH]; intros s H; cbn; [exact H|]. apply IH. apply stuck_step. exact H. Qed.
Lemma never_returns l : ~ returned (a2l_run false a2l0 l).
Proof.
  pose proof (stuck_run l a2l0) as H. destruct H as (_ & _ & _ & H); [repeat split; auto|]. unfold returned. destruct H as [-> | ->]; auto.
Qed.
(** an invariant of the successful creation *)
Definition fine (s : a2l) : Prop := g_err s = false /\
  match g_c s with CBuild | CClose => g_ready s = false /\ g_closed s = false /\ g_table s = false | CReady => g_closed s = true /\ g_ready s = false /\ g_table s = false
    | CTable => g_closed s = true /\ g_ready s = true /\ g_table s = false | CEnd => g_closed s = true /\ g_ready s = true /\ g_table s = true end /\
  g_w s <> WFailed.
Lemma fine_step s who : fine s -> fine (a2l_step true s who).
Proof.
  intros (H1 & H2 & H3). destruct s as [c w r cl e t]; cbn in *. subst e.
  destruct who; cbn [a2l_step create_step wait_step g_c g_w g_ready g_closed g_err g_table].
  - destruct c; cbn in *; destruct H2 as (A & B & C); subst; cbn; unfold fine; cbn; repeat split; auto.
  - destruct w; unfold fine; cbn; repeat split; auto; try congruence; try (destruct r; discriminate); try (destruct t; discriminate).
    destruct cl; cbn; repeat split; auto; congruence. all: destruct cl; cbn; auto; congruence.
Qed.
Lemma fine_run l : forall s, fine s -> fine (a2l_run true s l).
Proof. induction l as [|w l IH]; intros s H; cbn; [exact H|]. apply IH. apply fine_step. exact H. Qed.
Lemma fine0 : fine a2l0. Proof. repeat split; cbn; congruence. Qed.
Lemma end_stays l : forall s, g_c s = CEnd -> g_c (a2l_run true s l) = CEnd.
Proof. induction l as [|w l IH]; intros s H; cbn; [exact H|]. apply IH. destruct w; cbn [a2l_step]; unfold create_step, wait_step; [rewrite H; exact H|]. destruct (g_w s), (g_closed s); cbn; exact H. Qed.
(** once create() has ended, the look-up moves at each of its turns *)
Definition todo (w : wpos) : nat := match w with WReady => 4 | WWait => 3 | WErr => 2 | WTable => 1 | _ => 0 end.
Definition late (s : a2l) : Prop := g_w s <> WNotFound.
Lemma turn s : fine s -> g_c s = CEnd -> (todo (g_w (wait_step s)) <= Nat.pred (todo (g_w s)))%nat /\ (late s -> late (wait_step s)).
Proof.
  intros (H1 & H2 & H3) Hc. destruct s as [c w r cl e t]; cbn in *. subst c e. destruct H2 as (-> & -> & ->). unfold late; destruct w; cbn; split; try lia; intros; congruence.
Qed.
Lemma turns l : forall s, fine s -> g_c s = CEnd -> (todo (g_w (a2l_run true s l)) <= todo (g_w s) - count_occ bool_dec l false)%nat /\ (late s -> late (a2l_run true s l)).
Proof.
  induction l as [|w l IH]; intros s Hf Hc; [cbn; split; [lia|auto]|]. change (a2l_run true s (w :: l)) with (a2l_run true (a2l_step true s w) l).
  assert (Hf' := fine_step s w Hf). assert (Hc' : g_c (a2l_step true s w) = CEnd) by (apply (end_stays [w] s Hc)). destruct (IH _ Hf' Hc') as [A B].
  destruct w; cbn [count_occ bool_dec].
  - assert (E : a2l_step true s true = s) by (cbn [a2l_step]; unfold create_step; rewrite Hc; reflexivity). rewrite E in *. destruct (bool_dec true false); [congruence|]. auto.
  - destruct (turn s Hf Hc) as [T1 T2]. cbn [a2l_step] in *. destruct (bool_dec false false); [|congruence]. split; [lia|auto].
Qed.
Lemma count_true l : forall s, fine s -> (List.length [CBuild; CClose; CReady; CTable] <= count_occ bool_dec l true)%nat -> g_c (a2l_run true s l) = CEnd.
Proof.
  assert (H : forall l s, ((match g_c s with CBuild => 4 | CClose => 3 | CReady => 2 | CTable => 1 | CEnd => 0 end) <= count_occ bool_dec l true)%nat -> g_c (a2l_run true s l) = CEnd).
  { clear. induction l as [|w l IH]; intros s H.
    - cbn in *. destruct (g_c s); try lia. reflexivity.
    - change (a2l_run true s (w :: l)) with (a2l_run true (a2l_step true s w) l). apply IH. destruct w; cbn [count_occ bool_dec a2l_step] in *.
      + destruct (bool_dec true true); [|congruence]. destruct s as [c w r cl e' t]; destruct c; cbn in *; lia.
      + destruct (bool_dec false true); [congruence|]. destruct s as [c w r cl e' t]; destruct w, cl; cbn in *; exact H. }
  intros s _ Hl. apply H. cbn in Hl. destruct (g_c s); lia.
Qed.
Lemma returned_todo s : todo (g_w s) = 0%nat <-> returned s.
Proof. unfold returned. destruct (g_w s); cbn; split; intros; try lia; try tauto; auto. Qed.
Theorem ok_returns l1 l2 : (4 <= count_occ bool_dec l1 true)%nat -> (4 <= count_occ bool_dec l2 false)%nat -> returned (a2l_run true a2l0 (l1 ++ l2)).
Proof.
  intros H1 H2. rewrite run_app. set (s := a2l_run true a2l0 l1). assert (Hf : fine s) by (apply fine_run; apply fine0).
  assert (Hc : g_c s = CEnd) by (apply count_true; [apply fine0|exact H1]). destruct (turns l2 s Hf Hc) as [A _]. apply returned_todo.
  assert (todo (g_w s) <= 4)%nat by (destruct (g_w s); cbn; lia). lia.
Qed.
Theorem late_found l1 l2 : g_c (a2l_run true a2l0 l1) = CEnd -> g_w (a2l_run true a2l0 l1) = WReady -> (4 <= count_occ bool_dec l2 false)%nat ->
  g_w (a2l_run true a2l0 (l1 ++ l2)) = WFound.
Proof.
  intros Hc Hw H2. rewrite run_app. set (s := a2l_run true a2l0 l1) in *. assert (Hf : fine s) by (apply fine_run; apply fine0).
  destruct (turns l2 s Hf Hc) as [A B]. assert (Hl : late s) by (unfold late; rewrite Hw; discriminate). specialize (B Hl).
  rewrite Hw in A. cbn [todo] in A. assert (E : todo (g_w (a2l_run true s l2)) = 0%nat) by lia.
  destruct (fine_run l2 s Hf) as (_ & _ & Hn). unfold late in B. destruct (g_w (a2l_run true s l2)); cbn in E; try lia; congruence.
Qed.

(** ** programs *)
Lemma remove_at_In {A} (l : list A) i x y : nth_error l i = Some x -> In y l -> y = x \/ In y (remove_at l i).
Proof.
  revert i. induction l as [|z l IH]; intros i Hx Hy; [destruct Hy|]. destruct i as [|i]; cbn [nth_error remove_at] in *.
  - injection Hx as <-. destruct Hy as [<-|Hy]; auto.
  - destruct Hy as [<-|Hy]; [right; left; reflexivity|]. destruct (IH i Hx Hy); auto. right. right. assumption.
Qed.
Lemma In_remove_at {A} (l : list A) i y : In y (remove_at l i) -> In y l.
Proof. revert i. induction l as [|z l IH]; intros i H; [destruct i; destruct H|]. destruct i; cbn in H; [right; exact H|]. destruct H as [<-|H]; [left; reflexivity|right; exact (IH i H)]. Qed.
Definition pinv (ps : list prog) (s : progs) : Prop := (forall p, In p (h_todo s) -> In p ps) /\
  (forall f, In f (h_funcs s) -> exists p, In p ps /\ p_parses p = true /\ In f (p_funcs p)) /\ (h_done s = true -> h_todo s = []) /\
  forall p, In p ps -> In p (h_todo s) \/ (if p_parses p then forall f, In f (p_funcs p) -> In f (h_funcs s) else h_err s = true).
Lemma pstep_inv tr ps s e s' : pinv ps s -> pstep tr s e = Some s' -> pinv ps s'.
Proof.
  intros (H1 & H2 & H4 & H3) H. unfold pstep in H. destruct (h_panic s); [discriminate|]. destruct e as [i| |ip].
  - destruct (nth_error (h_todo s) i) as [p|] eqn:E; [|discriminate]. injection H as <-.
    assert (Hp : In p ps) by (apply H1; eapply nth_error_In; exact E).
    destruct (p_parses p) eqn:Ep; cbn [h_todo h_funcs h_err h_done].
    + split; [intros q Hq; apply H1; eapply In_remove_at; exact Hq|]. split; [intros f Hf; apply in_app_or in Hf as [Hf|Hf]; [exists p; auto|auto]|].
      split; [intros Hd; apply H4 in Hd; rewrite Hd in E; destruct i; discriminate|].
      intros q Hq. destruct (H3 q Hq) as [Ht|Ht].
      * destruct (remove_at_In _ i p q E Ht) as [->|Ht']; [|auto]. right. rewrite Ep. intros f Hf. apply in_or_app. auto.
      * right. destruct (p_parses q); [|exact Ht]. intros f Hf. apply in_or_app. auto.
    + split; [intros q Hq; apply H1; eapply In_remove_at; exact Hq|]. split; [exact H2|].
      split; [intros Hd; apply H4 in Hd; rewrite Hd in E; destruct i; discriminate|].
      intros q Hq. destruct (H3 q Hq) as [Ht|Ht].
      * destruct (remove_at_In _ i p q E Ht) as [->|Ht']; [|auto]. right. rewrite Ep. reflexivity.
      * right. destruct (p_parses q); [exact Ht|reflexivity].
  - destruct (h_todo s) eqn:Et; [|discriminate]. destruct (h_done s) eqn:Ed; [discriminate|].
    destruct (forallb _ tr); injection H as <-; repeat split; cbn; auto; try (intros p []).
  - injection H as <-. repeat split; cbn; auto.
Qed.
Lemma prun_inv tr ps l : forall s s', pinv ps s -> prun tr s l = Some s' -> pinv ps s'.
Proof.
  induction l as [|e l IH]; intros s s' Hi H; cbn [prun] in H; [injection H as <-; exact Hi|]. destruct (pstep tr s e) as [s1|] eqn:E; [|discriminate].
  apply (IH s1 s'); [eapply pstep_inv; eassumption|exact H].
Qed.
Lemma pinv0 ps : pinv ps (progs0 ps).
Proof. repeat split; cbn; auto; try discriminate. intros f []. Qed.
Theorem waiting_sees_all tr ps l s fs : prun tr (progs0 ps) l = Some s -> pget s = SFuncs fs ->
  forall p, In p ps -> p_parses p = true /\ (forall f, In f (p_funcs p) -> In f fs).
Proof.
  intros H Hg p Hp. destruct (prun_inv tr ps l _ s (pinv0 ps) H) as (_ & _ & H4 & H3). unfold pget in Hg. destruct (h_done s); [|discriminate]. destruct (h_err s); [discriminate|]. injection Hg as <-.
  destruct (H3 p Hp) as [Ht|Ht]; [rewrite (H4 eq_refl) in Ht; destruct Ht|]. destruct (p_parses p); [auto|discriminate].
Qed.
Lemma existsb_In ip l : existsb (Z.eqb ip) l = true <-> In ip l.
Proof. rewrite existsb_exists. split; [intros (x & Hx & E); apply Z.eqb_eq in E; subst; exact Hx|intros H; exists ip; split; [exact H|apply Z.eqb_refl]]. Qed.
(** tracing after parsing does not crash *)
Definition traced_after (tr : list Z) (ps : list prog) (l : list pev) : Prop :=
  forall l1 ip l2 s, l = l1 ++ PTrace ip :: l2 -> prun tr (progs0 ps) l1 = Some s -> In ip tr /\ h_todo s = [].
Theorem traced_after_ok tr ps l s : (forall p, In p ps -> p_parses p = true) -> (forall ip, In ip tr -> exists p, In p ps /\ In ip (p_funcs p)) ->
  traced_after tr ps l -> prun tr (progs0 ps) l = Some s -> h_panic s = false.
Proof.
  intros Hp Ht. assert (G : forall l s0 s, pinv ps s0 -> h_panic s0 = false -> (forall l1 ip l2 s1, l = l1 ++ PTrace ip :: l2 -> prun tr s0 l1 = Some s1 -> In ip tr /\ h_todo s1 = []) ->
    prun tr s0 l = Some s -> h_panic s = false).
  { clear l s. induction l as [|e l IH]; intros s0 s Hi Hpan Ha H; cbn [prun] in H; [injection H as <-; exact Hpan|].
    destruct (pstep tr s0 e) as [s1|] eqn:E; [|discriminate]. apply (IH s1 s); [eapply pstep_inv; eassumption| |intros l1 ip l2 s2 -> E2; apply (Ha (e :: l1) ip l2 s2); [reflexivity|cbn [prun]; rewrite E; exact E2]|exact H].
    assert (Hfull : h_todo s0 = [] -> forall ip, In ip tr -> existsb (Z.eqb ip) (h_funcs s0) = true).
    { intros Et ip Hip. destruct (Ht ip Hip) as (p & Hpp & Hf). destruct Hi as (_ & _ & _ & H3). destruct (H3 p Hpp) as [Hx|Hx]; [rewrite Et in Hx; destruct Hx|].
      rewrite (Hp p Hpp) in Hx. apply existsb_In. auto. }
    pose proof E as E0. unfold pstep in E0. rewrite Hpan in E0. destruct e as [i| |ip].
    - destruct (nth_error (h_todo s0) i) as [p|]; [|discriminate]. injection E0 as <-. destruct (p_parses p); reflexivity.
    - destruct (h_todo s0) eqn:Et; [|discriminate]. destruct (h_done s0); [discriminate|]. assert (F : forallb (fun ip => existsb (Z.eqb ip) (h_funcs s0)) tr = true) by (apply forallb_forall; apply Hfull; reflexivity).
      rewrite F in E0. injection E0 as <-. reflexivity.
    - injection E0 as <-. cbn [h_panic]. destruct (Ha [] ip l s0 eq_refl eq_refl) as [Hin Het]. rewrite (Hfull Het ip Hin). reflexivity. }
  intros Ha H. apply (G l (progs0 ps) s (pinv0 ps) eq_refl Ha H).
Qed.
(** a traced program that cannot be parsed: parsing never completes *)
Theorem bad_program_never_done tr ps l s p ip : In p ps -> p_parses p = false -> In ip tr -> In ip (p_funcs p) -> (forall q, In q ps -> In ip (p_funcs q) -> q = p) ->
  prun tr (progs0 ps) l = Some s -> h_done s = false.
Proof.
  intros Hp Hb Hip Hf Hu.
  assert (G : forall l s0 s, pinv ps s0 -> h_done s0 = false -> prun tr s0 l = Some s -> h_done s = false).
  { clear l s. induction l as [|e l IH]; intros s0 s Hi Hd H; cbn [prun] in H; [injection H as <-; exact Hd|].
    destruct (pstep tr s0 e) as [s1|] eqn:E; [|discriminate]. apply (IH s1 s); [eapply pstep_inv; eassumption| |exact H].
    unfold pstep in E. destruct (h_panic s0); [discriminate|]. destruct e as [i| |x].
    - destruct (nth_error (h_todo s0) i) as [q|]; [|discriminate]. injection E as <-. destruct (p_parses q); exact Hd.
    - destruct (h_todo s0); [|discriminate]. rewrite Hd in E. destruct (forallb (fun ip => existsb (Z.eqb ip) (h_funcs s0)) tr) eqn:F; injection E as <-; [|reflexivity].
      exfalso. rewrite forallb_forall in F. specialize (F ip Hip). apply existsb_In in F. destruct Hi as (_ & H2 & _ & _). destruct (H2 ip F) as (q & Hq & Hqp & Hqf).
      rewrite (Hu q Hq Hqf) in Hqp. congruence.
    - injection E as <-. exact Hd. }
  intros H. exact (G l (progs0 ps) s (pinv0 ps) eq_refl H).
Qed.
