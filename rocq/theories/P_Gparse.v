(** * Proofs about the exploration of call graphs *)
From Coq Require Import List Bool ZArith Lia Arith.
From Verif Require Import M_Go P_Go M_Gparse S_Gparse.
Import ListNotations.
Open Scope list_scope.

Lemma in_mid {A} (x y : A) l1 l2 : In x (l1 ++ y :: l2) <-> x = y \/ In x (l1 ++ l2).
Proof. rewrite !in_app_iff. cbn. intuition congruence. Qed.
Lemma in_mid2 {A} (x y z : A) l1 l2 : In x (l1 ++ y :: l2 ++ [z]) <-> x = y \/ x = z \/ In x (l1 ++ l2).
Proof. rewrite !in_app_iff. cbn. rewrite in_app_iff. cbn. intuition congruence. Qed.
Section G.
  Variables (w : gworld) (roots : list (Z * nat)).
  Notation reach := (reach w roots).
  Definition item (t : task) (x : Z * nat) : Prop :=
    match t with Start ip d => x = (ip, d) | Run cur todo => cur = Some x \/ In x todo end.
  (** every step keeps: what tasks are about is reachable; what is filled is traceable and reachable within the limit *)
  Record sound_inv (s : gst) : Prop := {
    si_reach : forall t x, In t (g_tasks s) -> item t x -> reach (fst x) (snd x);
    si_start : forall ip d, In (Start ip d) (g_tasks s) -> (d <= w_max w)%nat /\ w_ok w ip = true;
    si_cur : forall x todo, In (Run (Some x) todo) (g_tasks s) -> (snd x <= w_max w)%nat;
    si_graph : forall ip r, aget Z.eqb ip (g_graphs s) = Some (Some r) -> w_ok w ip = true /\ exists d, reach ip d /\ (d <= w_max w)%nat /\ r = Nat.eqb d 0;
    si_parsed : forall ip d, In (ip, d) (g_parsed s) -> (d <= w_max w)%nat /\ w_ok w ip = true /\ reach ip d }.
  Lemma sound_init : sound_inv (ginit roots).
  Proof.
    constructor; cbn; try (intros; contradiction); try discriminate.
    - intros t [ip d] [<-|[]] [H|H]; [discriminate|]. apply reach_root. exact H.
    - intros ip d [H|[]]. discriminate.
    - intros x todo [H|[]]. discriminate.
  Qed.
  Lemma succ_reach ip d c d' : reach ip d -> (d <= w_max w)%nat -> w_ok w ip = true -> In (c, d') (succ w ip d) -> reach c d'.
  Proof.
    intros Hr Hd Ho. unfold succ. destruct (w_repl w ip) as [r|] eqn:E.
    - intros [H|[]]. injection H as <- <-. eapply reach_repl; eassumption.
    - rewrite in_map_iff. intros (x & H & Hx). injection H as <- <-. eapply reach_call; eassumption.
  Qed.
  Ltac tk s E := match goal with H : g_tasks s = _ |- _ => rewrite H in * end.
  Lemma sound_step b s s' : sound_inv s -> gstep w b s s' -> sound_inv s'.
  Proof.
    intros [I1 I2 I3 I4 I5] H. inversion H as [? l1 l2 ip d Et Hin|? l1 l2 ip d Et Hin|? l1 l2 ip d todo Et Hd|? l1 l2 ip d todo r Et Hd Hg|? l1 l2 ip d todo ? Et Hd Hg|? l1 l2 ip d todo Et Hd Hg|? l1 l2 ip d todo Et Ho|? l1 l2 ip d todo Et Ho|? l1 l2 Et]; subst;
      rewrite Et in I1, I2, I3.
    - constructor; cbn [put g_tasks g_graphs g_parsed]; auto.
      + intros t x Ht. apply I1. apply in_mid. auto.
      + intros i d0 Ht. apply I2. apply in_mid. auto.
      + intros x td Ht. eapply I3. apply in_mid. eauto.
    - destruct (I2 ip d ltac:(apply in_mid; auto)) as [J1 J2]. assert (J3 : reach ip d) by (apply (I1 (Start ip d) (ip, d)); [apply in_mid; auto|reflexivity]).
      constructor; cbn [g_tasks g_graphs g_parsed]; auto.
      + intros t [c d'] Ht. apply in_mid in Ht as [->|Ht]; [|apply I1; apply in_mid; auto]. intros [X|X]; [discriminate|]. eapply succ_reach; eassumption.
      + intros i d0 Ht. apply in_mid in Ht as [Ht|Ht]; [discriminate|]. apply I2. apply in_mid. auto.
      + intros x td Ht. apply in_mid in Ht as [Ht|Ht]; [discriminate|]. eapply I3. apply in_mid. eauto.
      + intros i d0 [X|X]; [injection X as <- <-; auto|auto].
    - constructor; cbn [put g_tasks g_graphs g_parsed]; auto.
      + intros t x Ht. apply in_mid in Ht as [->|Ht]; [|apply I1; apply in_mid; auto]. intros [X|X]; [discriminate|]. apply (I1 (Run None ((ip, d) :: todo))); [apply in_mid; auto|right; right; exact X].
      + intros i d0 Ht. apply in_mid in Ht as [Ht|Ht]; [discriminate|]. apply I2. apply in_mid. auto.
      + intros x td Ht. apply in_mid in Ht as [Ht|Ht]; [discriminate|]. eapply I3. apply in_mid. eauto.
    - constructor; cbn [put g_tasks g_graphs g_parsed]; auto.
      + intros t x Ht. apply in_mid2 in Ht as [->|[->|Ht]]; [| |apply I1; apply in_mid; auto].
        * intros [X|X]; [discriminate|]. apply (I1 (Run None ((ip, d) :: todo))); [apply in_mid; auto|right; right; exact X].
        * intros ->. apply (I1 (Run None ((ip, d) :: todo)) (ip, d)); [apply in_mid; auto|right; left; reflexivity].
      + intros i d0 Ht. apply in_mid2 in Ht as [Ht|[Ht|Ht]]; [discriminate| |apply I2; apply in_mid; auto]. injection Ht as -> ->. split; [exact Hd|]. apply (I4 _ _ Hg).
      + intros x td Ht. apply in_mid2 in Ht as [Ht|[Ht|Ht]]; [discriminate|discriminate|]. eapply I3. apply in_mid. eauto.
    - constructor; cbn [put g_tasks g_graphs g_parsed]; auto.
      + intros t x Ht. apply in_mid in Ht as [->|Ht]; [|apply I1; apply in_mid; auto]. intros [X|X]; [discriminate|]. apply (I1 (Run None ((ip, d) :: todo))); [apply in_mid; auto|right; right; exact X].
      + intros i d0 Ht. apply in_mid in Ht as [Ht|Ht]; [discriminate|]. apply I2. apply in_mid. auto.
      + intros x td Ht. apply in_mid in Ht as [Ht|Ht]; [discriminate|]. eapply I3. apply in_mid. eauto.
    - constructor; cbn [g_tasks g_graphs g_parsed]; auto.
      + intros t x Ht. apply in_mid in Ht as [->|Ht]; [|apply I1; apply in_mid; auto]. intros X. apply (I1 (Run None ((ip, d) :: todo))); [apply in_mid; auto|]. right. destruct X as [X|X]; [injection X as <-; left; reflexivity|right; exact X].
      + intros i d0 Ht. apply in_mid in Ht as [Ht|Ht]; [discriminate|]. apply I2. apply in_mid. auto.
      + intros x td Ht. apply in_mid in Ht as [Ht|Ht]; [injection Ht as -> _; exact Hd|]. eapply I3. apply in_mid. eauto.
      + intros i r. rewrite (aget_aput _ Zeqb_ok). destruct (Z.eqb_spec i ip); [discriminate|apply I4].
    - assert (J3 : reach ip d) by (apply (I1 (Run (Some (ip, d)) todo) (ip, d)); [apply in_mid; auto|left; reflexivity]).
      assert (J4 : (d <= w_max w)%nat) by (apply (I3 (ip, d) todo); apply in_mid; auto). constructor; cbn [g_tasks g_graphs g_parsed]; auto.
      + intros t x Ht. apply in_mid2 in Ht as [->|[->|Ht]]; [| |apply I1; apply in_mid; auto].
        * intros [X|X]; [discriminate|]. apply (I1 (Run (Some (ip, d)) todo)); [apply in_mid; auto|right; exact X].
        * intros ->. exact J3.
      + intros i d0 Ht. apply in_mid2 in Ht as [Ht|[Ht|Ht]]; [discriminate| |apply I2; apply in_mid; auto]. injection Ht as -> ->. auto.
      + intros x td Ht. apply in_mid2 in Ht as [Ht|[Ht|Ht]]; [discriminate|discriminate|]. eapply I3. apply in_mid. eauto.
      + intros i r. rewrite (aget_aput _ Zeqb_ok). destruct (Z.eqb_spec i ip) as [->|]; [|apply I4]. intros X. injection X as <-. split; [exact Ho|]. exists d. auto.
    - constructor; cbn [put g_tasks g_graphs g_parsed]; auto.
      + intros t x Ht. apply in_mid in Ht as [->|Ht]; [|apply I1; apply in_mid; auto]. intros [X|X]; [discriminate|]. apply (I1 (Run (Some (ip, d)) todo)); [apply in_mid; auto|right; exact X].
      + intros i d0 Ht. apply in_mid in Ht as [Ht|Ht]; [discriminate|]. apply I2. apply in_mid. auto.
      + intros x td Ht. apply in_mid in Ht as [Ht|Ht]; [discriminate|]. eapply I3. apply in_mid. eauto.
    - constructor; cbn [put g_tasks g_graphs g_parsed]; auto.
      + intros t x Ht. apply I1. apply in_mid. auto.
      + intros i d0 Ht. apply I2. apply in_mid. auto.
      + intros x td Ht. eapply I3. apply in_mid. eauto.
  Qed.
  Lemma sound_steps n b s s' : gsteps w n b s s' -> sound_inv s -> sound_inv s'.
  Proof. induction 1 as [|n b b' s1 s2 s3 H IH H1]; auto. intros I. eapply sound_step; [apply IH; exact I|exact H1]. Qed.

  (** ** Termination *)
  Variables (U : list Z) (L : nat).
  Hypothesis HU : closed w roots U.
  Hypothesis HL : width w U L.
  Definition todo_keys : list (Z * nat) := list_prod U (seq 0 (S (w_max w))).
  Definition key_eq (a b : Z * nat) : {a = b} + {a <> b}.
  Proof. decide equality; [apply Nat.eq_dec|apply Z.eq_dec]. Defined.
  Definition fresh (parsed : list (Z * nat)) : nat := List.length (filter (fun k => if in_dec key_eq k parsed then false else true) todo_keys).
  Definition twt (t : task) : nat := match t with Start _ _ => 1 | Run cur todo => 1 + (if cur then 2 else 0) + 4 * List.length todo end%nat.
  Definition wts (l : list task) : nat := fold_right (fun t n => twt t + n)%nat 0%nat l.
  Definition measure (s : gst) : nat := ((6 + 4 * L) * fresh (g_parsed s) + wts (g_tasks s))%nat.
  Lemma wts_app a b : wts (a ++ b) = (wts a + wts b)%nat.
  Proof. induction a as [|t a IH]; [reflexivity|]. change (twt t + wts (a ++ b) = twt t + wts a + wts b)%nat. rewrite IH. lia. Qed.
  Lemma wts_cons t l : wts (t :: l) = (twt t + wts l)%nat.
  Proof. reflexivity. Qed.
  Lemma wts_nil : wts [] = 0%nat.
  Proof. reflexivity. Qed.
  Lemma reach_U ip d : reach ip d -> In ip U.
  Proof. destruct HU as (H1 & H2 & H3). induction 1 as [ip d H|ip d c H IH Hd Ho Hr Hc|ip d r H IH Hd Ho Hr]; eauto. Qed.
  Lemma succ_len ip d : In ip U -> (List.length (succ w ip d) <= S L)%nat.
  Proof. intros H. unfold succ. destruct (w_repl w ip); [cbn; lia|]. rewrite map_length. specialize (HL ip H). lia. Qed.
  Lemma fresh_dec k parsed : In k todo_keys -> ~ In k parsed -> (fresh (k :: parsed) < fresh parsed)%nat.
  Proof.
    unfold fresh. intros Hin Hn. induction todo_keys as [|x l IH]; [destruct Hin|]. cbn [filter]. 
    assert (Hle : forall l, (List.length (filter (fun y => if in_dec key_eq y (k :: parsed) then false else true) l) <= List.length (filter (fun y => if in_dec key_eq y parsed then false else true) l))%nat).
    { clear. induction l as [|y l IH]; [cbn; lia|]. cbn [filter]. destruct (in_dec key_eq y (k :: parsed)) as [H|H], (in_dec key_eq y parsed) as [H'|H']; cbn [List.length]; try lia. exfalso. apply H. right. exact H'. }
    destruct (key_eq k x) as [->|Hne].
    - destruct (in_dec key_eq x (x :: parsed)) as [_|X]; [|exfalso; apply X; left; reflexivity]. destruct (in_dec key_eq x parsed); [contradiction|]. cbn [List.length]. specialize (Hle l). lia.
    - destruct Hin as [Hin|Hin]; [congruence|]. specialize (IH Hin). destruct (in_dec key_eq x (k :: parsed)) as [H|H], (in_dec key_eq x parsed) as [H'|H']; cbn [List.length]; try lia. exfalso. apply H. right. exact H'.
  Qed.
  Lemma step_dec b s s' : sound_inv s -> gstep w b s s' -> (measure s' < measure s)%nat.
  Proof.
    intros I H. unfold measure. inversion H as [? l1 l2 ip d Et Hin|? l1 l2 ip d Et Hin|? l1 l2 ip d todo Et Hd|? l1 l2 ip d todo r Et Hd Hg|? l1 l2 ip d todo ? Et Hd Hg|? l1 l2 ip d todo Et Hd Hg|? l1 l2 ip d todo Et Ho|? l1 l2 ip d todo Et Ho|? l1 l2 Et]; subst;
      rewrite Et; cbn [put g_tasks g_parsed g_graphs]; repeat (rewrite ?wts_app, ?wts_cons, ?wts_nil); cbn [twt List.length]; try lia.
    destruct (si_start s I ip d) as [J1 J2]; [rewrite Et; apply in_mid; auto|]. assert (J3 : reach ip d) by (apply (si_reach s I (Start ip d) (ip, d)); [rewrite Et; apply in_mid; auto|reflexivity]).
    assert (F : (fresh ((ip, d) :: g_parsed s) < fresh (g_parsed s))%nat) by (apply fresh_dec; [apply in_prod; [eapply reach_U; eassumption|apply in_seq; lia]|exact Hin]).
    assert (S := succ_len ip d (reach_U ip d J3)). nia.
  Qed.
  Lemma steps_bound n b s s' : gsteps w n b s s' -> sound_inv s -> (n + measure s' <= measure s)%nat.
  Proof.
    induction 1 as [|n b b' s1 s2 s3 H IH H1]; intros I; [lia|]. specialize (IH I). assert (X := step_dec _ _ _ (sound_steps _ _ _ _ H I) H1). lia.
  Qed.
  (** and a state that is not final can go on *)
  Lemma progress s : g_tasks s <> [] -> exists b s', gstep w b s s'.
  Proof.
    destruct (g_tasks s) as [|t l] eqn:E; [congruence|]. intros _. destruct t as [ip d|[[ip d]|] todo].
    - destruct (in_dec key_eq (ip, d) (g_parsed s)); eexists _, _; [eapply (s_again w s [] l ip d)|eapply (s_parse w s [] l ip d)]; eassumption.
    - destruct (w_ok w ip) eqn:Eo; eexists _, _; [eapply (s_fill w s [] l ip d todo)|eapply (s_untraceable w s [] l ip d todo)]; eassumption.
    - destruct todo as [|[ip d] todo]; [eexists _, _; eapply (s_end w s [] l); eassumption|]. destruct (le_lt_dec d (w_max w)) as [Hd|Hd]; [|eexists _, _; eapply (s_deep w s [] l); eassumption].
      destruct (aget Z.eqb ip (g_graphs s)) as [[r|]|] eqn:Eg; [eexists _, _; eapply (s_found w s [] l); eassumption| |eexists _, _; eapply (s_insert w s [] l); eassumption].
      assert (D : {exists d' todo', In (Run (Some (ip, d')) todo') (g_tasks s)} + {~ exists d' todo', In (Run (Some (ip, d')) todo') (g_tasks s)}).
      { clear. induction (g_tasks s) as [|t l [IH|IH]].
        - right. intros (d' & td & []).
        - left. destruct IH as (d' & td & H). exists d', td. right. exact H.
        - destruct t as [i d0|[[i d0]|] td]; [right| |right].
          + intros (d' & td & [H|H]); [discriminate|]. apply IH. eauto.
          + destruct (Z.eq_dec i ip) as [->|Hne]; [left; exists d0, td; left; reflexivity|right]. intros (d' & td' & [H|H]); [congruence|]. apply IH. eauto.
          + intros (d' & td' & [H|H]); [discriminate|]. apply IH. eauto. }
      destruct D as [D|D]; [exists true|exists false]; eexists; eapply (s_empty w s [] l); try eassumption; split; auto; try discriminate.
  Qed.
End G.
Section C.
  Variables (w : gworld) (roots : list (Z * nat)).
  Notation reach := (reach w roots).
  (** a call is accounted for: irrelevant, explored, or still to be *)
  Definition acc (s : gst) (x : Z * nat) : Prop :=
    (w_max w < snd x)%nat \/ w_ok w (fst x) = false \/ In x (g_parsed s) \/ exists t, In t (g_tasks s) /\ item t x.
  Record comp_inv (s : gst) : Prop := {
    ci_root : forall x, In x roots -> acc s x;
    ci_succ : forall ip d x, In (ip, d) (g_parsed s) -> In x (succ w ip d) -> acc s x;
    ci_filled : forall ip d, In (ip, d) (g_parsed s) \/ In (Start ip d) (g_tasks s) -> chosen s ip;
    ci_empty : forall ip, aget Z.eqb ip (g_graphs s) = Some None -> w_ok w ip = false \/ exists d todo, In (Run (Some (ip, d)) todo) (g_tasks s) }.
  Lemma comp_init : comp_inv (ginit roots).
  Proof.
    constructor; cbn; try (intros; contradiction); try discriminate.
    - intros x Hx. right. right. right. exists (Run None roots). split; [left; reflexivity|right; exact Hx].
    - intros ip d [[]|[H|[]]]. discriminate.
  Qed.
  (** a step that keeps [acc] for all keeps the first two parts *)
  Lemma acc_mono s s' : (forall x, In x (g_parsed s) -> acc s' x) -> (forall t x, In t (g_tasks s) -> item t x -> acc s' x) -> forall x, acc s x -> acc s' x.
  Proof.
    intros H1 H2 x [H|[H|[H|(t & Ht & H)]]]; [left; exact H|right; left; exact H|auto|eauto].
  Qed.
  Lemma acc_task s x t : In t (g_tasks s) -> item t x -> acc s x.
  Proof. intros H1 H2. right. right. right. eauto. Qed.
  Lemma acc_parsed s x : In x (g_parsed s) -> acc s x.
  Proof. intros H. right. right. left. exact H. Qed.
  Lemma comp_step s s' : comp_inv s -> gstep w false s s' -> comp_inv s'.
  Proof.
    intros [C1 C2 C3 C4] H. inversion H as [? l1 l2 ip d Et Hin|? l1 l2 ip d Et Hin|? l1 l2 ip d todo Et Hd|? l1 l2 ip d todo r Et Hd Hg|? l1 l2 ip d todo ? Et Hd Hg Hb|? l1 l2 ip d todo Et Hd Hg|? l1 l2 ip d todo Et Ho|? l1 l2 ip d todo Et Ho|? l1 l2 Et]; subst.
    - assert (M : forall x, acc s x -> acc (put s (l1 ++ l2)) x).
      { apply acc_mono; [intros x Hx; apply acc_parsed; exact Hx|]. intros t x Ht Hi. rewrite Et in Ht. apply in_mid in Ht as [->|Ht]; [cbn in Hi; subst x; apply acc_parsed; exact Hin|eapply acc_task; eassumption]. }
      constructor; cbn [put g_tasks g_graphs g_parsed]; eauto.
      + intros i d0 [X|X]; [apply (C3 i d0); auto|]. apply (C3 i d0). right. rewrite Et. apply in_mid. auto.
      + intros i Hi. destruct (C4 i Hi) as [X|(d0 & td & X)]; [auto|]. right. exists d0, td. rewrite Et in X. apply in_mid in X as [X|X]; [discriminate|exact X].
    - set (s' := {| g_graphs := g_graphs s; g_parsed := (ip, d) :: g_parsed s; g_tasks := l1 ++ Run None (succ w ip d) :: l2 |}).
      assert (M : forall x, acc s x -> acc s' x).
      { apply acc_mono; [intros x Hx; apply acc_parsed; right; exact Hx|]. intros t x Ht Hi. rewrite Et in Ht. apply in_mid in Ht as [->|Ht]; [cbn in Hi; subst x; apply acc_parsed; left; reflexivity|].
        apply (acc_task s' x t); [unfold s'; cbn [g_tasks]; apply in_mid; auto|exact Hi]. }
      constructor; cbn [g_tasks g_graphs g_parsed].
      + intros x Hx. apply M, C1, Hx.
      + intros i d0 x [X|X] Hx; [injection X as -> ->|apply M; eapply C2; eassumption]. apply (acc_task s' x (Run None (succ w i d0))); [unfold s'; cbn [g_tasks]; apply in_mid; auto|right; exact Hx].
      + intros i d0 [[X|X]|X]; [injection X as <- <-; apply (C3 ip d); right; rewrite Et; apply in_mid; auto|apply (C3 i d0); auto|]. apply in_mid in X as [X|X]; [discriminate|]. apply (C3 i d0). right. rewrite Et. apply in_mid. auto.
      + intros i Hi. destruct (C4 i Hi) as [X|(d0 & td & X)]; [auto|]. right. exists d0, td. rewrite Et in X. apply in_mid in X as [X|X]; [discriminate|]. apply in_mid. auto.
    - assert (M : forall x, acc s x -> acc (put s (l1 ++ Run None todo :: l2)) x).
      { apply acc_mono; [intros x Hx; apply acc_parsed; exact Hx|]. intros t x Ht Hi. rewrite Et in Ht. apply in_mid in Ht as [->|Ht].
        - destruct Hi as [Hi|[<-|Hi]]; [discriminate|left; exact Hd|]. apply (acc_task _ x (Run None todo)); [cbn [put g_tasks]; apply in_mid; auto|right; exact Hi].
        - apply (acc_task _ x t); [cbn [put g_tasks]; apply in_mid; auto|exact Hi]. }
      constructor; cbn [put g_tasks g_graphs g_parsed]; eauto.
      + intros i d0 [X|X]; [apply (C3 i d0); auto|]. apply in_mid in X as [X|X]; [discriminate|]. apply (C3 i d0). right. rewrite Et. apply in_mid. auto.
      + intros i Hi. destruct (C4 i Hi) as [X|(d0 & td & X)]; [auto|]. right. exists d0, td. rewrite Et in X. apply in_mid in X as [X|X]; [discriminate|]. apply in_mid. auto.
    - assert (M : forall x, acc s x -> acc (put s (l1 ++ Run None todo :: l2 ++ [Start ip d])) x).
      { apply acc_mono; [intros x Hx; apply acc_parsed; exact Hx|]. intros t x Ht Hi. rewrite Et in Ht. apply in_mid in Ht as [->|Ht].
        - destruct Hi as [Hi|[<-|Hi]]; [discriminate| |].
          + apply (acc_task _ (ip, d) (Start ip d)); [cbn [put g_tasks]; apply in_mid2; auto|reflexivity].
          + apply (acc_task _ x (Run None todo)); [cbn [put g_tasks]; apply in_mid2; auto|right; exact Hi].
        - apply (acc_task _ x t); [cbn [put g_tasks]; apply in_mid2; auto|exact Hi]. }
      constructor; cbn [put g_tasks g_graphs g_parsed]; eauto.
      + intros i d0 [X|X]; [apply (C3 i d0); auto|]. apply in_mid2 in X as [X|[X|X]]; [discriminate|injection X as -> ->; exists r; exact Hg|]. apply (C3 i d0). right. rewrite Et. apply in_mid. auto.
      + intros i Hi. destruct (C4 i Hi) as [X|(d0 & td & X)]; [auto|]. right. exists d0, td. rewrite Et in X. apply in_mid in X as [X|X]; [discriminate|]. apply in_mid2. auto.
    - (* empty, and nobody is filling it: not traceable *)
      assert (No : w_ok w ip = false) by (destruct (C4 ip Hg) as [X|X]; [exact X|apply Hb in X; discriminate]).
      assert (M : forall x, acc s x -> acc (put s (l1 ++ Run None todo :: l2)) x).
      { apply acc_mono; [intros x Hx; apply acc_parsed; exact Hx|]. intros t x Ht Hi. rewrite Et in Ht. apply in_mid in Ht as [->|Ht].
        - destruct Hi as [Hi|[<-|Hi]]; [discriminate|right; left; exact No|]. apply (acc_task _ x (Run None todo)); [cbn [put g_tasks]; apply in_mid; auto|right; exact Hi].
        - apply (acc_task _ x t); [cbn [put g_tasks]; apply in_mid; auto|exact Hi]. }
      constructor; cbn [put g_tasks g_graphs g_parsed]; eauto.
      + intros i d0 [X|X]; [apply (C3 i d0); auto|]. apply in_mid in X as [X|X]; [discriminate|]. apply (C3 i d0). right. rewrite Et. apply in_mid. auto.
      + intros i Hi. destruct (C4 i Hi) as [X|(d0 & td & X)]; [auto|]. right. exists d0, td. rewrite Et in X. apply in_mid in X as [X|X]; [discriminate|]. apply in_mid. auto.
    - set (s' := {| g_graphs := aput Z.eqb ip None (g_graphs s); g_parsed := g_parsed s; g_tasks := l1 ++ Run (Some (ip, d)) todo :: l2 |}).
      assert (M : forall x, acc s x -> acc s' x).
      { apply acc_mono; [intros x Hx; apply acc_parsed; exact Hx|]. intros t x Ht Hi. rewrite Et in Ht. apply in_mid in Ht as [->|Ht].
        - destruct Hi as [Hi|Hi]; [discriminate|]. apply (acc_task s' x (Run (Some (ip, d)) todo)); [unfold s'; cbn [g_tasks]; apply in_mid; auto|]. destruct Hi as [<-|Hi]; [left; reflexivity|right; exact Hi].
        - apply (acc_task s' x t); [unfold s'; cbn [g_tasks]; apply in_mid; auto|exact Hi]. }
      assert (Ch : forall i, chosen s i -> chosen s' i).
      { intros i [r Hr]. exists r. unfold s'. cbn [g_graphs]. rewrite (aget_aput _ Zeqb_ok). destruct (Z.eqb_spec i ip); [congruence|exact Hr]. }
      constructor; [eauto|eauto| |]; unfold s'; cbn [g_tasks g_graphs g_parsed]; fold s'.
      + intros i d0 [X|X]; apply Ch; [apply (C3 i d0); auto|]. apply in_mid in X as [X|X]; [discriminate|]. apply (C3 i d0). right. rewrite Et. apply in_mid. auto.
      + intros i. rewrite (aget_aput _ Zeqb_ok). destruct (Z.eqb_spec i ip) as [->|Hne].
        * intros _. right. exists d, todo. apply in_mid. auto.
        * intros Hi. destruct (C4 i Hi) as [X|(d0 & td & X)]; [auto|]. right. exists d0, td. rewrite Et in X. apply in_mid in X as [X|X]; [discriminate|]. apply in_mid. auto.
    - set (s' := {| g_graphs := aput Z.eqb ip (Some (Nat.eqb d 0)) (g_graphs s); g_parsed := g_parsed s; g_tasks := l1 ++ Run None todo :: l2 ++ [Start ip d] |}).
      assert (M : forall x, acc s x -> acc s' x).
      { apply acc_mono; [intros x Hx; apply acc_parsed; exact Hx|]. intros t x Ht Hi. rewrite Et in Ht. apply in_mid in Ht as [->|Ht].
        - destruct Hi as [Hi|Hi].
          + injection Hi as <-. apply (acc_task s' (ip, d) (Start ip d)); [unfold s'; cbn [g_tasks]; apply in_mid2; auto|reflexivity].
          + apply (acc_task s' x (Run None todo)); [unfold s'; cbn [g_tasks]; apply in_mid2; auto|right; exact Hi].
        - apply (acc_task s' x t); [unfold s'; cbn [g_tasks]; apply in_mid2; auto|exact Hi]. }
      assert (Ch : forall i, chosen s i \/ i = ip -> chosen s' i).
      { intros i [[r Hr]|Hi]; unfold chosen, s'; cbn [g_graphs]; rewrite (aget_aput _ Zeqb_ok); destruct (Z.eqb_spec i ip); eauto. congruence. }
      constructor; [eauto|eauto| |]; unfold s'; cbn [g_tasks g_graphs g_parsed]; fold s'.
      + intros i d0 [X|X]; apply Ch; [left; apply (C3 i d0); auto|]. apply in_mid2 in X as [X|[X|X]]; [discriminate|injection X as -> ->; auto|]. left. apply (C3 i d0). right. rewrite Et. apply in_mid. auto.
      + intros i. rewrite (aget_aput _ Zeqb_ok). destruct (Z.eqb_spec i ip) as [->|Hne]; [discriminate|].
        intros Hi. destruct (C4 i Hi) as [X|(d0 & td & X)]; [auto|]. right. exists d0, td. rewrite Et in X. apply in_mid in X as [X|X]; [congruence|]. apply in_mid2. auto.
    - assert (M : forall x, acc s x -> acc (put s (l1 ++ Run None todo :: l2)) x).
      { apply acc_mono; [intros x Hx; apply acc_parsed; exact Hx|]. intros t x Ht Hi. rewrite Et in Ht. apply in_mid in Ht as [->|Ht].
        - destruct Hi as [Hi|Hi]; [injection Hi as <-; right; left; exact Ho|]. apply (acc_task _ x (Run None todo)); [cbn [put g_tasks]; apply in_mid; auto|right; exact Hi].
        - apply (acc_task _ x t); [cbn [put g_tasks]; apply in_mid; auto|exact Hi]. }
      constructor; cbn [put g_tasks g_graphs g_parsed]; eauto.
      + intros i d0 [X|X]; [apply (C3 i d0); auto|]. apply in_mid in X as [X|X]; [discriminate|]. apply (C3 i d0). right. rewrite Et. apply in_mid. auto.
      + intros i Hi. destruct (C4 i Hi) as [X|(d0 & td & X)]; [auto|]. rewrite Et in X. apply in_mid in X as [X|X]; [injection X as -> _ _; auto|]. right. exists d0, td. apply in_mid. auto.
    - assert (M : forall x, acc s x -> acc (put s (l1 ++ l2)) x).
      { apply acc_mono; [intros x Hx; apply acc_parsed; exact Hx|]. intros t x Ht Hi. rewrite Et in Ht. apply in_mid in Ht as [->|Ht]; [destruct Hi as [Hi|[]]; discriminate|eapply acc_task; eassumption]. }
      constructor; cbn [put g_tasks g_graphs g_parsed]; eauto.
      + intros i d0 [X|X]; [apply (C3 i d0); auto|]. apply (C3 i d0). right. rewrite Et. apply in_mid. auto.
      + intros i Hi. destruct (C4 i Hi) as [X|(d0 & td & X)]; [auto|]. right. exists d0, td. rewrite Et in X. apply in_mid in X as [X|X]; [discriminate|exact X].
  Qed.
  Lemma comp_steps n b s s' : gsteps w n b s s' -> b = false -> comp_inv s -> comp_inv s'.
  Proof.
    induction 1 as [|n b b' s1 s2 s3 H IH H1]; intros Hb I; auto. apply orb_false_iff in Hb as [-> ->]. eapply comp_step; [apply IH; auto|exact H1].
  Qed.
  Lemma complete n s : gsteps w n false (ginit roots) s -> gdone s -> forall ip d, reach ip d -> (d <= w_max w)%nat -> w_ok w ip = true -> chosen s ip.
  Proof.
    intros H Hd. assert (C := comp_steps n false _ s H eq_refl comp_init). assert (A : forall x, acc s x -> (snd x <= w_max w)%nat -> w_ok w (fst x) = true -> In x (g_parsed s)).
    { intros x [X|[X|[X|(t & Ht & _)]]] Hx Ho; [lia|congruence|exact X|]. unfold gdone in Hd. rewrite Hd in Ht. destruct Ht. }
    assert (P : forall ip d, reach ip d -> (d <= w_max w)%nat -> w_ok w ip = true -> In (ip, d) (g_parsed s)).
    { intros ip d Hr. induction Hr as [ip d Hin|ip d c Hr IH Hd' Ho Hrep Hc|ip d r Hr IH Hd' Ho Hrep]; intros Hm Hok.
      - apply A; auto. apply (ci_root s C). exact Hin.
      - apply A; auto. apply (ci_succ s C ip d); [auto|]. unfold succ. rewrite Hrep. apply in_map_iff. exists c. auto.
      - apply A; auto. apply (ci_succ s C ip d); [auto|]. unfold succ. rewrite Hrep. left. reflexivity. }
    intros ip d Hr Hm Hok. apply (ci_filled s C ip d). left. auto.
  Qed.
End C.
