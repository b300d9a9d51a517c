(** * Proofs for C100. *)
From Coq Require Import List Bool String Ascii Arith ZArith Lia.
From Verif Require Import M_Flags S_Flags P_Flags M_Ltest S_Ltest.
Import ListNotations.
Open Scope string_scope.
Open Scope list_scope.

Lemma prefix_iff p : forall s, has_prefix p s = true <-> exists b, s = (p ++ b)%string.
Proof.
  induction p as [|c p IH]; intro s; cbn.
  - split; [exists s; reflexivity|reflexivity].
  - destruct s as [|d s]; [split; [discriminate|intros [b Hb]; discriminate]|].
    rewrite andb_true_iff, IH, Ascii.eqb_eq. split.
    + intros [-> [b ->]]. exists b. reflexivity.
    + intros [b Hb]. injection Hb as -> ->. split; [reflexivity|exists b; reflexivity].
Qed.
Lemma contains_iff sub : forall l, contains sub l = true <-> occurs_in sub l.
Proof.
  induction l as [|c l IH]; cbn [contains]; rewrite orb_true_iff, prefix_iff.
  - split.
    + intros [[b Hb]|H]; [|discriminate]. exists "", b. exact Hb.
    + intros (a & b & E). left. destruct a; [|discriminate]. exists b. exact E.
  - rewrite IH. split.
    + intros [[b Hb]|(a & b & ->)]; [exists "", b; exact Hb|]. exists (String c a), b. reflexivity.
    + intros (a & b & E). destruct a as [|d a]; [left; exists b; exact E|]. right. injection E as -> E. exists a, b. exact E.
Qed.

(** ** a run of test *)
Section Test.
  Variable m : string.
  Definition cnt (ls : list string) : nat := count m ls.
  Definition rcnt (ls : list string) : nat := count running_text ls.
  Lemma count_app x a b : count x (a ++ b) = (count x a + count x b)%nat.
  Proof. unfold count. rewrite filter_app, app_length. reflexivity. Qed.
  Lemma count_cons x l ls : count x (l :: ls) = ((if contains x l then 1 else 0) + count x ls)%nat.
  Proof. unfold count. cbn. destruct (contains x l); reflexivity. Qed.
  Definition busy (r : reader) : nat := match r with Sending _ => 1 | _ => 0 end.
  Definition rbusy (r : reader) : nat := match r with Sending true => 1 | _ => 0 end.
  Definition taken (p : mainpc) : nat := match p with Killing true | Joining true | Returned true => 1 | _ => 0 end.
  Definition b2n (b : bool) : nat := if b then 1 else 0.
  Record inv (s : state) : Prop := {
    i_cnt : (s_chan s + busy (s_o s) + busy (s_e s) + cnt (s_out s) + cnt (s_err s) + taken (s_main s) <= cnt (s_wrote s))%nat;
    i_rdy : (b2n (s_ready s) + b2n (s_panic s) + rbusy (s_e s) + rcnt (s_err s) <= rcnt (s_wrote s))%nat;
    i_dead : (match s_main s with Joining _ => True | _ => False end \/ s_waited s = true) -> s_exit s <> None }.
  Lemma inv_init : inv init.
  Proof. constructor; cbn; try lia. Qed.
  Ltac dst H := unfold at_end in H; repeat (match type of H with
    | context [match ?x with _ => _ end] => destruct x eqn:?
    | context [if ?x then _ else _] => destruct x eqn:? end; try discriminate H).
  Lemma inv_step s a s' : inv s -> step m s a = Some s' -> inv s'.
  Proof.
    intros [Ic Ir Id] H. unfold step, close_if in H. destruct (s_panic s) eqn:Hp; [discriminate|].
    destruct a; dst H; injection H as <-; constructor;
      cbn [set_main set_o set_e close_ready close_if s_exit s_out s_err s_wrote s_chan s_ready s_waited s_o s_e s_main s_panic] in *;
      unfold cnt, rcnt in *;
      repeat match goal with
        | E : s_out s = _ |- _ => rewrite E in *
        | E : s_err s = _ |- _ => rewrite E in *
        | E : s_o s = _ |- _ => rewrite E in *
        | E : s_e s = _ |- _ => rewrite E in *
        | E : s_main s = _ |- _ => rewrite E in *
        | E : s_chan s = _ |- _ => rewrite E in *
        | E : s_waited s = _ |- _ => rewrite E in *
        | E : s_ready s = _ |- _ => rewrite E in *
        | E : s_panic s = _ |- _ => rewrite E in *
        | E : s_exit s = _ |- _ => rewrite E in * end;
      rewrite ?count_app, ?count_cons in *; cbn [busy rbusy taken b2n count filter List.length] in *;
      repeat match goal with
        | E : contains _ _ = _ |- _ => rewrite E in * end;
      try (repeat match goal with |- context [if ?x then _ else _] => destruct x eqn:? end; cbn [busy rbusy taken b2n close_if s_exit s_out s_err s_wrote s_chan s_ready s_waited s_o s_e s_main s_panic] in *; lia);
      try (intros HH; try discriminate; apply Id; destruct HH as [HH|HH]; [first [destruct HH; fail | left; exact HH | idtac]|right; exact HH]; tauto);
      try (intros _; first [discriminate | destruct (s_exit s); discriminate]).
  Qed.
  Lemma run_app ls1 : forall s ls2, run m s (ls1 ++ ls2) = match run m s ls1 with Some s' => run m s' ls2 | None => None end.
  Proof. induction ls1 as [|a ls1 IH]; intros s ls2; cbn; [reflexivity|]. destruct (step m s a); [apply IH|reflexivity]. Qed.
  Lemma inv_run ls : forall s s', inv s -> run m s ls = Some s' -> inv s'.
  Proof.
    induction ls as [|a ls IH]; intros s s' Hi H; cbn in H; [injection H as <-; exact Hi|].
    destruct (step m s a) as [s1|] eqn:E; [|discriminate]. apply (IH s1); [|exact H]. exact (inv_step s a s1 Hi E).
  Qed.
  Lemma pass_sound ls s : reached m ls s -> s_main s = Returned true -> exists l, In l (s_wrote s) /\ occurs_in m l.
  Proof.
    intros Hr Hm. pose proof (i_cnt _ (inv_run ls init s inv_init Hr)) as H. rewrite Hm in H. cbn [taken] in H.
    unfold cnt, count in H. destruct (filter (contains m) (s_wrote s)) as [|l fl] eqn:E; [cbn in H; lia|].
    assert (Hin : In l (filter (contains m) (s_wrote s))) by (rewrite E; left; reflexivity).
    apply filter_In in Hin. destruct Hin as [A B]. exists l. split; [exact A|]. apply contains_iff. exact B.
  Qed.
  (** every line counted as written was written by the process *)
  Lemma wrote_by_process ls : forall s s', run m s ls = Some s' -> forall l, In l (s_wrote s') -> In l (s_wrote s) \/ In (WriteOut l) ls \/ In (WriteErr l) ls.
  Proof.
    induction ls as [|a ls IH]; intros s s' H l Hl; cbn in H; [injection H as <-; auto|].
    destruct (step m s a) as [s1|] eqn:E; [|discriminate]. destruct (IH s1 s' H l Hl) as [Hin|[Hin|Hin]]; [|cbn; tauto|cbn; tauto].
    assert (Hw : s_wrote s1 = s_wrote s \/ (exists x, s_wrote s1 = s_wrote s ++ [x] /\ (a = WriteOut x \/ a = WriteErr x))).
    { unfold step, close_if in E. destruct (s_panic s); [discriminate|].
      destruct a; dst E; injection E as <-; cbn; first [left; reflexivity|right; eexists; split; [reflexivity|auto]]. }
    destruct Hw as [Hw|(x & Hw & Ha)].
    - rewrite Hw in Hin. auto.
    - rewrite Hw in Hin. apply in_app_or in Hin. destruct Hin as [Hin|[<-|[]]]; [auto|]. right. cbn. destruct Ha as [->| ->]; auto.
  Qed.
  (** reasons to fail *)
  Definition reason (ls : list label) (s : state) : Prop :=
    (match s_main s with
     | Starting | Matching => forall c, s_exit s = Some c -> In (Exit c) ls
     | Killing false | Joining false => In MMatchTimeout ls
     | Returned false => In MStartTimeout ls \/ In MMatchTimeout ls \/ exists c, c <> 0%Z /\ In (Exit c) ls
     | _ => True end).
  Lemma reason_step ls s a s' : reason ls s -> step m s a = Some s' -> reason (ls ++ [a]) s'.
  Proof.
    intros R H. unfold reason in *. unfold step, close_if in H. destruct (s_panic s); [discriminate|].
    assert (Hl : forall x, In x ls -> In x (ls ++ [a])) by (intros; apply in_or_app; auto).
    assert (Ha : In a (ls ++ [a])) by (apply in_or_app; right; left; reflexivity).
    destruct a; dst H; injection H as <-; cbn [set_main set_o set_e close_ready s_exit s_main] in *;
      repeat match goal with E : s_main s = _ |- _ => rewrite E in * | E : s_exit s = _ |- _ => rewrite E in * end;
      try exact I; try exact Ha; try (left; exact Ha);
      try (destruct (s_main s) as [| |[]|[]|[]]; try exact I; try (intros x Hx; first [discriminate | injection Hx as <-; exact Ha | apply Hl, R; exact Hx]); 
           try (apply Hl; exact R); destruct R as [R|[R|(x & Hx & R)]]; [left|right; left|right; right; exists x; split; [exact Hx|]]; apply Hl; exact R);
      try (intros x Hx; apply Hl, R; exact Hx);
      try (right; right; eexists; split; [|apply Hl, R; reflexivity]; apply Z.eqb_neq; assumption);
      try (destruct b; [exact I|apply Hl; exact R]); try (destruct p; [exact I|]); auto.
  Qed.
  Lemma reason_run ls : forall pre s s', reason pre s -> run m s ls = Some s' -> reason (pre ++ ls) s'.
  Proof.
    induction ls as [|a ls IH]; intros pre s s' R H; cbn in H; [injection H as <-; rewrite app_nil_r; exact R|].
    destruct (step m s a) as [s1|] eqn:E; [|discriminate]. replace (pre ++ a :: ls) with ((pre ++ [a]) ++ ls) by (rewrite <- app_assoc; reflexivity).
    apply (IH _ s1); [|exact H]. exact (reason_step pre s a s1 R E).
  Qed.
  Lemma fail_reason ls s : reached m ls s -> s_main s = Returned false -> In MStartTimeout ls \/ In MMatchTimeout ls \/ exists c, c <> 0%Z /\ In (Exit c) ls.
  Proof.
    intros Hr Hm. assert (R : reason [] init) by (cbn; intros; discriminate). pose proof (reason_run ls [] init s R Hr) as H. unfold reason in H. rewrite Hm in H. exact H.
  Qed.

  (** ** it returns *)
  Definition rw (r : reader) : nat := match r with Reading => 1 | Sending _ => 2 | Ended => 0 end.
  Definition mw (p : mainpc) : nat := match p with Starting => 4 | Matching => 3 | Killing _ => 2 | Joining _ => 1 | Returned _ => 0 end.
  Definition weight (s : state) : nat :=
    (2 * List.length (s_out s) + 2 * List.length (s_err s) + rw (s_o s) + rw (s_e s) + mw (s_main s) + b2n (negb (s_waited s)))%nat.
  Lemma weight_step s a s' : environment a = false -> step m s a = Some s' -> (weight s' < weight s)%nat /\ s_wrote s' = s_wrote s.
  Proof.
    intros He H. unfold step, close_if in H. destruct (s_panic s); [discriminate|]. unfold weight.
    destruct a; try discriminate He; dst H; injection H as <-; cbn [set_main set_o set_e close_ready s_exit s_out s_err s_wrote s_chan s_ready s_waited s_o s_e s_main s_panic];
      (split; [|reflexivity]);
      repeat match goal with
        | E : s_out s = _ |- _ => rewrite E
        | E : s_err s = _ |- _ => rewrite E
        | E : s_o s = _ |- _ => rewrite E
        | E : s_e s = _ |- _ => rewrite E
        | E : s_main s = _ |- _ => rewrite E
        | E : s_waited s = _ |- _ => rewrite E end;
      cbn [rw mw b2n negb List.length]; try lia;
      try (match goal with |- context [if ?x then _ else _] => destruct x end; cbn [rw mw]; lia).
  Qed.
  Lemma progress s : inv s -> s_panic s = false -> (cnt (s_wrote s) <= 10)%nat ->
    (exists p, s_main s = Returned p) \/ exists a, environment a = false /\ step m s a <> None.
  Proof.
    intros [Ic _ Id] Hp Hc. destruct (s_main s) as [| |p|p|p] eqn:Em.
    - right. exists MStartTimeout. split; [reflexivity|]. unfold step. rewrite Hp, Em. discriminate.
    - right. exists MMatchTimeout. split; [reflexivity|]. unfold step. rewrite Hp, Em. discriminate.
    - right. exists MKill. split; [reflexivity|]. unfold step. rewrite Hp, Em. discriminate.
    - right. pose proof (Id (or_introl I)) as Hd. destruct (s_exit s) as [c|] eqn:Ex; [|congruence].
      destruct (s_waited s) eqn:Ew.
      2:{ exists Wait. split; [reflexivity|]. unfold step. rewrite Hp, Ex, Ew. discriminate. }
      destruct (s_o s) as [|r|] eqn:Eo.
      + exists OEnd. split; [reflexivity|]. unfold step, at_end. rewrite Hp, Eo, Ew. discriminate.
      + exists OSend. split; [reflexivity|]. unfold step. rewrite Hp, Eo. cbn [busy] in Ic.
        destruct (Nat.ltb_spec (s_chan s) cap); [discriminate|unfold cap in *; lia].
      + destruct (s_e s) as [|r|] eqn:Ee.
        * exists EEnd. split; [reflexivity|]. unfold step, at_end. rewrite Hp, Ee, Ew. discriminate.
        * exists ESend. split; [reflexivity|]. unfold step. rewrite Hp, Ee. cbn [busy] in Ic.
          destruct (Nat.ltb_spec (s_chan s) cap); [discriminate|unfold cap in *; lia].
        * exists MJoin. split; [reflexivity|]. unfold step. rewrite Hp, Em, Ew, Eo, Ee. discriminate.
    - left. eauto.
  Qed.
  Lemma no_panic s : inv s -> (rcnt (s_wrote s) <= 1)%nat -> s_panic s = true -> s_ready s = true -> False.
  Proof. intros [_ Ir _] H Hp Hr. rewrite Hp, Hr in Ir. cbn in Ir. lia. Qed.
  Lemma panic_ready ls : forall s s', (s_panic s = true -> s_ready s = true) -> run m s ls = Some s' -> s_panic s' = true -> s_ready s' = true.
  Proof.
    induction ls as [|a ls IH]; intros s s' Hs H; cbn in H; [injection H as <-; exact Hs|].
    destruct (step m s a) as [s1|] eqn:E; [|discriminate]. apply (IH s1 s'); [|exact H].
    unfold step, close_if in E. destruct (s_panic s) eqn:Hp; [discriminate|].
    destruct a; dst E; injection E as <-; cbn; try congruence; auto.
  Qed.
  Lemma settle_all n : forall s, (weight s < n)%nat -> inv s -> (s_panic s = true -> s_ready s = true) -> (cnt (s_wrote s) <= 10)%nat -> (rcnt (s_wrote s) <= 1)%nat -> settles m s.
  Proof.
    induction n as [|n IH]; intros s Hw Hi Hpr Hc Hr; [lia|].
    assert (Hp : s_panic s = false) by (destruct (s_panic s) eqn:E; [destruct (no_panic s Hi Hr E (Hpr eq_refl))|reflexivity]).
    destruct (progress s Hi Hp Hc) as [[p Hm]|Hex]; [exact (settled m s p Hm)|].
    apply settling; [exact Hp|exact Hex|]. intros a s' He Hs. destruct (weight_step s a s' He Hs) as [Hlt Hwr].
    apply IH; [lia|exact (inv_step s a s' Hi Hs)| |rewrite Hwr; exact Hc|rewrite Hwr; exact Hr].
    apply (panic_ready [a] s s' Hpr). cbn. rewrite Hs. reflexivity.
  Qed.
  Lemma returns ls s : reached m ls s -> (count m (s_wrote s) <= 10)%nat -> (count running_text (s_wrote s) <= 1)%nat -> settles m s.
  Proof.
    intros Hr Hc Hk. apply (settle_all (S (weight s))); [lia|exact (inv_run ls init s inv_init Hr)| |exact Hc|exact Hk].
    apply (panic_ready ls init s); [discriminate|exact Hr].
  Qed.
  (** once stuck, stuck for ever *)
  Lemma stuck_for_ever ls : forall s s' p r, s_main s = Joining p -> s_exit s <> None -> s_o s = Sending r -> s_chan s = cap -> s_e s = Ended ->
    run m s ls = Some s' -> s_main s' = Joining p.
  Proof.
    induction ls as [|a ls IH]; intros s s' p r Hm Hx Ho Hc He H; cbn in H; [injection H as <-; exact Hm|].
    destruct (step m s a) as [s1|] eqn:E; [|discriminate].
    assert (K : s_main s1 = Joining p /\ s_exit s1 <> None /\ s_o s1 = Sending r /\ s_chan s1 = cap /\ s_e s1 = Ended).
    { unfold step, close_if in E. destruct (s_panic s); [discriminate|]. rewrite Hm, Ho, He, Hc in E. rewrite Nat.ltb_irrefl in E.
      destruct a; try discriminate E; dst E; injection E as <-; cbn; rewrite ?Hm, ?Ho, ?He, ?Hc; repeat split; try congruence. }
    destruct K as (A & B & C & D & F). exact (IH s1 s' p r A B C D F H).
  Qed.
  (** both readers gone and nothing sent: no pass any more *)
  Lemma lost : forall ls s s', (s_o s = Ended /\ s_e s = Ended /\ s_chan s = 0%nat /\ (forall p, s_main s = Killing p \/ s_main s = Joining p \/ s_main s = Returned p -> p = false)) ->
    run m s ls = Some s' -> s_main s' <> Returned true.
  Proof.
  induction ls as [|a ls IH]; intros s s' (Ho & He & Hc & Hm) H; cbn [run] in H.
  - injection H as <-. intros E. specialize (Hm true (or_intror (or_intror E))). discriminate.
  - destruct (step m s a) as [s1|] eqn:E; [|discriminate]. apply (IH s1 s'); [|exact H].
    unfold step in E. rewrite Ho, He, Hc in E. destruct (s_panic s); [discriminate|].
    destruct a; try discriminate E; destruct (s_main s) as [| |q|q|q] eqn:Em; destruct (s_exit s) as [x|]; destruct (s_waited s); try destruct (s_ready s); try discriminate E;
      injection E as <-; cbn; rewrite ?Ho, ?He, ?Hc, ?Em; try destruct (Z.eqb x 0); repeat split; try congruence;
      intros p [A|[A|A]]; try discriminate; injection A as <-; try reflexivity; apply Hm; rewrite ?Em; auto.
Qed.
End Test.

(** ** files *)
Section File.
  Variable arch : string.
  Variable duration : string -> option Z.
  Variable wanted : string.
  Variable exec : tcase -> bool.
  Notation file := (file arch duration wanted exec).
  Lemma skip_line t ran p pre l post : kind_of_line l = Skip -> file t ran p (pre ++ l :: post) = file t ran p (pre ++ post).
  Proof.
    intros Hk. revert t ran p. induction pre as [|x pre IH]; intros t ran p; cbn.
    - rewrite Hk. reflexivity.
    - destruct (kind_of_line x); auto. + destruct (valid t); [|reflexivity]. destruct (finish wanted exec t ran p) as [r q]. apply IH.
      + destruct (field arch duration t a b); auto.
  Qed.
  Lemma blank_skip l : blank_or_comment l -> kind_of_line l = Skip.
  Proof. intros [H|[r H]]; unfold kind_of_line; rewrite H; reflexivity. Qed.
  Lemma trim_right_keep a b : trim_right b = b -> b <> "" -> trim_right (a ++ b)%string = (a ++ b)%string.
  Proof.
    intros Hb Hn. induction a as [|c a IH]; cbn [append]; [exact Hb|].
    cbn [trim_right]. rewrite IH. destruct (a ++ b)%string eqn:E; [|reflexivity]. destruct a; cbn in E; [congruence|discriminate].
  Qed.
  Lemma key_line k v c k' : k = String c k' -> is_space c = false -> mentions ":" k = false -> trim k = k -> has_prefix "#" k = false -> has_prefix "---" (k ++ ":")%string = false ->
    has_prefix "---" k = false -> (3 <= String.length k)%nat -> trim v = v -> kind_of_line (k ++ ": " ++ v) = Field k v.
  Proof.
    intros Ek Hc Hm Hk Hh H3 H4 Hlen Hv. unfold kind_of_line.
    assert (Hpre : forall p s, (String.length p <= String.length k)%nat -> has_prefix p (k ++ s)%string = has_prefix p k).
    { clear. revert k. intros k p. revert k. induction p as [|x p IH]; intros k s Hl; [reflexivity|]. destruct k as [|y k]; cbn in Hl |- *; [lia|]. rewrite IH by lia. reflexivity. }
    assert (Ht : trim (k ++ ": " ++ v) = (k ++ ":" ++ (if v =? "" then "" else " " ++ v))%string).
    { unfold trim. assert (Hl : trim_left (k ++ ": " ++ v) = (k ++ ": " ++ v)%string) by (rewrite Ek; cbn; rewrite Hc; reflexivity). rewrite Hl.
      destruct (String.eqb_spec v "") as [->|Hne].
      - cbn [append]. rewrite trim_right_app by reflexivity. reflexivity.
      - change (k ++ ": " ++ v)%string with (k ++ (": " ++ v))%string.
        replace (k ++ ": " ++ v)%string with ((k ++ ": ") ++ v)%string by (clear; induction k; cbn in *; congruence).
        rewrite trim_right_keep; [clear; induction k; cbn in *; congruence|apply trim_right_fix; exact Hv|exact Hne]. }
    rewrite Ht. assert (Hne : ((k ++ ":" ++ (if v =? "" then "" else " " ++ v)) =? "")%string = false) by (rewrite Ek; reflexivity).
    rewrite Hne. rewrite !Hpre by (cbn; lia). rewrite Hh, H4. cbn [orb]. rewrite cut_app by exact Hm. rewrite Hk.
    destruct (String.eqb_spec v "") as [->|Hn]; [reflexivity|]. f_equal. unfold trim in *. cbn [append trim_left is_space]. exact Hv.
  Qed.
  Ltac key := eapply key_line; try reflexivity; try (cbn; lia); assumption.
  Lemma read_case w ran p rest : well_written duration w ->
    file fresh ran p (lines_of w ++ rest) = file (case_of duration w) ran p rest.
  Proof.
    intros (H1 & H2 & H3 & H4 & H5 & H6 & H7 & _ & _ & d & Hd & _). unfold tidy in *. unfold lines_of. cbn [app M_Ltest.file].
    assert (Kname : kind_of_line ("name: " ++ w_name w) = Field "name" (w_name w)) by (apply (key_line "name" (w_name w) "n" "ame"); first [reflexivity | assumption | cbn; lia]).
    rewrite Kname.
    assert (Ktag : kind_of_line ("tag: " ++ w_tag w) = Field "tag" (w_tag w)) by (apply (key_line "tag" (w_tag w) "t" "ag"); first [reflexivity | assumption | cbn; lia]).
    rewrite Ktag.
    assert (Ktest : kind_of_line ("test: " ++ w_test w) = Field "test" (w_test w)) by (apply (key_line "test" (w_test w) "t" "est"); first [reflexivity | assumption | cbn; lia]).
    rewrite Ktest.
    assert (Kmatch : kind_of_line ("match: " ++ w_match w) = Field "match" (w_match w)) by (apply (key_line "match" (w_match w) "m" "atch"); first [reflexivity | assumption | cbn; lia]).
    rewrite Kmatch.
    assert (Ktimeout : kind_of_line ("timeout: " ++ w_timeout w) = Field "timeout" (w_timeout w)) by (apply (key_line "timeout" (w_timeout w) "t" "imeout"); first [reflexivity | assumption | cbn; lia]).
    rewrite Ktimeout.
    assert (Kprerequisite : kind_of_line ("prerequisite: " ++ w_req w) = Field "prerequisite" (w_req w)) by (apply (key_line "prerequisite" (w_req w) "p" "rerequisite"); first [reflexivity | assumption | cbn; lia]).
    rewrite Kprerequisite.
    assert (Ktrigger : kind_of_line ("trigger: " ++ w_trig w) = Field "trigger" (w_trig w)) by (apply (key_line "trigger" (w_trig w) "t" "rigger"); first [reflexivity | assumption | cbn; lia]).
    rewrite Ktrigger.
    unfold field. cbn -[file]. rewrite Hd. unfold case_of. rewrite Hd. reflexivity.
  Qed.
  Lemma read_short w ran p : tidy (w_name w) -> tidy (w_tag w) -> tidy (w_test w) -> tidy (w_match w) -> w_tag w <> "" -> w_match w <> "" ->
    file fresh ran p (short_lines w) = finish wanted exec (short_case w) ran p.
  Proof.
    unfold tidy. intros H1 H2 H3 H4 Ht Hm. unfold short_lines. cbn [M_Ltest.file].
    assert (Kname : kind_of_line ("name: " ++ w_name w) = Field "name" (w_name w)) by (apply (key_line "name" (w_name w) "n" "ame"); first [reflexivity | assumption | cbn; lia]).
    assert (Ktag : kind_of_line ("tag: " ++ w_tag w) = Field "tag" (w_tag w)) by (apply (key_line "tag" (w_tag w) "t" "ag"); first [reflexivity | assumption | cbn; lia]).
    assert (Ktest : kind_of_line ("test: " ++ w_test w) = Field "test" (w_test w)) by (apply (key_line "test" (w_test w) "t" "est"); first [reflexivity | assumption | cbn; lia]).
    assert (Kmatch : kind_of_line ("match: " ++ w_match w) = Field "match" (w_match w)) by (apply (key_line "match" (w_match w) "m" "atch"); first [reflexivity | assumption | cbn; lia]).
    rewrite Kname, Ktag, Ktest, Kmatch. unfold field. cbn -[file finish valid].
    match goal with |- (if valid ?t then _ else _) = _ => assert (E : valid t = true) end.
    { unfold valid. cbn [t_tag t_test t_match t_timeout fresh]. destruct (String.eqb_spec (w_tag w) ""); [contradiction|].
      destruct (String.eqb_spec (w_match w) ""); [contradiction|]. reflexivity. }
    rewrite E. reflexivity.
  Qed.
  Lemma valid_complete t : valid t = true -> complete t.
  Proof.
    unfold valid, complete. rewrite !andb_true_iff, !negb_true_iff. intros [[[A B] C] D].
    apply String.eqb_neq in A, B, C. apply Z.ltb_lt in D. auto.
  Qed.
  Lemma file_complete lines : forall t ran p, Forall complete ran -> Forall complete (fst (file t ran p lines)).
  Proof.
    assert (Hf : forall t ran p, Forall complete ran -> valid t = true -> Forall complete (fst (finish wanted exec t ran p))).
    { intros t ran p H Hv. unfold finish. destruct ((wanted =? "") || (wanted =? t_name t))%string; [|exact H]. cbn [fst].
      apply Forall_app. split; [exact H|]. constructor; [apply valid_complete; exact Hv|constructor]. }
    induction lines as [|l lines IH]; intros t ran p H; cbn [M_Ltest.file].
    - destruct (valid t) eqn:E; [apply Hf; assumption|exact H].
    - destruct (kind_of_line l); [apply IH; exact H| |destruct (field arch duration t a b); [apply IH; exact H|exact H]|exact H].
      destruct (valid t) eqn:E; [|exact H]. pose proof (Hf t ran p H E) as Hn. destruct (finish wanted exec t ran p) as [r q]. apply IH. exact Hn.
  Qed.
  Lemma case_valid w : well_written duration w -> valid (case_of duration w) = true.
  Proof.
    intros (_ & _ & _ & _ & _ & _ & _ & Ht & Hm & d & Hd & Hp). unfold valid, case_of. cbn [t_tag t_test t_match t_timeout]. rewrite Hd.
    destruct (String.eqb_spec (w_tag w) ""); [contradiction|]. destruct (String.eqb_spec (w_match w) ""); [contradiction|]. cbn. apply Z.ltb_lt. exact Hp.
  Qed.
  Lemma finish_eq t ran p : finish wanted exec t ran p = (ran ++ selected wanted [t], forallb exec (selected wanted [t]) && p).
  Proof. unfold finish, selected. cbn. destruct ((wanted =? "") || (wanted =? t_name t))%string; cbn; rewrite ?andb_true_r, ?app_nil_r; reflexivity. Qed.
  Lemma file_all ws : forall ran p, ws <> [] -> Forall (well_written duration) ws ->
    file fresh ran p (file_of ws) = (ran ++ selected wanted (map (case_of duration) ws), forallb exec (selected wanted (map (case_of duration) ws)) && p).
  Proof.
    induction ws as [|w ws IH]; intros ran p Hn Hf; [congruence|]. inversion Hf as [|? ? Hw Hws]; subst.
    destruct ws as [|w2 ws].
    - change (file_of [w]) with (lines_of w). rewrite <- (app_nil_r (lines_of w)), read_case by exact Hw. cbn [M_Ltest.file].
      rewrite case_valid by exact Hw. apply finish_eq.
    - change (file_of (w :: w2 :: ws)) with (lines_of w ++ "---"%string :: file_of (w2 :: ws)). rewrite read_case by exact Hw.
      cbn [M_Ltest.file]. change (kind_of_line "---") with Separator. cbv iota. rewrite case_valid by exact Hw. rewrite finish_eq.
      rewrite IH by (discriminate || assumption).
      change (map (case_of duration) (w :: w2 :: ws)) with ([case_of duration w] ++ map (case_of duration) (w2 :: ws)).
      unfold selected. rewrite filter_app, forallb_app, <- app_assoc. f_equal.
      destruct (forallb exec (filter _ [case_of duration w])), (forallb exec (filter _ (map (case_of duration) (w2 :: ws)))), p; reflexivity.
  Qed.
  Lemma file_sep_last t ran p lines : snd (file t ran p (lines ++ ["---"%string])) = false.
  Proof.
    revert t ran p. induction lines as [|l lines IH]; intros t ran p; cbn [app M_Ltest.file].
    - change (kind_of_line "---") with Separator. cbv iota. destruct (valid t); [|reflexivity]. destruct (finish wanted exec t ran p) as [r q]. reflexivity.
    - destruct (kind_of_line l); [apply IH| |destruct (field arch duration t a b); [apply IH|reflexivity]|reflexivity].
      destruct (valid t); [|reflexivity]. destruct (finish wanted exec t ran p) as [r q]. apply IH.
  Qed.
  (** a case that failed makes the file fail *)
  Lemma file_passes t ran p lines : snd (file t ran p lines) = true -> p = true /\ exists more, fst (file t ran p lines) = ran ++ more /\ forallb exec more = true.
  Proof.
    revert t ran p. induction lines as [|l lines IH]; intros t ran p; cbn [M_Ltest.file].
    - destruct (valid t); [|discriminate]. rewrite finish_eq. cbn [fst snd]. intros H. apply andb_prop in H. destruct H as [A B]. eauto.
    - destruct (kind_of_line l); [apply IH| |destruct (field arch duration t a b); [apply IH|discriminate]|discriminate].
      destruct (valid t); [|discriminate]. rewrite finish_eq. intros H. destruct (IH _ _ _ H) as (Hp & more & E & F).
      apply andb_prop in Hp. destruct Hp as [A B]. split; [exact B|]. exists (selected wanted [t] ++ more). rewrite E, <- app_assoc. split; [reflexivity|].
      rewrite forallb_app, A, F. reflexivity.
  Qed.
End File.
Lemma dir_all verdict files : test_dir verdict files = forallb verdict files.
Proof.
  unfold test_dir. enough (H : forall p, fold_left (fun p f => verdict f && p) files p = forallb verdict files && p) by (rewrite H; apply andb_true_r).
  induction files as [|f fs IH]; intro p; cbn; [reflexivity|]. rewrite IH. destruct (verdict f), (forallb verdict fs), p; reflexivity.
Qed.
Lemma file_cases arch duration wanted exec ws : ws <> [] -> Forall (well_written duration) ws ->
  let cs := selected wanted (map (case_of duration) ws) in test_file arch duration wanted exec (file_of ws) = (cs, forallb exec cs).
Proof. intros Hn Hf. unfold test_file. rewrite file_all by assumption. cbn [app]. rewrite andb_true_r. reflexivity. Qed.
Lemma short_run arch duration exec w : tidy (w_name w) -> tidy (w_tag w) -> tidy (w_test w) -> tidy (w_match w) -> w_tag w <> "" -> w_match w <> "" ->
  test_file arch duration "" exec (short_lines w) = ([short_case w], exec (short_case w)).
Proof. intros. unfold test_file. rewrite read_short by assumption. unfold finish. cbn. rewrite andb_true_r. reflexivity. Qed.
(** ** when a reader of a pipe stops *)
Lemma reader_stops m s : s_panic s = false ->
  (s_o s = Reading -> (step m s OEnd <> None <-> s_waited s = true \/ (s_exit s <> None /\ s_out s = []))) /\
  (s_e s = Reading -> (step m s EEnd <> None <-> s_waited s = true \/ (s_exit s <> None /\ s_err s = []))).
Proof.
  intros Hp. split; intros Hr; unfold step; rewrite Hp, Hr; unfold at_end.
  - destruct (s_waited s), (s_exit s), (s_out s); cbn; split; intros H; try discriminate; try (left; reflexivity); try (right; split; [discriminate|reflexivity]);
      try (destruct H as [H|[H1 H2]]; congruence); congruence.
  - destruct (s_waited s), (s_exit s), (s_err s); cbn; split; intros H; try discriminate; try (left; reflexivity); try (right; split; [discriminate|reflexivity]);
      try (destruct H as [H|[H1 H2]]; congruence); congruence.
Qed.
Definition all_read (s : state) : Prop :=
  (s_o s = Ended -> s_waited s = true \/ (s_exit s <> None /\ s_out s = [])) /\
  (s_e s = Ended -> s_waited s = true \/ (s_exit s <> None /\ s_err s = [])).
Lemma close_same r s : all_read s -> all_read (close_if r s).
Proof. destruct r; exact (fun H => H). Qed.
Lemma all_read_step m s a s' : all_read s -> step m s a = Some s' -> all_read s'.
Proof.
  intros [Ho He] H. pose proof (fun p => reader_stops m s p) as R. unfold step in H. destruct (s_panic s) eqn:Hp; [discriminate|]. specialize (R eq_refl). destruct R as [Ro Re].
  destruct a.
  all: repeat match type of H with
    | match ?x with _ => _ end = Some _ => destruct x eqn:?; try discriminate
    | (if ?x then _ else _) = Some _ => destruct x eqn:?; try discriminate
    end.
  all: injection H as <-.
  all: try match goal with |- all_read (if contains ?a ?b then _ else _) => destruct (contains a b) end.
  all: try apply close_same.
  all: unfold all_read, set_o, set_e, set_main; cbn [s_o s_e s_out s_err s_exit s_waited]; split; intros X; try discriminate.
  all: try (left; reflexivity).
  all: try match type of X with context [contains ?a ?b] => destruct (contains a b); discriminate end.
  all: try (apply Ho in X; destruct X as [X|[X1 X2]]; [left; congruence|right; split; congruence]).
  all: try (apply He in X; destruct X as [X|[X1 X2]]; [left; congruence|right; split; congruence]).
  all: try (unfold at_end in *; destruct (s_waited s); [left; reflexivity|right]; destruct (s_exit s); [|discriminate]; split; [discriminate|]; cbn [orb] in *;
            first [destruct (s_out s); [reflexivity|discriminate]|destruct (s_err s); [reflexivity|discriminate]]).
  all: try congruence.
Qed.
Lemma all_read_run m ls : forall s s', all_read s -> run m s ls = Some s' -> all_read s'.
Proof.
  induction ls as [|a ls IH]; intros s s' Hi H; [injection H as <-; exact Hi|]. cbn [run] in H. destruct (step m s a) as [s1|] eqn:E; [|discriminate].
  exact (IH s1 s' (all_read_step m s a s1 Hi E) H).
Qed.
Lemma nothing_lost m ls s : reached m ls s -> s_waited s = false -> (s_o s = Ended -> s_out s = []) /\ (s_e s = Ended -> s_err s = []).
Proof.
  intros H Hw. destruct (all_read_run m ls init s) as [A B]; [split; discriminate|exact H|]. split; intros X; [apply A in X|apply B in X]; destruct X as [X|[_ X]]; congruence.
Qed.
