(** * Proofs for M_Lbr *)
From Coq Require Import List Bool String ZArith Lia.
From Verif Require Import M_Lbr S_Lbr.
Import ListNotations.
Open Scope Z_scope.

Lemma from_first_spec p l : match from_first p l with
  | Some r => exists newer b rest, l = newer ++ b :: rest /\ (forall x, In x newer -> p x = false) /\ p b = true /\ r = b :: rest
  | None => forall x, In x l -> p x = false end.
Proof.
  induction l as [|b l IH]; cbn [from_first]; [intros x []|]. destruct (p b) eqn:E.
  - exists [], b, l. split; [reflexivity|]. split; [intros x []|]. split; [exact E|reflexivity].
  - destruct (from_first p l) as [r|].
    + destruct IH as (nw & c & rs & -> & H1 & H2 & H3). exists (b :: nw), c, rs. split; [reflexivity|]. split; [intros x [<-|Hx]; auto|]. split; assumption.
    + intros x [<-|Hx]; auto.
Qed.
Lemma cut_front_spec p (P : branch -> Prop) l : (forall b, P b <-> p b = true) -> starts_at P (cut_front p l) l.
Proof.
  intros HP. unfold cut_front. pose proof (from_first_spec p l) as H. destruct (from_first p l) as [r|].
  - left. destruct H as (nw & b & rs & E & H1 & H2 & H3). exists nw, b, rs. split; [exact E|]. split; [intros x Hx Hp; apply HP in Hp; rewrite (H1 x Hx) in Hp; discriminate|].
    split; [apply HP; exact H2|exact H3].
  - right. split; [intros x Hx Hp; apply HP in Hp; rewrite (H x Hx) in Hp; discriminate|reflexivity].
Qed.
Lemma starts_infix P part all : starts_at P part all -> infix part all.
Proof.
  intros [(nw & b & rs & E & _ & _ & ->)|[_ ->]].
  - exists nw, []. rewrite app_nil_r. exact E.
  - exists [], []. cbn. rewrite app_nil_r. reflexivity.
Qed.
Lemma starts_nonempty P part all : starts_at P part all -> all <> [] -> part <> [].
Proof. intros [(nw & b & rs & E & _ & _ & ->)|[_ ->]] H; [discriminate|exact H]. Qed.

(** grouping *)
Definition good (s : stack) : Prop := s_recs s <> [] /\ s_last s = (List.length (s_recs s) - 1)%nat /\ Forall (fun r => r <> []) (s_recs s).
Lemma nth_last (l : list (list entry)) : l <> [] -> exists a r, l = a ++ [r] /\ nth_error l (List.length l - 1) = Some r.
Proof.
  intros H. destruct (exists_last H) as (a & r & ->). exists a, r. split; [reflexivity|]. rewrite app_length. cbn [List.length].
  rewrite nth_error_app2 by lia. replace (List.length a + 1 - 1 - List.length a)%nat with O by lia. reflexivity.
Qed.
Lemma set_last a (r x : list entry) : set_nth (a ++ [r]) (List.length (a ++ [r]) - 1) x = a ++ [x].
Proof.
  rewrite app_length. cbn [List.length]. replace (List.length a + 1 - 1)%nat with (List.length a) by lia.
  induction a as [|y a IH]; cbn [app List.length set_nth]; [reflexivity|]. rewrite IH. reflexivity.
Qed.
Lemma chain_snoc r a e : chain (r ++ [a]) -> e_tof a = e_fromf e -> chain ((r ++ [a]) ++ [e]).
Proof.
  induction r as [|x r IH]; cbn [app]; intros H E; [cbn; auto|]. destruct r as [|y r]; cbn [app] in *.
  - destruct H as [H1 H2]. cbn [chain]. auto.
  - destruct H as [H1 H2]. split; [exact H1|]. apply IH; assumption.
Qed.
Lemma breaks_snoc l r q : breaks (l ++ [r]) -> (exists a b x y, r = x ++ [a] /\ q = b :: y /\ e_tof a <> e_fromf b) -> breaks ((l ++ [r]) ++ [q]).
Proof.
  induction l as [|x l IH]; cbn [app]; intros H E; [cbn; auto|]. destruct l as [|y l]; cbn [app] in *.
  - destruct H as [H1 H2]. cbn [breaks]. auto.
  - destruct H as [H1 H2]. split; [exact H1|]. apply IH; assumption.
Qed.
Lemma breaks_grow l r e : r <> [] -> breaks (l ++ [r]) -> breaks (l ++ [r ++ [e]]).
Proof.
  intros Hr. destruct r as [|h r]; [congruence|]. induction l as [|x l IH]; cbn [app]; intros H; [exact I|]. destruct l as [|y l]; cbn [app] in *.
  - destruct H as [(a & b & u & v & E1 & E2 & E3) H2]. split; [|exact I]. injection E2 as <- <-. exists a, h, u, (r ++ [e]). auto.
  - destruct H as [H1 H2]. split; [exact H1|]. apply IH. exact H2.
Qed.
Lemma push_ok s e : good s -> Forall chain (s_recs s) -> breaks (s_recs s) ->
  exists s', push s e = Some s' /\ good s' /\ Forall chain (s_recs s') /\ breaks (s_recs s') /\ List.concat (s_recs s') = List.concat (s_recs s) ++ [e].
Proof.
  intros (H1 & H2 & H3) Hc Hb. unfold push. destruct (nth_last (s_recs s) H1) as (a & r & Er & En). rewrite H2, En.
  assert (Hr : r <> []) by (rewrite Forall_forall in H3; apply H3; rewrite Er; apply in_or_app; right; left; reflexivity).
  destruct (exists_last Hr) as (r' & z & Ez). subst r. rewrite rev_app_distr. cbn [rev app]. destruct (String.eqb_spec (e_tof z) (e_fromf e)) as [E|E].
  - eexists. split; [reflexivity|]. rewrite Er in *. rewrite set_last. unfold good. cbn [s_recs s_last].
    apply Forall_app in H3 as [H3 _]. apply Forall_app in Hc as [Hc Hc2]. inversion Hc2; subst.
    split; [split; [destruct a; discriminate|]; split; [rewrite !app_length; cbn [List.length]; reflexivity|apply Forall_app; split; [exact H3|constructor; [destruct r'; discriminate|constructor]]]|].
    split; [apply Forall_app; split; [exact Hc|constructor; [apply chain_snoc; assumption|constructor]]|].
    split; [apply breaks_grow; [destruct r'; discriminate|exact Hb]|]. rewrite !concat_app. cbn [List.concat]. rewrite !app_nil_r, !app_assoc. reflexivity.
  - eexists. split; [reflexivity|]. unfold good. cbn [s_recs s_last].
    split; [split; [destruct (s_recs s); discriminate|]; split; [rewrite app_length; cbn [List.length]; destruct (s_recs s); [congruence|cbn [List.length]; lia]|apply Forall_app; split; [exact H3|constructor; [discriminate|constructor]]]|].
    split; [apply Forall_app; split; [exact Hc|constructor; [exact I|constructor]]|].
    split; [rewrite Er in *; apply breaks_snoc; [exact Hb|exists z, e, r', []; auto]|]. rewrite concat_app. cbn [List.concat]. rewrite !app_nil_r. reflexivity.
Qed.
Lemma pushes_ok l s : good s -> Forall chain (s_recs s) -> breaks (s_recs s) ->
  exists s', pushes s l = Some s' /\ good s' /\ Forall chain (s_recs s') /\ breaks (s_recs s') /\ List.concat (s_recs s') = List.concat (s_recs s) ++ l.
Proof.
  revert s. induction l as [|e l IH]; intros s Hg Hc Hb; cbn [pushes].
  - exists s. rewrite app_nil_r. auto.
  - destruct (push_ok s e Hg Hc Hb) as (s1 & E1 & Hg1 & Hc1 & Hb1 & Ec1). rewrite E1. destruct (IH s1 Hg1 Hc1 Hb1) as (s2 & E2 & Hg2 & Hc2 & Hb2 & Ec2).
    exists s2. split; [exact E2|]. split; [exact Hg2|]. split; [exact Hc2|]. split; [exact Hb2|]. rewrite Ec2, Ec1, <- app_assoc. reflexivity.
Qed.
Lemma number_snd i l : map snd (number i l) = l.
Proof. revert i. induction l as [|r l IH]; intros i; cbn [number map snd]; [reflexivity|]. rewrite IH. reflexivity. Qed.
Lemma number_nth i l k p : nth_error (number i l) k = Some p -> fst p = i - Z.of_nat k.
Proof.
  revert i k. induction l as [|r l IH]; intros i k H; [destruct k; discriminate|]. destruct k as [|k]; cbn [number nth_error] in H.
  - injection H as <-. cbn. lia.
  - apply IH in H. lia.
Qed.
Lemma trim_infix w inf l : infix (trim w inf l) l.
Proof.
  destruct w; cbn [trim].
  - exists [], []. cbn. rewrite app_nil_r. reflexivity.
  - apply (starts_infix (fun b => inf (b_from b) = true)). apply cut_front_spec. reflexivity.
  - set (p := fun b => inf (b_from b) || inf (b_to b)). pose proof (cut_front_spec p (fun b => p b = true) l ltac:(reflexivity)) as H1. apply starts_infix in H1 as (a & b & E).
    pose proof (cut_front_spec p (fun b => p b = true) (rev (cut_front p l)) ltac:(reflexivity)) as H2. apply starts_infix in H2 as (c & d & E2).
    exists (a ++ rev d), (rev c ++ b). rewrite E at 1. rewrite <- (rev_involutive (cut_front p l)) at 1. rewrite E2. unfold cut_back. rewrite !rev_app_distr, <- !app_assoc. reflexivity.
  - apply (starts_infix (fun b => inf (b_from b) = true)). apply cut_front_spec. reflexivity.
Qed.
Lemma trim_nonempty w inf l : l <> [] -> trim w inf l <> [].
Proof.
  intros H. destruct w; cbn [trim]; [exact H| | |].
  - eapply starts_nonempty; [apply (cut_front_spec _ (fun b => inf (b_from b) = true)); reflexivity|exact H].
  - set (p := fun b => inf (b_from b) || inf (b_to b)). assert (H1 : cut_front p l <> []) by (eapply starts_nonempty; [apply (cut_front_spec p (fun b => p b = true)); reflexivity|exact H]).
    unfold cut_back. intros E. apply (f_equal (@rev branch)) in E. rewrite rev_involutive in E. revert E.
    eapply starts_nonempty; [apply (cut_front_spec p (fun b => p b = true)); reflexivity|]. intros E. apply H1. rewrite <- (rev_involutive (cut_front p l)), E. reflexivity.
  - eapply starts_nonempty; [apply (cut_front_spec _ (fun b => inf (b_from b) = true)); reflexivity|exact H].
Qed.
Theorem show_ok name w inf nr data n b0 rest : data = b0 :: rest -> ~ (b_from b0 = 0 /\ b_to b0 = 0 /\ b_flags b0 = 0) ->
  0 < n <= Z.of_nat (List.length data) ->
  exists recs, show name w inf nr data (24 * n) = RShown recs /\
    List.concat (map snd recs) = rev (map (endpoint name) (trim w inf (firstn (Z.to_nat n) data))) /\
    Forall chain (map snd recs) /\ breaks (map snd recs) /\ (forall k p, nth_error recs k = Some p -> fst p = nr - 1 - Z.of_nat k).
Proof.
  intros Ed H0 Hn. unfold show. rewrite Ed.
  assert (E1 : (24 * n <=? 0) || ((b_from b0 =? 0) && (b_to b0 =? 0) && (b_flags b0 =? 0)) = false).
  { apply orb_false_iff. split; [apply Z.leb_gt; lia|]. destruct (Z.eqb_spec (b_from b0) 0); destruct (Z.eqb_spec (b_to b0) 0); destruct (Z.eqb_spec (b_flags b0) 0); try reflexivity. tauto. }
  rewrite E1. rewrite <- Ed. replace (24 * n / 24) with n by (rewrite Z.mul_comm, Z.div_mul; lia).
  destruct (Z.ltb_spec (Z.of_nat (List.length data)) n); [lia|]. cbv zeta.
  set (l := trim w inf (firstn (Z.to_nat n) data)).
  assert (Hl : l <> []). { apply trim_nonempty. rewrite Ed. destruct (Z.to_nat n) eqn:E; [lia|discriminate]. }
  destruct l as [|c l'] eqn:El; [congruence|].
  assert (Hm : rev (map (endpoint name) (c :: l')) <> []) by (cbn [map rev]; destruct (rev (map (endpoint name) l')); discriminate).
  destruct (rev (map (endpoint name) (c :: l'))) as [|e es] eqn:Ee; [congruence|].
  assert (Hg : good (push_first reset e)) by (repeat split; cbn; try discriminate; constructor; [discriminate|constructor]).
  destruct (pushes_ok es (push_first reset e) Hg) as (s & E2 & _ & Hc & Hb & Ec); [cbn; constructor; [exact I|constructor]|exact I|].
  exists (number (nr - 1) (s_recs s)). rewrite E2, number_snd. split; [destruct w; reflexivity|]. split; [rewrite Ec; reflexivity|]. split; [exact Hc|]. split; [exact Hb|].
  intros k p Hk. apply number_nth in Hk. exact Hk.
Qed.
