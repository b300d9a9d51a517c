(** * Proofs for M_Flags *)
From Coq Require Import List Bool String Ascii ZArith Lia.
From Verif Require Import M_Flags S_Flags.
Import ListNotations.
Open Scope string_scope.

Lemma app_assoc_s a b c : (a ++ b) ++ c = a ++ (b ++ c).
Proof. induction a as [|x a IH]; cbn [append]; [reflexivity|]. rewrite IH. reflexivity. Qed.
Lemma app_nil_s a : a ++ "" = a.
Proof. induction a as [|x a IH]; cbn [append]; [reflexivity|]. rewrite IH. reflexivity. Qed.
Lemma opens_prefix s : has_prefix "(" s = opens s.
Proof.
  destruct s as [|c s]; [reflexivity|]. cbn [has_prefix opens]. destruct c as [b0 b1 b2 b3 b4 b5 b6 b7].
  destruct b0, b1, b2, b3, b4, b5, b6, b7; reflexivity.
Qed.
Lemma prefix_app p s : has_prefix p s = true -> s = p ++ drop (String.length p) s.
Proof.
  revert s. induction p as [|a p IH]; intros s H; [reflexivity|]. destruct s as [|b s]; [discriminate|]. cbn [has_prefix] in H.
  apply andb_true_iff in H as [H1 H2]. apply Ascii.eqb_eq in H1. subst b. cbn [append String.length drop]. f_equal. apply IH. exact H2.
Qed.
Lemma lower_fixed c d : lower_ascii c = d -> (97 <= nat_of_ascii d <= 122) -> c = d \/ c = ascii_of_nat (nat_of_ascii d - 32).
Proof.
  unfold lower_ascii. intros H Hd. destruct (Nat.leb_spec 65 (nat_of_ascii c)); destruct (Nat.leb_spec (nat_of_ascii c) 90); cbn [andb] in H; auto.
  right. subst d. rewrite nat_ascii_embedding in Hd |- * by lia. rewrite PeanoNat.Nat.add_sub. symmetry. apply ascii_nat_embedding.
Qed.
Lemma lower_other c d : lower_ascii c = d -> ~ (97 <= nat_of_ascii d <= 122) -> c = d.
Proof.
  unfold lower_ascii. intros H Hd. destruct (Nat.leb_spec 65 (nat_of_ascii c)); destruct (Nat.leb_spec (nat_of_ascii c) 90); cbn [andb] in H; auto.
  subst d. rewrite nat_ascii_embedding in Hd by lia. lia.
Qed.
Lemma skb_prefix s : has_prefix "(skb)" (to_lower s) = true -> exists a b c, s = text (TokSkb a b c) ++ drop 5 s.
Proof.
  intros H. destruct s as [|c1 s]; [discriminate|]. destruct s as [|c2 s]; [cbn in H; rewrite ?andb_false_r in H; discriminate|].
  destruct s as [|c3 s]; [cbn in H; rewrite ?andb_false_r in H; discriminate|]. destruct s as [|c4 s]; [cbn in H; rewrite ?andb_false_r in H; discriminate|].
  destruct s as [|c5 s]; [cbn in H; rewrite ?andb_false_r in H; discriminate|].
  cbn [to_lower has_prefix] in H. repeat (apply andb_true_iff in H; destruct H as [?H H]).
  apply Ascii.eqb_eq in H0, H1, H2, H3, H4. symmetry in H0, H1, H2, H3, H4.
  apply lower_other in H0; [|cbn; lia]. apply lower_other in H4; [|cbn; lia].
  apply lower_fixed in H1; [|cbn; lia]. apply lower_fixed in H2; [|cbn; lia]. apply lower_fixed in H3; [|cbn; lia].
  cbn [drop]. subst c1 c5.
  destruct H1 as [->| ->]; destruct H2 as [->| ->]; destruct H3 as [->| ->];
    [exists false, false, false|exists false, false, true|exists false, true, false|exists false, true, true|
     exists true, false, false|exists true, false, true|exists true, true, false|exists true, true, true]; reflexivity.
Qed.

(** What the loop has consumed. *)
Definition after (s : kst) (ts : list tok) (r : string) : kst :=
  {| k_i := k_i s || asked Ki ts; k_g := k_g s || asked Kg ts; k_s := k_s s || asked Ks ts; k_l := k_l s || asked Kl ts;
     k_b := k_b s || asked Kb ts; k_p := k_p s || asked Kp ts; k_m := k_m s || asked Km ts; k_skb := k_skb s || asked Kskb ts; k_rest := r |}.
Lemma after_nil s : after s [] (k_rest s) = s.
Proof. destruct s. unfold after. cbn. rewrite !orb_false_r. reflexivity. Qed.
Lemma asked_app x a b : asked x (a ++ b) = asked x a || asked x b.
Proof. unfold asked. apply existsb_app. Qed.
Lemma after_after s a r b r' : after (after s a r) b r' = after s (a ++ b) r'.
Proof. unfold after. cbn [k_i k_g k_s k_l k_b k_p k_m k_skb k_rest]. rewrite !asked_app, !orb_assoc. reflexivity. Qed.
Lemma setk_after s t r : setk (kind_of t) s r = after s [t] r.
Proof. unfold setk, after, asked. cbn [existsb]. rewrite !orb_false_r. reflexivity. Qed.
Lemma texts_app a b : texts (a ++ b) = texts a ++ texts b.
Proof. induction a as [|t a IH]; cbn [app texts append]; [reflexivity|]. rewrite IH, app_assoc_s. reflexivity. Qed.

(** A step eats nothing or one token. *)
Definition eats (ok : tok -> Prop) (s s' : kst) : Prop :=
  exists ts r, Forall ok ts /\ s' = after s ts r /\ k_rest s = texts ts ++ r.
Lemma eats_refl ok s : eats ok s s.
Proof. exists [], (k_rest s). split; [constructor|]. split; [symmetry; apply after_nil|reflexivity]. Qed.
Lemma eats_trans ok a b c : eats ok a b -> eats ok b c -> eats ok a c.
Proof.
  intros (t1 & r1 & F1 & -> & E1) (t2 & r2 & F2 & -> & E2). exists (t1 ++ t2)%list, r2. split; [apply Forall_app; split; assumption|].
  split; [apply after_after|]. cbn [after k_rest] in E2. rewrite E1, E2, texts_app, app_assoc_s. reflexivity.
Qed.
Lemma kstep_eats (ok : tok -> Prop) x p s : text (Tok x) = p -> String.length p = 3 -> ok (Tok x) -> eats ok s (kstep x p s).
Proof.
  intros Hp Hl Hok. unfold kstep. destruct (has_prefix p (k_rest s)) eqn:E; [|apply eats_refl].
  exists [Tok x], (drop 3 (k_rest s)). split; [constructor; [exact Hok|constructor]|]. split; [apply (setk_after s (Tok x))|].
  cbn [texts]. rewrite app_nil_s, Hp, <- Hl. apply prefix_app. exact E.
Qed.
Lemma kstep_skb_eats (ok : tok -> Prop) s : (forall a b c, ok (TokSkb a b c)) -> eats ok s (kstep_skb s).
Proof.
  intros Hok. unfold kstep_skb. destruct (has_prefix "(skb)" (to_lower (k_rest s))) eqn:E; [|apply eats_refl].
  apply skb_prefix in E as (a & b & c & E). exists [TokSkb a b c], (drop 5 (k_rest s)). split; [constructor; [apply Hok|constructor]|].
  split; [apply (setk_after s (TokSkb a b c))|]. cbn [texts]. rewrite app_nil_s. exact E.
Qed.
Definition anyk (t : tok) := True.
Lemma kpass_eats s : eats anyk s (kpass s).
Proof.
  unfold kpass. eapply eats_trans; [|apply kstep_skb_eats; intros; exact I].
  do 6 (eapply eats_trans; [|apply kstep_eats; try reflexivity; exact I]). apply kstep_eats; try reflexivity; exact I.
Qed.
Lemma ppass_eats s : eats progk s (ppass s).
Proof.
  unfold ppass. do 4 (eapply eats_trans; [|apply kstep_eats; try reflexivity; exact I]). apply kstep_eats; try reflexivity; exact I.
Qed.
Lemma kloop_eats s r : kloop s r -> eats anyk s r /\ opens (k_rest r) = false.
Proof.
  induction 1 as [s H|s r H _ [IH1 IH2]].
  - split; [apply eats_refl|]. rewrite <- opens_prefix. exact H.
  - split; [eapply eats_trans; [apply kpass_eats|exact IH1]|exact IH2].
Qed.
Lemma ploop_eats s r : ploop s r -> eats progk s r /\ opens (k_rest r) = false.
Proof.
  induction 1 as [s H|s r H _ [IH1 IH2]].
  - split; [apply eats_refl|]. rewrite <- opens_prefix. exact H.
  - split; [eapply eats_trans; [apply ppass_eats|exact IH1]|exact IH2].
Qed.

(** Forward: on a sequence of tokens a step takes the head token when it is its own. *)
Definition canon (t : tok) : Prop := match t with Tok Kskb => False | _ => True end.
Lemma kstep_tok x p s t ts rest : text (Tok x) = p -> In x [Ki; Kg; Ks; Kl; Kb; Kp; Km] -> k_rest s = texts (t :: ts) ++ rest ->
  kstep x p s = if kind_eqb (kind_of t) x then after s [t] (texts ts ++ rest) else s.
Proof.
  intros Hp Hx E. unfold kstep. rewrite E. cbn [texts]. rewrite app_assoc_s. subst p.
  cbn [In] in Hx. destruct Hx as [<-|[<-|[<-|[<-|[<-|[<-|[<-|[]]]]]]]]; destruct t as [[]|[] [] []]; reflexivity || (cbn; rewrite <- setk_after; reflexivity).
Qed.
Lemma kstep_none x p s : text (Tok x) = p -> opens (k_rest s) = false -> kstep x p s = s.
Proof.
  intros Hp E. unfold kstep. destruct (has_prefix p (k_rest s)) eqn:H; [|reflexivity]. exfalso. rewrite <- opens_prefix in E.
  destruct (k_rest s) as [|c r]; subst p; destruct x; try discriminate H; cbn [text has_prefix] in H, E; apply andb_true_iff in H as [H _]; rewrite H in E; discriminate.
Qed.
Lemma skb_tok s t ts rest : k_rest s = texts (t :: ts) ++ rest ->
  kstep_skb s = if kind_eqb (kind_of t) Kskb then after s [t] (texts ts ++ rest) else s.
Proof.
  intros E. unfold kstep_skb. rewrite E. cbn [texts]. rewrite app_assoc_s.
  destruct t as [[]|[] [] []]; reflexivity || (cbn; rewrite <- setk_after; reflexivity).
Qed.
Lemma skb_none s : opens (k_rest s) = false -> kstep_skb s = s.
Proof.
  intros E. unfold kstep_skb. destruct (has_prefix "(skb)" (to_lower (k_rest s))) eqn:H; [|reflexivity].
  apply skb_prefix in H as (a & b & c & H). rewrite H in E. destruct a, b, c; discriminate.
Qed.
(** one step on tokens: stays on tokens, and takes the first if its kind fits *)
Definition on (s0 s : kst) (ts : list tok) (rest : string) : Prop := exists a b, ts = (a ++ b)%list /\ s = after s0 a (texts b ++ rest).
Lemma on_step x p s0 s ts rest : text (Tok x) = p -> In x [Ki; Kg; Ks; Kl; Kb; Kp; Km] -> opens rest = false ->
  on s0 s ts rest -> on s0 (kstep x p s) ts rest.
Proof.
  intros Hp Hx Hr (a & b & -> & ->). destruct b as [|t b].
  - rewrite kstep_none by assumption. exists a, []. split; reflexivity.
  - rewrite (kstep_tok x p _ t b rest Hp Hx) by reflexivity. destruct (kind_eqb (kind_of t) x); [|exists a, (t :: b); split; reflexivity].
    rewrite after_after. exists (a ++ [t])%list, b. split; [rewrite <- app_assoc; reflexivity|reflexivity].
Qed.
Lemma on_skb s0 s ts rest : opens rest = false -> on s0 s ts rest -> on s0 (kstep_skb s) ts rest.
Proof.
  intros Hr (a & b & -> & ->). destruct b as [|t b].
  - rewrite skb_none by assumption. exists a, []. split; reflexivity.
  - rewrite (skb_tok _ t b rest) by reflexivity. destruct (kind_eqb (kind_of t) Kskb); [|exists a, (t :: b); split; reflexivity].
    rewrite after_after. exists (a ++ [t])%list, b. split; [rewrite <- app_assoc; reflexivity|reflexivity].
Qed.
Definition shorter (s : kst) (n : nat) : Prop := String.length (k_rest s) < n.
Lemma len_app a b : String.length (a ++ b) = String.length a + String.length b.
Proof. induction a as [|x a IH]; cbn [append String.length]; [reflexivity|]. rewrite IH. reflexivity. Qed.
Lemma len_drop n s : String.length (drop n s) <= String.length s.
Proof. revert s. induction n as [|n IH]; intros s; [cbn; lia|]. destruct s as [|c s]; cbn; [lia|]. specialize (IH s). lia. Qed.
Lemma kstep_len x p s : String.length (k_rest (kstep x p s)) <= String.length (k_rest s).
Proof. unfold kstep. destruct (has_prefix p (k_rest s)); [|lia]. apply (len_drop 3). Qed.
Lemma skb_len s : String.length (k_rest (kstep_skb s)) <= String.length (k_rest s).
Proof. unfold kstep_skb. destruct (has_prefix _ _); [|lia]. apply (len_drop 5). Qed.
Lemma text_len t : 3 <= String.length (text t).
Proof. destruct t as [[]|[] [] []]; cbn; lia. Qed.
(** A pass shortens: some step of it takes the first token, or an earlier step already took something. *)
Lemma step_or x p s t ts rest : text (Tok x) = p -> In x [Ki; Kg; Ks; Kl; Kb; Kp; Km] -> k_rest s = texts (t :: ts) ++ rest ->
  kstep x p s = s \/ String.length (k_rest (kstep x p s)) < String.length (k_rest s).
Proof.
  intros Hp Hx E. rewrite (kstep_tok x p s t ts rest Hp Hx E). destruct (kind_eqb (kind_of t) x); [right|left; reflexivity].
  cbn [after k_rest]. rewrite E. cbn [texts]. rewrite app_assoc_s, !len_app. pose proof (text_len t). lia.
Qed.
Ltac len_chain := repeat match goal with
  | |- context [kstep ?x ?p ?s] => lazymatch goal with H : String.length (k_rest (kstep x p s)) <= _ |- _ => fail | _ => pose proof (kstep_len x p s) end
  end.
Lemma kpass_shorter s t ts rest : k_rest s = texts (t :: ts) ++ rest -> String.length (k_rest (kpass s)) < String.length (k_rest s).
Proof.
  intros E. unfold kpass.
  pose proof (skb_len (kstep Km "(m)" (kstep Kp "(p)" (kstep Kb "(b)" (kstep Kl "(l)" (kstep Ks "(s)" (kstep Kg "(g)" (kstep Ki "(i)" s)))))))) as L0.
  pose proof (kstep_len Km "(m)" (kstep Kp "(p)" (kstep Kb "(b)" (kstep Kl "(l)" (kstep Ks "(s)" (kstep Kg "(g)" (kstep Ki "(i)" s))))))) as L1.
  pose proof (kstep_len Kp "(p)" (kstep Kb "(b)" (kstep Kl "(l)" (kstep Ks "(s)" (kstep Kg "(g)" (kstep Ki "(i)" s)))))) as L2.
  pose proof (kstep_len Kb "(b)" (kstep Kl "(l)" (kstep Ks "(s)" (kstep Kg "(g)" (kstep Ki "(i)" s))))) as L3.
  pose proof (kstep_len Kl "(l)" (kstep Ks "(s)" (kstep Kg "(g)" (kstep Ki "(i)" s)))) as L4.
  pose proof (kstep_len Ks "(s)" (kstep Kg "(g)" (kstep Ki "(i)" s))) as L5.
  pose proof (kstep_len Kg "(g)" (kstep Ki "(i)" s)) as L6. pose proof (kstep_len Ki "(i)" s) as L7.
  assert (D : forall x p, text (Tok x) = p -> In x [Ki; Kg; Ks; Kl; Kb; Kp; Km] -> kstep x p s = s \/ String.length (k_rest (kstep x p s)) < String.length (k_rest s))
    by (intros; eapply step_or; eassumption).
  assert (Z : kind_eqb (kind_of t) Ki = false -> kind_eqb (kind_of t) Kg = false -> kind_eqb (kind_of t) Ks = false -> kind_eqb (kind_of t) Kl = false ->
              kind_eqb (kind_of t) Kb = false -> kind_eqb (kind_of t) Kp = false -> kind_eqb (kind_of t) Km = false -> kind_eqb (kind_of t) Kskb = true)
    by (destruct (kind_of t); cbn; congruence).
  destruct (D Ki "(i)" eq_refl ltac:(cbn; tauto)) as [E1|]; [rewrite E1 in *|lia].
  destruct (D Kg "(g)" eq_refl ltac:(cbn; tauto)) as [E2|]; [rewrite E2 in *|lia].
  destruct (D Ks "(s)" eq_refl ltac:(cbn; tauto)) as [E3|]; [rewrite E3 in *|lia].
  destruct (D Kl "(l)" eq_refl ltac:(cbn; tauto)) as [E4|]; [rewrite E4 in *|lia].
  destruct (D Kb "(b)" eq_refl ltac:(cbn; tauto)) as [E5|]; [rewrite E5 in *|lia].
  destruct (D Kp "(p)" eq_refl ltac:(cbn; tauto)) as [E6|]; [rewrite E6 in *|lia].
  destruct (D Km "(m)" eq_refl ltac:(cbn; tauto)) as [E7|]; [rewrite E7 in *|lia].
  assert (N : forall x p, text (Tok x) = p -> In x [Ki; Kg; Ks; Kl; Kb; Kp; Km] -> kstep x p s = s -> kind_eqb (kind_of t) x = false).
  { intros x p Hp Hx Es. rewrite (kstep_tok x p s t ts rest Hp Hx E) in Es. destruct (kind_eqb (kind_of t) x); [|reflexivity].
    exfalso. assert (E' : k_rest (after s [t] (texts ts ++ rest)) = k_rest s) by (rewrite Es; reflexivity). cbn [after k_rest] in E'.
    rewrite E in E'. cbn [texts] in E'. rewrite app_assoc_s in E'. apply (f_equal String.length) in E'. rewrite !len_app in E'. pose proof (text_len t). lia. }
  rewrite (skb_tok s t ts rest E), Z by (eapply N; try eassumption; try reflexivity; cbn; tauto).
  cbn [after k_rest]. rewrite E. cbn [texts]. rewrite app_assoc_s, !len_app. pose proof (text_len t). lia.
Qed.
Lemma kpass_on s0 s ts rest : opens rest = false -> on s0 s ts rest -> on s0 (kpass s) ts rest.
Proof. intros Hr H. unfold kpass. apply on_skb; [exact Hr|]. repeat (apply on_step; [reflexivity|cbn; tauto|exact Hr|]). exact H. Qed.
Lemma opens_texts t ts rest : opens (texts (t :: ts) ++ rest) = true.
Proof. destruct t as [[]|[] [] []]; reflexivity. Qed.
Lemma kloop_run s0 ts rest : opens rest = false -> k_rest s0 = texts ts ++ rest -> kloop s0 (after s0 ts rest).
Proof.
  intros Hr E0. assert (G : forall n s, String.length (k_rest s) < n -> on s0 s ts rest -> kloop s (after s0 ts rest)).
  { induction n as [|n IH]; intros s Hn Hon; [lia|]. destruct Hon as (a & b & Et & Es). destruct b as [|t b].
    - rewrite app_nil_r in Et. subst a. subst s. apply kloop_done. rewrite opens_prefix. exact Hr.
    - apply kloop_more; [rewrite opens_prefix; subst s; cbn [after k_rest]; apply opens_texts|].
      apply IH; [|apply kpass_on; [exact Hr|exists a, (t :: b); split; assumption]].
      pose proof (kpass_shorter s t b rest) as Hs. subst s. specialize (Hs eq_refl). lia. }
  apply (G (S (String.length (k_rest s0)))); [lia|]. exists [], ts. split; [reflexivity|]. rewrite <- E0. symmetry. apply after_nil.
Qed.
Lemma kloop_det s r1 : kloop s r1 -> forall r2, kloop s r2 -> r1 = r2.
Proof. induction 1 as [s H|s r H Hl IH]; intros r2 H2; inversion H2; subst; try congruence. apply IH. assumption. Qed.

(** programs *)
Lemma ppass_on s0 s ts rest : opens rest = false -> on s0 s ts rest -> on s0 (ppass s) ts rest.
Proof. intros Hr H. unfold ppass. repeat (apply on_step; [reflexivity|cbn; tauto|exact Hr|]). exact H. Qed.
Lemma ppass_shorter s t ts rest : progk t -> k_rest s = texts (t :: ts) ++ rest -> String.length (k_rest (ppass s)) < String.length (k_rest s).
Proof.
  intros Hk E. unfold ppass.
  pose proof (kstep_len Kp "(p)" (kstep Kb "(b)" (kstep Kl "(l)" (kstep Ks "(s)" (kstep Kg "(g)" s))))) as L2.
  pose proof (kstep_len Kb "(b)" (kstep Kl "(l)" (kstep Ks "(s)" (kstep Kg "(g)" s)))) as L3.
  pose proof (kstep_len Kl "(l)" (kstep Ks "(s)" (kstep Kg "(g)" s))) as L4.
  pose proof (kstep_len Ks "(s)" (kstep Kg "(g)" s)) as L5.
  pose proof (kstep_len Kg "(g)" s) as L6.
  assert (D : forall x p, text (Tok x) = p -> In x [Ki; Kg; Ks; Kl; Kb; Kp; Km] -> kstep x p s = s /\ kind_eqb (kind_of t) x = false \/ String.length (k_rest (kstep x p s)) < String.length (k_rest s)).
  { intros x p Hp Hx. rewrite (kstep_tok x p s t ts rest Hp Hx E). destruct (kind_eqb (kind_of t) x); [right|left; split; reflexivity].
    cbn [after k_rest]. rewrite E. cbn [texts]. rewrite app_assoc_s, !len_app. pose proof (text_len t). lia. }
  destruct (D Kg "(g)" eq_refl ltac:(cbn; tauto)) as [[E1 N1]|]; [rewrite E1 in *|lia].
  destruct (D Ks "(s)" eq_refl ltac:(cbn; tauto)) as [[E2 N2]|]; [rewrite E2 in *|lia].
  destruct (D Kl "(l)" eq_refl ltac:(cbn; tauto)) as [[E3 N3]|]; [rewrite E3 in *|lia].
  destruct (D Kb "(b)" eq_refl ltac:(cbn; tauto)) as [[E4 N4]|]; [rewrite E4 in *|lia].
  destruct (D Kp "(p)" eq_refl ltac:(cbn; tauto)) as [[E5 N5]|]; [|lia].
  destruct t as [[]|]; cbn in *; try contradiction; discriminate.
Qed.
Lemma ploop_run s0 ts rest : Forall progk ts -> opens rest = false -> k_rest s0 = texts ts ++ rest -> ploop s0 (after s0 ts rest).
Proof.
  intros Hk Hr E0. assert (G : forall n s, String.length (k_rest s) < n -> on s0 s ts rest -> ploop s (after s0 ts rest)).
  { induction n as [|n IH]; intros s Hn Hon; [lia|]. destruct Hon as (a & b & Et & Es). destruct b as [|t b].
    - rewrite app_nil_r in Et. subst a. subst s. apply ploop_done. rewrite opens_prefix. exact Hr.
    - apply ploop_more; [rewrite opens_prefix; subst s; cbn [after k_rest]; apply opens_texts|].
      apply IH; [|apply ppass_on; [exact Hr|exists a, (t :: b); split; assumption]].
      assert (Ht : progk t) by (rewrite Forall_forall in Hk; apply Hk; rewrite Et; apply in_or_app; right; left; reflexivity).
      pose proof (ppass_shorter s t b rest Ht) as Hs. subst s. specialize (Hs eq_refl). lia. }
  apply (G (S (String.length (k_rest s0)))); [lia|]. exists [], ts. split; [reflexivity|]. rewrite <- E0. symmetry. apply after_nil.
Qed.
Lemma ploop_det s r1 : ploop s r1 -> forall r2, ploop s r2 -> r1 = r2.
Proof. induction 1 as [s H|s r H Hl IH]; intros r2 H2; inversion H2; subst; try congruence. apply IH. assumption. Qed.

(** Splitting *)
Lemma colon_eqb c : Ascii.eqb ":" c = Ascii.eqb c ":".
Proof. apply Ascii.eqb_sym. Qed.
Lemma split_word n : mentions ":" n = false -> split_colon n = [n].
Proof.
  induction n as [|c n IH]; intros H; [reflexivity|]. cbn [mentions] in H. apply orb_false_iff in H as [H1 H2]. cbn [split_colon].
  rewrite colon_eqb in H1. rewrite H1, (IH H2). reflexivity.
Qed.
Lemma split_app n s : mentions ":" n = false -> split_colon (n ++ ":" ++ s) = n :: split_colon s.
Proof.
  induction n as [|c n IH]; intros H; [reflexivity|]. cbn [mentions] in H. apply orb_false_iff in H as [H1 H2]. cbn [append split_colon].
  rewrite colon_eqb in H1. rewrite H1. cbn [append] in IH. rewrite (IH H2). reflexivity.
Qed.
Lemma mentions_app c a b : mentions c (a ++ b) = mentions c a || mentions c b.
Proof. induction a as [|x a IH]; cbn [append mentions]; [reflexivity|]. rewrite IH, orb_assoc. reflexivity. Qed.
Lemma cut_word n : mentions ":" n = false -> cut_colon n = (n, "", false).
Proof.
  induction n as [|c n IH]; intros H; [reflexivity|]. cbn [mentions] in H. apply orb_false_iff in H as [H1 H2]. cbn [cut_colon].
  rewrite colon_eqb in H1. rewrite H1, (IH H2). reflexivity.
Qed.
Lemma cut_app n s : mentions ":" n = false -> cut_colon (n ++ ":" ++ s) = (n, s, true).
Proof.
  induction n as [|c n IH]; intros H; [reflexivity|]. cbn [mentions] in H. apply orb_false_iff in H as [H1 H2]. cbn [append cut_colon].
  rewrite colon_eqb in H1. rewrite H1. cbn [append] in IH. rewrite (IH H2). reflexivity.
Qed.
Lemma cut_opt n f : mentions ":" n = false -> cut_colon (n ++ optional f) = (n, f, negb (String.eqb f "")).
Proof.
  intros H. unfold optional. destruct (String.eqb_spec f "") as [->|E]; [rewrite app_nil_s; apply cut_word; exact H|apply cut_app; exact H].
Qed.
Lemma upto_app t s : mentions ")" t = false -> upto_paren (t ++ ")" ++ s) = Some t.
Proof.
  induction t as [|c t IH]; intros H; [reflexivity|]. cbn [mentions] in H. apply orb_false_iff in H as [H1 H2]. cbn [append upto_paren].
  rewrite Ascii.eqb_sym in H1. rewrite H1. cbn [append] in IH. rewrite (IH H2). reflexivity.
Qed.
Lemma drop_app t s : drop (String.length t) (t ++ s) = s.
Proof. induction t as [|c t IH]; [reflexivity|exact IH]. Qed.
(** trimming (t)a, whose ends are no spaces when a is a word *)
Lemma trim_right_ne s c : trim_right s <> "" -> trim_right (String c s) = String c (trim_right s).
Proof. intros H. cbn [trim_right]. destruct (trim_right s); [congruence|reflexivity]. Qed.
Lemma trim_right_len s : String.length (trim_right s) <= String.length s.
Proof.
  induction s as [|c s IH]; cbn [trim_right]; [lia|]. destruct (trim_right s) eqn:E.
  - destruct (is_space c); cbn [String.length]; lia.
  - cbn [String.length] in *. lia.
Qed.
Lemma trim_left_len s : String.length (trim_left s) <= String.length s.
Proof. induction s as [|c s IH]; cbn [trim_left]; [lia|]. destruct (is_space c); cbn [String.length] in *; lia. Qed.
Lemma trim_left_fix s : trim s = s -> trim_left s = s.
Proof.
  intros H. destruct s as [|c s]; [reflexivity|]. cbn [trim_left]. destruct (is_space c) eqn:E; [|reflexivity]. exfalso.
  unfold trim in H. cbn [trim_left] in H. rewrite E in H. apply (f_equal String.length) in H.
  pose proof (trim_right_len (trim_left s)). pose proof (trim_left_len s). cbn [String.length] in H. lia.
Qed.
Lemma trim_right_fix s : trim s = s -> trim_right s = s.
Proof. intros H. pose proof (trim_left_fix s H) as E. unfold trim in H. rewrite E in H. exact H. Qed.
Lemma trim_right_app a c b : is_space c = false -> trim_right (a ++ String c b) = a ++ String c (trim_right b).
Proof.
  intros Hc. assert (E : trim_right (String c b) = String c (trim_right b)) by (cbn [trim_right]; destruct (trim_right b); [rewrite Hc|]; reflexivity).
  induction a as [|x a IH]; [exact E|]. cbn [append]. rewrite trim_right_ne; [rewrite IH; reflexivity|]. rewrite IH. destruct a; discriminate.
Qed.

Lemma is_space_white c : is_space c = true <-> white c.
Proof.
  unfold is_space, white. cbv zeta. set (n := nat_of_ascii c). cbn [In]. rewrite orb_true_iff, andb_true_iff, !Nat.leb_le, Nat.eqb_eq. lia.
Qed.
Lemma not_white c : ~ white c -> is_space c = false.
Proof. intros H. destruct (is_space c) eqn:E; [|reflexivity]. apply is_space_white in E. contradiction. Qed.
Lemma tight_trim s : tight s -> trim s = s.
Proof.
  intros [Hl Hr]. unfold trim. assert (El : trim_left s = s).
  { destruct s as [|c s]; [reflexivity|]. cbn [trim_left]. rewrite (not_white c (Hl c s eq_refl)). reflexivity. }
  rewrite El. clear El Hl. induction s as [|c s IH]; [reflexivity|]. cbn [trim_right]. rewrite IH.
  - destruct s as [|d s]; [|reflexivity]. rewrite (not_white c (Hr c "" eq_refl)). reflexivity.
  - intros d s' E. apply (Hr d (String c s')). cbn [append]. rewrite E. reflexivity.
Qed.
Lemma trim_left_white w s : all_white w -> trim_left (w ++ s) = trim_left s.
Proof.
  induction w as [|c w IH]; intros H; [reflexivity|]. destruct H as [Hc Hw]. cbn [append trim_left].
  rewrite (proj2 (is_space_white c) Hc). exact (IH Hw).
Qed.
Lemma trim_right_white w : all_white w -> trim_right w = "".
Proof.
  induction w as [|c w IH]; intros H; [reflexivity|]. destruct H as [Hc Hw]. cbn [trim_right]. rewrite (IH Hw), (proj2 (is_space_white c) Hc). reflexivity.
Qed.
Lemma trim_right_app_white s w : all_white w -> trim_right (s ++ w) = trim_right s.
Proof.
  intros Hw. induction s as [|c s IH]; [exact (trim_right_white w Hw)|]. cbn [append trim_right]. rewrite IH. reflexivity.
Qed.
Lemma trim_padded w1 s w2 : all_white w1 -> all_white w2 -> tight s -> trim (w1 ++ s ++ w2) = s.
Proof.
  intros H1 H2 Hs. unfold trim. rewrite (trim_left_white w1 _ H1). destruct s as [|c s].
  - cbn [append]. rewrite <- (app_nil_s w2), (trim_left_white w2 "" H2). reflexivity.
  - cbn [append trim_left]. rewrite (not_white c (proj1 Hs c s eq_refl)).
    change (String c (s ++ w2)) with (String c s ++ w2). rewrite (trim_right_app_white _ w2 H2).
    pose proof (tight_trim _ Hs) as E. unfold trim in E. cbn [trim_left] in E. rewrite (not_white c (proj1 Hs c s eq_refl)) in E. exact E.
Qed.
Lemma white_colon w : all_white w -> mentions ":" w = false.
Proof.
  induction w as [|c w IH]; intros H; [reflexivity|]. destruct H as [Hc Hw]. cbn [mentions]. rewrite (IH Hw), orb_false_r.
  destruct (Ascii.eqb_spec ":" c) as [<-|]; [|reflexivity]. unfold white in Hc. cbn in Hc. lia.
Qed.

(** names *)
Theorem kfinish_target g s n a t : target (k_skb s) (k_rest s) n a t -> (k_i s || g_insn g) && (k_g s || g_graph g) = false ->
  k_m s && (k_i s || g_insn g) = false -> k_m s && String.eqb t "" = false ->
  kfinish g s = KOk {| f_name := n; f_arg := a; f_typ := t; f_insn := k_i s || g_insn g; f_graph := k_g s || g_graph g; f_stack := k_s s || g_stack g;
                f_lbr := k_l s || g_lbr g; f_both := k_b s || g_both g; f_pkt := k_p s || g_pkt g; f_multi := k_m s;
                f_argName := if k_m s then a else ""; f_argType := if k_m s then t else "" |}.
Proof.
  intros Ht E1 E2 E3. unfold kfinish. cbv zeta. rewrite E1, E2.
  destruct Ht as [n [Hn1 Hn2]|n a [Hn1 Hn2] [Ha1 Ha2] Ho|n t a [Hn1 Hn2] [Ht1 Ht2] Ht3 [Ha1 Ha2]|n a t [Hn1 Hn2] [Ha1 Ha2] [Ht1 Ht2]].
  all: try apply tight_trim in Hn2; try apply tight_trim in Ha2; try apply tight_trim in Ht2.
  - rewrite (split_word n Hn1). rewrite Hn2. unfold skb_type. rewrite E3. reflexivity.
  - rewrite (split_app n a Hn1), (split_word a Ha1). rewrite Hn2, Ha2. unfold skb_type.
    destruct a as [|c a]; [rewrite E3; reflexivity|]. rewrite <- opens_prefix in Ho. cbn [has_prefix] in Ho.
    destruct c as [b0 b1 b2 b3 b4 b5 b6 b7]. destruct b0, b1, b2, b3, b4, b5, b6, b7; try discriminate Ho; rewrite E3; reflexivity.
  - replace (n ++ ":(" ++ t ++ ")" ++ a) with (n ++ ":" ++ ("(" ++ t ++ ")" ++ a)) by reflexivity.
    rewrite (split_app n _ Hn1). rewrite split_word by (cbn [append mentions]; rewrite !mentions_app, Ht1; cbn; exact Ha1). rewrite Hn2.
    assert (Et : trim ("(" ++ t ++ ")" ++ a) = "(" ++ t ++ ")" ++ a).
    { unfold trim. change (trim_left ("(" ++ t ++ ")" ++ a)) with ("(" ++ t ++ ")" ++ a).
      pose proof (trim_right_app ("(" ++ t) ")" a eq_refl) as E. rewrite (trim_right_fix a Ha2) in E. exact E. }
    rewrite Et. cbn [append]. pose proof (upto_app t a Ht3) as Eu. cbn [append] in Eu. rewrite Eu. replace (String.length t + 2) with (S (String.length t + 1)) by lia. cbn [drop].
    replace (drop (String.length t + 1) (t ++ String ")" a)) with a.
    + rewrite Ha2, Ht2, E3. reflexivity.
    + symmetry. replace (String.length t + 1) with (String.length (t ++ ")")) by (rewrite len_app; reflexivity).
      replace (t ++ String ")" a) with ((t ++ ")") ++ a) by (rewrite app_assoc_s; reflexivity). apply drop_app.
  - rewrite (split_app n _ Hn1), (split_app a t Ha1), (split_word t Ht1). rewrite Hn2, Ha2, Ht2, E3. reflexivity.
Qed.

(** a test for tight, for the examples *)
Fixpoint last_white (s : string) : bool := match s with EmptyString => false | String c EmptyString => is_space c | String _ s' => last_white s' end.
Lemma tight_of s : (match s with EmptyString => false | String c _ => is_space c end) = false -> last_white s = false -> tight s.
Proof.
  intros Hf Hl. split.
  - intros c s' -> Hc. apply is_space_white in Hc. congruence.
  - intros c s' -> Hc. apply is_space_white in Hc. clear Hf. induction s' as [|d s' IH]; [cbn in Hl; congruence|].
    apply IH. cbn [append last_white] in Hl. destruct (s' ++ String c "") eqn:E; [destruct s'; discriminate|exact Hl].
Qed.
Lemma pad_word w1 s w2 : all_white w1 -> all_white w2 -> word s -> mentions ":" (w1 ++ s ++ w2) = false.
Proof. intros H1 H2 [Hs _]. rewrite !mentions_app, (white_colon w1 H1), (white_colon w2 H2), Hs. reflexivity. Qed.
Theorem kfinish_padded g s w1 w2 w3 w4 w5 w6 n a t : k_rest s = (w1 ++ n ++ w2) ++ ":" ++ (w3 ++ a ++ w4) ++ ":" ++ (w5 ++ t ++ w6) ->
  all_white w1 -> all_white w2 -> all_white w3 -> all_white w4 -> all_white w5 -> all_white w6 -> word n -> word a -> word t ->
  kfinish g s = kfinish g {| k_i := k_i s; k_g := k_g s; k_s := k_s s; k_l := k_l s; k_b := k_b s; k_p := k_p s; k_m := k_m s; k_skb := k_skb s;
                             k_rest := n ++ ":" ++ a ++ ":" ++ t |}.
Proof.
  intros E H1 H2 H3 H4 H5 H6 Hn Ha Ht. unfold kfinish. cbv zeta. cbn [k_i k_g k_s k_l k_b k_p k_m k_skb k_rest].
  rewrite E. rewrite (split_app _ _ (pad_word w1 n w2 H1 H2 Hn)), (split_app _ _ (pad_word w3 a w4 H3 H4 Ha)), (split_word _ (pad_word w5 t w6 H5 H6 Ht)).
  rewrite (split_app n _ (proj1 Hn)), (split_app a t (proj1 Ha)), (split_word t (proj1 Ht)).
  rewrite !trim_padded by (assumption || apply Hn || apply Ha || apply Ht).
  rewrite (tight_trim _ (proj2 Hn)), (tight_trim _ (proj2 Ha)), (tight_trim _ (proj2 Ht)). reflexivity.
Qed.

Lemma uint_digits l acc : (0 <= acc)%Z -> (forall d, In d l -> d < 10) -> (fold_left (fun a d => 10 * a + Z.of_nat d) l acc < 2 ^ 32)%Z ->
  uint_acc acc (digits l) = Some (fold_left (fun a d => 10 * a + Z.of_nat d)%Z l acc).
Proof.
  revert acc. induction l as [|d l IH]; intros acc H0 Hd Hn; [reflexivity|]. cbn [digits uint_acc fold_left] in *.
  assert (Hd1 : d < 10) by (apply Hd; left; reflexivity). rewrite nat_ascii_embedding by lia.
  replace (Z.of_nat (48 + d) - 48)%Z with (Z.of_nat d) by lia.
  destruct (Z.leb_spec 0 (Z.of_nat d)); [|lia]. destruct (Z.leb_spec (Z.of_nat d) 9); [|lia]. cbn [andb].
  assert (Hm : forall l a, (0 <= a)%Z -> (a <= fold_left (fun a d => 10 * a + Z.of_nat d) l a)%Z).
  { clear. induction l as [|d l IH]; intros a Ha; cbn [fold_left]; [lia|]. specialize (IH (10 * a + Z.of_nat d)%Z). lia. }
  specialize (Hm l (10 * acc + Z.of_nat d)%Z ltac:(lia)).
  destruct (Z.ltb_spec (10 * acc + Z.of_nat d) (2 ^ 32)); [|lia]. apply IH; [lia|intros e He; apply Hd; right; exact He|exact Hn].
Qed.
Lemma parse_digits l : l <> [] -> (forall d, In d l -> d < 10) -> (number l < 2 ^ 32)%Z -> parse_uint32 (digits l) = Some (number l).
Proof. intros Hl Hd Hn. unfold parse_uint32. destruct l as [|d l]; [congruence|]. apply (uint_digits (d :: l) 0); [lia|exact Hd|exact Hn]. Qed.
Lemma digits_colon l : (forall d, In d l -> d < 10) -> mentions ":" (digits l) = false.
Proof.
  induction l as [|d l IH]; intros H; [reflexivity|]. cbn [digits mentions]. rewrite IH by (intros e He; apply H; right; exact He).
  assert (Hd : d < 10) by (apply H; left; reflexivity). do 10 (destruct d as [|d]; [reflexivity|]). lia.
Qed.
Lemma digits_head l c s : (forall d, In d l -> d < 10) -> digits l = String c s -> 48 <= nat_of_ascii c <= 57.
Proof.
  intros H E. destruct l as [|d l]; [discriminate|]. cbn [digits] in E. injection E as <- _. assert (Hd : d < 10) by (apply H; left; reflexivity).
  rewrite nat_ascii_embedding by lia. lia.
Qed.
Theorem pfinish_names ex g s d f : names_prog ex (k_rest s) d f -> pfinish ex g s = POk {| p_desc := d; p_func := f; p_graph := k_g s || g_graph g;
    p_stack := k_s s || g_stack g; p_lbr := k_l s || g_lbr g; p_both := k_b s || g_both g; p_pkt := k_p s || g_pkt g |}.
Proof.
  intros H. unfold pfinish. cbv zeta. inversion H as [E|pre l fn Hpre Hl Hd Hn E|l fn Hl Hd Hn E|pre t fn Hpre Ht Hc E|pre n fn Hpre Hn Hc E|pre p fn Hpre Hx Hc E]; subst d f.
  - reflexivity.
  - assert (Hf : (if negb (String.eqb fn "") then fn else "") = fn) by (destruct (String.eqb_spec fn ""); cbn [negb]; congruence).
    destruct Hpre as [<-|[<-|[<-|[]]]].
    + cbn [append] in *. destruct (digits l) as [|c q] eqn:Eq; [destruct l; [congruence|discriminate]|].
      pose proof (digits_head l c q Hd Eq) as Hc.
      assert (Es : String.eqb (String c q ++ optional fn) "*" = false).
      { apply String.eqb_neq. intros E'. cbn [append] in E'. injection E' as E' _. subst c. cbn in Hc. lia. }
      rewrite Es. rewrite <- Eq. rewrite cut_opt by (apply digits_colon; exact Hd).
      assert (Hno : forall w ww, 57 < nat_of_ascii w -> String.eqb (digits l) (String w ww) = false).
      { intros w ww Hw. apply String.eqb_neq. rewrite Eq. intros E'. injection E' as -> _. lia. }
      rewrite !Hno by (cbn; lia). cbn [orb]. rewrite parse_digits by assumption. rewrite Hf. reflexivity.
    + cbn [append]. cbn. rewrite cut_opt by (apply digits_colon; exact Hd). rewrite parse_digits by assumption. rewrite Hf. reflexivity.
    + cbn [append]. cbn. rewrite cut_opt by (apply digits_colon; exact Hd). rewrite parse_digits by assumption. rewrite Hf. reflexivity.
  - cbn. rewrite cut_opt by (apply digits_colon; exact Hd). rewrite parse_digits by assumption. reflexivity.
  - apply String.eqb_neq in Ht. destruct Hpre as [<-|[<-|[]]]; cbn; rewrite cut_opt by exact Hc; rewrite Ht; reflexivity.
  - apply String.eqb_neq in Hn. destruct Hpre as [<-|[<-|[]]]; cbn; rewrite cut_opt by exact Hc; rewrite Hn; reflexivity.
  - destruct Hpre as [<-|[<-|[]]]; cbn; rewrite cut_opt by exact Hc; rewrite Hx; reflexivity.
Qed.

(** modes *)
Lemma known_iff m : known_mode m = true <-> m = "entry" \/ m = "exit".
Proof. unfold known_mode, entry_mode, exit_mode. rewrite orb_true_iff, !String.eqb_eq. reflexivity. Qed.
Lemma has_mode_iff x m : has_mode x m = true <-> In x m.
Proof. unfold has_mode. rewrite existsb_exists. split; [intros (y & Hy & E); apply String.eqb_eq in E; subst; exact Hy|intros H; exists x; split; [exact H|apply String.eqb_refl]]. Qed.
Lemma check_mode_iff m : check_mode m = true <-> (forall x, In x m -> x = "entry" \/ x = "exit") /\ (List.length m = 1 \/ List.length m = 2).
Proof.
  destruct m as [|a [|b [|c m]]]; cbn [check_mode].
  - split; [discriminate|]. intros [_ [H|H]]; discriminate.
  - rewrite known_iff. split; [intros H; split; [intros x [<-|[]]; exact H|left; reflexivity]|intros [H _]; apply H; left; reflexivity].
  - rewrite andb_true_iff, !known_iff. split; [intros [H1 H2]; split; [intros x [<-|[<-|[]]]; assumption|right; reflexivity]|intros [H _]; split; apply H; cbn; tauto].
  - split; [discriminate|]. intros [_ [H|H]]; discriminate.
Qed.
Theorem parse_modes_iff c m : parse_modes c = Some m <-> m = default_modes c /\ acceptable c m.
Proof.
  unfold parse_modes. cbv zeta. set (d := default_modes c).
  assert (K : forall m, m = d -> (check_mode d && check_multi_exit c d && negb (c_depth c =? 0)%N && (c_depth c <=? 500)%N && check_fgraph_multi c = true <-> acceptable c m)).
  { intros m' ->. rewrite !andb_true_iff. unfold acceptable. rewrite check_mode_iff. rewrite negb_true_iff, N.eqb_neq, N.leb_le.
    unfold check_fgraph_multi. rewrite !andb_true_iff. rewrite !forallb_forall. unfold is_multi.
    split.
    - intros [[[[[H1 H2] H3] H4] H5] [[[H6 H7] H8] H9]]. split; [exact H1|]. split; [exact H2|]. split; [lia|]. split; [|split].
      + intros (k & Hk & Hm) Hne. unfold check_multi_exit, is_multi in H3. rewrite !orb_true_iff in H3. rewrite !negb_true_iff in H3.
        destruct H3 as [[[H3|H3]|H3]|H3].
        * exfalso. assert (Hx : existsb (fun k => contains "(m)" k) (c_kfuncs c) = true) by (apply existsb_exists; exists k; split; assumption). rewrite Hx in H3. discriminate.
        * exfalso. assert (He : In "exit" d).
          { destruct H2 as [H2|H2]; destruct d as [|a [|b l]]; try discriminate H2; destruct (H1 a (or_introl eq_refl)) as [->| ->]; try (left; reflexivity); exfalso; apply Hne; left; reflexivity. }
          apply (has_mode_iff "exit") in He. unfold exit_mode in H3. congruence.
        * exfalso. apply Hne. apply has_mode_iff. exact H3.
        * rewrite !orb_false_iff in H3. tauto.
      + intros k Hk. rewrite !in_app_iff in Hk. destruct Hk as [Hk|[Hk|Hk]]; [specialize (H7 k Hk)|specialize (H8 k Hk)|specialize (H9 k Hk)]; apply negb_true_iff; assumption.
      + intros k Hk Hm. specialize (H6 k Hk). rewrite Hm in H6. cbn [andb] in H6. apply negb_true_iff. exact H6.
    - intros (H1 & H2 & H3 & H4 & H5 & H6). split; [split; [split; [split|]|]|]; try lia.
      + split; assumption.
      + unfold check_multi_exit, is_multi. rewrite !orb_true_iff, !negb_true_iff.
        destruct (existsb (contains "(m)") (c_kfuncs c)) eqn:E; [|tauto]. apply existsb_exists in E.
        destruct (has_mode entry_mode d) eqn:E2; [tauto|]. right. assert (Hne : ~ In "entry" d) by (intros Hi; apply has_mode_iff in Hi; unfold entry_mode in E2; congruence).
        destruct (H4 E Hne) as (A1 & A2 & A3 & A4). rewrite A1, A2, A3, A4. reflexivity.
      + split; [split; [split|]|]; intros k Hk; try (apply negb_true_iff; apply H5; rewrite !in_app_iff; tauto).
        destruct (contains "(m)" k) eqn:E; [|reflexivity]. rewrite (H6 k Hk E). reflexivity. }
  destruct (check_mode d && check_multi_exit c d && negb (c_depth c =? 0)%N && (c_depth c <=? 500)%N && check_fgraph_multi c) eqn:E.
  - split; [intros H; injection H as <-; split; [reflexivity|apply K; [reflexivity|exact eq_refl]]|intros [-> _]; reflexivity].
  - split; [discriminate|]. intros [-> H]. apply K in H; [discriminate|reflexivity].
Qed.
(** (m) in the text and multi mode *)
Lemma contains_tok t s : contains "(m)" (text t ++ s) = kind_eqb (kind_of t) Km || contains "(m)" s.
Proof. destruct t as [[]|[] [] []]; reflexivity. Qed.
Lemma contains_texts ts s : contains "(m)" (texts ts ++ s) = asked Km ts || contains "(m)" s.
Proof. induction ts as [|t ts IH]; [reflexivity|]. cbn [texts asked existsb]. rewrite app_assoc_s, contains_tok, IH, orb_assoc. reflexivity. Qed.
