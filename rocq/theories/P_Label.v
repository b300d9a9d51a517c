From Coq Require Import ZArith List Bool String Ascii Lia Permutation.
From Verif Require Import M_Go P_Go M_Kallsyms S_Kallsyms P_Kallsyms M_Label S_Label.
Import ListNotations.
Open Scope Z_scope.

Lemma xdigit_value d : 0 <= d < 16 -> digit_value (xdigit d) = d.
Proof.
  intros H. assert (Hd : In d [0;1;2;3;4;5;6;7;8;9;10;11;12;13;14;15]).
  { cbn [In]. lia. }
  cbn [In] in Hd. repeat (destruct Hd as [<-|Hd]; [reflexivity|]). destruct Hd.
Qed.
Lemma hex_go_value : forall fuel v acc, 0 <= v < 16 ^ Z.of_nat fuel -> (fuel <> 0)%nat ->
  forall a, exists b, hex_value (hex_go fuel v acc) a = hex_value acc b /\ (a = 0 -> b = v).
Proof.
  induction fuel as [|k IH]; intros v acc Hv Hk a; [congruence|]. cbn [hex_go]. destruct (Z.ltb_spec v 16) as [Hl|Hl].
  - cbn [hex_value]. rewrite xdigit_value by lia. eexists. split; [reflexivity|]. intros ->. lia.
  - rewrite Nat2Z.inj_succ, Z.pow_succ_r in Hv by lia.
    assert (Hk' : (k <> 0)%nat). { intros ->. cbn in Hv. lia. }
    assert (Hd : 0 <= v / 16 < 16 ^ Z.of_nat k). { split; [apply Z.div_pos; lia|apply Z.div_lt_upper_bound; lia]. }
    destruct (IH (v / 16) (String (xdigit (v mod 16)) acc) Hd Hk' a) as (b & E & Hb). rewrite E. cbn [hex_value].
    rewrite xdigit_value by (apply Z.mod_pos_bound; lia). eexists. split; [reflexivity|]. intros ->. rewrite (Hb eq_refl).
    pose proof (Z.div_mod v 16 ltac:(lia)). lia.
Qed.
Lemma fmt_x_value v : 0 <= v < 2 ^ 64 -> hex_value (fmt_x v) 0 = v.
Proof.
  intros H. destruct (hex_go_value 16 v EmptyString ltac:(change (16 ^ Z.of_nat 16) with (2 ^ 64); exact H) ltac:(discriminate) 0) as (b & E & Hb).
  unfold fmt_x. rewrite E. exact (Hb eq_refl).
Qed.

Section P.
  Context {A : Type}.
  Implicit Types (kf : list (Z * kfn A)).
  Lemma draw_ok kf rs id rs' : draw kf rs = Some (id, rs') -> free id kf.
  Proof.
    revert id rs'. induction rs as [|r rs IH]; intros id rs' H; [discriminate|]. cbn [draw] in H.
    destruct (aget Z.eqb r kf) eqn:E; [exact (IH _ _ H)|]. injection H as <- <-. exact (proj1 (aget_None _ Zeqb_ok r kf) E).
  Qed.
  (** The table after merging: the old entries, and each tracepoint under its number *)
  Lemma merge_ok : forall tps kf rs k' ids, NoDup (keys kf) -> merge_tps tps kf rs = Some (k', ids) ->
    map snd ids = tps /\ NoDup (map fst ids) /\ NoDup (keys k') /\
    (forall a, In a (map fst ids) -> free a kf) /\
    (forall a f, aget Z.eqb a kf = Some f -> aget Z.eqb a k' = Some f) /\
    (forall a f, In (a, f) ids -> aget Z.eqb a k' = Some f) /\
    (forall a f, aget Z.eqb a k' = Some f -> aget Z.eqb a kf = Some f \/ In (a, f) ids).
  Proof.
    induction tps as [|tp tps IH]; intros kf rs k' ids Hn H; cbn [merge_tps] in H.
    - injection H as <- <-. cbn. repeat split; auto; try constructor; try contradiction.
    - destruct (draw kf rs) as [[id rs']|] eqn:D; [|discriminate].
      destruct (merge_tps tps (aput Z.eqb id tp kf) rs') as [[k2 ids2]|] eqn:M; [|discriminate]. injection H as <- <-.
      pose proof (draw_ok _ _ _ _ D) as Hf.
      destruct (IH _ _ _ _ (NoDup_aput _ Zeqb_ok id tp kf Hn) M) as (E1 & E2 & E3 & E4 & E5 & E6 & E7).
      assert (Hni : ~ In id (map fst ids2)).
      { intros C. apply (E4 id C). change (map fst (aput Z.eqb id tp kf)) with (keys (aput Z.eqb id tp kf)). rewrite (keys_aput _ Zeqb_ok). left. reflexivity. }
      cbn [map fst snd]. split; [rewrite E1; reflexivity|]. split; [constructor; assumption|]. split; [exact E3|].
      split.
      { intros a [<-|Ha]; [exact Hf|]. intros C. apply (E4 a Ha). change (map fst (aput Z.eqb id tp kf)) with (keys (aput Z.eqb id tp kf)).
        rewrite (keys_aput _ Zeqb_ok). right. exact C. }
      split.
      { intros a f Ha. apply E5. rewrite (aget_aput _ Zeqb_ok). destruct (Z.eqb_spec a id) as [->|]; [|exact Ha].
        exfalso. apply Hf. apply (aget_In _ Zeqb_ok) in Ha. exact (in_map fst _ _ Ha). }
      split.
      { intros a f [E|Ha]; [|exact (E6 a f Ha)]. injection E as <- <-. apply E5. rewrite (aget_aput _ Zeqb_ok), Z.eqb_refl. reflexivity. }
      intros a f Ha. destruct (E7 a f Ha) as [Hx|Hx]; [|right; right; exact Hx]. rewrite (aget_aput _ Zeqb_ok) in Hx.
      destruct (Z.eqb_spec a id) as [->|]; [injection Hx as <-; right; left; reflexivity|left; exact Hx].
  Qed.
  (** Merging ends as soon as enough fresh numbers are drawn *)
  Lemma merge_ends : forall tps kf rs, NoDup rs -> (forall r, In r rs -> free r kf) -> (List.length tps <= List.length rs)%nat ->
    exists k' ids, merge_tps tps kf rs = Some (k', ids).
  Proof.
    induction tps as [|tp tps IH]; intros kf rs Hn Hf Hl; [exists kf, []; reflexivity|]. destruct rs as [|r rs]; [cbn in Hl; lia|].
    cbn [merge_tps draw]. rewrite (proj2 (aget_None _ Zeqb_ok r kf) (Hf r (or_introl eq_refl))).
    inversion Hn as [|? ? Hr Hn2]; subst. destruct (IH (aput Z.eqb r tp kf) rs Hn2) as (k' & ids & E).
    - intros x Hx C. apply (keys_aput _ Zeqb_ok) in C. destruct C as [<-|C]; [contradiction|]. exact (Hf x (or_intror Hx) C).
    - cbn in Hl. lia.
    - rewrite E. eauto.
  Qed.
End P.
Lemma free_none {B} a (m : list (Z * B)) : free a m -> aget Z.eqb a m = None.
Proof. intros H. exact (proj2 (aget_None _ Zeqb_ok a m) H). Qed.
(** The name shown for an address that is the address of a symbol *)
Lemma find_named ls ks a n : new_kallsyms ls = Some ks -> named ls a n -> exists e, ks_find ks a = FSome (Some e) /\ named ls a (kname e).
Proof.
  intros H Hn. destruct (find_in_range ls ks a H) as (e & E & (pre & post & Ets & _) & Hle & Hm).
  - exists (a, n). split; [exact Hn|]. cbn. lia.
  - exists (a, n). split; [exact Hn|]. cbn. lia.
  - exists e. split; [exact E|]. specialize (Hm (a, n) Hn ltac:(cbn; lia)). cbn [fst] in Hm. replace (kaddr e) with a in * by lia.
    unfold named. rewrite Ets. apply in_or_app. right. left. reflexivity.
Qed.
Lemma append_inj_r s t u : append s u = append t u -> s = t.
Proof.
  revert t. induction s as [|c s IH]; intros [|d t] H; cbn in H.
  - reflexivity.
  - exfalso. assert (L : String.length u = String.length (String d (append t u))) by (rewrite <- H; reflexivity). cbn in L.
    assert (forall x y, String.length (append x y) = String.length x + String.length y)%nat as Hl.
    { induction x; intros; cbn; [reflexivity|]. rewrite IHx. reflexivity. } rewrite Hl in L. lia.
  - exfalso. assert (L : String.length (String c (append s u)) = String.length u) by (rewrite H; reflexivity). cbn in L.
    assert (forall x y, String.length (append x y) = String.length x + String.length y)%nat as Hl.
    { induction x; intros; cbn; [reflexivity|]. rewrite IHx. reflexivity. } rewrite Hl in L. lia.
  - injection H as -> H. rewrite (IH t H). reflexivity.
Qed.
Lemma header_inj e1 t1 n1 e2 t2 n2 : (forall e t, (e, t) = (e1, t1) \/ (e, t) = (e2, t2) -> e = true -> t = false) ->
  header e1 t1 n1 = header e2 t2 n2 -> e1 = e2 /\ t1 = t2 /\ n1 = n2.
Proof.
  intros Hx H. unfold header in H. apply append_inj_r in H.
  pose proof (Hx e1 t1 (or_introl eq_refl)) as X1. pose proof (Hx e2 t2 (or_intror eq_refl)) as X2.
  destruct e1, t1, e2, t2; cbn in H; try (specialize (X1 eq_refl); discriminate); try (specialize (X2 eq_refl); discriminate); try discriminate;
  injection H as ->; auto.
Qed.
