(** * Proofs about source-line look-ups *)
From Coq Require Import List Bool String ZArith Lia.
From Verif Require Import M_Go P_Go M_Kallsyms P_Kallsyms M_Cache M_A2l S_A2l.
Import ListNotations.
Open Scope Z_scope.

Lemma eff_linked k a : kaslr_ok k -> effective_addr k a = linked_at k a.
Proof.
  intros [H1 H2]. destruct (kaslr_offset_mod k H1 H2 a) as [E _]. rewrite E. unfold linked_at, u64. change W64 with (2 ^ 64). f_equal. lia.
Qed.
Definition kmods_ok (b : boot) (km : list (string * (option dwarf * kaslr))) : Prop :=
  forall m r, aget String.eqb m km = Some r -> match b_mods b m with MFound d k => r = (d, k) | MMissing => fst r = None | MError => False end.
Definition good (b : boot) (sym : Z -> option string) (s : st) : Prop := of_this_boot b sym (t_cache s) /\ kmods_ok b (t_kmods s).

Lemma get_mod_ok b s sy r s1 : boot_ok b -> kmods_ok b (t_kmods s) -> get_mod b s sy = (r, s1) ->
  t_cache s1 = t_cache s /\ t_cnt s1 = t_cnt s /\ kmods_ok b (t_kmods s1) /\
  match r with
  | Some (Some d, k) => forall a, d (effective_addr k a) = true_line b sy a
  | Some (None, _) => forall a, true_line b sy a = None
  | None => (forall a, true_line b sy a = None) /\ sy <> None
  end.
Proof.
  intros [Hk Hm] HK H. unfold get_mod in H. destruct sy as [m|].
  2:{ injection H as <- <-. repeat split; auto. intros a. rewrite eff_linked by exact Hk. reflexivity. }
  unfold true_line. destruct (is_builtin_mod m) eqn:Eb.
  { injection H as <- <-. repeat split; auto. intros a. rewrite eff_linked by exact Hk. reflexivity. }
  destruct (aget String.eqb m (t_kmods s)) as [r0|] eqn:Ea.
  - injection H as <- <-. repeat split; auto. specialize (HK m r0 Ea). destruct (b_mods b m) as [d k| |] eqn:Em; [|destruct r0 as [d k]; cbn in HK; subst d; auto|destruct HK].
    subst r0. destruct d as [d|]; [|auto]. intros a. rewrite eff_linked by (eapply Hm; exact Em). reflexivity.
  - assert (HA : forall x, match b_mods b m with MFound d k => x = (d, k) | MMissing => fst x = None | MError => False end -> kmods_ok b (aput String.eqb m x (t_kmods s))).
    { intros x Hx m' r' Hr. rewrite (aget_aput _ Seqb_ok) in Hr. destruct (String.eqb_spec m' m) as [E|E].
      - injection Hr as <-. subst m'. exact Hx.
      - exact (HK m' r' Hr). }
    destruct (b_mods b m) as [d k| |] eqn:Em; injection H as <- <-; cbn [t_cache t_cnt t_kmods].
    + repeat split; auto. destruct d as [d|]; [|auto]. intros a. rewrite eff_linked by (eapply Hm; exact Em). reflexivity.
    + repeat split; auto.
    + repeat split; auto. discriminate.
Qed.
Lemma get_ok b sym ok s a r s' : boot_ok b -> good b sym s -> get b ok s a (sym a) = (r, s') ->
  good b sym s' /\ (forall l, r = ALine l -> true_line b (sym a) a = Some l) /\
  (forall l, true_line b (sym a) a = Some l -> sym a <> None -> ok = true -> r = ALine l) /\
  (r = APanic -> sym a = None /\ true_line b (sym a) a <> None).
Proof.
  intros Hb [Hc HK] H. unfold get in H. destruct (aget Z.eqb a (t_cache s)) as [l|] eqn:Ea.
  { injection H as <- <-. split; [split; assumption|]. split; [intros l' E; injection E as <-; exact (Hc a l Ea)|].
    split; [intros l' E _ _; rewrite (Hc a l Ea) in E; congruence|discriminate]. }
  destruct (get_mod b s (sym a)) as [q s1] eqn:Eg. destruct (get_mod_ok b s (sym a) q s1 Hb HK Eg) as (C1 & C2 & C3 & Hq).
  assert (G1 : good b sym s1) by (split; [rewrite C1; exact Hc|exact C3]).
  destruct q as [[[d|] k]|].
  - rewrite (Hq a) in H. destruct (true_line b (sym a) a) as [l|] eqn:Et.
    + destruct (sym a) as [m|] eqn:Es.
      * destruct (String.eqb m "bpf").
        { injection H as <- <-. split; [exact G1|]. split; [congruence|]. split; [congruence|discriminate]. }
        destruct (add (t_cache s1) (t_cnt s1) a l) as [[c n] sv] eqn:Ead. unfold add in Ead. rewrite C1, Ea in Ead. injection Ead as <- <- <-.
        assert (G2 : good b sym {| t_cache := aput Z.eqb a l (t_cache s); t_cnt := t_cnt s1 + 1; t_kmods := t_kmods s1 |}).
        { split; [|exact C3]. cbn [t_cache]. intros x y Hx. rewrite (aget_aput _ Zeqb_ok) in Hx. destruct (Z.eqb_spec x a) as [E|E]; [|exact (Hc x y Hx)].
          injection Hx as <-. subst x. rewrite Es. exact Et. }
        destruct ((Z.rem (t_cnt s1 + 1) 30 =? 0) && negb ok) eqn:Ef; injection H as <- <-.
        -- split; [exact G2|]. split; [discriminate|]. split; [|discriminate]. intros l' _ _ ->. rewrite andb_false_r in Ef. discriminate.
        -- split; [exact G2|]. split; [congruence|]. split; [congruence|discriminate].
      * injection H as <- <-. split; [exact G1|]. split; [discriminate|]. split; [intros l' _ E; congruence|]. intros _. split; [reflexivity|discriminate].
    + injection H as <- <-. split; [exact G1|]. split; [discriminate|]. split; [discriminate|discriminate].
  - injection H as <- <-. split; [exact G1|]. split; [discriminate|]. split; [intros l E; rewrite (Hq a) in E; discriminate|discriminate].
  - destruct Hq as [Hq Hs]. destruct (sym a) as [m|] eqn:Es; [|congruence]. injection H as <- <-. split; [exact G1|]. split; [discriminate|].
    split; [intros l E; rewrite (Hq a) in E; discriminate|discriminate].
Qed.
Definition asked (sym : Z -> option string) (l : list (Z * bool)) : list (Z * option string * bool) := map (fun q => (fst q, sym (fst q), snd q)) l.
Lemma gets_ok b sym l : boot_ok b -> forall s rs s', good b sym s -> gets b s (asked sym l) = (rs, s') ->
  good b sym s' /\ List.length rs = List.length l /\
  forall i a ok r, nth_error l i = Some (a, ok) -> nth_error rs i = Some r ->
    (forall v, r = ALine v -> true_line b (sym a) a = Some v) /\
    (forall v, true_line b (sym a) a = Some v -> sym a <> None -> ok = true -> r = ALine v) /\
    (r = APanic -> sym a = None /\ true_line b (sym a) a <> None).
Proof.
  intros Hb. induction l as [|[a ok] l IH]; intros s rs s' HG H; cbn [asked map gets fst snd] in H.
  - injection H as <- <-. split; [exact HG|]. split; [reflexivity|]. intros [|i] a ok r Hi; discriminate.
  - destruct (get b ok s a (sym a)) as [r s1] eqn:Eg. fold (asked sym l) in H. destruct (gets b s1 (asked sym l)) as [rs1 s2] eqn:Er. injection H as <- <-.
    destruct (get_ok b sym ok s a r s1 Hb HG Eg) as (G1 & A & B & C). destruct (IH s1 rs1 s2 G1 Er) as (G2 & Hl & Hi).
    split; [exact G2|]. split; [cbn; congruence|]. intros [|i] a' ok' r' H1 H2; cbn in H1, H2; [|exact (Hi i a' ok' r' H1 H2)].
    injection H1 as <- <-. injection H2 as <-. auto.
Qed.

Lemma get_mod_keep b s sym q s' m : get_mod b s sym = (q, s') -> aget String.eqb m (t_kmods s) <> None -> aget String.eqb m (t_kmods s') <> None.
Proof.
  unfold get_mod. destruct sym as [m'|]; [|intros H; injection H as _ <-; auto]. destruct (is_builtin_mod m'); [intros H; injection H as _ <-; auto|].
  destruct (aget String.eqb m' (t_kmods s)); [intros H; injection H as _ <-; auto|].
  destruct (b_mods b m'); intros H; injection H as _ <-; cbn [t_kmods]; auto; rewrite (aget_aput String.eqb Seqb_ok); destruct (String.eqb m m'); auto; discriminate.
Qed.
Lemma get_keep b ok s a sym r s' m : get b ok s a sym = (r, s') -> aget String.eqb m (t_kmods s) <> None -> aget String.eqb m (t_kmods s') <> None.
Proof.
  unfold get. intros H Hm. destruct (aget Z.eqb a (t_cache s)); [injection H as _ <-; exact Hm|].
  destruct (get_mod b s sym) as [q s1] eqn:E. pose proof (get_mod_keep _ _ _ _ _ _ E Hm) as H1.
  destruct q as [[[d|] k]|]; [|injection H as _ <-; exact H1|injection H as _ <-; exact H1].
  destruct (d (effective_addr k a)); [|injection H as _ <-; exact H1]. destruct sym as [x|]; [|injection H as _ <-; exact H1].
  destruct (String.eqb x "bpf"); [injection H as _ <-; exact H1|].
  destruct (add (t_cache s1) (t_cnt s1) a z) as [[c n] sv]. destruct (sv && negb ok); injection H as _ <-; exact H1.
Qed.
Lemma get_mod_same b1 b2 m s sym : b_vmlinux b1 = b_vmlinux b2 -> b_kaslr b1 = b_kaslr b2 -> (forall m', m' <> m -> b_mods b1 m' = b_mods b2 m') ->
  aget String.eqb m (t_kmods s) <> None -> get_mod b2 s sym = get_mod b1 s sym.
Proof.
  intros Hv Hk Ho Hm. unfold get_mod. rewrite Hv, Hk. destruct sym as [m'|]; [|reflexivity]. destruct (is_builtin_mod m'); [reflexivity|].
  destruct (aget String.eqb m' (t_kmods s)) eqn:E; [reflexivity|]. rewrite Ho; [reflexivity|]. intros ->. congruence.
Qed.
Lemma gets_same b1 b2 m : b_vmlinux b1 = b_vmlinux b2 -> b_kaslr b1 = b_kaslr b2 -> (forall m', m' <> m -> b_mods b1 m' = b_mods b2 m') ->
  forall l s, aget String.eqb m (t_kmods s) <> None -> gets b2 s l = gets b1 s l.
Proof.
  intros Hv Hk Ho. induction l as [|[[a sym] ok] l IH]; intros s Hm; [reflexivity|]. cbn [gets].
  assert (E : get b2 ok s a sym = get b1 ok s a sym) by (unfold get; rewrite (get_mod_same b1 b2 m); auto). rewrite E.
  destruct (get b1 ok s a sym) as [r s1] eqn:E1. rewrite (IH s1) by (eapply get_keep; eassumption). reflexivity.
Qed.
Lemma read_once b1 b2 m s a ok r s' l : get b1 ok s a (Some m) = (r, s') -> aget Z.eqb a (t_cache s) = None ->
  is_builtin_mod m = false -> b_mods b1 m <> MError ->
  b_vmlinux b1 = b_vmlinux b2 -> b_kaslr b1 = b_kaslr b2 -> (forall m', m' <> m -> b_mods b1 m' = b_mods b2 m') ->
  gets b2 s' l = gets b1 s' l.
Proof.
  intros Hg Hc Hb He Hv Hk Ho. apply (gets_same b1 b2 m); auto.
  unfold get in Hg. rewrite Hc in Hg. destruct (get_mod b1 s (Some m)) as [q s1] eqn:E.
  assert (H1 : aget String.eqb m (t_kmods s1) <> None).
  { unfold get_mod in E. rewrite Hb in E. destruct (aget String.eqb m (t_kmods s)) eqn:Em; [injection E as _ <-; congruence|].
    destruct (b_mods b1 m); [| |congruence]; injection E as _ <-; cbn [t_kmods]; rewrite (aget_aput String.eqb Seqb_ok), String.eqb_refl; discriminate. }
  destruct q as [[[d|] k]|]; [|injection Hg as _ <-; exact H1|injection Hg as _ <-; exact H1].
  destruct (d (effective_addr k a)); [|injection Hg as _ <-; exact H1].
  destruct (String.eqb m "bpf"); [injection Hg as _ <-; exact H1|].
  destruct (add (t_cache s1) (t_cnt s1) a z) as [[c n] sv]. destruct (sv && negb ok); injection Hg as _ <-; exact H1.
Qed.
