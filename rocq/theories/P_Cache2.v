(** * Proofs about one process's cache, and the concrete codec of the witnesses *)
From Coq Require Import List Bool ZArith Lia.
From Verif Require Import M_Go P_Go M_Cache S_Cache.
Import ListNotations.
Open Scope Z_scope.

Lemma aput_new a (e : Z) c : aget Z.eqb a c = None -> aput Z.eqb a e c = c ++ [(a, e)].
Proof.
  induction c as [|[k v] c IH]; cbn [aget aput app]; [reflexivity|]. destruct (a =? k); [discriminate|]. intros H. rewrite IH by exact H. reflexivity.
Qed.
Lemma adds_ok l : forall c cnt saved tl, 0 <= cnt -> c = saved ++ tl -> Z.of_nat (List.length tl) = cnt mod 30 ->
  exists c' cnt' saved' tl' new, adds c cnt saved l = (c', cnt', saved') /\ c' = saved' ++ tl' /\ Z.of_nat (List.length tl') = cnt' mod 30 /\ c' = c ++ new /\
    cnt' = cnt + Z.of_nat (List.length new) /\ (exists more, saved' = saved ++ more).
Proof.
  induction l as [|[a e] l IH]; intros c cnt saved tl Hc E Hl; cbn [adds].
  - exists c, cnt, saved, tl, []. rewrite !app_nil_r. cbn [List.length]. repeat split; try assumption; try lia. exists []. rewrite app_nil_r. reflexivity.
  - unfold add. destruct (aget Z.eqb a c) as [v|] eqn:Ea.
    + cbn. apply (IH c cnt saved tl); assumption.
    + rewrite (aput_new a e c Ea). assert (Hm : Z.rem (cnt + 1) 30 = (cnt + 1) mod 30) by (apply Z.rem_mod_nonneg; lia). rewrite Hm.
      destruct (Z.eqb_spec ((cnt + 1) mod 30) 0) as [E0|E0]; cbn.
      * destruct (IH (c ++ [(a, e)]) (cnt + 1) (c ++ [(a, e)]) [] ltac:(lia) ltac:(rewrite app_nil_r; reflexivity) ltac:(cbn; lia)) as (c' & n' & s' & t' & nw & A & B & C & D & F & (m & G)).
        exists c', n', s', t', ((a, e) :: nw). split; [exact A|]. split; [exact B|]. split; [exact C|]. split; [rewrite D, <- app_assoc; reflexivity|].
        split; [rewrite F; cbn [List.length]; lia|]. exists (tl ++ [(a, e)] ++ m). rewrite G, E, <- !app_assoc. reflexivity.
      * destruct (IH (c ++ [(a, e)]) (cnt + 1) saved (tl ++ [(a, e)]) ltac:(lia) ltac:(rewrite E, app_assoc; reflexivity)) as (c' & n' & s' & t' & nw & A & B & C & D & F & G).
        { rewrite app_length. cbn [List.length]. rewrite Nat2Z.inj_add, Hl. cbn. pose proof (Z.mod_pos_bound cnt 30 ltac:(lia)) as Hb.
          pose proof (Z.div_mod cnt 30 ltac:(lia)) as Hd. assert (cnt mod 30 <> 29).
          { intros E29. apply E0. replace (cnt + 1) with ((cnt / 30 + 1) * 30) by lia. apply Z.mod_mul. lia. }
          replace (cnt + 1) with (cnt mod 30 + 1 + (cnt / 30) * 30) by lia. rewrite Z.mod_add by lia. rewrite (Z.mod_small (cnt mod 30 + 1)) by lia. reflexivity. }
        exists c', n', s', t', ((a, e) :: nw). split; [exact A|]. split; [exact B|]. split; [exact C|]. split; [rewrite D, <- app_assoc; reflexivity|].
        split; [rewrite F; cbn [List.length]; lia|exact G].
Qed.
Lemma aget_app a (c d : cache) v : aget Z.eqb a c = Some v -> aget Z.eqb a (c ++ d) = Some v.
Proof. induction c as [|[k w] c IH]; cbn [aget app]; [discriminate|]. destruct (a =? k); auto. Qed.
Lemma aget_snoc a e (c : cache) : aget Z.eqb a c = None -> aget Z.eqb a (c ++ [(a, e)]) = Some e.
Proof. induction c as [|[k w] c IH]; cbn [aget app]; [rewrite Z.eqb_refl; reflexivity|]. destruct (a =? k); [discriminate|auto]. Qed.
(** every address looked up is known afterwards, with the first line information found for it *)
Lemma adds_get l : forall c cnt saved c' cnt' saved', adds c cnt saved l = (c', cnt', saved') ->
  forall a, aget Z.eqb a c' = match aget Z.eqb a c with Some v => Some v | None => aget Z.eqb a l end.
Proof.
  induction l as [|[k e] l IH]; intros c cnt saved c' cnt' saved' H a; cbn [adds] in H.
  - injection H as <- _ _. cbn. destruct (aget Z.eqb a c); reflexivity.
  - unfold add in H. destruct (aget Z.eqb k c) as [v|] eqn:Ek; cbn in H.
    + rewrite (IH _ _ _ _ _ _ H a). destruct (aget Z.eqb a c) as [w|] eqn:Ea; [reflexivity|]. cbn [aget]. destruct (Z.eqb_spec a k); [congruence|reflexivity].
    + rewrite (IH _ _ _ _ _ _ H a), (aput_new k e c Ek). destruct (aget Z.eqb a c) as [w|] eqn:Ea.
      * rewrite (aget_app _ _ _ _ Ea). reflexivity.
      * cbn [aget]. destruct (Z.eqb_spec a k) as [E|E].
        -- subst k. rewrite (aget_snoc a e c Ea). reflexivity.
        -- assert (En : aget Z.eqb a (c ++ [(k, e)]) = None); [|rewrite En; reflexivity]. clear - Ea E. induction c as [|[x w] c IH]; cbn [aget app] in *.
           ++ destruct (Z.eqb_spec a k); [congruence|reflexivity].
           ++ destruct (a =? x); [discriminate|auto].
Qed.

(** a codec for the witnesses: the number of entries, then the entries *)
Definition enc0 (c : cache) : list Z := Z.of_nat (List.length c) :: flat_map (fun kv => [fst kv; snd kv]) c.
Fixpoint pairs (l : list Z) : cache := match l with a :: b :: l' => (a, b) :: pairs l' | _ => [] end.
Definition dec0 (l : list Z) : option cache :=
  match l with n :: r => if (Z.of_nat (List.length r) =? 2 * n) then Some (pairs r) else None | [] => None end.
Lemma codec0 c : dec0 (enc0 c) = Some c.
Proof.
  unfold dec0, enc0. assert (E : Z.of_nat (List.length (flat_map (fun kv : Z * Z => [fst kv; snd kv]) c)) = 2 * Z.of_nat (List.length c)).
  { induction c as [|x c IH]; [reflexivity|]. cbn [flat_map List.length app]. rewrite !Nat2Z.inj_succ, IH. lia. }
  rewrite E, Z.eqb_refl. f_equal. clear E. induction c as [|[a b] c IH]; [reflexivity|]. cbn. rewrite IH. reflexivity.
Qed.
