From Coq Require Import ZArith List Bool String Lia Sorting.Permutation Sorting.Sorted.
From Verif Require Import M_Go P_Go M_Kallsyms S_Kallsyms.
Import ListNotations.
Open Scope Z_scope.

(** ** binary search *)
Lemma index_loop_spec l addr :
  StronglySorted Z.lt l ->
  forall fuel i j, (j - i <= fuel)%nat -> (i <= j)%nat -> (j <= List.length l)%nat ->
  (0 < List.length l)%nat -> nth 0 l 0 <= addr ->
  (forall k, (k < i)%nat -> nth k l 0 <= addr) ->
  (forall k, (j <= k < List.length l)%nat -> addr < nth k l 0) ->
  let r := index_loop fuel l addr i j in
  (r < List.length l)%nat /\ nth r l 0 <= addr /\
  (forall k, (k < List.length l)%nat -> nth k l 0 <= addr -> (k <= r)%nat).
Proof.
  intros Hs. induction fuel as [|f IH]; intros i j Hf Hij Hj Hl H0 Hlo Hhi.
  - cbn. assert (i = j) by lia. subst j.
    assert (0 < i)%nat. { destruct i; [|lia]. specialize (Hhi 0%nat ltac:(lia)). lia. }
    split; [lia|]. split; [apply Hlo; lia|].
    intros k Hk Hk'. destruct (Nat.leb_spec i k); [|lia]. specialize (Hhi k ltac:(lia)). lia.
  - cbn [index_loop]. destruct (Nat.ltb_spec i j).
    2:{ assert (i = j) by lia. subst j.
        assert (0 < i)%nat. { destruct i; [|lia]. specialize (Hhi 0%nat ltac:(lia)). lia. }
        split; [lia|]. split; [apply Hlo; lia|].
        intros k Hk Hk'. destruct (Nat.leb_spec i k); [|lia]. specialize (Hhi k ltac:(lia)). lia. }
    set (h := ((i + j) / 2)%nat).
    assert (Hh : (i <= h < j)%nat).
    { unfold h. split; [apply Nat.div_le_lower_bound; lia|apply Nat.div_lt_upper_bound; lia]. }
    clearbody h.
    destruct (Z.leb_spec (nth h l 0) addr) as [Ha|Ha].
    + destruct (Nat.ltb_spec (h + 1) (List.length l)) as [Hb|Hb]; cbn [andb].
      * destruct (Z.ltb_spec addr (nth (h + 1) l 0)) as [Hc|Hc].
        -- cbv zeta. split; [lia|]. split; [assumption|]. intros k Hk Hk'.
           destruct (Nat.leb_spec k h); [lia|].
           assert (nth (h + 1) l 0 <= nth k l 0).
           { destruct (Nat.eq_dec k (h+1)); [subst; lia|].
             apply Z.lt_le_incl. apply nth_sorted_lt; [assumption|lia|lia]. }
           lia.
        -- apply IH; try lia; try assumption.
           intros k Hk. destruct (Nat.eq_dec k h); [subst; assumption|].
           transitivity (nth h l 0); [|assumption]. apply Z.lt_le_incl, nth_sorted_lt; [assumption|lia|lia].
      * apply IH; try lia; try assumption.
        intros k Hk. destruct (Nat.eq_dec k h); [subst; assumption|].
        transitivity (nth h l 0); [|assumption]. apply Z.lt_le_incl, nth_sorted_lt; [assumption|lia|lia].
    + apply IH; try lia; try assumption.
      intros k Hk. destruct (Nat.eq_dec k h); [subst; assumption|].
      transitivity (nth h l 0); [assumption|]. apply nth_sorted_lt; [assumption|lia|lia].
Qed.

Lemma last_nth (l : list Z) d : l <> [] -> last l d = nth (List.length l - 1) l d.
Proof.
  induction l as [|a l IH]; [congruence|]. intros _. destruct l as [|b l]; [reflexivity|].
  change (last (a :: b :: l) d) with (last (b :: l) d). rewrite IH by congruence. cbn [List.length].
  replace (S (S (List.length l)) - 1)%nat with (S (List.length l)) by lia.
  replace (S (List.length l) - 1)%nat with (List.length l) by lia. reflexivity.
Qed.

Lemma sorted_last_max l x : StronglySorted Z.lt l -> In x l -> x <= last l 0.
Proof.
  intros Hs Hi. rewrite last_nth by (intros ->; contradiction).
  destruct (In_nth l x 0 Hi) as (n & Hn & <-).
  destruct (Nat.eq_dec n (List.length l - 1)); [subst; lia|].
  apply Z.lt_le_incl, nth_sorted_lt; [assumption|lia|lia].
Qed.
Lemma sorted_hd_min l x a : StronglySorted Z.lt (a :: l) -> In x (a :: l) -> a <= x.
Proof.
  intros Hs Hi. inversion Hs; subst. destruct Hi as [->|Hi]; [lia|].
  rewrite Forall_forall in *. apply Z.lt_le_incl. auto.
Qed.

Lemma ks_index_in l addr :
  StronglySorted Z.lt l -> (exists x, In x l /\ x <= addr) -> (exists x, In x l /\ addr <= x) ->
  exists i, ks_index l addr = ISome i /\ (i < List.length l)%nat /\ nth i l 0 <= addr /\
    forall k, (k < List.length l)%nat -> nth k l 0 <= addr -> (k <= i)%nat.
Proof.
  intros Hs (x & Hx & Hxa) (y & Hy & Hya). destruct l as [|a0 l]; [contradiction|].
  cbn [ks_index].
  pose proof (sorted_hd_min _ _ _ Hs Hx). pose proof (sorted_last_max _ _ Hs Hy).
  destruct (Z.ltb_spec addr a0); [lia|]. destruct (Z.ltb_spec (last (a0 :: l) 0) addr); [lia|].
  cbn [orb]. eexists. split; [reflexivity|].
  apply index_loop_spec; auto; try lia; try (cbn; lia).
Qed.

Lemma ks_index_out l addr :
  StronglySorted Z.lt l -> l <> [] ->
  (forall x, In x l -> addr < x) \/ (forall x, In x l -> x < addr) -> ks_index l addr = INone.
Proof.
  intros Hs Hne H. destruct l as [|a0 l]; [congruence|]. cbn [ks_index].
  destruct H as [H|H].
  - specialize (H a0 (or_introl eq_refl)). destruct (Z.ltb_spec addr a0); [reflexivity|lia].
  - assert (In (last (a0 :: l) 0) (a0 :: l)).
    { rewrite last_nth by congruence. apply nth_In. cbn; lia. }
    specialize (H _ H0). destruct (Z.ltb_spec (last (a0 :: l) 0) addr); [|lia].
    rewrite orb_true_r. reflexivity.
Qed.

(** ** loading *)
Definition sym_of (e : ksym) : Z * string := (kaddr e, kname e).

Record inv (ks : kallsyms) (syms : list (Z * string)) : Prop := {
  i_heap : map sym_of (heap ks) = syms;
  i_dup : forall i e, nth_error (heap ks) i = Some e ->
            (kduped e = true <-> exists j s, j <> i /\ nth_error syms j = Some s /\ snd s = kname e);
  i_extra : forall i e, nth_error (heap ks) i = Some e ->
            (forall j s, (j < i)%nat -> nth_error syms j = Some s -> snd s <> kname e) ->
            kextra e = map fst (filter (fun s => String.eqb (snd s) (kname e)) (skipn (S i) syms));
  i_n2s : forall n, match aget String.eqb n (n2s ks) with
                    | Some p => (exists a, nth_error syms p = Some (a, n)) /\
                                forall j s, (j < p)%nat -> nth_error syms j = Some s -> snd s <> n
                    | None => forall s, In s syms -> snd s <> n
                    end;
  i_a2s : forall a, match aget Z.eqb a (a2s ks) with
                    | Some p => (exists n, nth_error syms p = Some (a, n)) /\
                                forall j s, (p < j)%nat -> nth_error syms j = Some s -> fst s <> a
                    | None => forall s, In s syms -> fst s <> a
                    end;
  i_nd1 : NoDup (keys (n2s ks));
  i_nd2 : NoDup (keys (a2s ks))
}.

Lemma inv_empty : inv ks_empty [].
Proof.
  constructor; cbn; try constructor; intros; try (destruct i; discriminate); try tauto.
Qed.

Lemma nth_error_upd_nth {A} (f : A -> A) l p i :
  nth_error (upd_nth p f l) i = if Nat.eqb i p then option_map f (nth_error l i) else nth_error l i.
Proof.
  revert p i; induction l as [|x l IH]; intros p i; cbn [upd_nth].
  - destruct i; cbn; destruct p; cbn; try reflexivity; destruct (Nat.eqb i p); reflexivity.
  - destruct p as [|p], i as [|i]; cbn [nth_error Nat.eqb option_map]; try reflexivity. apply IH.
Qed.
Lemma upd_nth_map {A B} (g : A -> B) (f : A -> A) l p :
  (forall x, g (f x) = g x) -> map g (upd_nth p f l) = map g l.
Proof.
  intros H. revert p; induction l as [|x l IH]; intros p; cbn; [reflexivity|].
  destruct p; cbn; [rewrite H; reflexivity|rewrite IH; reflexivity].
Qed.
Lemma upd_nth_length {A} (f : A -> A) l p : List.length (upd_nth p f l) = List.length l.
Proof. revert p; induction l as [|x l IH]; intros [|p]; cbn; auto. Qed.

Lemma nth_error_snoc {A} (l : list A) x i y :
  nth_error (l ++ [x]) i = Some y <-> (i < List.length l)%nat /\ nth_error l i = Some y \/ i = List.length l /\ x = y.
Proof.
  destruct (Nat.ltb_spec i (List.length l)) as [H|H].
  - rewrite nth_error_app1 by assumption. split; [auto|]. intros [[_ X]|[X _]]; [assumption|lia].
  - rewrite nth_error_app2 by assumption. split.
    + intros X. right. destruct (i - List.length l)%nat as [|k] eqn:E.
      * cbn in X. injection X as X. split; [lia|assumption].
      * cbn in X. destruct k; discriminate.
    + intros [[X _]|[-> ->]]; [lia|]. rewrite Nat.sub_diag. reflexivity.
Qed.

Lemma aget_Some_In {K V} eqb (H : eqb_ok eqb) (k : K) (v : V) m : aget eqb k m = Some v -> In k (keys m).
Proof. intros X. apply aget_In in X; [|assumption]. apply (in_map fst) in X. exact X. Qed.

Lemma inv_step ks syms a fn fa ft rest ks' :
  inv ks syms ->
  String.eqb ft "t" || String.eqb ft "T" = true -> parse_hex fa = Some a ->
  ks_line ks (fa :: ft :: fn :: rest) = Some ks' -> inv ks' (syms ++ [(a, fn)]).
Proof.
  intros I Ht Hp. cbn [ks_line]. rewrite Ht, Hp. intros [= <-].
  assert (Hlen : List.length (heap ks) = List.length syms).
  { rewrite <- (i_heap _ _ I), map_length. reflexivity. }
  pose proof (i_n2s _ _ I fn) as Hfn.
  set (dup := aget String.eqb fn (n2s ks)) in *.
  set (f := fun x => {| kaddr := kaddr x; kname := kname x; kmod := kmod x;
                        kextra := kextra x ++ [a]; kduped := true |}).
  set (heap' := match dup with Some p => upd_nth p f (heap ks) | None => heap ks end).
  assert (Hh' : map sym_of heap' = syms).
  { unfold heap'. destruct dup; [|apply (i_heap _ _ I)].
    rewrite upd_nth_map; [apply (i_heap _ _ I)|]. reflexivity. }
  assert (Hl' : List.length heap' = List.length syms) by (rewrite <- Hh', map_length; reflexivity).
  assert (Hsym : forall i e, nth_error heap' i = Some e -> nth_error syms i = Some (sym_of e)).
  { intros i e He. rewrite <- Hh'. apply map_nth_error. exact He. }
  (* entry of heap' in terms of entry of heap *)
  assert (Hent : forall i e, nth_error heap' i = Some e ->
     exists e0, nth_error (heap ks) i = Some e0 /\ kname e0 = kname e /\
       ((dup = Some i /\ e = f e0) \/ (dup <> Some i /\ e = e0))).
  { intros i e He. unfold heap' in He. destruct dup as [p|] eqn:Ed.
    - rewrite nth_error_upd_nth in He. destruct (Nat.eqb_spec i p).
      + subst i. destruct (nth_error (heap ks) p) as [e0|] eqn:E; [|discriminate].
        cbn in He. injection He as <-. exists e0. split; [reflexivity|]. split; [reflexivity|]. left; auto.
      + exists e. repeat split; auto. right. split; [congruence|reflexivity].
    - exists e. repeat split; auto. right. split; [congruence|reflexivity]. }
  constructor; cbn [heap n2s a2s].
  - rewrite map_app, Hh'. reflexivity.
  - intros i e He. apply nth_error_snoc in He. rewrite Hl' in He. destruct He as [[Hi He]|[-> <-]].
    + destruct (Hent _ _ He) as (e0 & He0 & Hn & [[Hd ->]|[Hd ->]]).
      * rewrite Hd in Hfn. destruct Hfn as [(a' & Hfn) Hfirst].
        cbn [kduped f]. split; [intros _|reflexivity].
        exists (List.length syms), (a, fn). split; [lia|]. split; [apply nth_error_snoc; auto|].
        cbn [snd kname f]. pose proof (Hsym _ _ He) as X. rewrite Hfn in X. injection X as _ X. exact X.
      * pose proof (i_dup _ _ I _ _ He0) as Hd0. rewrite Hd0. split.
        -- intros (j & s & Hj & Hs & Hsn). exists j, s. split; [assumption|]. split; [|assumption].
           apply nth_error_snoc. left. split; [|assumption]. apply nth_error_Some. congruence.
        -- intros (j & s & Hj & Hs & Hsn). apply nth_error_snoc in Hs. destruct Hs as [[_ Hs]|[-> <-]].
           ++ exists j, s. auto.
           ++ cbn [snd] in Hsn. subst fn.
              destruct dup as [p|] eqn:Ed.
              ** destruct Hfn as [(a' & Hfn) _]. exists p, (a', kname e0). split; [congruence|]. split; auto.
              ** exfalso. apply (Hfn (sym_of e0)); [|reflexivity].
                 eapply nth_error_In. apply Hsym. exact He.
    + cbn [kduped kname]. destruct dup as [p|] eqn:Ed.
      * split; [intros _|reflexivity]. destruct Hfn as [(a' & Hfn) _].
        exists p, (a', fn). assert (p < List.length syms)%nat by (apply nth_error_Some; congruence).
        split; [lia|]. split; [|reflexivity]. apply nth_error_snoc. auto.
      * split; [discriminate|]. intros (j & s & Hj & Hs & Hsn). apply nth_error_snoc in Hs.
        destruct Hs as [[_ Hs]|[X _]]; [|contradiction]. exfalso. eapply Hfn; [eapply nth_error_In; exact Hs|exact Hsn].
  - intros i e He Hfirst. apply nth_error_snoc in He. rewrite Hl' in He. destruct He as [[Hi He]|[-> <-]].
    + destruct (Hent _ _ He) as (e0 & He0 & Hn & Hcase).
      assert (Hf0 : forall j s, (j < i)%nat -> nth_error syms j = Some s -> snd s <> kname e0).
      { intros j s Hj Hs. rewrite Hn. apply (Hfirst j); [assumption|]. apply nth_error_snoc. left. split; [lia|assumption]. }
      pose proof (i_extra _ _ I _ _ He0 Hf0) as Hx. rewrite Hn in Hx.
      rewrite skipn_app. replace (S i - List.length syms)%nat with 0%nat by lia. cbn [skipn].
      rewrite filter_app, map_app. cbn [filter snd].
      destruct Hcase as [[Hd ->]|[Hd ->]].
      * rewrite Hd in Hfn. destruct Hfn as [(a' & Hfn) _].
        pose proof (Hsym _ _ He) as X. rewrite Hfn in X. injection X as _ X.
        cbn [kextra f]. rewrite Hx. cbn [kname f] in *. rewrite X, String.eqb_refl. reflexivity.
      * rewrite Hx. destruct (String.eqb_spec fn (kname e0)) as [E|_]; [|cbn; rewrite app_nil_r; reflexivity].
        exfalso. destruct dup as [p|] eqn:Ed.
        -- destruct Hfn as [(a' & Hfn) Hff]. apply Hd. f_equal.
           destruct (Nat.lt_trichotomy p i) as [X|[X|X]]; [|assumption|].
           ++ exfalso. eapply (Hf0 p); [exact X|exact Hfn|]. exact E.
           ++ exfalso. eapply (Hff i); [exact X|apply Hsym; exact He|]. symmetry; exact E.
        -- eapply (Hfn (sym_of e0)); [eapply nth_error_In; apply Hsym; exact He|]. symmetry; exact E.
    + cbn [kextra]. rewrite skipn_all2; [reflexivity|]. rewrite app_length. cbn. lia.
  - intros n.
    assert (Hgen : forall o, match o with
              | Some p => (exists a, nth_error syms p = Some (a, n)) /\
                   (forall j s, (j < p)%nat -> nth_error syms j = Some s -> snd s <> n)
              | None => forall s, In s syms -> snd s <> n end -> (n <> fn \/ o <> None) ->
           match o with
              | Some p => (exists a0, nth_error (syms ++ [(a, fn)]) p = Some (a0, n)) /\
                   (forall j s, (j < p)%nat -> nth_error (syms ++ [(a, fn)]) j = Some s -> snd s <> n)
              | None => forall s, In s (syms ++ [(a, fn)]) -> snd s <> n end).
    { intros [p|] Ho Hne.
      - destruct Ho as [(a' & Ho) Hff]. assert (p < List.length syms)%nat by (apply nth_error_Some; congruence).
        split; [exists a'; apply nth_error_snoc; auto|].
        intros j s Hj Hs. apply nth_error_snoc in Hs. destruct Hs as [[_ Hs]|[-> _]]; [eauto|lia].
      - destruct Hne as [Hne|X]; [|congruence]. intros s Hs. apply in_app_iff in Hs.
        destruct Hs as [Hs|[<-|[]]]; [eauto|]. cbn. congruence. }
    destruct dup as [p|] eqn:Ed.
    + apply Hgen; [apply (i_n2s _ _ I)|]. destruct (string_dec n fn); [right|left; assumption]. subst n.
      unfold dup in Ed. congruence.
    + rewrite aget_aput by apply Seqb_ok. destruct (String.eqb_spec n fn).
      * subst n. rewrite Hlen. split; [exists a; apply nth_error_snoc; auto|].
        intros j s Hj Hs. apply nth_error_snoc in Hs. destruct Hs as [[_ Hs]|[-> _]]; [|lia].
        apply Hfn. eapply nth_error_In; exact Hs.
      * apply Hgen; [apply (i_n2s _ _ I)|auto].
  - intros x. rewrite aget_aput by apply Zeqb_ok. destruct (Z.eqb_spec x a).
    + subst x. rewrite Hlen. split; [exists fn; apply nth_error_snoc; auto|].
      intros j s Hj Hs. apply nth_error_snoc in Hs. destruct Hs as [[Hx _]|[-> _]]; lia.
    + pose proof (i_a2s _ _ I x) as Ho. destruct (aget Z.eqb x (a2s ks)) as [p|].
      * destruct Ho as [(n' & Ho) Hff]. assert (p < List.length syms)%nat by (apply nth_error_Some; congruence).
        split; [exists n'; apply nth_error_snoc; auto|].
        intros j s Hj Hs. apply nth_error_snoc in Hs. destruct Hs as [[_ Hs]|[_ <-]]; [eauto|]. cbn; congruence.
      * intros s Hs. apply in_app_iff in Hs. destruct Hs as [Hs|[<-|[]]]; [eauto|]. cbn. congruence.
  - destruct dup; [apply (i_nd1 _ _ I)|]. apply NoDup_aput; [apply Seqb_ok|apply (i_nd1 _ _ I)].
  - apply NoDup_aput; [apply Zeqb_ok|apply (i_nd2 _ _ I)].
Qed.

Lemma inv_same ks ks' syms :
  heap ks' = heap ks -> a2s ks' = a2s ks -> n2s ks' = n2s ks -> inv ks syms -> inv ks' syms.
Proof.
  intros H1 H2 H3 I. destruct I. constructor; rewrite ?H1, ?H2, ?H3; assumption.
Qed.

Lemma inv_lines ls : forall ks syms ks', inv ks syms -> ks_lines ks ls = Some ks' -> inv ks' (syms ++ text_syms ls).
Proof.
  induction ls as [|l ls IH]; intros ks syms ks' I H.
  - cbn in *. injection H as <-. rewrite app_nil_r. assumption.
  - cbn [ks_lines] in H. destruct (ks_line ks l) as [k1|] eqn:E; [|discriminate].
    destruct l as [|fa [|ft [|fn rest]]];
      try (cbn in E; injection E as <-; cbn [text_syms]; eapply IH; eassumption).
    cbn [text_syms].
    destruct (String.eqb ft "t" || String.eqb ft "T") eqn:Et.
    + destruct (parse_hex fa) as [a|] eqn:Ea.
      * pose proof (inv_step _ _ _ _ _ _ _ _ I Et Ea E) as I'.
        specialize (IH _ _ _ I' H). rewrite <- app_assoc in IH. exact IH.
      * cbn [ks_line] in E. rewrite Et, Ea in E. discriminate.
    + eapply IH; [|exact H]. cbn [ks_line] in E. rewrite Et in E.
      destruct (String.eqb ft "D" || String.eqb ft "d").
      * destruct (mem_str fn data_specials); [|injection E as <-; assumption].
        destruct (parse_hex fa); [|discriminate]. injection E as <-.
        eapply inv_same; [| | |exact I]; reflexivity.
      * destruct (String.eqb ft "R" || String.eqb ft "r"); [|injection E as <-; assumption].
        destruct (String.eqb fn "btf_id_deny"); [|injection E as <-; assumption].
        destruct (parse_hex fa); [|discriminate]. injection E as <-.
        eapply inv_same; [| | |exact I]; reflexivity.
Qed.

Lemma load_inv ls ks : new_kallsyms ls = Some ks -> inv ks (text_syms ls).
Proof. intros H. apply (inv_lines ls ks_empty [] ks inv_empty H). Qed.

Lemma addrs_In ks syms a : inv ks syms -> (In a (addrs ks) <-> exists s, In s syms /\ fst s = a).
Proof.
  intros I. unfold addrs. rewrite isort_In. pose proof (i_a2s _ _ I a) as H.
  destruct (aget Z.eqb a (a2s ks)) as [p|] eqn:E.
  - split.
    + intros _. destruct H as [(n & H) _]. exists (a, n). split; [eapply nth_error_In; exact H|reflexivity].
    + intros _. eapply aget_Some_In; [apply Zeqb_ok|exact E].
  - apply aget_None in E; [|apply Zeqb_ok]. split; [contradiction|].
    intros (s & Hs & Hsa). exfalso. eapply H; eassumption.
Qed.
Lemma addrs_sorted ks syms : inv ks syms -> StronglySorted Z.lt (addrs ks).
Proof. intros I. apply isort_Z_strict. apply (i_nd2 _ _ I). Qed.

Lemma entry_at_spec ks syms a :
  inv ks syms -> In a (addrs ks) ->
  exists e, entry_at ks a = Some e /\ kaddr e = a /\ last_at syms (kaddr e, kname e).
Proof.
  intros I Ha. unfold entry_at. pose proof (i_a2s _ _ I a) as H.
  unfold addrs in Ha. rewrite isort_In in Ha.
  destruct (aget Z.eqb a (a2s ks)) as [p|] eqn:E.
  - destruct H as [(n & Hn) Hl]. 
    pose proof Hn as Hn'. rewrite <- (i_heap _ _ I) in Hn'. rewrite nth_error_map in Hn'.
    destruct (nth_error (heap ks) p) as [e|]; [|discriminate]. cbn in Hn'. injection Hn' as Ha' Hna.
    exists e. split; [reflexivity|]. split; [assumption|].
    rewrite Ha', Hna. destruct (nth_error_split _ _ Hn) as (l1 & l2 & Hs & Hl1).
    exists l1, l2. split; [assumption|]. intros s' Hs'. cbn [fst].
    destruct (In_nth_error _ _ Hs') as (k & Hk).
    apply (Hl (p + 1 + k)%nat); [lia|]. rewrite Hs. rewrite nth_error_app2 by lia.
    replace (p + 1 + k - List.length l1)%nat with (S k) by lia. exact Hk.
  - apply aget_None in E; [contradiction|apply Zeqb_ok].
Qed.

Lemma find_in_range ls ks a :
  new_kallsyms ls = Some ks ->
  (exists s, In s (text_syms ls) /\ fst s <= a) -> (exists s, In s (text_syms ls) /\ a <= fst s) ->
  exists e, ks_find ks a = FSome (Some e) /\ last_at (text_syms ls) (kaddr e, kname e) /\
    kaddr e <= a /\ forall s, In s (text_syms ls) -> fst s <= a -> fst s <= kaddr e.
Proof.
  intros H (s1 & H1 & H1') (s2 & H2 & H2'). pose proof (load_inv _ _ H) as I.
  pose proof (addrs_sorted _ _ I) as Hs.
  destruct (ks_index_in (addrs ks) a Hs) as (i & Hi & Hlt & Hle & Hmax).
  - exists (fst s1). split; [apply (addrs_In _ _ _ I); eauto|assumption].
  - exists (fst s2). split; [apply (addrs_In _ _ _ I); eauto|assumption].
  - unfold ks_find. rewrite Hi.
    destruct (entry_at_spec _ _ (nth i (addrs ks) 0) I (nth_In _ _ Hlt)) as (e & He & Hea & Hl).
    exists e. rewrite He. split; [reflexivity|]. split; [assumption|]. rewrite Hea. split; [assumption|].
    intros s Hsn Hsa.
    assert (In (fst s) (addrs ks)) as Hin by (apply (addrs_In _ _ _ I); eauto).
    destruct (In_nth _ _ 0 Hin) as (k & Hk & Hkn). rewrite <- Hkn in Hsa |- *.
    specialize (Hmax k Hk Hsa). destruct (Nat.eq_dec k i); [subst; lia|].
    apply Z.lt_le_incl, nth_sorted_lt; [assumption|lia|lia].
Qed.

Lemma find_out_of_range ls ks a :
  new_kallsyms ls = Some ks -> text_syms ls <> [] ->
  (forall s, In s (text_syms ls) -> a < fst s) \/ (forall s, In s (text_syms ls) -> fst s < a) ->
  ks_find ks a = FNone /\ ks_next ks a = FNone.
Proof.
  intros H Hne Ho. pose proof (load_inv _ _ H) as I.
  assert (Hx : ks_index (addrs ks) a = INone).
  { apply ks_index_out; [eapply addrs_sorted; exact I| |].
    - destruct (text_syms ls) as [|s l] eqn:E; [congruence|]. intros X.
      assert (In (fst s) (addrs ks)) by (apply (addrs_In _ _ _ I); exists s; split; [left|]; reflexivity).
      rewrite X in H0. contradiction.
    - destruct Ho as [Ho|Ho]; [left|right]; intros x Hx; apply (addrs_In _ _ _ I) in Hx;
      destruct Hx as (s & Hs & <-); auto. }
  unfold ks_find, ks_next. rewrite Hx. auto.
Qed.

Lemma find_empty_panics ls ks a :
  new_kallsyms ls = Some ks -> text_syms ls = [] -> ks_find ks a = FPanic.
Proof.
  intros H He. pose proof (load_inv _ _ H) as I. unfold ks_find.
  destruct (addrs ks) as [|x l] eqn:E; [reflexivity|].
  assert (In x (addrs ks)) by (rewrite E; left; reflexivity).
  apply (addrs_In _ _ _ I) in H0. destruct H0 as (s & Hs & _). rewrite He in Hs. contradiction.
Qed.

Lemma next_in_range ls ks a :
  new_kallsyms ls = Some ks ->
  (exists s, In s (text_syms ls) /\ fst s <= a) -> (exists s, In s (text_syms ls) /\ a < fst s) ->
  exists e, ks_next ks a = FSome (Some e) /\ last_at (text_syms ls) (kaddr e, kname e) /\
    a < kaddr e /\ forall s, In s (text_syms ls) -> a < fst s -> kaddr e <= fst s.
Proof.
  intros H (s1 & H1 & H1') (s2 & H2 & H2'). pose proof (load_inv _ _ H) as I.
  pose proof (addrs_sorted _ _ I) as Hs.
  destruct (ks_index_in (addrs ks) a Hs) as (i & Hi & Hlt & Hle & Hmax).
  - exists (fst s1). split; [apply (addrs_In _ _ _ I); eauto|assumption].
  - exists (fst s2). split; [apply (addrs_In _ _ _ I); eauto|lia].
  - unfold ks_next. rewrite Hi.
    assert (Hin2 : In (fst s2) (addrs ks)) by (apply (addrs_In _ _ _ I); eauto).
    destruct (In_nth _ _ 0 Hin2) as (k2 & Hk2 & Hkn2).
    assert (i < k2)%nat.
    { destruct (Nat.leb_spec k2 i); [|assumption]. destruct (Nat.eq_dec k2 i); [subst; lia|].
      pose proof (nth_sorted_lt _ k2 i 0 Hs ltac:(lia) Hlt). lia. }
    destruct (Nat.leb_spec (List.length (addrs ks)) (i + 1)); [lia|].
    assert (Hlt1 : (i + 1 < List.length (addrs ks))%nat) by lia.
    destruct (entry_at_spec _ _ (nth (i+1) (addrs ks) 0) I (nth_In _ _ Hlt1)) as (e & He & Hea & Hl).
    exists e. rewrite He. split; [reflexivity|]. split; [assumption|]. rewrite Hea.
    split.
    + destruct (Z.ltb_spec a (nth (i+1) (addrs ks) 0)) as [|Hx]; [assumption|].
      specialize (Hmax (i+1)%nat Hlt1 Hx). lia.
    + intros s Hsn Hsa.
      assert (In (fst s) (addrs ks)) as Hin by (apply (addrs_In _ _ _ I); eauto).
      destruct (In_nth _ _ 0 Hin) as (k & Hk & Hkn). rewrite <- Hkn in Hsa |- *.
      assert (i < k)%nat.
      { destruct (Nat.leb_spec k i); [|assumption]. destruct (Nat.eq_dec k i); [subst; lia|].
        pose proof (nth_sorted_lt _ k i 0 Hs ltac:(lia) Hlt). lia. }
      destruct (Nat.eq_dec k (i+1)); [subst; lia|].
      apply Z.lt_le_incl, nth_sorted_lt; [assumption|lia|lia].
Qed.
Lemma next_of_last ls ks a :
  new_kallsyms ls = Some ks ->
  (exists s, In s (text_syms ls) /\ fst s = a) -> (forall s, In s (text_syms ls) -> fst s <= a) ->
  ks_next ks a = FNone.
Proof.
  intros H (s1 & H1 & H1') H2. pose proof (load_inv _ _ H) as I.
  pose proof (addrs_sorted _ _ I) as Hs.
  assert (Hin : In a (addrs ks)) by (apply (addrs_In _ _ _ I); eauto).
  destruct (ks_index_in (addrs ks) a Hs) as (i & Hi & Hlt & Hle & Hmax).
  - exists a. split; [assumption|lia].
  - exists a. split; [assumption|lia].
  - unfold ks_next. rewrite Hi. 
    destruct (Nat.leb_spec (List.length (addrs ks)) (i + 1)); [reflexivity|].
    exfalso. assert (Hlt1 : (i + 1 < List.length (addrs ks))%nat) by lia.
    pose proof (nth_In _ 0 Hlt1) as X. apply (addrs_In _ _ _ I) in X. destruct X as (s & Hsn & Hsa).
    specialize (H2 s Hsn). rewrite Hsa in H2. specialize (Hmax _ Hlt1 H2). lia.
Qed.

(** ** C27 *)
Lemma dup_marks ls ks :
  new_kallsyms ls = Some ks ->
  map (fun e => (kaddr e, kname e)) (heap ks) = text_syms ls /\
  forall i e, nth_error (heap ks) i = Some e ->
    (kduped e = true <-> exists j s, j <> i /\ nth_error (text_syms ls) j = Some s /\ snd s = kname e).
Proof.
  intros H. pose proof (load_inv _ _ H) as I. split; [apply (i_heap _ _ I)|apply (i_dup _ _ I)].
Qed.

Lemma by_name ls ks order n :
  new_kallsyms ls = Some ks -> (exists s, In s (text_syms ls) /\ snd s = n) ->
  exists i e, find_by_symbol ks order n = Some e /\ nth_error (heap ks) i = Some e /\ kname e = n /\
    (forall j s, (j < i)%nat -> nth_error (text_syms ls) j = Some s -> snd s <> n) /\
    kextra e = map fst (filter (fun s => String.eqb (snd s) n) (skipn (S i) (text_syms ls))) /\
    (kduped e = true <-> kextra e <> []).
Proof.
  intros H (s & Hs & Hsn). pose proof (load_inv _ _ H) as I.
  pose proof (i_n2s _ _ I n) as Hn. unfold find_by_symbol, entry_pos.
  destruct (aget String.eqb n (n2s ks)) as [p|]; [|exfalso; eapply Hn; eassumption].
  destruct Hn as [(a & Hp) Hf].
  pose proof Hp as Hp'. rewrite <- (i_heap _ _ I), nth_error_map in Hp'.
  destruct (nth_error (heap ks) p) as [e|] eqn:Ee; [|discriminate]. cbn in Hp'. injection Hp' as Hea Hen.
  exists p, e. split; [reflexivity|]. split; [assumption|]. split; [assumption|]. split; [assumption|].
  assert (Hx : kextra e = map fst (filter (fun s => String.eqb (snd s) n) (skipn (S p) (text_syms ls)))).
  { rewrite <- Hen. apply (i_extra _ _ I _ _ Ee). rewrite Hen. exact Hf. }
  split; [exact Hx|]. rewrite (i_dup _ _ I _ _ Ee), Hx, Hen. split.
  - intros (j & s' & Hj & Hs' & Hsn'). 
    assert (p < j)%nat. { destruct (Nat.lt_trichotomy p j) as [X|[X|X]]; [assumption|congruence|].
      exfalso. eapply Hf; eassumption. }
    assert (Hin : In s' (skipn (S p) (text_syms ls))).
    { rewrite <- (firstn_skipn (S p) (text_syms ls)) in Hs'.
      assert (List.length (firstn (S p) (text_syms ls)) = S p).
      { apply firstn_length_le. assert (j < List.length (text_syms ls))%nat.
        { apply nth_error_Some. rewrite firstn_skipn in Hs'. congruence. } lia. }
      rewrite nth_error_app2 in Hs' by lia. eapply nth_error_In; exact Hs'. }
    intros X. apply map_eq_nil in X.
    assert (In s' (filter (fun s => String.eqb (snd s) n) (skipn (S p) (text_syms ls)))).
    { apply filter_In. split; [assumption|]. rewrite Hsn'. apply String.eqb_refl. }
    rewrite X in H1. contradiction.
  - intros X. destruct (filter _ _) as [|s' l'] eqn:E; [cbn in X; congruence|].
    assert (In s' (s' :: l')) as Hin by (left; reflexivity). rewrite <- E in Hin. apply filter_In in Hin.
    destruct Hin as [Hin Heq]. apply String.eqb_eq in Heq.
    destruct (In_nth_error _ _ Hin) as (k & Hk).
    exists (S p + k)%nat, s'. split; [lia|]. split; [|assumption].
    rewrite <- (firstn_skipn (S p) (text_syms ls)).
    assert (S p <= List.length (text_syms ls))%nat by (apply nth_error_Some; congruence).
    rewrite nth_error_app2; rewrite firstn_length_le by assumption; [|lia].
    replace (S p + k - S p)%nat with k by lia. exact Hk.
Qed.

(** ** hex notation *)
Lemma hexval_digit d : 0 <= d < 16 -> hexval (hexdigit d) = Some d.
Proof.
  intros H. assert (Hc : In d (map Z.of_nat (seq 0 16))).
  { apply in_map_iff. exists (Z.to_nat d). split; [lia|]. apply in_seq. lia. }
  cbn in Hc. repeat (destruct Hc as [<-|Hc]; [reflexivity|]). contradiction.
Qed.
Lemma parse_hex_fixed n : forall v s acc, 
  0 <= v -> 0 <= acc -> acc * 16 ^ Z.of_nat n + v mod 16 ^ Z.of_nat n < W64 ->
  parse_hex_go (hex_fixed n v s) acc = parse_hex_go s (acc * 16 ^ Z.of_nat n + v mod 16 ^ Z.of_nat n).
Proof.
  induction n as [|n IH]; intros v s acc Hv Ha Hb.
  - cbn [hex_fixed]. f_equal. cbn. rewrite Z.mod_1_r. lia.
  - cbn [hex_fixed].
    assert (Hp : 0 < 16 ^ Z.of_nat n) by (apply Z.pow_pos_nonneg; lia).
    assert (E : v mod 16 ^ Z.of_nat (S n) = (v / 16) mod 16 ^ Z.of_nat n * 16 + v mod 16).
    { rewrite Nat2Z.inj_succ, Z.pow_succ_r by lia. rewrite Z.rem_mul_r by lia. lia. }
    assert (E2 : 16 ^ Z.of_nat (S n) = 16 * 16 ^ Z.of_nat n) by (rewrite Nat2Z.inj_succ, Z.pow_succ_r by lia; reflexivity).
    pose proof (Z.mod_pos_bound v 16 ltac:(lia)). pose proof (Z.mod_pos_bound (v/16) (16 ^ Z.of_nat n) Hp).
    rewrite E in Hb. rewrite E2 in Hb.
    rewrite IH; [|apply Z.div_pos; lia|assumption|nia].
    cbn [parse_hex_go]. rewrite hexval_digit by lia.
    rewrite E, E2. 
    replace ((acc * 16 ^ Z.of_nat n + (v / 16) mod 16 ^ Z.of_nat n) * 16 + v mod 16)
      with (acc * (16 * 16 ^ Z.of_nat n) + ((v / 16) mod 16 ^ Z.of_nat n * 16 + v mod 16)) by lia.
    destruct (Z.leb_spec W64 (acc * (16 * 16 ^ Z.of_nat n) + ((v / 16) mod 16 ^ Z.of_nat n * 16 + v mod 16))); [lia|].
    reflexivity.
Qed.
Lemma hex_fixed_cons n v c s : exists c' s', hex_fixed n v (String c s) = String c' s'.
Proof. revert v c s; induction n; intros; cbn; eauto. Qed.
Lemma parse_hex16 v : 0 <= v < W64 -> parse_hex (hex16 v) = Some v.
Proof.
  intros H. unfold hex16, parse_hex.
  assert (Hc : exists c s, hex_fixed 16 v EmptyString = String c s).
  { cbn [hex_fixed]. eauto. }
  assert (E : parse_hex_go (hex_fixed 16 v EmptyString) 0 = Some v).
  { assert (E16 : v mod 16 ^ Z.of_nat 16 = v) by (apply Z.mod_small; change (16 ^ Z.of_nat 16) with W64; lia).
    rewrite parse_hex_fixed; [|lia|lia|rewrite E16; lia]. cbn [parse_hex_go]. f_equal. rewrite E16. lia. }
  destruct Hc as (c & s & Hc). rewrite Hc in *. exact E.
Qed.

(** ** kaslr *)
Lemma kaslr_offset_mod k : 0 <= k_kaddr k < W64 -> 0 <= k_saddr k < W64 ->
  forall a, effective_addr k a = u64 (a - k_kaddr k + k_saddr k) /\ revert_addr k a = u64 (a - k_saddr k + k_kaddr k).
Proof.
  intros H1 H2 a. unfold effective_addr, revert_addr, u64.
  destruct (k_saddr k <? k_kaddr k).
  - rewrite Zminus_mod_idemp_r, Zplus_mod_idemp_r. split; f_equal; lia.
  - rewrite Zminus_mod_idemp_r, Zplus_mod_idemp_r. split; f_equal; lia.
Qed.
Lemma kaslr_inv k a : 0 <= k_kaddr k < W64 -> 0 <= k_saddr k < W64 -> 0 <= a < W64 ->
  revert_addr k (effective_addr k a) = a /\ effective_addr k (revert_addr k a) = a.
Proof.
  intros H1 H2 Ha. destruct (kaslr_offset_mod k H1 H2 a) as [E1 E2].
  rewrite E1, E2.
  destruct (kaslr_offset_mod k H1 H2 (u64 (a - k_kaddr k + k_saddr k))) as [_ E3].
  destruct (kaslr_offset_mod k H1 H2 (u64 (a - k_saddr k + k_kaddr k))) as [E4 _].
  rewrite E3, E4. unfold u64.
  split.
  - replace ((a - k_kaddr k + k_saddr k) mod W64 - k_saddr k + k_kaddr k) with ((a - k_kaddr k + k_saddr k) mod W64 + (k_kaddr k - k_saddr k)) by lia.
    rewrite Zplus_mod_idemp_l. replace (a - k_kaddr k + k_saddr k + (k_kaddr k - k_saddr k)) with a by lia. apply Z.mod_small; assumption.
  - replace ((a - k_saddr k + k_kaddr k) mod W64 - k_kaddr k + k_saddr k) with ((a - k_saddr k + k_kaddr k) mod W64 + (k_saddr k - k_kaddr k)) by lia.
    rewrite Zplus_mod_idemp_l. replace (a - k_saddr k + k_kaddr k + (k_saddr k - k_kaddr k)) with a by lia. apply Z.mod_small; assumption.
Qed.
