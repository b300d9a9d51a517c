(** * Proofs about positions *)
From Coq Require Import List Bool String ZArith Lia.
From Verif Require Import M_Go P_Go M_Kallsyms S_Kallsyms P_Kallsyms M_Cache M_A2l S_A2l P_A2l M_Line P_Line M_Flags P_Flags M_LineInfo S_LineInfo.
Import ListNotations.
Open Scope string_scope.
Open Scope Z_scope.

Lemma len_app a b : String.length (a ++ b) = (String.length a + String.length b)%nat.
Proof. induction a; cbn; congruence. Qed.
Lemma drop_app p r : drop (String.length p) (p ++ r) = r.
Proof. induction p; cbn [String.length drop append]; [destruct r; reflexivity|assumption]. Qed.
Lemma prefix_of_app p r : has_prefix p (p ++ r) = true.
Proof. induction p as [|c p IH]; [reflexivity|]. cbn. rewrite Ascii.eqb_refl. exact IH. Qed.
Lemma sub_app p r : substring 0 (String.length p) (p ++ r) = p.
Proof. induction p as [|c p IH]; [destruct r; reflexivity|]. cbn. rewrite IH. reflexivity. Qed.
Lemma rel_shown dir f : shown_file dir f (rel_file dir f).
Proof.
  unfold rel_file, shown_file. destruct (has_prefix dir f) eqn:E.
  - left. apply prefix_app. exact E.
  - right. split; [reflexivity|]. intros r ->. rewrite prefix_of_app in E. discriminate.
Qed.
Lemma shown_unique dir f s1 s2 : shown_file dir f s1 -> shown_file dir f s2 -> s1 = s2.
Proof.
  intros [->|[-> H1]] [E|[-> H2]].
  - rewrite <- (drop_app dir s1), E, drop_app. reflexivity.
  - destruct (H2 s1 eq_refl).
  - destruct (H1 _ E).
  - reflexivity.
Qed.
Lemma build_dir_of dir : build_dir (dir ++ syscall_file) = Some dir.
Proof.
  unfold build_dir. rewrite len_app. destruct (Nat.ltb_spec (String.length dir + String.length syscall_file) (String.length syscall_file)); [lia|].
  rewrite Nat.add_sub, sub_app. reflexivity.
Qed.

(** where the entries come from *)
Definition src (ls : list (list string)) (e : ksym) : Prop := listed_in ls (kaddr e) (kname e) (kmod e).
Lemma src_mono ls ls' e : (forall x, In x ls -> In x ls') -> src ls e -> src ls' e.
Proof. intros H (fa & ft & rest & H1 & H2). exists fa, ft, rest. split; [apply H; exact H1|exact H2]. Qed.
Lemma upd_src ls p l f : (forall e, kaddr (f e) = kaddr e /\ kname (f e) = kname e /\ kmod (f e) = kmod e) -> (forall e, In e l -> src ls e) -> forall e, In e (upd_nth p f l) -> src ls e.
Proof.
  intros Hf. revert p. induction l as [|x l IH]; intros p H e He; [destruct p; destruct He|].
  destruct p as [|p]; cbn [upd_nth] in He.
  - destruct He as [<-|He]; [|apply H; right; exact He]. unfold src. destruct (Hf x) as (-> & -> & ->). apply H. left. reflexivity.
  - destruct He as [<-|He]; [apply H; left; reflexivity|]. eapply IH; [|exact He]. intros y Hy. apply H. right. exact Hy.
Qed.
Lemma lines_src ls : forall ks ks' seen, ks_lines ks ls = Some ks' -> (forall e, In e (heap ks) -> src seen e) -> forall e, In e (heap ks') -> src (seen ++ ls)%list e.
Proof.
  induction ls as [|l ls IH]; intros ks ks' seen H HS.
  - injection H as <-. rewrite app_nil_r. exact HS.
  - cbn [ks_lines] in H. destruct (ks_line ks l) as [ks1|] eqn:E; [|discriminate].
    replace (seen ++ l :: ls)%list with ((seen ++ [l]) ++ ls)%list by (rewrite <- app_assoc; reflexivity).
    eapply IH; [exact H|]. assert (HS' : forall e, In e (heap ks) -> src (seen ++ [l])%list e).
    { intros e He. eapply src_mono; [|apply HS; exact He]. intros x Hx. apply in_or_app. left. exact Hx. }
    clear IH H HS. unfold ks_line in E.
    destruct l as [|fa [|ft [|fn rest]]]; try (injection E as <-; exact HS').
    destruct (String.eqb ft "t" || String.eqb ft "T") eqn:Et.
    + destruct (parse_hex fa) as [a|] eqn:Ea; [|discriminate]. injection E as <-. cbn [heap]. intros e He. apply in_app_or in He as [He|[<-|[]]].
      * destruct (aget String.eqb fn (n2s ks)) as [p|]; [|apply HS'; exact He].
        eapply upd_src; [|exact HS'|exact He]. intros y. repeat split; reflexivity.
      * exists fa, ft, rest. cbn [kname kaddr kmod]. split; [apply in_or_app; right; left; reflexivity|]. split; [|split; [exact Ea|reflexivity]].
        apply orb_true_iff in Et as [Et|Et]; apply String.eqb_eq in Et; auto.
    + destruct (String.eqb ft "D" || String.eqb ft "d").
      { destruct (mem_str fn data_specials); [|injection E as <-; exact HS']. destruct (parse_hex fa); [|discriminate]. injection E as <-. exact HS'. }
      destruct (String.eqb ft "R" || String.eqb ft "r"); [|injection E as <-; exact HS'].
      destruct (String.eqb fn "btf_id_deny"); [|injection E as <-; exact HS']. destruct (parse_hex fa); [|discriminate]. injection E as <-. exact HS'.
Qed.
Lemma found_listed ls ks a e : new_kallsyms ls = Some ks -> ks_find ks a = FSome (Some e) -> src ls e.
Proof.
  intros H F. apply (lines_src ls ks_empty ks [] H); [intros x []|]. unfold ks_find in F. destruct (ks_index (addrs ks) a); try discriminate. injection F as F.
  unfold entry_at in F. destruct (aget _ _ _); [|discriminate]. exact (nth_error_In _ _ F).
Qed.
Lemma find_symbol ls ks a : new_kallsyms ls = Some ks -> between ls a ->
  exists e, ks_find ks a = FSome (Some e) /\ symbol_of ls a (kaddr e) (kname e) (kmod e).
Proof.
  intros H [H1 H2]. destruct (find_in_range ls ks a H H1 H2) as (e & He & Hl & Ha & Hm). exists e. split; [exact He|].
  split; [exact Hl|]. split; [exact (found_listed ls ks a e H He)|]. split; assumption.
Qed.
Lemma no_function progs a : in_no_function progs a -> progs_get progs a = LNone.
Proof.
  intros H. apply progs_none. intros f Hf. unfold contains_addr. specialize (H f Hf).
  destruct (Z.leb_spec (pf_start f) a); destruct (Z.ltb_spec a (pf_end f)); try reflexivity. destruct H. split; assumption.
Qed.

Section P.
  Variable ent : Z -> dline.
  Variables (b : boot) (dir : string) (progs : list pfunc) (ks : kallsyms).
  Hypothesis Hb : boot_ok b.
  Let sym := module_of ks.

  Lemma info_good ok s a r s' : good b sym s -> line_info ent b dir progs ks ok (Some s) a = (r, s') -> exists s1, s' = Some s1 /\ good b sym s1.
  Proof.
    intros G H. unfold line_info in H. destruct (progs_get progs a); try (injection H as <- <-; eexists; split; [reflexivity|exact G]).
    assert (K : forall e, option_map kmod e = sym a -> with_line ent b dir ok (Some s) a e = (r, s') -> exists s1, s' = Some s1 /\ good b sym s1).
    { intros e Es W. unfold with_line in W. rewrite Es in W. destruct (get b ok s a (sym a)) as [q s1] eqn:E. destruct (get_ok b sym ok s a q s1 Hb G E) as (G1 & _).
      destruct q; injection W as <- <-; exists s1; auto. }
    unfold sym, module_of in K. destruct (ks_find ks a) as [| |[e|]] eqn:E; try (injection H as <- <-; eexists; split; [reflexivity|exact G]).
    - exact (K None eq_refl H).
    - exact (K (Some e) eq_refl H).
  Qed.
  Lemma kernel_place ls ok s a r s' : new_kallsyms ls = Some ks -> good b sym s -> between ls a -> in_no_function progs a -> 0 <= a < 2 ^ 64 ->
    (forall s, In s (text_syms ls) -> 0 <= fst s) -> line_info ent b dir progs ks ok (Some s) a = (r, s') ->
    exists addr name md p, symbol_of ls a addr name md /\ r = PPlace p /\ p_addr p = a /\ p_off p = a - addr /\ p_prog p = false /\ (name <> "" -> p_func p = name) /\
      (p_vml p = true -> exists l, true_line b (Some md) a = Some l /\ shown_file dir (d_file (ent l)) (p_file p) /\ p_line p = d_num (ent l)) /\
      (p_vml p = false -> p_file p = "") /\
      (ok = true -> forall l, true_line b (Some md) a = Some l -> p_vml p = true).
  Proof.
    intros HK G Hbt Hn Ha Hpos H. unfold line_info in H. rewrite (no_function progs a Hn) in H.
    destruct (find_symbol ls ks a HK Hbt) as (e & He & Hs). rewrite He in H. unfold with_line in H.
    assert (Es : option_map kmod (Some e) = sym a) by (unfold sym, module_of; rewrite He; reflexivity). rewrite Es in H.
    destruct (get b ok s a (sym a)) as [q s1] eqn:E. destruct (get_ok b sym ok s a q s1 Hb G E) as (_ & G2 & G3 & G4). rewrite <- Es in *. cbn [option_map] in *.
    assert (Ho : u64 (a - kaddr e) = a - kaddr e).
    { unfold u64. change W64 with (2 ^ 64). apply Z.mod_small. destruct Hs as ((pre & post & Ets & _) & _ & Hle & _).
      specialize (Hpos (kaddr e, kname e) ltac:(rewrite Ets; apply in_or_app; right; left; reflexivity)). cbn [fst] in Hpos. lia. }
    exists (kaddr e), (kname e), (kmod e). destruct q as [l| | |].
    - injection H as <- <-. eexists. split; [exact Hs|]. split; [reflexivity|]. cbn [p_addr p_off p_prog p_vml p_file p_line p_func sym_place].
      do 3 (split; [first [reflexivity|exact Ho]|]). split; [intros Hne; destruct (String.eqb_spec (kname e) ""); [congruence|reflexivity]|].
      split; [intros _; exists l; split; [exact (G2 l eq_refl)|]; split; [apply rel_shown|reflexivity]|]. split; [discriminate|auto].
    - injection H as <- <-. eexists. split; [exact Hs|]. split; [reflexivity|]. cbn [p_addr p_off p_prog p_vml p_file p_line p_func sym_place].
      do 3 (split; [first [reflexivity|exact Ho]|]). split; [auto|]. split; [discriminate|]. split; [auto|]. intros -> l El. specialize (G3 l El ltac:(discriminate) eq_refl). discriminate.
    - injection H as <- <-. eexists. split; [exact Hs|]. split; [reflexivity|]. cbn [p_addr p_off p_prog p_vml p_file p_line p_func sym_place].
      do 3 (split; [first [reflexivity|exact Ho]|]). split; [auto|]. split; [discriminate|]. split; [auto|]. intros -> l El. specialize (G3 l El ltac:(discriminate) eq_refl). discriminate.
    - destruct (G4 eq_refl). discriminate.
  Qed.
  Lemma infos_good l : forall s rs s', good b sym s -> line_infos ent b dir progs ks (Some s) l = (rs, s') ->
    List.length rs = List.length l /\ forall i a ok r, nth_error l i = Some (a, ok) -> nth_error rs i = Some r ->
    exists s1 s2, good b sym s1 /\ line_info ent b dir progs ks ok (Some s1) a = (r, s2).
  Proof.
    induction l as [|[a ok] l IH]; intros s rs s' G H; cbn [line_infos] in H.
    - injection H as <- <-. split; [reflexivity|]. intros [|i]; discriminate.
    - destruct (line_info ent b dir progs ks ok (Some s) a) as [r s1] eqn:E. destruct (info_good ok s a r s1 G E) as (s1' & -> & G1).
      destruct (line_infos ent b dir progs ks (Some s1') l) as [rs' s2] eqn:E2. injection H as <- <-. destruct (IH _ _ _ G1 E2) as [L K].
      split; [cbn; congruence|]. intros [|i] a' ok' r' Hl Hr; cbn in Hl, Hr.
      + injection Hl as <- <-. injection Hr as <-. exists s, (Some s1'). auto.
      + exact (K i a' ok' r' Hl Hr).
  Qed.
End P.
