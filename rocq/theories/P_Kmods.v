From Coq Require Import ZArith List Bool String Ascii Lia.
From Verif Require Import M_Go P_Go M_Kallsyms S_Kmods.
Import ListNotations.
Open Scope string_scope.

Lemma prefix_ok p : forall s, prefix p s = true <-> exists r, s = p ++ r.
Proof.
  induction p as [|c p IH]; intros s.
  - split; [intros _; exists s; reflexivity|intros _; destruct s; reflexivity].
  - destruct s as [|d s]; cbn [prefix append].
    + split; [discriminate|intros [r E]; discriminate].
    + destruct (ascii_dec c d) as [->|N].
      * rewrite IH. split; intros [r E]; exists r; [rewrite E; reflexivity|congruence].
      * split; [discriminate|]. intros [r E]. exfalso. apply N. congruence.
Qed.
Lemma builtin_ok m : is_builtin_mod m = true <-> builtin_name m.
Proof.
  unfold is_builtin_mod, builtin_name. rewrite !orb_true_iff, !String.eqb_eq, prefix_ok. tauto.
Qed.
Lemma mem_str_In s l : mem_str s l = true <-> In s l.
Proof.
  unfold mem_str. rewrite existsb_exists. split.
  - intros (x & Hx & E). apply String.eqb_eq in E. subst x. exact Hx.
  - intros H. exists s. split; [exact H|apply String.eqb_refl].
Qed.
(** one line *)
Lemma step_mods ks l ks' : ks_line ks l = Some ks' -> NoDup (mods ks) ->
  NoDup (mods ks') /\ forall m, In m (mods ks') <-> In m (mods ks) \/ (text_of_module [l] m /\ ~ builtin_name m).
Proof.
  intros H Hn.
  assert (Same : (forall m, text_of_module [l] m -> builtin_name m) -> mods ks' = mods ks -> NoDup (mods ks') /\ forall m, In m (mods ks') <-> In m (mods ks) \/ (text_of_module [l] m /\ ~ builtin_name m)).
  { intros Hb E. rewrite E. split; [exact Hn|]. intros m. split; [tauto|]. intros [?|[A B]]; [assumption|]. destruct (B (Hb m A)). }
  assert (Hl : forall m, text_of_module [l] m -> exists fa ft fn rest, l = fa :: ft :: fn :: m :: rest /\ (ft = "t" \/ ft = "T")).
  { intros m (fa & ft & fn & rest & [E|[]] & Ht). exists fa, ft, fn, rest. auto. }
  unfold ks_line in H. destruct l as [|fa [|ft [|fn rest]]].
  1-3: injection H as <-; apply Same; [|reflexivity]; intros m Hm; destruct (Hl m Hm) as (? & ? & ? & ? & E & _); discriminate.
  destruct (String.eqb ft "t" || String.eqb ft "T") eqn:Et.
  - destruct (parse_hex fa) as [a|]; [|discriminate]. injection H as <-. cbn [mods].
    set (md := match rest with m :: _ => m | [] => "" end).
    assert (Ht : ft = "t" \/ ft = "T") by (apply orb_true_iff in Et; rewrite !String.eqb_eq in Et; exact Et).
    assert (Hmd : forall m, ~ builtin_name m -> (text_of_module [fa :: ft :: fn :: rest] m <-> m = md)).
    { intros m Hb. split.
      - intros Hm. destruct (Hl m Hm) as (? & ? & ? & ? & E & _). injection E as _ _ _ E. unfold md. rewrite E. reflexivity.
      - intros ->. unfold md in *. destruct rest as [|m rest]; [destruct Hb; left; reflexivity|]. exists fa, ft, fn, rest. split; [left; reflexivity|exact Ht]. }
    destruct (mem_str md (mods ks) || is_builtin_mod md) eqn:Em.
    + split; [exact Hn|]. intros m. split; [tauto|]. intros [?|[A B]]; [assumption|]. apply (Hmd m B) in A. subst m.
      apply orb_true_iff in Em as [Em|Em]; [apply mem_str_In; exact Em|]. apply builtin_ok in Em. contradiction.
    + apply orb_false_iff in Em as [E1 E2]. assert (N1 : ~ In md (mods ks)) by (rewrite <- mem_str_In, E1; discriminate).
      assert (N2 : ~ builtin_name md) by (rewrite <- builtin_ok, E2; discriminate).
      split.
      * clear -Hn N1. induction (mods ks) as [|x l IH]; [repeat constructor; intros []|]. inversion Hn; subst. cbn [app]. constructor.
        -- rewrite in_app_iff. intros [X|[X|[]]]; [contradiction|]. apply N1. left. exact (eq_sym X).
        -- apply IH; [assumption|]. intros X. apply N1. right. exact X.
      * intros m. rewrite in_app_iff. cbn [In]. split.
        -- intros [X|[<-|[]]]; [tauto|]. right. split; [apply Hmd; [exact N2|reflexivity]|exact N2].
        -- intros [X|[A B]]; [tauto|]. apply (Hmd m B) in A. subst m. right. left. reflexivity.
  - assert (Hno : forall m, ~ text_of_module [fa :: ft :: fn :: rest] m).
    { intros m Hm. destruct (Hl m Hm) as (? & ? & ? & ? & E & Ht). injection E as _ <- _ _. apply orb_false_iff in Et as [A B]. apply String.eqb_neq in A, B. tauto. }
    apply Same; [intros m Hm; destruct (Hno m Hm)|].
    repeat match type of H with context [if ?b then _ else _] => destruct b | context [match parse_hex ?x with _ => _ end] => destruct (parse_hex x) end; try discriminate; injection H as <-; reflexivity.
Qed.
Lemma text_app l ls m : text_of_module (l :: ls) m <-> text_of_module [l] m \/ text_of_module ls m.
Proof.
  split.
  - intros (fa & ft & fn & rest & [E|Hin] & Ht); [left|right]; exists fa, ft, fn, rest; (split; [|exact Ht]); [left; exact E|exact Hin].
  - intros [(fa & ft & fn & rest & [E|[]] & Ht)|(fa & ft & fn & rest & Hin & Ht)]; exists fa, ft, fn, rest; (split; [|exact Ht]); [left; exact E|right; exact Hin].
Qed.
Lemma lines_mods ls : forall ks ks', ks_lines ks ls = Some ks' -> NoDup (mods ks) ->
  NoDup (mods ks') /\ forall m, In m (mods ks') <-> In m (mods ks) \/ (text_of_module ls m /\ ~ builtin_name m).
Proof.
  induction ls as [|l ls IH]; intros ks ks' H Hn; cbn [ks_lines] in H.
  - injection H as <-. split; [exact Hn|]. intros m. split; [tauto|]. intros [?|[(?&?&?&?&[]&_) _]]. assumption.
  - destruct (ks_line ks l) as [k1|] eqn:E; [|discriminate]. destruct (step_mods ks l k1 E Hn) as [H1 H2]. destruct (IH k1 ks' H H1) as [H3 H4].
    split; [exact H3|]. intros m. rewrite H4, H2, (text_app l ls). tauto.
Qed.
Theorem modules_ok ls ks : new_kallsyms ls = Some ks -> NoDup (mods ks) /\ forall m, In m (mods ks) <-> text_of_module ls m /\ ~ builtin_name m.
Proof.
  intros H. destruct (lines_mods ls ks_empty ks H) as [H1 H2]; [constructor|]. split; [exact H1|]. intros m. rewrite H2. cbn [ks_empty mods In]. tauto.
Qed.

(** anchors *)
Lemma not_in_iff s l : mem_str s l = false -> ~ In s l.
Proof. intros H X. apply mem_str_In in X. congruence. Qed.
Lemma step_special ks l ks' n : ks_line ks l = Some ks' ->
  (forall a, anchor_line n a l -> aget String.eqb n (specials ks') = Some a) /\
  ((forall a, ~ anchor_line n a l) -> aget String.eqb n (specials ks') = aget String.eqb n (specials ks)).
Proof.
  intros H.
  assert (Put : forall n' a0, aget String.eqb n (aput String.eqb n' a0 (specials ks)) = if String.eqb n n' then Some a0 else aget String.eqb n (specials ks)).
  { intros n' a0. apply aget_aput. exact Seqb_ok. }
  unfold ks_line in H. destruct l as [|fa [|ft [|fn rest]]].
  1-3: injection H as <-; split; [intros a (? & ? & ? & E & _); discriminate|reflexivity].
  assert (Hanch : forall a, anchor_line n a (fa :: ft :: fn :: rest) <-> n = fn /\ parse_hex fa = Some a /\
    (In ft ["t"; "T"] /\ In n ["_stext"; "__x64_sys_bpf"] \/ In ft ["t"; "T"; "D"; "d"] /\ In n ["__start__bpf_raw_tp"; "__stop__bpf_raw_tp"; "bpf_trace_modules"; "x86_pmu"] \/ In ft ["R"; "r"] /\ n = "btf_id_deny")).
  { intros a. split; [intros (? & ? & ? & E & Hx & Hy)|intros (E & Hx & Hy)].
    - injection E as <- <- <- <-. auto.
    - subst fn. exists fa, ft, rest. auto. }
  (* the condition under which the line sets its name's address *)
  assert (Key : forall b : bool, (b = true <-> (In ft ["t"; "T"] /\ In fn ["_stext"; "__x64_sys_bpf"] \/ In ft ["t"; "T"; "D"; "d"] /\ In fn ["__start__bpf_raw_tp"; "__stop__bpf_raw_tp"; "bpf_trace_modules"; "x86_pmu"] \/ In ft ["R"; "r"] /\ fn = "btf_id_deny")) ->
    (b = true -> exists a, parse_hex fa = Some a /\ specials ks' = aput String.eqb fn a (specials ks)) -> (b = false -> specials ks' = specials ks) ->
    (forall a, anchor_line n a (fa :: ft :: fn :: rest) -> aget String.eqb n (specials ks') = Some a) /\
    ((forall a, ~ anchor_line n a (fa :: ft :: fn :: rest)) -> aget String.eqb n (specials ks') = aget String.eqb n (specials ks))).
  { intros b Hb Ht Hf. destruct b.
    - destruct (Ht eq_refl) as (a0 & Ea & Es). rewrite Es, Put. split.
      + intros a Ha. apply Hanch in Ha as (-> & Ha & _). rewrite String.eqb_refl. congruence.
      + intros Hno. destruct (String.eqb_spec n fn) as [E|E]; [|reflexivity]. exfalso. apply (Hno a0). apply Hanch. subst n. split; [reflexivity|]. split; [exact Ea|]. apply Hb. reflexivity.
    - rewrite Hf by reflexivity. split; [|reflexivity]. intros a Ha. apply Hanch in Ha as (-> & _ & Ha). apply Hb in Ha. discriminate. }
  destruct (String.eqb ft "t" || String.eqb ft "T") eqn:Et.
  - assert (Hft : ft = "t" \/ ft = "T") by (apply orb_true_iff in Et; rewrite !String.eqb_eq in Et; exact Et).
    destruct (parse_hex fa) as [a|]; [|discriminate]. apply (f_equal (fun o => match o with Some k => k | None => ks end)) in H. cbv beta iota in H. subst ks'.
    apply (Key (mem_str fn code_specials)).
    + rewrite mem_str_In. unfold code_specials. cbn [In]. clear -Hft. destruct Hft as [-> | ->]; (split; [intros; intuition auto|]); intros [[_ X]|[[_ X]|[[X|[X|[]]] _]]]; try discriminate; intuition auto.
    + intros E. exists a. split; [reflexivity|]. unfold specials. rewrite E. reflexivity.
    + intros E. unfold specials. rewrite E. reflexivity.
  - assert (Hnt : ft <> "t" /\ ft <> "T") by (apply orb_false_iff in Et as [A B]; apply String.eqb_neq in A, B; auto).
    destruct (String.eqb ft "D" || String.eqb ft "d") eqn:Ed.
    + assert (Hft : ft = "D" \/ ft = "d") by (apply orb_true_iff in Ed; rewrite !String.eqb_eq in Ed; exact Ed).
      apply (Key (mem_str fn data_specials)).
      * rewrite mem_str_In. unfold data_specials. cbn [In]. clear -Hft. destruct Hft as [-> | ->]; (split; [intros; intuition auto|]); intros [[[X|[X|[]]] _]|[[_ X]|[[X|[X|[]]] _]]]; try discriminate; intuition auto.
      * intros E. rewrite E in H. destruct (parse_hex fa) as [a|]; [|discriminate]. injection H as <-. exists a. split; reflexivity.
      * intros E. rewrite E in H. injection H as <-. reflexivity.
    + assert (Hnd : ft <> "D" /\ ft <> "d") by (apply orb_false_iff in Ed as [A B]; apply String.eqb_neq in A, B; auto).
      apply (Key ((String.eqb ft "R" || String.eqb ft "r") && String.eqb fn "btf_id_deny")).
      * rewrite andb_true_iff, orb_true_iff, !String.eqb_eq. cbn [In]. clear -Hnt Hnd. destruct Hnt, Hnd.
        split; [intros [[->| ->] ->]; intuition auto|]. intros [[X _]|[[X _]|[X Y]]]; repeat (destruct X as [X|X]); try contradiction; try congruence; subst; auto.
      * intros E. apply andb_true_iff in E as [E1 E2]. rewrite E1, E2 in H. apply String.eqb_eq in E2. subst fn. destruct (parse_hex fa) as [a|]; [|discriminate]. injection H as <-. exists a. split; reflexivity.
      * intros E. destruct (String.eqb ft "R" || String.eqb ft "r"); [|injection H as <-; reflexivity]. cbn [andb] in E. rewrite E in H. injection H as <-. reflexivity.
Qed.
Lemma anchor_dec n l : {a | anchor_line n a l} + {forall a, ~ anchor_line n a l}.
Proof.
  destruct l as [|fa [|ft [|fn rest]]].
  1-3: right; intros a (? & ? & ? & E & _); discriminate.
  destruct (parse_hex fa) as [a|] eqn:Ea; [|right; intros a (? & ? & ? & E & Hx & _); congruence].
  destruct (string_dec fn n) as [->|N]; [|right; intros b (? & ? & ? & E & _); congruence].
  set (b := (mem_str ft ["t"; "T"] && mem_str n ["_stext"; "__x64_sys_bpf"]) || (mem_str ft ["t"; "T"; "D"; "d"] && mem_str n ["__start__bpf_raw_tp"; "__stop__bpf_raw_tp"; "bpf_trace_modules"; "x86_pmu"]) || (mem_str ft ["R"; "r"] && String.eqb n "btf_id_deny")).
  assert (Hb : b = true <-> (In ft ["t"; "T"] /\ In n ["_stext"; "__x64_sys_bpf"] \/ In ft ["t"; "T"; "D"; "d"] /\ In n ["__start__bpf_raw_tp"; "__stop__bpf_raw_tp"; "bpf_trace_modules"; "x86_pmu"] \/ In ft ["R"; "r"] /\ n = "btf_id_deny")).
  { unfold b. rewrite !orb_true_iff, !andb_true_iff, !mem_str_In, String.eqb_eq. tauto. }
  destruct b.
  - left. exists a, fa, ft, rest. split; [reflexivity|]. split; [exact Ea|]. apply Hb. reflexivity.
  - right. intros b' (fa' & ft' & rest' & E & _ & X). injection E as _ <- _. apply Hb in X. discriminate.
Qed.
Lemma lines_special n ls : forall ks ks', ks_lines ks ls = Some ks' ->
  (forall a, last_anchor n a ls -> aget String.eqb n (specials ks') = Some a) /\
  ((forall l a, In l ls -> ~ anchor_line n a l) -> aget String.eqb n (specials ks') = aget String.eqb n (specials ks)).
Proof.
  induction ls as [|l ls IH]; intros ks ks' H; cbn [ks_lines] in H.
  - injection H as <-. split; [intros a (pre & l & post & E & _); destruct pre; discriminate|reflexivity].
  - destruct (ks_line ks l) as [k1|] eqn:E; [|discriminate]. destruct (step_special ks l k1 n E) as [S1 S2]. destruct (IH k1 ks' H) as [I1 I2]. split.
    + intros a (pre & l0 & post & El & Ha & Hp). destruct pre as [|p pre].
      * injection El as <- <-. rewrite I2 by (intros; apply Hp; assumption). apply S1. exact Ha.
      * injection El as -> ->. apply I1. exists pre, l0, post. auto.
    + intros Hno. rewrite I2 by (intros; apply Hno; right; assumption). apply S2. intros a. apply Hno. left. reflexivity.
Qed.
Lemma some_last n ls : (exists a, last_anchor n a ls) \/ (forall l a, In l ls -> ~ anchor_line n a l).
Proof.
  induction ls as [|l ls IH]; [right; intros ? ? []|]. destruct IH as [(a & pre & l0 & post & E & Ha & Hp)|IH].
  - left. exists a, (l :: pre), l0, post. rewrite E. auto.
  - destruct (anchor_dec n l) as [[a Ha]|Hno].
    + left. exists a, [], l, ls. auto.
    + right. intros l' a [<-|Hin]; [apply Hno|apply IH; exact Hin].
Qed.
Theorem anchors_ok ls ks n a : new_kallsyms ls = Some ks -> (aget String.eqb n (specials ks) = Some a <-> last_anchor n a ls).
Proof.
  intros H. destruct (lines_special n ls ks_empty ks H) as [H1 H2]. split; [|apply H1]. intros E. destruct (some_last n ls) as [[a' Ha]|Hno].
  - rewrite (H1 a' Ha) in E. injection E as <-. exact Ha.
  - rewrite (H2 Hno) in E. discriminate.
Qed.
