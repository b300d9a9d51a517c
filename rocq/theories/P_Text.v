(** * Proofs about the readers of the kernel's text files (C110). *)
From Coq Require Import List Bool String Ascii NArith ZArith Lia Arith.
From Verif Require Import M_Go M_Flags S_Flags P_Flags M_Kallsyms S_Kallsyms P_Kallsyms M_Text S_Text.
Import ListNotations.
Open Scope nat_scope.
Open Scope string_scope.

Lemma all_imp (P Q : ascii -> Prop) s : (forall c, P c -> Q c) -> all_chars P s -> all_chars Q s.
Proof. intros H. induction s; cbn; firstorder. Qed.
Lemma all_app P a b : all_chars P (a ++ b) <-> all_chars P a /\ all_chars P b.
Proof. induction a; cbn; [tauto|]. rewrite IHa. tauto. Qed.

(** ** Lines *)
Lemma split_lf_app l s : all_chars (fun c => c <> LF) l -> split_lf (l ++ String LF s) = l :: split_lf s.
Proof.
  induction l as [|c l IH]; cbn [append all_chars]; intros H; [reflexivity|]. destruct H as [Hc H]. cbn [split_lf].
  destruct (Ascii.eqb_spec c LF); [contradiction|]. now rewrite IH.
Qed.
Lemma split_lf_ne s : split_lf s <> [].
Proof. destruct s as [|c s]; cbn; [discriminate|]. destruct (Ascii.eqb c LF); [discriminate|]. destruct (split_lf s); discriminate. Qed.
Lemma tokens_cons x l : l <> [] -> tokens (x :: l) = if too_long x then ([], false) else (drop_cr x :: fst (tokens l), snd (tokens l)).
Proof. intros H. cbn [tokens]. destruct l; [contradiction|]. destruct (tokens (s :: l)). reflexivity. Qed.
Lemma scan_line l s : all_chars (fun c => c <> LF) l -> too_long l = false ->
  scan (l ++ String LF s) = (drop_cr l :: fst (scan s), snd (scan s)).
Proof. intros H H2. unfold scan. rewrite split_lf_app by exact H. rewrite tokens_cons by apply split_lf_ne. now rewrite H2. Qed.
Lemma too_long_false l : (N.of_nat (String.length l) < 65536)%N -> too_long l = false.
Proof. intros. unfold too_long. now apply N.leb_gt. Qed.
Lemma drop_cr_id l : all_chars (fun c => c <> CR) l -> drop_cr l = l.
Proof.
  induction l as [|c l IH]; cbn [all_chars]; intros H; [reflexivity|]. destruct H as [Hc H]. cbn [drop_cr]. destruct l.
  - destruct (Ascii.eqb_spec c CR); [contradiction|reflexivity].
  - now rewrite IH.
Qed.
Lemma cat_cons' x l : String.concat "" (x :: l) = x ++ String.concat "" l.
Proof. destruct l; cbn; [now rewrite app_nil_s|reflexivity]. Qed.
Lemma file_cons l ls : file (l :: ls) = l ++ String LF (file ls).
Proof. unfold file. cbn [map]. rewrite cat_cons'. unfold ends_line. rewrite app_assoc_s. reflexivity. Qed.
Lemma scan_file ls s : Forall is_line ls -> scan (file ls ++ s) = (map drop_cr ls ++ fst (scan s), snd (scan s))%list.
Proof.
  induction 1 as [|l ls [H1 H2] H IH]; [change (file [] ++ s) with s; cbn [map app]; now destruct (scan s)|].
  rewrite file_cons, app_assoc_s. cbn [append]. rewrite scan_line; [|exact H1|now apply too_long_false]. rewrite IH. reflexivity.
Qed.

(** ** Every line is seen, or the reading fails *)
Lemma split_lf_spec s : String.concat newline (split_lf s) = s /\ Forall (all_chars (fun c => c <> LF)) (split_lf s).
Proof.
  induction s as [|c s [IH1 IH2]]; cbn [split_lf]; [repeat constructor|].
  destruct (Ascii.eqb_spec c LF) as [->|Hc].
  - split; [|constructor; [exact I|exact IH2]]. pose proof (split_lf_ne s). destruct (split_lf s) eqn:E; [contradiction|].
    change (String LF (String.concat newline (s0 :: l)) = String LF s). now rewrite IH1.
  - pose proof (split_lf_ne s). destruct (split_lf s) as [|f l]; [contradiction|]. pose proof (Forall_inv IH2) as H1. pose proof (Forall_inv_tail IH2) as H2. split.
    + rewrite <- IH1. destruct l; reflexivity.
    + constructor; [split; [exact Hc|exact H1]|exact H2].
Qed.
Lemma tokens_ok l ls : tokens l = (ls, true) ->
  ls = map drop_cr (match last l "" with EmptyString => removelast l | _ => l end) /\ Forall (fun x => too_long x = false) l.
Proof.
  revert ls. induction l as [|x l IH]; intros ls H; [cbn in H; injection H as <-; cbn; auto|].
  destruct l as [|y l].
  - cbn [tokens] in H. destruct (too_long x) eqn:E; [discriminate|]. injection H as <-. cbn [last removelast]. split; [|now constructor]. destruct x; reflexivity.
  - rewrite tokens_cons in H by discriminate. destruct (too_long x) eqn:E; [discriminate|].
    destruct (tokens (y :: l)) as [ls' ok] eqn:E2. cbn [fst snd] in H. injection H as <- ->.
    destruct (IH _ eq_refl) as [-> H2]. split; [|now constructor].
    change (last (x :: y :: l) "") with (last (y :: l) ""). change (removelast (x :: y :: l)) with (x :: removelast (y :: l)).
    destruct (last (y :: l) ""); reflexivity.
Qed.
Lemma tokens_err l ls : tokens l = (ls, false) -> exists x, In x l /\ too_long x = true.
Proof.
  revert ls. induction l as [|x l IH]; intros ls H; [discriminate|]. destruct l as [|y l].
  - cbn [tokens] in H. destruct (too_long x) eqn:E; [|discriminate]. exists x. cbn. auto.
  - rewrite tokens_cons in H by discriminate. destruct (too_long x) eqn:E; [exists x; cbn; auto|].
    destruct (tokens (y :: l)) as [ls' ok] eqn:E2. cbn [fst snd] in H. injection H as _ ->. destruct (IH _ eq_refl) as (z & Hz & Hz2).
    exists z. split; [right; exact Hz|exact Hz2].
Qed.

(** ** Words *)
Lemma printable_space c : printable c -> is_space c = false.
Proof. unfold printable, is_space. intros H. apply Bool.orb_false_iff. split; [apply Bool.andb_false_iff; right; apply Nat.leb_gt|apply Nat.eqb_neq]; lia. Qed.
Lemma printable_lf c : printable c -> c <> LF.
Proof. intros H ->. unfold printable in H. cbn in H. lia. Qed.
Lemma printable_cr c : printable c -> c <> CR.
Proof. intros H ->. unfold printable in H. cbn in H. lia. Qed.
Definition solid (s : string) : Prop := all_chars (fun c => is_space c = false) s.
Lemma solid_word s : all_chars printable s -> solid s.
Proof. apply all_imp, printable_space. Qed.
Lemma split_space_app w c s : solid w -> is_space c = true -> split_space (w ++ String c s) = w :: split_space s.
Proof.
  intros H Hc. induction w as [|d w IH]; cbn [append]; [cbn; now rewrite Hc|]. destruct H as [Hd H]. cbn [split_space]. rewrite Hd. now rewrite IH.
Qed.
Lemma split_space_word w : solid w -> split_space w = [w].
Proof. induction w as [|d w IH]; [reflexivity|]. intros [Hd H]. cbn [split_space]. rewrite Hd. now rewrite IH. Qed.
Lemma fields_app w c s : solid w -> w <> "" -> is_space c = true -> fields (w ++ String c s) = w :: fields s.
Proof. intros. unfold fields. rewrite split_space_app by assumption. cbn [filter]. destruct (String.eqb_spec w ""); [contradiction|reflexivity]. Qed.
Lemma fields_word w : solid w -> w <> "" -> fields w = [w].
Proof. intros. unfold fields. rewrite split_space_word by assumption. cbn [filter]. destruct (String.eqb_spec w ""); [contradiction|reflexivity]. Qed.
Lemma trim_left_solid c s : is_space c = false -> trim_left (String c s) = String c s.
Proof. intros H. cbn. now rewrite H. Qed.
Lemma trim_right_solid s : solid s -> trim_right s = s.
Proof.
  induction s as [|c s IH]; [reflexivity|]. intros [Hc H]. cbn [trim_right]. rewrite (IH H). destruct s; [now rewrite Hc|reflexivity].
Qed.
Lemma trim_right_last a w : solid w -> w <> "" -> trim_right (a ++ w) = a ++ w.
Proof.
  intros H Hw. destruct w as [|c w]; [contradiction|]. destruct H as [Hc H]. rewrite trim_right_app by exact Hc. now rewrite trim_right_solid.
Qed.
Lemma trim_solid s : solid s -> trim s = s.
Proof. intros H. unfold trim. destruct s as [|c s]; [reflexivity|]. rewrite trim_left_solid by apply H. now apply trim_right_solid. Qed.
Lemma trim_between c a w : is_space c = false -> solid w -> w <> "" -> trim (String c a ++ w) = String c a ++ w.
Proof. intros Hc H Hw. unfold trim. cbn [append]. rewrite trim_left_solid by exact Hc. exact (trim_right_last (String c a) w H Hw). Qed.
Lemma trim_head s c t : trim s = String c t -> is_space c = false.
Proof.
  unfold trim. assert (forall u, match trim_left u with String d _ => is_space d = false | _ => True end) as HL.
  { induction u as [|d u IH]; cbn; [exact I|]. destruct (is_space d) eqn:E; [exact IH|exact E]. }
  specialize (HL s). destruct (trim_left s) as [|d u]; [discriminate|]. cbn [trim_right]. destruct (trim_right u).
  - rewrite HL. intros H. injection H as <- _. exact HL.
  - intros H. injection H as <- _. exact HL.
Qed.
Lemma fields_head c t : is_space c = false -> fields (String c t) <> [].
Proof.
  intros H. unfold fields. cbn [split_space]. rewrite H. destruct (split_space t); cbn; discriminate.
Qed.

(** ** Brackets *)
Lemma nb_bracket c : no_bracket c -> is_bracket c = false.
Proof. intros [H1 H2]. unfold is_bracket. destruct (Ascii.eqb_spec c "["); [contradiction|]. destruct (Ascii.eqb_spec c "]"); [contradiction|reflexivity]. Qed.
Lemma trimb_right_nb m : all_chars no_bracket m -> trimb_right (m ++ "]") = m.
Proof.
  induction m as [|c m IH]; [reflexivity|]. intros [Hc H]. cbn [append trimb_right]. rewrite (IH H). destruct m; [now rewrite nb_bracket|reflexivity].
Qed.
Lemma trim_brackets_mod m : all_chars no_bracket m -> m <> "" -> trim_brackets ("[" ++ m ++ "]") = m.
Proof.
  intros H Hm. unfold trim_brackets. cbn [append trimb_left is_bracket Ascii.eqb Bool.eqb orb].
  change (is_bracket "[") with true. cbn match. destruct m as [|c m]; [contradiction|]. cbn [append trimb_left]. rewrite nb_bracket by apply H.
  apply (trimb_right_nb (String c m) H).
Qed.

(** ** /proc/kallsyms *)
Lemma hexdigit_range d : (0 <= d < 16)%Z -> printable (hexdigit d).
Proof.
  intros H. unfold printable, hexdigit. assert (Z.to_nat (if (d <? 10)%Z then 48 + d else 87 + d) < 256)%nat.
  { destruct (Z.ltb_spec d 10); lia. }
  rewrite nat_ascii_embedding by assumption. destruct (Z.ltb_spec d 10); lia.
Qed.
Lemma hex_fixed_print n : forall v acc, all_chars printable acc -> all_chars printable (hex_fixed n v acc).
Proof. induction n as [|n IH]; intros v acc H; [exact H|]. cbn [hex_fixed]. apply IH. cbn. split; [apply hexdigit_range, Z.mod_pos_bound; lia|exact H]. Qed.
Lemma hex_fixed_len n : forall v acc, String.length (hex_fixed n v acc) = (n + String.length acc)%nat.
Proof. induction n as [|n IH]; intros v acc; [reflexivity|]. cbn [hex_fixed]. rewrite IH. cbn. lia. Qed.
Lemma hex16_word v : word (hex16 v).
Proof.
  split; [|apply hex_fixed_print; exact I]. intros H. pose proof (hex_fixed_len 16 v ""). unfold hex16 in H. rewrite H in H0. cbn in H0. lia.
Qed.

Definition sym_fields (s : sym) : list string :=
  hex16 (s_addr s) :: String (s_type s) "" :: s_name s :: match s_mod s with Some m => [m] | None => [] end.

Definition mod_part (s : sym) : string := match s_mod s with Some m => tab ++ "[" ++ m ++ "]" | None => "" end.
Lemma sym_line_eq s : sym_line s = hex16 (s_addr s) ++ String " " (String (s_type s) (String " " (s_name s ++ mod_part s))).
Proof. reflexivity. Qed.
Lemma bracketed_print m : all_chars printable m -> all_chars printable ("[" ++ m ++ "]").
Proof. intros H. cbn. split; [unfold printable; cbn; lia|]. apply all_app. split; [exact H|]. cbn. split; [unfold printable; cbn; lia|exact I]. Qed.
Lemma bracketed_ne m : "[" ++ m ++ "]" <> "".
Proof. discriminate. Qed.
Lemma sym_line_ok s : sym_ok s -> is_line (sym_line s) /\ all_chars (fun c => c <> CR) (sym_line s).
Proof.
  intros (Ha & Ht & [Hn0 Hn] & Hs & Hm).
  assert (forall Q : ascii -> Prop, (forall c, printable c -> Q c) -> Q " "%char -> Q "009"%char -> all_chars Q (sym_line s)) as HQ.
  { intros Q HP H1 H2. rewrite sym_line_eq. apply all_app. split; [apply (all_imp printable); [exact HP|apply hex16_word]|].
    cbn [all_chars]. split; [exact H1|]. split; [apply HP, Ht|]. split; [exact H1|]. apply all_app. split; [now apply (all_imp printable)|].
    unfold mod_part. destruct (s_mod s) as [m|]; [|exact I]. cbn [append tab all_chars]. split; [exact H2|].
    change (all_chars Q ("[" ++ m ++ "]")). apply (all_imp printable); [exact HP|]. apply bracketed_print. destruct (Hm m eq_refl) as ([_ Hw] & _). exact Hw. }
  split; [split|].
  - apply HQ; [apply printable_lf|discriminate|discriminate].
  - rewrite sym_line_eq. rewrite len_app. unfold hex16 at 1. rewrite hex_fixed_len. cbn [String.length].
    rewrite len_app. unfold short in Hs. unfold mod_part. destruct (s_mod s) as [m|].
    + destruct (Hm m eq_refl) as (_ & Hms & _). unfold short in Hms. cbn [append tab String.length]. rewrite len_app. cbn [String.length]. lia.
    + cbn. lia.
  - apply HQ; [apply printable_cr|discriminate|discriminate].
Qed.
Lemma word_solid s : word s -> solid s.
Proof. intros [_ H]. now apply solid_word. Qed.
Lemma sym_line_trim s : sym_ok s -> trim (sym_line s) = sym_line s.
Proof.
  intros (Ha & Ht & Hn & Hs & Hm). rewrite sym_line_eq. destruct (hex16 (s_addr s)) as [|c h] eqn:E; [destruct (hex16_word (s_addr s)); contradiction|].
  assert (is_space c = false) as Hc. { pose proof (word_solid _ (hex16_word (s_addr s))) as H. rewrite E in H. apply H. }
  unfold mod_part. destruct (s_mod s) as [m|] eqn:Em.
  - destruct (Hm m eq_refl) as (Hw & _).
    replace (String c h ++ String " " (String (s_type s) (String " " (s_name s ++ tab ++ "[" ++ m ++ "]"))))
      with (String c (h ++ String " " (String (s_type s) (String " " (s_name s ++ tab)))) ++ ("[" ++ m ++ "]")).
    + apply trim_between; [exact Hc| |discriminate]. apply solid_word, bracketed_print, Hw.
    + cbn [append]. rewrite app_assoc_s. cbn [append]. rewrite app_assoc_s. reflexivity.
  - rewrite app_nil_s.
    replace (String c h ++ String " " (String (s_type s) (String " " (s_name s))))
      with (String c (h ++ String " " (String (s_type s) " ")) ++ s_name s).
    + apply trim_between; [exact Hc|now apply word_solid|apply Hn].
    + cbn [append]. rewrite app_assoc_s. reflexivity.
Qed.
Lemma sym_line_fields s : sym_ok s -> fields (sym_line s) =
  hex16 (s_addr s) :: String (s_type s) "" :: s_name s :: match s_mod s with Some m => ["[" ++ m ++ "]"] | None => [] end.
Proof.
  intros (Ha & Ht & Hn & Hs & Hm). rewrite sym_line_eq.
  rewrite fields_app; [|apply word_solid, hex16_word|apply hex16_word|reflexivity].
  change (String (s_type s) (String " " (s_name s ++ mod_part s))) with (String (s_type s) "" ++ String " " (s_name s ++ mod_part s)).
  rewrite fields_app; [|cbn; split; [now apply printable_space|exact I]|discriminate|reflexivity].
  do 2 f_equal. unfold mod_part. destruct (s_mod s) as [m|].
  - destruct (Hm m eq_refl) as (Hw & _). unfold tab. change (String "009" "" ++ "[" ++ m ++ "]") with (String "009" ("[" ++ m ++ "]")).
    rewrite fields_app; [|now apply word_solid|apply Hn|reflexivity]. f_equal. apply fields_word; [|discriminate]. apply solid_word, bracketed_print, Hw.
  - rewrite app_nil_s. apply fields_word; [now apply word_solid|apply Hn].
Qed.
Lemma ks_fields_line s : sym_ok s -> ks_fields (sym_line s) = sym_fields s.
Proof.
  intros H. unfold ks_fields. rewrite (sym_line_trim s H).
  assert (sym_line s <> "") as Hne.
  { rewrite sym_line_eq. destruct (hex16 (s_addr s)) eqn:E; [destruct (hex16_word (s_addr s)); contradiction|discriminate]. }
  destruct (sym_line s) as [|c t] eqn:E; [contradiction|]. rewrite <- E. rewrite (sym_line_fields s H). unfold sym_fields.
  destruct H as (Ha & Ht & Hn & Hs & Hm). rewrite (trim_solid (s_name s)) by now apply word_solid.
  destruct (s_mod s) as [m|]; [|reflexivity]. destruct (Hm m eq_refl) as (Hw & _ & Hb). rewrite trim_brackets_mod; [reflexivity|exact Hb|apply Hw].
Qed.
Theorem text_is_listing l : Forall sym_ok l -> ks_of_text (file (map sym_line l)) = new_kallsyms (map sym_fields l).
Proof.
  intros H. unfold ks_of_text.
  replace (scan (file (map sym_line l))) with (map sym_line l, true).
  - rewrite map_map. rewrite (map_ext_in _ sym_fields); [unfold new_kallsyms; destruct (ks_lines ks_empty (map sym_fields l)); reflexivity|].
    intros s Hs. apply ks_fields_line. rewrite Forall_forall in H. now apply H.
  - pose proof (scan_file (map sym_line l) "") as HS. rewrite app_nil_s in HS. rewrite HS.
    + rewrite map_map. change (scan "") with (@nil string, true). cbn [fst snd]. rewrite app_nil_r. f_equal. apply map_ext_in. intros s Hs. symmetry. apply drop_cr_id.
      rewrite Forall_forall in H. now apply sym_line_ok, H.
    + rewrite Forall_map. apply (Forall_impl _ (fun s Hs => proj1 (sym_line_ok s Hs)) H).
Qed.

Lemma sym_step ks s : sym_ok s -> exists ks', ks_line ks (sym_fields s) = Some ks' /\
  map (fun e => (kaddr e, kname e, kmod e)) (heap ks') =
  (map (fun e => (kaddr e, kname e, kmod e)) (heap ks) ++ if is_function s then [(s_addr s, s_name s, sym_mod s)] else [])%list.
Proof.
  intros (Ha & _). unfold sym_fields, ks_line, is_function.
  pose proof (parse_hex16 (s_addr s) Ha) as HP. rewrite HP.
  assert (forall c, String.eqb (String (s_type s) "") (String c "") = Ascii.eqb (s_type s) c) as HE.
  { intros c. cbn [String.eqb]. now destruct (Ascii.eqb (s_type s) c). }
  rewrite !HE. destruct (Ascii.eqb (s_type s) "t" || Ascii.eqb (s_type s) "T").
  - eexists. split; [reflexivity|]. cbn [heap]. rewrite map_app. f_equal.
    + destruct (aget String.eqb (s_name s) (n2s ks)); [|reflexivity]. now apply upd_nth_map.
    + cbn [map kaddr kname kmod]. unfold sym_mod. now destruct (s_mod s).
  - destruct (Ascii.eqb (s_type s) "D" || Ascii.eqb (s_type s) "d").
    + destruct (mem_str (s_name s) data_specials); eexists; (split; [reflexivity|]); cbn [heap]; now rewrite app_nil_r.
    + destruct (Ascii.eqb (s_type s) "R" || Ascii.eqb (s_type s) "r").
      * destruct (String.eqb (s_name s) "btf_id_deny"); eexists; (split; [reflexivity|]); cbn [heap]; now rewrite app_nil_r.
      * eexists; split; [reflexivity|]. now rewrite app_nil_r.
Qed.
Lemma sym_steps l : Forall sym_ok l -> forall ks, exists ks', ks_lines ks (map sym_fields l) = Some ks' /\
  map (fun e => (kaddr e, kname e, kmod e)) (heap ks') =
  (map (fun e => (kaddr e, kname e, kmod e)) (heap ks) ++ map (fun s => (s_addr s, s_name s, sym_mod s)) (filter is_function l))%list.
Proof.
  induction 1 as [|s l Hs H IH]; intros ks; [exists ks; cbn; now rewrite app_nil_r|].
  destruct (sym_step ks s Hs) as (ks1 & E1 & H1). destruct (IH ks1) as (ks2 & E2 & H2). exists ks2. cbn [map ks_lines filter]. rewrite E1. split; [exact E2|].
  rewrite H2, H1, <- app_assoc. f_equal. destruct (is_function s); reflexivity.
Qed.
Theorem text_loads l : Forall sym_ok l -> exists ks, ks_of_text (file (map sym_line l)) = Some ks /\
  map (fun e => (kaddr e, kname e, kmod e)) (heap ks) = map (fun s => (s_addr s, s_name s, sym_mod s)) (filter is_function l).
Proof. intros H. rewrite (text_is_listing l H). destruct (sym_steps l H ks_empty) as (ks & E & H1). exists ks. split; [exact E|exact H1]. Qed.
Lemma text_syms_fields l : Forall sym_ok l -> text_syms (map sym_fields l) = map (fun s => (s_addr s, s_name s)) (filter is_function l).
Proof.
  induction 1 as [|s l Hs H IH]; [reflexivity|]. cbn [map filter]. unfold sym_fields at 1. cbn [text_syms].
  assert (forall c, String.eqb (String (s_type s) "") (String c "") = Ascii.eqb (s_type s) c) as HE.
  { intros c. cbn [String.eqb]. now destruct (Ascii.eqb (s_type s) c). }
  rewrite !HE. fold (is_function s). destruct (is_function s); [|exact IH]. destruct Hs as [Ha _]. rewrite (parse_hex16 _ Ha). cbn [map]. now rewrite IH.
Qed.
Theorem text_find l a : Forall sym_ok l ->
  (exists s, In s l /\ is_function s = true /\ (s_addr s <= a)%Z) -> (exists s, In s l /\ is_function s = true /\ (a <= s_addr s)%Z) ->
  exists ks e s, ks_of_text (file (map sym_line l)) = Some ks /\ ks_find ks a = FSome (Some e) /\ In s l /\ is_function s = true /\
    kaddr e = s_addr s /\ kname e = s_name s /\ (s_addr s <= a)%Z /\
    forall s', In s' l -> is_function s' = true -> (s_addr s' <= a)%Z -> (s_addr s' <= s_addr s)%Z.
Proof.
  intros H (s1 & I1 & F1 & L1) (s2 & I2 & F2 & L2). destruct (text_loads l H) as (ks & E & _). pose proof E as E'. rewrite (text_is_listing l H) in E'.
  assert (forall s, In s l -> is_function s = true -> In (s_addr s, s_name s) (text_syms (map sym_fields l))) as HI.
  { intros s I F. rewrite (text_syms_fields l H). apply in_map_iff. exists s. split; [reflexivity|]. now apply filter_In. }
  destruct (find_in_range _ _ a E') as (e & Hf & (pre & post & Hl & _) & Hle & Hmax); [now exists (s_addr s1, s_name s1); auto|now exists (s_addr s2, s_name s2); auto|].
  assert (In (kaddr e, kname e) (text_syms (map sym_fields l))) as HIn by (rewrite Hl; apply in_elt).
  rewrite (text_syms_fields l H) in HIn. apply in_map_iff in HIn as (s & Es & Is). apply filter_In in Is as (Is & Fs). injection Es as Ea En.
  exists ks, e, s. repeat split; auto; [congruence|]. intros s' I' F' L'. rewrite Ea. apply (Hmax (s_addr s', s_name s')); [now apply HI|exact L'].
Qed.

(** A file that cannot be read to its end is refused. *)
Theorem long_line_refused text : (exists x, In x (split_lf text) /\ (65536 <= N.of_nat (String.length x))%N) ->
  ks_of_text text = None /\ (forall ls, load_avail text <> ANames ls).
Proof.
  intros (x & Hx & HL). unfold ks_of_text, load_avail. destruct (scan text) as [ls ok] eqn:E. assert (ok = false) as ->.
  { destruct ok; [|reflexivity]. exfalso. apply tokens_ok in E as [_ HF]. rewrite Forall_forall in HF. specialize (HF _ Hx).
    unfold too_long in HF. apply N.leb_gt in HF. lia. }
  split; [destruct (ks_lines _ _); reflexivity|]. intros l'. destruct (avail_lines ls); discriminate.
Qed.

(** ** available_filter_functions *)
Lemma avail_lines_safe ls : avail_lines ls <> APanic /\ avail_lines ls <> AErr.
Proof.
  induction ls as [|x ls IH]; [split; discriminate|]. cbn [avail_lines]. destruct (trim x) as [|c t] eqn:E; [exact IH|].
  destruct (fields (String c t)) eqn:E2; [exfalso; eapply fields_head; [eapply trim_head, E|exact E2]|]. destruct (avail_lines ls); [split; discriminate|exact IH|exact IH].
Qed.
Theorem avail_never_panics text : load_avail text <> APanic.
Proof.
  unfold load_avail. destruct (scan text) as [ls ok]. pose proof (avail_lines_safe ls) as [H1 H2]. destruct (avail_lines ls); [|discriminate|contradiction].
  destruct ok; discriminate.
Qed.
Lemma avail_line_ok f : avail_ok f -> is_line (avail_line f) /\ all_chars (fun c => c <> CR) (avail_line f) /\
  trim (avail_line f) = avail_line f /\ avail_line f <> "" /\ exists r, fields (avail_line f) = fst f :: r.
Proof.
  destruct f as [n mo]. intros ([Hn0 Hn] & Hs & Hm). cbn [fst snd] in *. unfold avail_line. cbn [fst snd].
  assert (forall Q : ascii -> Prop, (forall c, printable c -> Q c) -> Q " "%char -> all_chars Q (n ++ match mo with Some m => " [" ++ m ++ "]" | None => "" end)) as HQ.
  { intros Q HP H1. apply all_app. split; [now apply (all_imp printable)|]. destruct mo as [m|]; [|exact I]. cbn [append all_chars]. split; [exact H1|].
    change (all_chars Q ("[" ++ m ++ "]")). apply (all_imp printable); [exact HP|]. apply (bracketed_print m). destruct (Hm m eq_refl) as ([_ Hw] & _). exact Hw. }
  assert (exists c n', n = String c n') as (c & n' & En) by (destruct n; [contradiction|eauto]).
  assert (is_space c = false) as Hc by (rewrite En in Hn; apply printable_space, Hn).
  split; [split|split; [|split; [|split]]].
  - apply HQ; [apply printable_lf|discriminate].
  - rewrite len_app. unfold short in Hs. destruct mo as [m|]; [|cbn; lia]. destruct (Hm m eq_refl) as (_ & Hms). unfold short in Hms.
    cbn [append String.length]. rewrite len_app. cbn [String.length]. lia.
  - apply HQ; [apply printable_cr|discriminate].
  - destruct mo as [m|]; [|rewrite app_nil_s; apply trim_solid; now apply solid_word].
    destruct (Hm m eq_refl) as ([_ Hw] & _). rewrite En.
    replace (String c n' ++ " [" ++ m ++ "]") with (String c (n' ++ " ") ++ ("[" ++ m ++ "]")) by (cbn [append]; rewrite app_assoc_s; reflexivity).
    apply trim_between; [exact Hc|apply solid_word, bracketed_print, Hw|discriminate].
  - rewrite En. discriminate.
  - destruct mo as [m|].
    + change (" [" ++ m ++ "]") with (String " " ("[" ++ m ++ "]")). eexists. apply fields_app; [now apply solid_word|exact Hn0|reflexivity].
    + exists []. rewrite app_nil_s. apply fields_word; [now apply solid_word|exact Hn0].
Qed.
Theorem avail_reads l : Forall avail_ok l -> load_avail (file (map avail_line l)) = ANames (map fst l).
Proof.
  intros H. unfold load_avail. pose proof (scan_file (map avail_line l) "") as HS. rewrite app_nil_s in HS. rewrite HS.
  2:{ rewrite Forall_map. apply (Forall_impl _ (fun f Hf => proj1 (avail_line_ok f Hf)) H). }
  rewrite map_map. change (scan "") with (@nil string, true). cbn [fst snd]. rewrite app_nil_r. clear HS.
  replace (avail_lines (map (fun x => drop_cr (avail_line x)) l)) with (ANames (map fst l)); [reflexivity|].
  induction H as [|f l Hf H IH]; [reflexivity|]. cbn [map avail_lines]. destruct (avail_line_ok f Hf) as (_ & Hcr & Ht & Hne & r & Hr).
  rewrite (drop_cr_id _ Hcr), Ht. destruct (avail_line f) as [|c t] eqn:E; [contradiction|]. rewrite Hr. now rewrite <- IH.
Qed.

(** ** fdinfo *)
Lemma digits_print l : (forall d, In d l -> d < 10) -> all_chars printable (digits l).
Proof.
  induction l as [|d l IH]; intros H; [exact I|]. cbn [digits all_chars]. split; [|apply IH; intros; apply H; now right].
  unfold printable. specialize (H d (or_introl eq_refl)). rewrite nat_ascii_embedding; lia.
Qed.
Lemma digits_len l : String.length (digits l) = List.length l.
Proof. induction l; cbn; congruence. Qed.
Lemma prefix_drop_cr p l : all_chars printable p -> has_prefix p (drop_cr l) = has_prefix p l.
Proof.
  revert l. induction p as [|a p IH]; intros l H; [now destruct l|]. destruct H as [Ha H]. destruct l as [|c l]; [reflexivity|].
  cbn [drop_cr]. destruct l as [|d l].
  - destruct (Ascii.eqb_spec c CR) as [->|]; [|reflexivity]. cbn [has_prefix]. destruct (Ascii.eqb_spec a CR); [|reflexivity].
    exfalso. now apply (printable_cr a).
  - change (has_prefix (String a p) (String c (drop_cr (String d l)))) with (Ascii.eqb a c && has_prefix p (drop_cr (String d l))). now rewrite IH.
Qed.
Lemma prog_id_pre pre ls ok : (forall l, In l pre -> has_prefix "prog_id:" l = false) -> prog_id_lines (map drop_cr pre ++ ls) ok = prog_id_lines ls ok.
Proof.
  induction pre as [|l pre IH]; intros H; [reflexivity|]. cbn [map app prog_id_lines]. rewrite prefix_drop_cr.
  - rewrite (H l (or_introl eq_refl)). apply IH. intros; apply H; now right.
  - cbn. unfold printable. cbn. repeat split; lia.
Qed.
Theorem fdinfo_read pre id post : Forall is_line pre -> (forall l, In l pre -> has_prefix "prog_id:" l = false) ->
  id <> [] -> (forall d, In d id -> d < 10) -> (number id < 2 ^ 32)%Z -> (List.length id <= 10) -> prog_id_of (fdinfo pre id post) = AnId (number id).
Proof.
  intros Hp Hn Hne Hd Hv Hlen. pose proof (digits_print id Hd) as HD. unfold prog_id_of, fdinfo. rewrite scan_file.
  - rewrite map_app, <- app_assoc, (prog_id_pre _ _ _ Hn). cbn [map app]. rewrite drop_cr_id.
    + cbn [prog_id_lines]. change (has_prefix "prog_id:" ("prog_id:" ++ tab ++ digits id)) with true. cbn match.
      change ("prog_id:" ++ tab ++ digits id) with ("prog_id:" ++ String "009" (digits id)).
      rewrite fields_app; [|cbn; repeat split|discriminate|reflexivity].
      rewrite fields_word; [|now apply solid_word|destruct id; [contradiction|discriminate]]. now rewrite parse_digits.
    + apply all_app. split; [cbn; repeat split; discriminate|]. cbn [append tab all_chars]. split; [discriminate|]. now apply (all_imp printable); [apply printable_cr|].
  - apply Forall_app. split; [exact Hp|]. constructor; [|constructor]. split.
    + apply all_app. split; [cbn; repeat split; discriminate|]. cbn [append tab all_chars]. split; [discriminate|]. now apply (all_imp printable); [apply printable_lf|].
    + rewrite !len_app, digits_len. cbn [String.length tab]. lia.
Qed.
Theorem pid_reads fds ids : Forall2 fd_of fds ids -> pid_progs fds = Some (listed_ids ids).
Proof.
  induction 1 as [|f i fds ids Hf H IH]; [reflexivity|]. destruct Hf as [l x Hl| |pre id post Hp Hn Hne Hd Hv Hlen]; cbn [pid_progs fd_link fd_info listed_ids].
  - destruct l as [t|]; [|exact IH]. destruct (String.eqb_spec (trim t) "anon_inode:bpf-prog") as [E|]; [exfalso; now apply (Hl t)|]. exact IH.
  - exact IH.
  - change (trim "anon_inode:bpf-prog") with "anon_inode:bpf-prog". rewrite String.eqb_refl. cbn [negb]. rewrite fdinfo_read by assumption. now rewrite IH.
Qed.
Theorem scan_complete text ls ok : scan text = (ls, ok) -> exists pieces, String.concat newline pieces = text /\ Forall (all_chars (fun c => c <> LF)) pieces /\
  if ok then Forall is_line pieces /\ ls = map drop_cr (match last pieces "" with EmptyString => removelast pieces | _ => pieces end)
  else exists x, In x pieces /\ (65536 <= N.of_nat (String.length x))%N.
Proof.
  intros H. exists (split_lf text). destruct (split_lf_spec text) as [H1 H2]. split; [exact H1|]. split; [exact H2|]. destruct ok.
  - apply tokens_ok in H as [-> HF]. split; [|reflexivity]. rewrite Forall_forall in *. intros x Hx. split; [now apply H2|].
    specialize (HF x Hx). now apply N.leb_gt.
  - apply tokens_err in H as (x & Hx & HL). exists x. split; [exact Hx|]. now apply N.leb_le.
Qed.
