(** * Proofs about prototypes (C91). *)
From Coq Require Import ZArith NArith List Bool String Ascii Arith Lia Permutation Sorted DecimalString Decimal DecimalN.
From Verif Require Import M_Go P_Go M_Flags M_Kfuncs S_Kfuncs P_Kfuncs M_Proto S_Proto.
Import ListNotations.
Open Scope string_scope.
Open Scope list_scope.

(** ** Splitting a text into words and signs *)
Definition blank (c : ascii) : bool := let n := nat_of_ascii c in Nat.eqb n 32 || Nat.eqb n 10 || Nat.eqb n 9.
Definition flush (w : string) : list string := match w with "" => [] | _ => [w] end.
Fixpoint lex (w s : string) : list string :=
  match s with
  | EmptyString => flush w
  | String c s' => if word_char c then lex (w ++ String c "")%string s' else flush w ++ (if blank c then [] else [String c ""]) ++ lex "" s'
  end.
Definition sign (c : ascii) : list string := if blank c then [] else [String c ""].
Lemma sapp_assoc (a b c : string) : ((a ++ b) ++ c)%string = (a ++ (b ++ c))%string.
Proof. induction a; cbn; [reflexivity|f_equal; assumption]. Qed.
Lemma sapp_nil (a : string) : (a ++ "")%string = a.
Proof. induction a; cbn; [reflexivity|f_equal; assumption]. Qed.
Lemma lex_cut c b : word_char c = false -> forall a w, lex w (a ++ String c b)%string = lex w a ++ sign c ++ lex "" b.
Proof.
  intros Hc. induction a as [|d a IH]; intros w; cbn [append lex].
  - rewrite Hc. reflexivity.
  - destruct (word_char d); [apply IH|]. rewrite IH, <- !app_assoc. reflexivity.
Qed.
Lemma lex_word s : all_chars word_char s = true -> forall w, lex w s = flush (w ++ s)%string.
Proof.
  induction s as [|c s IH]; cbn [lex all_chars]; intros H w; [rewrite sapp_nil; reflexivity|].
  apply andb_prop in H as [H1 H2]. rewrite H1, IH by exact H2. rewrite sapp_assoc. reflexivity.
Qed.
Lemma lex_tag n : tag n -> lex "" n = [n].
Proof. intros [H1 H2]. rewrite (lex_word n H2). cbn. destruct n; [congruence|reflexivity]. Qed.

(** ** The words of a type *)
Fixpoint toks (t : ty) : list string :=
  match t with
  | TVoid => ["void"] | TInt n => lex "" n | TEnum n => ["enum"; n] | TStruct n => ["struct"; n] | TUnion n => ["union"; n]
  | TConst t => "const" :: toks t | TVolatile t => "volatile" :: toks t | TTag v t => v :: toks t | TTypedef n _ => [n] | TPtr t => toks t ++ ["*"]
  | _ => []
  end.
Definition starred (t : ty) : bool := match t with TPtr _ => true | _ => false end.

Lemma ends_app a b : b <> "" -> ends_star (a ++ b)%string = ends_star b.
Proof.
  intros Hb. induction a as [|c a IH]; [reflexivity|]. cbn [append ends_star]. rewrite IH. destruct (a ++ b)%string eqn:E; [|reflexivity].
  destruct a; cbn in E; [congruence|discriminate].
Qed.
Lemma ends_some s : s <> "" -> exists b, ends_star s = Some b.
Proof. induction s as [|c s IH]; [congruence|]. intros _. cbn [ends_star]. destruct s; [eauto|]. apply IH. discriminate. Qed.
Lemma ends_word n : n <> "" -> all_chars word_char n = true -> ends_star n = Some false.
Proof.
  induction n as [|c n IH]; [congruence|]. intros _ H. cbn [all_chars] in H. apply andb_prop in H as [H1 H2]. cbn [ends_star]. destruct n.
  - destruct (Ascii.eqb_spec c "*"%char) as [->|]; [discriminate|reflexivity].
  - apply IH; [discriminate|exact H2].
Qed.
Lemma int_word_tag w : In w int_words -> tag w.
Proof. intros H. cbn in H. repeat destruct H as [<-|H]; [..|contradiction]; split; (discriminate || reflexivity). Qed.
Lemma concat_cons w ws : String.concat " " (w :: ws) = match ws with [] => w | _ => (w ++ " " ++ String.concat " " ws)%string end.
Proof. destruct ws; reflexivity. Qed.
Lemma lex_concat ws : (forall w, In w ws -> tag w) -> lex "" (String.concat " " ws) = ws.
Proof.
  induction ws as [|w ws IH]; intros H; [reflexivity|]. rewrite concat_cons. destruct ws as [|v ws]; [apply lex_tag, H; left; reflexivity|].
  change ((w ++ " " ++ String.concat " " (v :: ws))%string) with ((w ++ String " " (String.concat " " (v :: ws)))%string).
  rewrite lex_cut by reflexivity. rewrite IH by (intros x Hx; apply H; right; exact Hx). rewrite lex_tag by (apply H; left; reflexivity). reflexivity.
Qed.
Lemma concat_ends ws : ws <> [] -> (forall w, In w ws -> tag w) -> ends_star (String.concat " " ws) = Some false /\ String.concat " " ws <> "".
Proof.
  induction ws as [|w ws IH]; [congruence|]. intros _ H. rewrite concat_cons. assert (Hw := H w (or_introl eq_refl)). destruct ws as [|v ws].
  - destruct Hw as [H1 H2]. split; [apply ends_word; assumption|exact H1].
  - destruct IH as [I1 I2]; [discriminate|intros x Hx; apply H; right; exact Hx|]. split.
    + rewrite ends_app by (destruct (String.concat " " (v :: ws)); [congruence|discriminate]). rewrite (ends_app " ") by exact I2. exact I1.
    + destruct Hw as [Hw _]. destruct w; [congruence|discriminate].
Qed.
(** what Repr leaves in the builder before a name *)
Definition lead (sb : string) : Prop := forall b, lex "" (sb ++ b)%string = lex "" sb ++ lex "" b.
Lemma lead_nil : lead "".
Proof. intros b. reflexivity. Qed.
Lemma lead_word sb w : lead sb -> tag w -> lead (sb ++ w ++ " ")%string /\ lex "" (sb ++ w ++ " ")%string = lex "" sb ++ [w].
Proof.
  intros Hs Hw. assert (E : lex "" (sb ++ w ++ " ")%string = lex "" sb ++ [w]).
  { rewrite Hs. f_equal. change (w ++ " ")%string with (w ++ String " " "")%string. rewrite lex_cut by reflexivity. rewrite (lex_tag _ Hw). reflexivity. }
  split; [|exact E]. intros b. rewrite E. rewrite !sapp_assoc, Hs. change ((" " ++ b)%string) with (String " " b). rewrite lex_cut by reflexivity.
  rewrite (lex_tag _ Hw), <- app_assoc. reflexivity.
Qed.
Lemma qual_repr t : qualified t -> forall sb, lead sb -> exists s, repr_go sb t = Some s /\ lex "" s = lex "" sb ++ toks t /\ ends_star s = Some false /\ s <> "".
Proof.
  assert (TG : forall k n sb, tag k -> tag n -> lead sb -> lex "" (sb ++ (k ++ " ") ++ n)%string = lex "" sb ++ [k; n] /\ ends_star (sb ++ (k ++ " ") ++ n)%string = Some false /\ (sb ++ (k ++ " ") ++ n)%string <> "").
  { intros k n sb Hk [Hn1 Hn2] Hl. assert (Hn : tag n) by (split; assumption). destruct (lead_word sb k Hl Hk) as [L E]. rewrite <- (sapp_assoc sb). rewrite (L n), E, (lex_tag _ Hn), <- app_assoc. split; [reflexivity|]. split.
    - rewrite ends_app by exact Hn1. apply ends_word; assumption.
    - intros E'. apply (f_equal String.length) in E'. rewrite string_length_append in E' || idtac. destruct (sb ++ k ++ " ")%string eqn:E2; cbn in E'; [destruct n; [congruence|discriminate]|discriminate]. }
  induction 1 as [|n (ws & Hws & Hin & ->)|n Hn|n Hn|n Hn|t Ht IH|t Ht IH]; intros sb Hl; cbn [repr_go toks].
  - eexists. split; [reflexivity|]. split; [rewrite Hl; reflexivity|]. split; [rewrite ends_app by discriminate; reflexivity|]. destruct sb; discriminate.
  - destruct (concat_ends ws Hws (fun w H => int_word_tag w (Hin w H))) as [E1 E2].
    eexists. split; [reflexivity|]. split; [rewrite Hl; reflexivity|]. split; [rewrite ends_app by exact E2; exact E1|]. destruct sb; [exact E2|discriminate].
  - destruct (TG "enum" n sb) as (A & B & C); try assumption; [split; [discriminate|reflexivity]|]. eexists. split; [reflexivity|]. auto.
  - destruct (TG "struct" n sb) as (A & B & C); try assumption; [split; [discriminate|reflexivity]|]. eexists. split; [reflexivity|]. auto.
  - destruct (TG "union" n sb) as (A & B & C); try assumption; [split; [discriminate|reflexivity]|]. eexists. split; [reflexivity|]. auto.
  - destruct (lead_word sb "const" Hl) as [L E]; [split; [discriminate|reflexivity]|]. destruct (IH _ L) as (s & E1 & E2 & E3). exists s. split; [exact E1|]. rewrite E2. split; [|exact E3].
    change (sb ++ "const ")%string with (sb ++ "const" ++ " ")%string. rewrite E, <- app_assoc. reflexivity.
  - destruct (lead_word sb "volatile" Hl) as [L E]; [split; [discriminate|reflexivity]|]. destruct (IH _ L) as (s & E1 & E2 & E3). exists s. split; [exact E1|]. rewrite E2. split; [|exact E3].
    change (sb ++ "volatile ")%string with (sb ++ "volatile" ++ " ")%string. rewrite E, <- app_assoc. reflexivity.
Qed.
Lemma plain_repr t : plain t -> exists s, repr t = Some s /\ lex "" s = toks t /\ ends_star s = Some (starred t) /\ s <> "".
Proof.
  unfold repr. induction 1 as [t H|v t [Hv _] H|n t [[H1 H2] _]|t H (s & E1 & E2 & E3 & E4)].
  - destruct (qual_repr t H "" lead_nil) as (s & E1 & E2 & E3 & E4). exists s. split; [exact E1|]. split; [exact E2|]. split; [|exact E4]. rewrite E3. destruct H; reflexivity.
  - destruct (lead_word "" v lead_nil Hv) as [L E]. destruct (qual_repr t H _ L) as (s & E1 & E2 & E3 & E4). exists s. cbn [repr_go toks starred]. split; [exact E1|]. split; [rewrite E2, E; reflexivity|]. split; [|exact E4].
    rewrite E3. destruct H; reflexivity.
  - exists n. split; [reflexivity|]. split; [apply lex_tag; split; assumption|]. split; [apply ends_word; assumption|exact H1].
  - cbn [repr_go toks starred]. rewrite E1, E3. eexists. split; [reflexivity|]. cbn [append]. split.
    + destruct (starred t).
      * change (s ++ "*")%string with (s ++ String "*" "")%string. rewrite lex_cut by reflexivity. rewrite E2. reflexivity.
      * change (s ++ " *")%string with (s ++ String " " "*")%string. rewrite lex_cut by reflexivity. rewrite E2. reflexivity.
    + split; [|destruct s; discriminate || (destruct (starred t); discriminate)]. destruct (starred t); rewrite ends_app by discriminate; reflexivity.
Qed.
Lemma typed_lex t n : plain t -> tag n -> exists d s, repr t = Some d /\ typed d n = Some s /\ forall c b, word_char c = false -> lex "" (s ++ String c b)%string = toks t ++ n :: sign c ++ lex "" b.
Proof.
  intros Ht Hn. destruct (plain_repr t Ht) as (d & E1 & E2 & E3 & E4). exists d. unfold typed. rewrite E3. eexists. split; [exact E1|]. split; [reflexivity|].
  enough (E : lex "" (d ++ (if starred t then "" else " ") ++ n)%string = toks t ++ [n]).
  { intros c b Hc. rewrite lex_cut by exact Hc. rewrite E, <- app_assoc. reflexivity. }
  destruct (starred t) eqn:Es.
  - (* d ends in a star *)
    destruct Ht as [t Hq|v t Hv Hq|m t Hm|t Hp]; try discriminate. { destruct Hq; discriminate. }
    unfold repr in E1. cbn [repr_go] in E1. destruct (repr_go "" t) as [r|]; [|discriminate]. destruct (ends_star r) as [b0|]; [|discriminate]. cbn [append] in *.
    injection E1 as <-. rewrite <- E2. destruct b0.
    + change (r ++ "*")%string with (r ++ String "*" "")%string. change ((r ++ String "*" "") ++ "" ++ n)%string with ((r ++ String "*" "") ++ n)%string. rewrite sapp_assoc. cbn [append].
      rewrite !lex_cut by reflexivity. rewrite (lex_tag _ Hn), <- app_assoc. reflexivity.
    + change (r ++ " *")%string with (r ++ String " " "*")%string. change ((r ++ String " " "*") ++ "" ++ n)%string with ((r ++ String " " "*") ++ n)%string. rewrite sapp_assoc. cbn [append].
      rewrite !lex_cut by reflexivity. change (String "*" n) with ("" ++ String "*" n)%string. rewrite lex_cut by reflexivity. rewrite (lex_tag _ Hn), <- app_assoc. reflexivity.
  - cbn [append]. change (d ++ String " " n)%string with (d ++ String " " n)%string. rewrite lex_cut by reflexivity. rewrite E2, (lex_tag _ Hn). reflexivity.
Qed.

(** ** Parameters *)
Definition starts (x : string) : Prop := exists c b, x = String c b /\ word_char c = false.
Lemma lex_starts a x w : starts x -> lex w (a ++ x)%string = lex w a ++ lex "" x.
Proof. intros (c & b & -> & H). rewrite lex_cut by exact H. cbn [lex]. rewrite H. reflexivity. Qed.
Lemma starts_app a x : starts x -> (a = "" \/ starts a) -> starts (a ++ x)%string.
Proof. intros H [->|(c & b & -> & H1)]; [exact H|]. exists c, (b ++ x)%string. auto. Qed.
Lemma digits_word u : all_chars word_char (NilEmpty.string_of_uint u) = true.
Proof. induction u; cbn [NilEmpty.string_of_uint all_chars]; try reflexivity; rewrite IHu; reflexivity. Qed.
Lemma fmt_d_tag n : tag (fmt_d n).
Proof.
  split; [|apply digits_word]. unfold fmt_d. destruct n as [|p]; [discriminate|]. intros E.
  assert (H : N.to_uint (N.pos p) = Nil) by (destruct (N.to_uint (N.pos p)); try discriminate; reflexivity).
  assert (H2 := DecimalN.Unsigned.of_to (N.pos p)). rewrite H in H2. discriminate.
Qed.
Definition ntok (p : string * ty) : list string := if String.eqb (fst p) "" then [] else [fst p].
Fixpoint ptoks (lp : bool) (i : nat) (ps : list (string * ty)) : list string :=
  match ps with
  | [] => []
  | p :: ps' => (match i with O => [] | S _ => [","] end) ++ (if lp then [fmt_d (N.of_nat i); ":"] else []) ++ toks (snd p) ++ ntok p ++ ptoks lp (S i) ps'
  end.
Lemma show_param_lex p : plain_param p -> exists d, show_param p = Some d /\ forall x, starts x -> lex "" (d ++ x)%string = toks (snd p) ++ ntok p ++ lex "" x.
Proof.
  intros [Hn Ht]. unfold show_param, ntok. destruct (String.eqb_spec (fst p) "") as [E|E].
  - destruct (plain_repr _ Ht) as (d & E1 & E2 & _). rewrite E1. exists d. split; [reflexivity|]. intros x Hx. rewrite lex_starts by exact Hx. rewrite E2. reflexivity.
  - destruct Hn as [Hn|[Hn _]]; [congruence|]. destruct (typed_lex _ (fst p) Ht Hn) as (d & s & E1 & E2 & E3). rewrite E1, E2. exists s. split; [reflexivity|].
    intros x (c & b & -> & Hc). rewrite E3 by exact Hc. cbn [lex]. rewrite Hc. reflexivity.
Qed.
Lemma show_params_lex lp ps : Forall plain_param ps -> forall i, exists r, show_params lp i ps = Some r /\ (i <> O -> r = "" \/ starts r) /\
  forall x, starts x -> lex "" (r ++ x)%string = ptoks lp i ps ++ lex "" x.
Proof.
  induction 1 as [|p ps Hp _ IH]; intros i; cbn [show_params ptoks].
  - exists "". split; [reflexivity|]. split; [auto|]. intros x _. reflexivity.
  - destruct (show_param_lex p Hp) as (d & Ed & Ld). destruct (IH (S i)) as (r & Er & Sr & Lr). rewrite Ed, Er. eexists. split; [reflexivity|].
    split. { intros Hi. right. destruct i; [congruence|]. cbn [append]. eexists _, _. split; [reflexivity|reflexivity]. }
    intros x Hx. specialize (Sr ltac:(discriminate)). assert (Hrx := starts_app r x Hx Sr).
    assert (E : lex "" (((if lp then nl ++ fmt_d (N.of_nat i) ++ ":" ++ tab else "") ++ d ++ r) ++ x)%string = (if lp then [fmt_d (N.of_nat i); ":"] else []) ++ toks (snd p) ++ ntok p ++ ptoks lp (S i) ps ++ lex "" x).
    { rewrite !sapp_assoc. rewrite <- Lr by exact Hx. rewrite <- Ld by exact Hrx. destruct lp; [|reflexivity].
      rewrite !sapp_assoc. unfold nl at 1. cbn [append lex]. change (word_char (ascii_of_nat 10)) with false. cbn iota. change (blank (ascii_of_nat 10)) with true. cbn [flush app].
      change ((":" ++ tab ++ d ++ r ++ x)%string) with (String ":" (String (ascii_of_nat 9) (d ++ r ++ x))). rewrite lex_cut by reflexivity. rewrite (lex_tag _ (fmt_d_tag _)). reflexivity. }
    revert E. set (F := (if lp then nl ++ fmt_d (N.of_nat i) ++ ":" ++ tab else "")%string). intros E. clearbody F.
    rewrite !sapp_assoc in *. destruct i; cbn [append app].
    + rewrite E. rewrite <- !app_assoc. reflexivity.
    + cbn [lex]. change (word_char ","%char) with false. change (blank ","%char) with false. change (word_char " "%char) with false. change (blank " "%char) with true. cbn [flush app]. rewrite E. rewrite <- !app_assoc. reflexivity.
Qed.
Lemma show_func_lex lp f : plain_func f -> exists s, show_func lp f = Some s /\
  lex "" s = toks (bf_ret f) ++ bf_name f :: "(" :: ptoks lp 0 (bf_params f) ++ [")"].
Proof.
  intros ([Hn _] & Hr & Hp). unfold show_func. destruct (typed_lex _ _ Hr Hn) as (d & s & E1 & E2 & E3). destruct (show_params_lex lp _ Hp 0) as (r & Er & _ & Lr).
  rewrite E1, E2, Er. eexists. split; [reflexivity|]. cbn [append]. rewrite E3 by reflexivity. change (sign "("%char) with ["("]. cbn [app].
  destruct (lp && negb match bf_params f with [] => true | _ => false end).
  - rewrite Lr by (eexists _, _; split; reflexivity). reflexivity.
  - rewrite Lr by (eexists _, _; split; reflexivity). reflexivity.
Qed.

(** ** Reading the words *)
Definition follow (r : list string) : Prop := match r with [] => True | x :: _ => x <> "*" /\ ~ In x keywords end.
Lemma qual_ne t : qualified t -> exists x l, toks t = x :: l /\ In x keywords.
Proof.
  destruct 1 as [|n (ws & Hws & Hin & ->)|n Hn|n Hn|n Hn|t Ht|t Ht]; cbn [toks].
  2:{ rewrite lex_concat by (intros w Hw; apply int_word_tag, Hin, Hw). destruct ws as [|w ws]; [congruence|]. exists w, ws. split; [reflexivity|]. apply in_or_app. left. apply Hin. left. reflexivity. }
  all: eexists _, _; split; [reflexivity|]; cbn; tauto.
Qed.
Lemma ints_inj ws1 ws2 r1 r2 : (forall w, In w ws1 -> In w int_words) -> (forall w, In w ws2 -> In w int_words) ->
  match r1 with [] => True | x :: _ => ~ In x int_words end -> match r2 with [] => True | x :: _ => ~ In x int_words end -> ws1 ++ r1 = ws2 ++ r2 -> ws1 = ws2 /\ r1 = r2.
Proof.
  revert ws2. induction ws1 as [|a ws1 IH]; intros [|b ws2] H1 H2 F1 F2 E; cbn in E.
  - auto.
  - subst r1. exfalso. apply F1. apply H2. left. reflexivity.
  - subst r2. exfalso. apply F2. apply H1. left. reflexivity.
  - injection E as -> E. destruct (IH ws2) as [-> ->]; auto; intros w Hw; [apply H1|apply H2]; right; exact Hw.
Qed.
Lemma notint x : ~ In x int_words -> forall ws l r, (forall w, In w ws -> In w int_words) -> ws <> [] -> ws ++ r = x :: l -> False.
Proof. intros Hx [|w ws] l r Hi Hne E; [congruence|]. injection E as -> _. apply Hx, Hi. left. reflexivity. Qed.
Definition nfollow (r : list string) : Prop := match r with [] => True | x :: _ => ~ In x keywords end.
Lemma nf_int r : nfollow r -> match r with [] => True | x :: _ => ~ In x int_words end.
Proof. destruct r as [|x r]; [auto|]. cbn [nfollow]. intros H X. apply H, in_or_app. left. exact X. Qed.
Lemma qual_inj t1 : qualified t1 -> forall t2 r1 r2, qualified t2 -> nfollow r1 -> nfollow r2 -> toks t1 ++ r1 = toks t2 ++ r2 -> t1 = t2 /\ r1 = r2.
Proof.
  assert (K : forall x, In x ["void"; "enum"; "struct"; "union"; "const"; "volatile"; "restrict"] -> ~ In x int_words).
  { intros x H. cbn in H. repeat destruct H as [<-|H]; try contradiction; cbn; intuition discriminate. }
  assert (IC : forall n ws t r1 r2, n = String.concat " " ws -> ws <> [] -> (forall w, In w ws -> In w int_words) -> qualified t -> nfollow r1 -> nfollow r2 ->
     lex "" n ++ r1 = toks t ++ r2 -> TInt n = t /\ r1 = r2).
  { intros n ws t r1 r2 -> Hws Hin Ht F1 F2 E. rewrite lex_concat in E by (intros w Hw; apply int_word_tag, Hin, Hw).
    destruct Ht as [|n (ws2 & Hws2 & Hin2 & ->)|n Hn|n Hn|n Hn|t Ht|t Ht]; cbn [toks app] in E;
      try (exfalso; refine (notint _ (K _ _) ws _ r1 Hin Hws E); cbn; tauto).
    rewrite lex_concat in E by (intros w Hw; apply int_word_tag, Hin2, Hw). destruct (ints_inj _ _ _ _ Hin Hin2 (nf_int _ F1) (nf_int _ F2) E) as [-> ->]. auto. }
  induction 1 as [|n (ws & Hws & Hin & En)|n Hn|n Hn|n Hn|t1 Ht IH|t1 Ht IH]; intros t2 r1 r2 H2 F1 F2 E; cbn [toks] in E.
  2:{ exact (IC _ _ _ _ _ En Hws Hin H2 F1 F2 E). }
  all: destruct H2 as [|n2 (ws2 & Hws2 & Hin2 & En2)|n2 Hn2|n2 Hn2|n2 Hn2|t2 Ht2|t2 Ht2]; cbn [toks app] in E; try discriminate;
    try (exfalso; rewrite En2, lex_concat in E by (intros w Hw; apply int_word_tag, Hin2, Hw); symmetry in E; refine (notint _ (K _ _) ws2 _ r2 Hin2 Hws2 E); cbn; tauto).
  all: try (injection E as -> ->; auto; fail). all: try (injection E as ->; auto; fail).
  - injection E as E. destruct (IH _ _ _ Ht2 F1 F2 E) as [-> ->]. auto.
  - injection E as E. destruct (IH _ _ _ Ht2 F1 F2 E) as [-> ->]. auto.
Qed.
(** a plain type: what it points to in the end, and how often *)
Fixpoint ptrs (k : nat) (t : ty) : ty := match k with O => t | S k' => TPtr (ptrs k' t) end.
Definition base (t : ty) : Prop := qualified t \/ (exists n u, name n /\ t = TTypedef n u) \/ (exists v u, name v /\ qualified u /\ t = TTag v u).
Lemma plain_base t : plain t -> exists k b, base b /\ t = ptrs k b.
Proof.
  induction 1 as [t H|v t H Hq|n t H|t H (k & b & Hb & ->)].
  - exists O, t. split; [left; exact H|reflexivity].
  - exists O, (TTag v t). split; [right; right; eauto|reflexivity].
  - exists O, (TTypedef n t). split; [right; left; eauto|reflexivity].
  - exists (S k), b. split; [exact Hb|reflexivity].
Qed.
Lemma toks_ptrs k b : toks (ptrs k b) = toks b ++ repeat "*" k.
Proof.
  induction k as [|k IH]; cbn [ptrs toks repeat]; [rewrite app_nil_r; reflexivity|]. rewrite IH, <- app_assoc. f_equal. clear. induction k; [reflexivity|]. cbn. f_equal. exact IHk.
Qed.
Lemma base_inj b1 b2 r1 r2 : base b1 -> base b2 -> nfollow r1 -> nfollow r2 -> toks b1 ++ r1 = toks b2 ++ r2 -> same b1 b2 /\ r1 = r2.
Proof.
  intros [H1|[(n1 & u1 & [T1 K1] & ->)|(v1 & u1 & [T1 K1] & Q1 & ->)]] [H2|[(n2 & u2 & [T2 K2] & ->)|(v2 & u2 & [T2 K2] & Q2 & ->)]] F1 F2 E.
  - destruct (qual_inj _ H1 _ _ _ H2 F1 F2 E) as [-> ->]. split; [constructor|reflexivity].
  - exfalso. destruct (qual_ne _ H1) as (x & l & Ex & Hx). rewrite Ex in E. cbn in E. injection E as -> _. contradiction.
  - exfalso. destruct (qual_ne _ H1) as (x & l & Ex & Hx). rewrite Ex in E. cbn in E. injection E as -> _. contradiction.
  - exfalso. destruct (qual_ne _ H2) as (x & l & Ex & Hx). rewrite Ex in E. cbn in E. injection E as -> _. contradiction.
  - cbn in E. injection E as -> ->. split; [constructor|reflexivity].
  - exfalso. cbn [toks app] in E. injection E as _ E. destruct (qual_ne _ Q2) as (x & l & Ex & Hx). rewrite Ex in E. subst r1. exact (F1 Hx).
  - exfalso. destruct (qual_ne _ H2) as (x & l & Ex & Hx). rewrite Ex in E. cbn in E. injection E as -> _. contradiction.
  - exfalso. cbn [toks app] in E. injection E as _ E. destruct (qual_ne _ Q1) as (x & l & Ex & Hx). rewrite Ex in E. subst r2. exact (F2 Hx).
  - cbn [toks app] in E. injection E as -> E. destruct (qual_inj _ Q1 _ _ _ Q2 F1 F2 E) as [-> ->]. split; [constructor|reflexivity].
Qed.
Lemma stars_inj k1 k2 r1 r2 : match r1 with [] => True | x :: _ => x <> "*" end -> match r2 with [] => True | x :: _ => x <> "*" end ->
  repeat "*" k1 ++ r1 = repeat "*" k2 ++ r2 -> k1 = k2 /\ r1 = r2.
Proof.
  revert k2. induction k1 as [|k1 IH]; intros [|k2] F1 F2 E; cbn in E.
  - auto.
  - subst r1. congruence.
  - subst r2. congruence.
  - injection E as E. destruct (IH k2 F1 F2 E) as [-> ->]. auto.
Qed.
Lemma same_ptrs k a b : same a b -> same (ptrs k a) (ptrs k b).
Proof. intros H. induction k; cbn; [exact H|constructor; assumption]. Qed.
Lemma type_inj t1 t2 r1 r2 : plain t1 -> plain t2 -> follow r1 -> follow r2 -> toks t1 ++ r1 = toks t2 ++ r2 -> same t1 t2 /\ r1 = r2.
Proof.
  intros H1 H2 F1 F2 E. destruct (plain_base _ H1) as (k1 & b1 & B1 & ->). destruct (plain_base _ H2) as (k2 & b2 & B2 & ->). rewrite !toks_ptrs, <- !app_assoc in E.
  assert (S : forall k r, follow r -> nfollow (repeat "*" k ++ r)). { intros [|k] r F; cbn; [destruct r; [exact I|apply F]|intuition discriminate]. }
  destruct (base_inj _ _ _ _ B1 B2 (S k1 r1 F1) (S k2 r2 F2) E) as [Hs E'].
  destruct (stars_inj k1 k2 r1 r2) as [-> ->]; [destruct r1; [exact I|apply F1]|destruct r2; [exact I|apply F2]|exact E'|]. split; [apply same_ptrs, Hs|reflexivity].
Qed.
Lemma kw_tag x : In x keywords -> tag x.
Proof. intros H. cbn in H. repeat destruct H as [<-|H]; try contradiction; split; (discriminate || reflexivity). Qed.
Lemma name_follow n r : name n -> follow (n :: r).
Proof.
  intros [[H1 H2] H3]. split; [|exact H3]. intros ->. discriminate.
Qed.
Lemma sign_follow c r : word_char c = false -> Ascii.eqb c "*" = false -> follow (String c "" :: r).
Proof.
  intros H1 H2. split; [intros E; injection E as ->; discriminate|]. intros H. apply kw_tag in H as [_ H]. cbn in H. rewrite H1 in H. discriminate.
Qed.
Lemma name_sign n c : name n -> word_char c = false -> n <> String c "".
Proof. intros [[_ H] _] Hc ->. cbn in H. rewrite Hc in H. discriminate. Qed.
Lemma toks_ne t : plain t -> exists x l, toks t = x :: l /\ tag x.
Proof.
  assert (KW : forall x, In x keywords -> tag x). { intros x H. cbn in H. repeat destruct H as [<-|H]; try contradiction; split; (discriminate || reflexivity). }
  induction 1 as [t H|v t [H _] _|n t [H _]|t H (x & l & E & Hx)]; cbn [toks].
  - destruct (qual_ne _ H) as (x & l & E & Hx). eauto.
  - eauto.
  - eauto.
  - rewrite E. cbn. eauto.
Qed.
Definition tail_of (lp : bool) (i : nat) (ps : list (string * ty)) : list string := ptoks lp i ps ++ [")"].
Lemma tail_starts lp i ps : i <> O -> exists c r, tail_of lp i ps = String c "" :: r /\ (c = ","%char \/ c = ")"%char).
Proof. intros Hi. destruct ps as [|p ps]; [exists ")"%char, []; auto|]. destruct i; [congruence|]. cbn. eauto. Qed.
Lemma params_inj lp ps1 : Forall plain_param ps1 -> forall ps2 i, Forall plain_param ps2 -> tail_of lp i ps1 = tail_of lp i ps2 -> Forall2 same_param ps1 ps2.
Proof.
  assert (NE : forall p ps i, plain_param p -> tail_of lp i (p :: ps) = [")"] -> False).
  { intros p ps i [_ Hp] E. unfold tail_of in E. cbn [ptoks] in E. destruct i; cbn [app] in E; [|discriminate]. destruct lp; cbn [app] in E.
    - injection E as E1 E2. discriminate.
    - destruct (toks_ne _ Hp) as (x & l & Ex & [_ Hx]). rewrite Ex in E. cbn in E. injection E as -> _. discriminate. }
  induction 1 as [|p1 ps1 Hp1 Hps1 IH]; intros ps2 i H2 E.
  - destruct H2 as [|p2 ps2 Hp2 _]; [constructor|]. exfalso. symmetry in E. exact (NE _ _ _ Hp2 E).
  - destruct H2 as [|p2 ps2 Hp2 Hps2]; [exfalso; exact (NE _ _ _ Hp1 E)|].
    assert (E' : toks (snd p1) ++ ntok p1 ++ tail_of lp (S i) ps1 = toks (snd p2) ++ ntok p2 ++ tail_of lp (S i) ps2).
    { unfold tail_of in E. cbn [ptoks] in E. rewrite <- !app_assoc in E. apply app_inv_head in E. apply app_inv_head in E. exact E. }
    destruct Hp1 as [N1 T1], Hp2 as [N2 T2].
    destruct (tail_starts lp (S i) ps1 ltac:(discriminate)) as (c1 & q1 & Q1 & C1). destruct (tail_starts lp (S i) ps2 ltac:(discriminate)) as (c2 & q2 & Q2 & C2).
    assert (W : forall c, c = ","%char \/ c = ")"%char -> word_char c = false /\ Ascii.eqb c "*" = false) by (intros c [-> | ->]; split; reflexivity).
    assert (F : forall p c q, fst p = "" \/ name (fst p) -> c = ","%char \/ c = ")"%char -> follow (ntok p ++ String c "" :: q)).
    { intros p c q N C. unfold ntok. destruct (String.eqb_spec (fst p) "") as [Ee|Ee]; [apply sign_follow; apply W, C|]. destruct N as [N|N]; [congruence|]. apply name_follow, N. }
    rewrite Q1, Q2 in E'. destruct (type_inj _ _ _ _ T1 T2 (F p1 c1 q1 N1 C1) (F p2 c2 q2 N2 C2) E') as [Hs En].
    unfold ntok in En. destruct (String.eqb_spec (fst p1) "") as [E1|E1], (String.eqb_spec (fst p2) "") as [E2|E2]; cbn [app] in En.
    + constructor; [split; [congruence|exact Hs]|]. apply (IH ps2 (S i) Hps2). rewrite Q1, Q2. exact En.
    + exfalso. destruct N2 as [N2|N2]; [congruence|]. injection En as Ea Eb. apply (name_sign (fst p2) c1 N2); [apply W, C1|symmetry; exact Ea].
    + exfalso. destruct N1 as [N1|N1]; [congruence|]. injection En as Ea Eb. apply (name_sign (fst p1) c2 N1); [apply W, C2|exact Ea].
    + injection En as Ea Eb Ec. constructor; [split; [exact Ea|exact Hs]|]. apply (IH ps2 (S i) Hps2). rewrite Q1, Q2, Eb, Ec. reflexivity.
Qed.
Theorem func_inj lp f1 f2 s : plain_func f1 -> plain_func f2 -> show_func lp f1 = Some s -> show_func lp f2 = Some s -> same_func f1 f2.
Proof.
  intros H1 H2 E1 E2. destruct (show_func_lex lp f1 H1) as (s1 & A1 & L1). destruct (show_func_lex lp f2 H2) as (s2 & A2 & L2).
  assert (s1 = s) by congruence. assert (s2 = s) by congruence. subst s1 s2. rewrite L1 in L2. destruct H1 as (N1 & R1 & P1), H2 as (N2 & R2 & P2).
  destruct (type_inj _ _ _ _ R1 R2 (name_follow _ _ N1) (name_follow _ _ N2) L2) as [Hr E]. injection E as En Ep.
  split; [exact En|]. split; [exact Hr|]. exact (params_inj lp _ P1 _ 0 P2 Ep).
Qed.
Theorem repr_inj t1 t2 s : plain t1 -> plain t2 -> repr t1 = Some s -> repr t2 = Some s -> same t1 t2.
Proof.
  intros H1 H2 E1 E2. destruct (plain_repr _ H1) as (s1 & A1 & L1 & _). destruct (plain_repr _ H2) as (s2 & A2 & L2 & _).
  assert (s1 = s) by congruence. assert (s2 = s) by congruence. subst s1 s2. destruct (type_inj t1 t2 [] [] H1 H2 I I) as [H _]; [rewrite !app_nil_r; congruence|exact H].
Qed.
(** ** Never a crash *)
Lemma repr_total t : has_names t -> forall sb, exists s, repr_go sb t = Some s /\ s <> "".
Proof.
  assert (A : forall a b : string, b <> "" -> (a ++ b)%string <> "") by (intros a b Hb; destruct a; [exact Hb|discriminate]).
  induction 1; intros sb; cbn [repr_go]; try (eexists; split; [reflexivity|apply A; first [discriminate|assumption]]); try apply IHhas_names.
  - destruct (IHhas_names "") as (s & -> & _). eexists. split; [reflexivity|]. apply A. discriminate.
  - destruct (IHhas_names "") as (s & -> & Hs). destruct (ends_some s Hs) as (b & ->). eexists. split; [reflexivity|]. apply A, A. destruct b; discriminate.
  - eexists. split; [reflexivity|assumption].
Qed.
Lemma show_total lp f : has_names (bf_ret f) -> Forall (fun p => has_names (snd p)) (bf_params f) -> exists s, show_func lp f = Some s.
Proof.
  intros Hr Hp. unfold show_func. destruct (repr_total _ Hr "") as (d & E & Hd). unfold repr. rewrite E. unfold typed. destruct (ends_some d Hd) as (b & ->).
  assert (P : forall i, exists r, show_params lp i (bf_params f) = Some r).
  { induction Hp as [|p ps H _ IH]; intros i; cbn [show_params]; [eauto|]. destruct (IH (S i)) as (r & ->). unfold show_param, repr.
    destruct (repr_total _ H "") as (d' & -> & Hd'). destruct (String.eqb (fst p) ""); [eauto|]. unfold typed. destruct (ends_some d' Hd') as (b' & ->). eauto. }
  destruct (P 0%nat) as (r & ->). eauto.
Qed.

(** ** Which functions are listed *)
Lemma In_aget {V} (l : list (Z * V)) a v : NoDup (keys l) -> In (a, v) l -> aget Z.eqb a l = Some v.
Proof.
  induction l as [|[k w] l IH]; [contradiction|]. intros H [E|E]; inversion H as [|? ? H1 H2]; subst; cbn [aget].
  - injection E as -> ->. rewrite Z.eqb_refl. reflexivity.
  - destruct (Z.eqb_spec a k) as [->|]; [|apply IH; assumption]. exfalso. apply H1. apply (in_map fst) in E. exact E.
Qed.
Definition name_lt (a b : kfunc) : Prop := String.ltb (fn_name (kf_func a)) (fn_name (kf_func b)) = true.
Lemma ltb_lt a b : String.ltb a b = true <-> String.compare a b = Lt.
Proof. unfold String.ltb. destruct (String.compare a b); split; congruence. Qed.
Lemma ltb_irrefl a : String.ltb a a = false.
Proof. unfold String.ltb. rewrite str_cmp_refl. reflexivity. Qed.
Lemma name_lt_trans a b c : name_lt a b -> name_lt b c -> name_lt a c.
Proof. unfold name_lt. rewrite !ltb_lt. apply str_lt_trans. Qed.
Lemma sorted_unique (l1 : list kfunc) : StronglySorted name_lt l1 -> forall l2, StronglySorted name_lt l2 -> (forall x, In x l1 <-> In x l2) -> l1 = l2.
Proof.
  assert (IR : forall x, ~ name_lt x x) by (intros x H; unfold name_lt in H; rewrite ltb_irrefl in H; discriminate).
  induction l1 as [|a l1 IH]; intros S1 [|b l2] S2 H.
  - reflexivity.
  - destruct (proj2 (H b) (or_introl eq_refl)).
  - destruct (proj1 (H a) (or_introl eq_refl)).
  - inversion S1 as [|? ? A1 A2]; inversion S2 as [|? ? B1 B2]; subst. rewrite Forall_forall in A2, B2.
    assert (a = b). { destruct (proj1 (H a) (or_introl eq_refl)) as [E|E]; [auto|]. destruct (proj2 (H b) (or_introl eq_refl)) as [F|F]; [auto|]. exfalso. exact (IR _ (name_lt_trans _ _ _ (A2 _ F) (B2 _ E))). }
    subst b. f_equal. apply IH; auto. intros x. split; intros Hx.
    + destruct (proj1 (H x) (or_intror Hx)) as [<-|E]; [exfalso; exact (IR _ (A2 _ Hx))|exact E].
    + destruct (proj2 (H x) (or_intror Hx)) as [<-|E]; [exfalso; exact (IR _ (B2 _ Hx))|exact E].
Qed.
Section G.
  Variable glob : string -> string -> bool.
  Variable syms : string -> option ksym.
  Lemma found_names ms max all a1 k1 a2 k2 : In (a1, k1) (find_funcs glob syms ms max all) -> In (a2, k2) (find_funcs glob syms ms max all) ->
    fn_name (kf_func k1) = fn_name (kf_func k2) -> (a1, k1) = (a2, k2).
  Proof.
    intros H1 H2 E. assert (N := find_nodup glob syms ms max all).
    assert (G : forall a k, In (a, k) (find_funcs glob syms ms max all) -> aget Z.eqb a (find_funcs glob syms ms max all) = Some k).
    { intros a k. apply In_aget. exact N. }
    assert (A : forall a k, In (a, k) (find_funcs glob syms ms max all) -> exists y, syms (fn_name (kf_func k)) = Some y /\ ky_addr y = a).
    { intros a k H. apply G, find_iff in H as (l1 & l2 & y & _ & Hs & Ha & _). exists y. split; [|exact Ha]. apply Hs. }
    destruct (A _ _ H1) as (y1 & Y1 & <-). destruct (A _ _ H2) as (y2 & Y2 & <-). rewrite E in Y1. assert (y1 = y2) by congruence. subst y2. apply G in H1, H2. congruence.
  Qed.
  Theorem shown_ok ms max all ord : Permutation ord (find_funcs glob syms ms max all) ->
    StronglySorted name_lt (shown ord) /\ forall kf, In kf (shown ord) <-> exists a, the_last glob syms ms max a all kf.
  Proof.
    intros HP. split.
    - assert (S : StronglySorted (fun a b => name_le a b = true) (shown ord)).
      { apply isort_sorted; unfold name_le; [auto|intros a b H; exact (sle_total _ _ H)|intros a b c H1 H2; exact (sle_trans _ _ _ H1 H2)]. }
      assert (N : NoDup (map (fun k => fn_name (kf_func k)) (shown ord))).
      { eapply Permutation_NoDup; [apply Permutation_map, isort_perm|]. rewrite map_map.
        eapply Permutation_NoDup; [apply Permutation_map, Permutation_sym, HP|].
        assert (U := fun a1 k1 a2 k2 => found_names ms max all a1 k1 a2 k2). assert (ND := find_nodup glob syms ms max all). revert U ND. generalize (find_funcs glob syms ms max all) as l.
        induction l as [|[a k] l IH]; intros U ND; cbn [map]; [constructor|]. inversion ND as [|? ? H1 H2]; subst. constructor.
        - intros Hin. apply in_map_iff in Hin as ([a' k'] & E & Hin). cbn in E. assert (X := U a' k' a k (or_intror Hin) (or_introl eq_refl) E). injection X as -> ->. apply H1. apply (in_map fst) in Hin. exact Hin.
        - apply IH; [|exact H2]. intros a1 k1 a2 k2 I1 I2. apply U; right; assumption. }
      revert S N. generalize (shown ord) as l. induction l as [|x l IH]; intros S N; [constructor|]. inversion S as [|? ? S1 S2]; inversion N as [|? ? N1 N2]; subst. constructor; [apply IH; assumption|].
      rewrite Forall_forall in *. intros y Hy. specialize (S2 y Hy). unfold name_le in S2. apply leb_lt_eq in S2 as [S2|S2]; [apply ltb_lt; exact S2|].
      exfalso. apply N1. rewrite S2. apply (in_map (fun k => fn_name (kf_func k)) _ _ Hy).
    - intros kf. unfold shown. rewrite isort_In, in_map_iff. split.
      + intros ([a k] & E & Hin). cbn in E. subst k. exists a. apply find_iff. apply In_aget; [apply find_nodup|]. apply (Permutation_in _ HP). exact Hin.
      + intros (a & H). apply find_iff in H. apply (aget_In _ Zeqb_ok) in H. exists (a, kf). split; [reflexivity|]. apply (Permutation_in _ (Permutation_sym HP)). exact H.
  Qed.
  Theorem shown_unique ms max all o1 o2 : Permutation o1 (find_funcs glob syms ms max all) -> Permutation o2 (find_funcs glob syms ms max all) -> shown o1 = shown o2.
  Proof.
    intros H1 H2. destruct (shown_ok ms max all o1 H1) as [S1 I1]. destruct (shown_ok ms max all o2 H2) as [S2 I2]. apply sorted_unique; [exact S1|exact S2|]. intros x. rewrite I1, I2. reflexivity.
  Qed.
End G.
Lemma lines_ok lp decl tr l s : lines lp decl tr l = Some s -> exists ss, s = String.concat "" ss /\
  Forall2 (fun k x => exists b d, tr (fn_name (kf_func k)) = Some b /\ show_func lp (decl k) = Some d /\ x = (d ++ ";" ++ (if b : bool then " [traceable]" else "") ++ nl)%string) l ss.
Proof.
  revert s. induction l as [|k l IH]; intros s; cbn [lines]. { intros [= <-]. exists []. split; [reflexivity|constructor]. }
  destruct (tr (fn_name (kf_func k))) as [b|] eqn:Et; [|discriminate]. unfold print_kfunc. destruct (show_func lp (decl k)) as [d|] eqn:Ed; [|discriminate]. cbn [option_map].
  destruct (lines lp decl tr l) as [r|]; [|discriminate]. intros [= <-]. destruct (IH r eq_refl) as (ss & -> & H). eexists (_ :: ss). split; [|constructor; [exists b, d; split; [exact Et|split; [exact Ed|reflexivity]]|exact H]].
  cbn [String.concat]. destruct ss; [rewrite sapp_nil; reflexivity|]. reflexivity.
Qed.
Lemma proto_kmods_iff mods sym_mod kmods fs x : In x (proto_kmods mods sym_mod kmods fs) <->
  x = "vmlinux" \/ (exists m, m <> "" /\ sym_mod (hd "" fs) = Some m /\ x = m) \/
  ((forall m, sym_mod (hd "" fs) = Some m -> m = "") /\ (In x kmods \/ (x <> "" /\ exists f, In f fs /\ first_mod mods f = Some x))).
Proof.
  assert (I : In x (infer mods kmods fs) <-> In x kmods \/ (x <> "" /\ exists f, In f fs /\ first_mod mods f = Some x)).
  { unfold infer. rewrite sort_compact_In, fold_add_In. split; (intros [H|H]; [auto|right]); [destruct H as (f & A & B & C); split; [exact C|exists f; auto]|destruct H as (C & f & A & B); exists f; auto]. }
  unfold proto_kmods. rewrite sort_compact_In. cbn [In]. destruct (sym_mod (hd "" fs)) as [m|]; [destruct (String.eqb_spec m "") as [->|Hm]|].
  - rewrite I. split.
    + intros [H|H]; [auto|]. right. right. split; [congruence|exact H].
    + intros [H|[(m & Hm & E & ->)|[_ H]]]; auto. congruence.
  - cbn [In]. split.
    + intros [H|[H|[]]]; [auto|]. right. left. exists m. auto.
    + intros [H|[(m' & _ & E & ->)|[H _]]]; [auto| |]. { right. left. congruence. } exfalso. apply Hm, H. reflexivity.
  - rewrite I. split.
    + intros [H|H]; [auto|]. right. right. split; [congruence|exact H].
    + intros [H|[(m & Hm & E & ->)|[_ H]]]; auto. congruence.
Qed.
Lemma repr_go_lead t : qualified t -> forall sb, repr_go sb t = option_map (append sb) (repr_go "" t).
Proof.
  induction 1; intros sb; cbn [repr_go option_map append]; try reflexivity; rewrite IHqualified; rewrite (IHqualified (_ ++ _)%string) || idtac.
  - rewrite (IHqualified "const "). destruct (repr_go "" t); cbn [option_map]; [rewrite !sapp_assoc|]; reflexivity.
  - rewrite (IHqualified "volatile "). destruct (repr_go "" t); cbn [option_map]; [rewrite !sapp_assoc|]; reflexivity.
Qed.
Lemma const_ptr t : qualified t -> repr (TConst (TPtr t)) = repr (TPtr (TConst t)).
Proof.
  intros H. unfold repr. cbn [repr_go append]. rewrite (repr_go_lead t H "const "). destruct (qual_repr t H "" lead_nil) as (s & -> & _ & E & Hs). cbn [option_map].
  rewrite E, (ends_app "const ") by exact Hs. rewrite E. cbn [append]. reflexivity.
Qed.
