(** * Proofs about colours and alignment. *)
From Coq Require Import ZArith NArith List Bool String Ascii Lia DecimalString.
From Verif Require Import M_Go M_Label M_Proto M_Color S_Color.
Import ListNotations.
Open Scope string_scope.
Open Scope Z_scope.

Lemma sapp_assoc (a b c : string) : (a ++ b) ++ c = a ++ (b ++ c).
Proof. induction a as [|x a IH]; [reflexivity|]. cbn [append]. rewrite IH. reflexivity. Qed.
Lemma sapp_nil (a : string) : a ++ "" = a.
Proof. induction a as [|x a IH]; [reflexivity|]. cbn [append]. rewrite IH. reflexivity. Qed.
Lemma plain_app a b : plain a -> plain b -> plain (a ++ b).
Proof. induction a as [|c a IH]; cbn [append plain]; intuition. Qed.
Lemma ascii_app a b : ascii_only a -> ascii_only b -> ascii_only (a ++ b).
Proof. induction a as [|c a IH]; cbn [append ascii_only]; intuition. Qed.
Lemma plain_uint u : plain (NilEmpty.string_of_uint u) /\ ascii_only (NilEmpty.string_of_uint u).
Proof. induction u; cbn; try (split; exact I); split; (split; [|apply IHu]); first [discriminate|lia]. Qed.
Lemma plain_d n : plain (fmt_d n) /\ ascii_only (fmt_d n).
Proof. apply plain_uint. Qed.
Lemma xdigit_ok d : 0 <= d < 16 -> xdigit d <> "027"%char /\ (nat_of_ascii (xdigit d) < 128)%nat.
Proof.
  intros H. assert (E : d = 0 \/ d = 1 \/ d = 2 \/ d = 3 \/ d = 4 \/ d = 5 \/ d = 6 \/ d = 7 \/ d = 8 \/ d = 9 \/ d = 10 \/ d = 11 \/ d = 12 \/ d = 13 \/ d = 14 \/ d = 15) by lia.
  repeat (destruct E as [->|E]; [split; [discriminate|vm_compute; lia]|]). subst. split; [discriminate|vm_compute; lia].
Qed.
Lemma plain_hexgo k : forall v acc, 0 <= v -> plain acc /\ ascii_only acc -> plain (hex_go k v acc) /\ ascii_only (hex_go k v acc).
Proof.
  induction k as [|k IH]; intros v acc Hv Ha; [exact Ha|]. cbn [hex_go]. destruct (Z.ltb_spec v 16) as [L|L].
  - destruct (xdigit_ok v) as [A B]; [lia|]. destruct Ha. cbn [plain ascii_only]. intuition.
  - apply IH; [apply Z.div_pos; lia|]. destruct (xdigit_ok (v mod 16)) as [A B]; [apply Z.mod_pos_bound; lia|]. destruct Ha. cbn [plain ascii_only]. intuition.
Qed.
Lemma plain_x v : 0 <= v -> plain (fmt_x v) /\ ascii_only (fmt_x v).
Proof. intros H. apply plain_hexgo; [exact H|]. split; exact I. Qed.
Lemma plain_hx n : plain (hx n).
Proof. unfold hx. apply plain_app; [cbn; repeat split; discriminate|]. apply plain_x. lia. Qed.
Lemma ascii_hx n : ascii_only (hx n).
Proof. unfold hx. apply ascii_app; [cbn; repeat split; lia|]. apply plain_x. lia. Qed.
Lemma plain_spaces n : plain (spaces n).
Proof. induction n; cbn; [exact I|]. split; [discriminate|assumption]. Qed.
Lemma plain_pad w s : plain s -> plain (pad w s).
Proof. intros H. apply plain_app; [exact H|apply plain_spaces]. Qed.
Lemma plain_hex2 b : plain (hex2 b).
Proof. unfold hex2. destruct (b <? 16)%N; [apply plain_app; [cbn; repeat split; discriminate|]|]; apply plain_x; lia. Qed.
Lemma plain_concat sep l : plain sep -> Forall plain l -> plain (String.concat sep l).
Proof.
  intros Hs H. induction H as [|x l Hx Hl IH]; [exact I|]. destruct l as [|y l]; [exact Hx|].
  change (String.concat sep (x :: y :: l)) with (x ++ sep ++ String.concat sep (y :: l)). apply plain_app; [exact Hx|]. apply plain_app; [exact Hs|exact IH].
Qed.

(** ** Segments *)
Definition seg (a p : string) : Prop := forall b, visible (a ++ b) = p ++ visible b.
Lemma seg_visible a p : seg a p -> visible a = p.
Proof. intros H. specialize (H ""). rewrite sapp_nil in H. cbn [visible visible_from] in H. rewrite H. cbn. apply sapp_nil. Qed.
Lemma seg_plain s : plain s -> seg s s.
Proof.
  intros H b. induction s as [|c s IH]; [reflexivity|]. destruct H as [Hc Hs]. cbn [append]. unfold visible. cbn [visible_from].
  destruct (Ascii.eqb_spec c "027"); [congruence|]. f_equal. apply (IH Hs).
Qed.
Lemma seg_app a b p q : seg a p -> seg b q -> seg (a ++ b) (p ++ q).
Proof. intros Ha Hb c. rewrite sapp_assoc, Ha, Hb, sapp_assoc. reflexivity. Qed.
Fixpoint nom (s : string) : Prop := match s with "" => True | String c s' => c <> "m"%char /\ nom s' end.
Lemma nom_app a b : nom a -> nom b -> nom (a ++ b).
Proof. induction a as [|c a IH]; cbn [append nom]; intuition. Qed.
Lemma nom_uint u : nom (NilEmpty.string_of_uint u).
Proof. induction u; cbn; try exact I; split; first [discriminate|assumption]. Qed.
Lemma nom_concat l : nom (String.concat ";" (map fmt_d l)).
Proof.
  induction l as [|x l IH]; [exact I|]. destruct l as [|y l]; [apply nom_uint|].
  change (String.concat ";" (map fmt_d (x :: y :: l))) with (fmt_d x ++ ";" ++ String.concat ";" (map fmt_d (y :: l))).
  apply nom_app; [apply nom_uint|]. apply nom_app; [cbn; split; [discriminate|exact I]|exact IH].
Qed.
Lemma inside_skip s b : nom s -> visible_from true (s ++ String "m" b) = visible b.
Proof.
  induction s as [|c s IH]; [reflexivity|]. intros [Hc Hs]. cbn [append visible_from]. destruct (Ascii.eqb_spec c "m"); [congruence|]. cbn [negb]. apply (IH Hs).
Qed.
Lemma seg_sgr c : seg (sgr c) "".
Proof.
  intros b. unfold sgr. cbn [append]. unfold visible at 1. cbn [visible_from]. change (Ascii.eqb esc "027") with true. cbv iota.
  change (visible_from (negb (Ascii.eqb "[" "m"))) with (visible_from true). rewrite sapp_assoc. apply inside_skip. apply nom_concat.
Qed.
Lemma seg_paint nc c s : plain s -> seg (paint nc c s) s.
Proof.
  intros H. unfold paint. destruct nc; [apply seg_plain; exact H|]. intros b. rewrite !sapp_assoc, (seg_sgr c), (seg_plain s H), (seg_sgr [0%N]). reflexivity.
Qed.
Lemma seg_concat {A} (f g : A -> string) l : (forall x, In x l -> seg (f x) (g x)) -> seg (String.concat "" (map f l)) (String.concat "" (map g l)).
Proof.
  induction l as [|x l IH]; intros H; [apply seg_plain; exact I|]. destruct l as [|y l]; [apply H; left; reflexivity|].
  change (seg (f x ++ "" ++ String.concat "" (map f (y :: l))) (g x ++ "" ++ String.concat "" (map g (y :: l)))).
  apply seg_app; [apply H; left; reflexivity|]. apply seg_app; [apply seg_plain; exact I|]. apply IH. intros z Hz. apply H. right. exact Hz.
Qed.
Lemma seg_eq a p q : seg a p -> p = q -> seg a q.
Proof. intros H <-. exact H. Qed.

Ltac cst := cbn; repeat split; discriminate.
Ltac pl := repeat first
  [ exact I | assumption | apply plain_hx | apply plain_d | apply plain_hex2 | apply plain_spaces | (apply plain_pad) | (apply plain_app) | cst ].
Ltac sg := repeat first [ (apply seg_app) | (apply seg_paint; solve [pl]) | (apply seg_plain; solve [pl]) ].

(** ** Lengths *)
Lemma runes_ascii s : ascii_only s -> runes s = len s.
Proof.
  unfold len. induction s as [|c s IH]; [reflexivity|]. intros [Hc Hs]. cbn [runes String.length]. rewrite (IH Hs).
  destruct ((128 <=? Z.of_nat (nat_of_ascii c)) && (Z.of_nat (nat_of_ascii c) <? 192))%bool eqn:E; [|lia].
  apply andb_true_iff in E. destruct E as [E _]. apply Z.leb_le in E. lia.
Qed.
Lemma len_app a b : len (a ++ b) = len a + len b.
Proof. unfold len. induction a as [|x a IH]; cbn [append String.length]; lia. Qed.
Lemma len_nonneg s : 0 <= len s.
Proof. unfold len. lia. Qed.
Lemma len_spaces n : len (spaces n) = Z.of_nat n.
Proof. unfold len. f_equal. induction n; cbn; lia. Qed.
Lemma spaces_add a b : spaces a ++ spaces b = spaces (a + b).
Proof. induction a as [|a IH]; [reflexivity|]. cbn. rewrite IH. reflexivity. Qed.
Lemma len_pad w s : ascii_only s -> 0 <= w -> len (pad w s) = Z.max w (len s).
Proof. intros H Hw. unfold pad. rewrite len_app, len_spaces, (runes_ascii s H), Z.abs_eq by exact Hw. pose proof (len_nonneg s). lia. Qed.
Lemma pad_empty n : 0 <= n -> pad n "" = spaces (Z.to_nat n).
Proof. intros H. unfold pad. cbn [append runes]. f_equal. rewrite Z.abs_eq by exact H. lia. Qed.
Lemma ascii_name v e : ep_ascii e -> ascii_only (endpoint_name v e).
Proof.
  intros [A B]. unfold endpoint_name. destruct v; repeat first [apply ascii_app|apply ascii_hx|exact A|(cbn; repeat split; lia)].
Qed.
Lemma ascii_info e : ep_ascii e -> ascii_only (line_info e).
Proof.
  intros [A B]. unfold line_info. destruct (String.eqb (ep_file e) ""); [exact I|]. repeat first [apply ascii_app|apply plain_d|exact B]; try (cbn; repeat split; lia).
  destruct (ep_inline e); cbn; repeat split; lia.
Qed.

(** ** Endpoints and the branch table *)
Lemma ep_seg nc v e n i : ep_plain e -> ep_ascii e -> 0 <= n -> 0 <= i -> seg (format_ep nc v true e n i) (format_ep nc v false e n i).
Proof.
  intros [Hp Hf] Ha Hn Hi. pose proof (ascii_name v e Ha) as An. pose proof (ascii_info e Ha) as Ai. unfold format_ep. cbn [negb].
  assert (E1 : (if len (endpoint_name v e) <? n then pad (n - len (endpoint_name v e)) "" else "") = spaces (Z.to_nat (Z.abs n - runes (endpoint_name v e)))).
  { rewrite (runes_ascii _ An), Z.abs_eq by exact Hn. destruct (Z.ltb_spec (len (endpoint_name v e)) n); [apply pad_empty; lia|].
    replace (Z.to_nat (n - len (endpoint_name v e))) with O by lia. reflexivity. }
  assert (E2 : (if len (line_info e) <? i then pad (i - len (line_info e)) "" else "") = spaces (Z.to_nat (Z.abs i - runes (line_info e)))).
  { rewrite (runes_ascii _ Ai), Z.abs_eq by exact Hi. destruct (Z.ltb_spec (len (line_info e)) i); [apply pad_empty; lia|].
    replace (Z.to_nat (i - len (line_info e))) with O by lia. reflexivity. }
  rewrite E1, E2. clear E1 E2.
  set (X := spaces (Z.to_nat (Z.abs n - runes (endpoint_name v e)))). set (Y := spaces (Z.to_nat (Z.abs i - runes (line_info e)))).
  assert (PX : plain X) by apply plain_spaces. assert (PY : plain Y) by apply plain_spaces.
  assert (EI : pad i (line_info e) = line_info e ++ Y) by reflexivity. assert (EN : pad n (endpoint_name v e) = endpoint_name v e ++ X) by reflexivity.
  assert (S1 : seg (if v then paint nc blue (hx (ep_addr e)) ++ ":" else "") (if v then hx (ep_addr e) ++ ":" else "")) by (destruct v; sg).
  assert (S2 : seg (if negb (String.eqb (ep_file e) "") then "(" ++ paint nc (rgb 136 136 136) (ep_file e ++ ":" ++ fmt_d (ep_line e)) ++ ")" ++ (if ep_inline e then "[inline]" else "") ++ Y else pad i "")
                   (line_info e ++ Y)).
  { rewrite <- EI. unfold line_info. destruct (String.eqb_spec (ep_file e) "") as [F|F]; cbn [negb]; [apply seg_plain; pl|]. unfold line_info in EI. destruct (String.eqb_spec (ep_file e) "") as [F'|_]; [congruence|]. rewrite EI. clear EI.
    eapply seg_eq; [apply seg_app; [apply seg_plain; cst|]; apply seg_app; [apply seg_paint; pl|]; apply seg_app; [apply seg_plain; cst|]; apply (seg_app _ _ (if ep_inline e then "[inline]" else "") Y); [destruct (ep_inline e); apply seg_plain; cst|apply seg_plain; exact PY]|].
    rewrite !sapp_assoc. reflexivity. }
  rewrite EI, EN. eapply seg_eq; [apply seg_app; [exact S1|]; apply seg_app; [apply seg_paint; exact Hp|]; do 2 (apply seg_app; [apply seg_plain; pl|]); apply seg_app; [apply seg_plain; exact PX|]; apply seg_app; [apply seg_plain; cst|exact S2]|].
  unfold endpoint_name. destruct v; rewrite !sapp_assoc; reflexivity.
Qed.
Lemma entry_seg nc v e a b c d : en_ok e -> 0 <= a -> 0 <= b -> 0 <= c -> 0 <= d -> seg (format_entry nc v true e a b c d) (format_entry nc v false e a b c d).
Proof.
  intros (H1 & H2 & H3 & H4) ? ? ? ?. unfold format_entry. apply seg_app; [apply ep_seg; assumption|]. apply seg_app; [apply seg_plain; cst|]. apply ep_seg; assumption.
Qed.
Lemma plain_dec z : plain (dec z) /\ ascii_only (dec z).
Proof.
  unfold dec. assert (U : forall u, plain (NilZero.string_of_uint u) /\ ascii_only (NilZero.string_of_uint u)).
  { intros u. unfold NilZero.string_of_uint. destruct u; try apply plain_uint; cbn; repeat split; try discriminate; lia. }
  destruct (Z.to_int z) as [u|u]; cbn [NilZero.string_of_int]; [apply U|]. destruct (U u). cbn. repeat split; try discriminate; try assumption. lia.
Qed.
Lemma plain_dec02 z : plain (dec02 z).
Proof. unfold dec02. destruct ((0 <=? z) && (z <? 10)); [apply plain_app; [cst|]|]; apply plain_dec. Qed.
Lemma record_seg nc v r idx a b c d : Forall en_ok (r_entries r) -> 0 <= a -> 0 <= b -> 0 <= c -> 0 <= d ->
  seg (out_record nc v true r idx a b c d) (out_record nc v false r idx a b c d).
Proof.
  intros H ? ? ? ?. unfold out_record. destruct (r_entries r) as [|e es]; [apply seg_plain; exact I|]. inversion H as [|x y He Hes E]; subst.
  apply seg_app; [apply seg_plain; repeat first [apply plain_app|apply plain_dec02|cst]|]. apply seg_app; [apply entry_seg; assumption|].
  apply seg_app; [apply seg_plain; cst|]. apply seg_concat. intros x Hx. rewrite Forall_forall in Hes.
  apply seg_app; [apply seg_plain; cst|]. apply seg_app; [apply entry_seg; auto|apply seg_plain; cst].
Qed.
Lemma records_seg nc v s : forall idx a b c d, Forall (fun r => Forall en_ok (r_entries r)) s -> 0 <= a -> 0 <= b -> 0 <= c -> 0 <= d ->
  seg (out_records nc v true s idx a b c d) (out_records nc v false s idx a b c d).
Proof.
  induction s as [|r s IH]; intros idx a b c d H ? ? ? ?; [apply seg_plain; exact I|]. inversion H as [|x y Hr Hs E]; subst. cbn [out_records].
  apply seg_app; [apply record_seg; assumption|apply IH; assumption].
Qed.
(** the records hold exactly the entries, in order *)
Lemma push_entries v s e : List.concat (map r_entries (rev (push_entry v s e))) = (List.concat (map r_entries (rev s)) ++ [e])%list.
Proof.
  unfold push_entry. destruct s as [|r s]; [reflexivity|]. assert (N : List.concat (map r_entries (rev (new_record v e :: r :: s))) = (List.concat (map r_entries (rev (r :: s))) ++ [e])%list).
  { change (rev (new_record v e :: r :: s)) with (rev (r :: s) ++ [new_record v e])%list. rewrite map_app, concat_app. reflexivity. }
  destruct (rev (r_entries r)) as [|lst t]; [exact N|]. destruct (String.eqb (ep_func (en_to lst)) (ep_func (en_from e))); [|exact N].
  cbn [rev]. rewrite !map_app, !concat_app. cbn [map List.concat add_entry r_entries]. rewrite !app_nil_r, app_assoc. reflexivity.
Qed.
Lemma build_entries v l : List.concat (map r_entries (build v l)) = l.
Proof.
  unfold build. assert (G : forall l s, List.concat (map r_entries (rev (fold_left (push_entry v) l s))) = (List.concat (map r_entries (rev s)) ++ l)%list).
  { induction l0 as [|e l0 IH]; intros s; cbn [fold_left]; [rewrite app_nil_r; reflexivity|]. rewrite IH, push_entries, <- app_assoc. reflexivity. }
  rewrite G. reflexivity.
Qed.
Lemma build_ok v l : Forall en_ok l -> Forall (fun r => Forall en_ok (r_entries r)) (build v l).
Proof.
  intros H. rewrite Forall_forall. intros r Hr. rewrite Forall_forall in *. intros e He. apply H. rewrite <- (build_entries v l). apply in_concat. exists (r_entries r). split; [apply in_map; exact Hr|exact He].
Qed.
(** maxima *)
Definition widths_ok (v : bool) (r : record) : Prop :=
  r_entries r <> [] /\ forall e, In e (r_entries r) ->
    len (endpoint_name v (en_from e)) <= r_fn r /\ len (line_info (en_from e)) <= r_fi r /\ len (endpoint_name v (en_to e)) <= r_tn r /\ len (line_info (en_to e)) <= r_ti r.
Lemma add_widths v r e : (forall x, In x (r_entries r) -> len (endpoint_name v (en_from x)) <= r_fn r /\ len (line_info (en_from x)) <= r_fi r /\ len (endpoint_name v (en_to x)) <= r_tn r /\ len (line_info (en_to x)) <= r_ti r) ->
  widths_ok v (add_entry v r e).
Proof.
  intros H. split; [cbn; intros E; apply app_eq_nil in E; destruct E; discriminate|]. intros x Hx. cbn [add_entry r_entries r_fn r_fi r_tn r_ti] in *.
  apply in_app_or in Hx. destruct Hx as [Hx|[->|[]]]; [destruct (H x Hx) as (? & ? & ? & ?); lia|lia].
Qed.
Lemma push_widths v s e : Forall (widths_ok v) s -> Forall (widths_ok v) (push_entry v s e).
Proof.
  intros H. assert (N : widths_ok v (new_record v e)) by (apply add_widths; intros x []).
  unfold push_entry. destruct s as [|r s]; [constructor; [exact N|constructor]|]. inversion H as [|x y Hr Hs E]; subst.
  destruct (rev (r_entries r)); [constructor; assumption|]. destruct (String.eqb _ _); [|constructor; assumption]. constructor; [apply add_widths; apply Hr|exact Hs].
Qed.
Lemma build_widths v l : Forall (widths_ok v) (build v l).
Proof.
  unfold build. apply Forall_rev. assert (G : forall l s, Forall (widths_ok v) s -> Forall (widths_ok v) (fold_left (push_entry v) l s)).
  { induction l0 as [|e l0 IH]; intros s H; [exact H|]. cbn [fold_left]. apply IH. apply push_widths. exact H. }
  apply G. constructor.
Qed.
Lemma max_of_spec f s : 0 <= max_of f s /\ forall r, In r s -> f r <= max_of f s.
Proof.
  unfold max_of. assert (G : forall s m, m <= fold_left (fun m r => Z.max m (f r)) s m /\ forall r, In r s -> f r <= fold_left (fun m r => Z.max m (f r)) s m).
  { induction s0 as [|x s0 IH]; intros m; cbn [fold_left]; [split; [lia|intros r []]|]. destruct (IH (Z.max m (f x))) as [A B]. split; [lia|]. intros r [->|Hr]; [lia|apply B; exact Hr]. }
  apply G.
Qed.
Theorem lbr_seg nc v nr l : Forall en_ok l -> seg (out_lbr nc v true nr l) (out_lbr nc v false nr l).
Proof. intros H. unfold out_lbr. apply records_seg; [apply build_ok; exact H|apply max_of_spec..]. Qed.

(** ** Alignment *)
Lemma ep_cell nc v e n i : ep_ascii e -> len (endpoint_name v e) <= n -> len (line_info e) <= i ->
  len (format_ep nc v false e n i) = n + 1 + i /\ cell (endpoint_name v e) (line_info e) (format_ep nc v false e n i).
Proof.
  intros Ha Hn Hi. pose proof (ascii_name v e Ha). pose proof (ascii_info e Ha). pose proof (len_nonneg (endpoint_name v e)). pose proof (len_nonneg (line_info e)).
  unfold format_ep. cbn [negb]. split.
  - rewrite !len_app, !len_pad by first [assumption|lia]. change (len " ") with 1. lia.
  - unfold cell, pad. eexists. eexists. rewrite sapp_assoc. reflexivity.
Qed.
Lemma tag_len idx : 0 <= idx < 100 -> len ("[#" ++ dec02 idx ++ "] ") = 6.
Proof.
  intros H. rewrite !len_app. change (len "[#") with 2. change (len "] ") with 2. enough (len (dec02 idx) = 2) by lia.
  assert (F : forallb (fun k => len (dec02 (Z.of_nat k)) =? 2) (seq 0 100) = true) by (vm_compute; reflexivity).
  rewrite forallb_forall in F. specialize (F (Z.to_nat idx)). rewrite Z2Nat.id in F by lia. apply Z.eqb_eq. apply F. apply in_seq. lia.
Qed.
Lemma cat_cons x l : String.concat "" (x :: l) = x ++ String.concat "" l.
Proof. destruct l; [cbn; rewrite sapp_nil; reflexivity|reflexivity]. Qed.
Lemma cat_app a b : String.concat "" (a ++ b)%list = String.concat "" a ++ String.concat "" b.
Proof. induction a as [|x a IH]; [reflexivity|]. cbn [app]. rewrite !cat_cons, IH, sapp_assoc. reflexivity. Qed.
Section Align.
  Variables (nc v : bool) (ln li rn ri : Z).
  Let fine (e : entry) : Prop := en_ok e /\ len (endpoint_name v (en_from e)) <= ln /\ len (line_info (en_from e)) <= li /\ len (endpoint_name v (en_to e)) <= rn /\ len (line_info (en_to e)) <= ri.
  Lemma line_ok tag e : fine e -> len tag = 6 -> branch_line v (ln + 1 + li) (rn + 1 + ri) e (tag ++ format_entry nc v false e ln li rn ri ++ eol).
  Proof.
    intros ((_ & A1 & _ & A2) & H1 & H2 & H3 & H4) Ht. destruct (ep_cell nc v (en_from e) ln li A1 H1 H2) as [L1 C1]. destruct (ep_cell nc v (en_to e) rn ri A2 H3 H4) as [L2 C2].
    exists tag, (format_ep nc v false (en_from e) ln li), (format_ep nc v false (en_to e) rn ri). split; [unfold format_entry; rewrite !sapp_assoc; reflexivity|]. auto.
  Qed.
  Lemma records_lines s : forall idx, (forall r, In r s -> r_entries r <> [] /\ forall e, In e (r_entries r) -> fine e) -> Z.of_nat (List.length s) - 1 <= idx < 100 ->
    exists lines, out_records nc v false s idx ln li rn ri = String.concat "" lines /\ Forall2 (branch_line v (ln + 1 + li) (rn + 1 + ri)) (List.concat (map r_entries s)) lines.
  Proof.
    induction s as [|r s IH]; intros idx Hs Hi; [exists []; split; [reflexivity|constructor]|].
    destruct (IH (idx - 1)) as (lines & E & F); [intros x Hx; apply Hs; right; exact Hx|cbn [List.length] in Hi; lia|].
    destruct (Hs r (or_introl eq_refl)) as [Hne Hf]. destruct (r_entries r) as [|e es] eqn:Er; [congruence|].
    exists (app ((("[#" ++ dec02 idx ++ "] ") ++ format_entry nc v false e ln li rn ri ++ eol) :: map (fun e' => "      " ++ format_entry nc v false e' ln li rn ri ++ eol) es) lines). split.
    - cbn [out_records]. rewrite E. unfold out_record. rewrite Er, cat_app, cat_cons, !sapp_assoc. reflexivity.
    - cbn [map List.concat]. rewrite Er. cbn [app]. constructor; [apply line_ok; [apply Hf; left; reflexivity|apply tag_len; cbn [List.length] in Hi; lia]|].
      apply Forall2_app; [|exact F]. clear - Hf. induction es as [|x es IH]; [constructor|]. cbn [map]. constructor; [apply line_ok; [apply Hf; right; left; reflexivity|reflexivity]|].
      apply IH. intros y [<-|Hy]; apply Hf; [left; reflexivity|right; right; exact Hy].
  Qed.
End Align.
Lemma concat_len {A} (l : list (list A)) : (forall x, In x l -> x <> []) -> (List.length l <= List.length (List.concat l))%nat.
Proof.
  induction l as [|x l IH]; intros H; [apply le_n|]. cbn [List.concat List.length]. rewrite app_length. specialize (IH (fun y Hy => H y (or_intror Hy))).
  specialize (H x (or_introl eq_refl)). destruct x; [congruence|]. cbn [List.length]. lia.
Qed.
Theorem lbr_aligned nc v nr l : Forall en_ok l -> Z.of_nat (List.length l) <= nr <= 100 ->
  exists left right lines, out_lbr nc v false nr l = String.concat "" lines /\ Forall2 (branch_line v left right) l lines.
Proof.
  intros H Hn. unfold out_lbr. set (s := build v l).
  destruct (records_lines nc v (max_of r_fn s) (max_of r_fi s) (max_of r_tn s) (max_of r_ti s) s (nr - 1)) as (lines & E & F).
  - intros r Hr. pose proof (build_widths v l) as W. rewrite Forall_forall in W. destruct (W r Hr) as [W1 W2]. split; [exact W1|]. intros e He.
    pose proof (build_ok v l H) as O. rewrite Forall_forall in O. specialize (O r Hr). rewrite Forall_forall in O. split; [apply O; exact He|].
    destruct (W2 e He) as (A & B & C & D). pose proof (proj2 (max_of_spec r_fn s) r Hr). pose proof (proj2 (max_of_spec r_fi s) r Hr). pose proof (proj2 (max_of_spec r_tn s) r Hr). pose proof (proj2 (max_of_spec r_ti s) r Hr). lia.
  - pose proof (concat_len (map r_entries s)) as C. rewrite map_length in C. unfold s in *. rewrite build_entries in C.
    assert (List.length (build v l) <= List.length l)%nat; [|lia]. apply C. intros x Hx. apply in_map_iff in Hx. destruct Hx as (r & <- & Hr). pose proof (build_widths v l) as W. rewrite Forall_forall in W. apply (W r Hr).
  - unfold s in F. rewrite (build_entries v l) in F. eauto.
Qed.

(** ** Function stacks *)
Lemma frame_text nc v f : ep_plain (f_ep f) -> ep_ascii (f_ep f) -> seg (out_frame nc v true f)
  ("  " ++ (if v then hx (f_ip f) ++ ":" else "") ++ ep_func (f_ep f) ++ pad (50 - len (ep_func (f_ep f))) ("+" ++ hx (ep_off (f_ep f))) ++
   (if negb (String.eqb (ep_file (f_ep f)) "") then tabch ++ "; " ++ ep_file (f_ep f) ++ ":" ++ fmt_d (ep_line (f_ep f)) else "") ++ eol).
Proof.
  intros [P1 P2] _. unfold out_frame. cbn [negb]. apply seg_app; [apply seg_plain; cst|].
  eapply seg_eq.
  - apply seg_app; [|apply seg_plain; cst].
    apply (seg_app _ _ (if v then hx (f_ip f) ++ ":" else "")); [destruct v; sg|]. apply seg_app; [apply seg_paint; pl|]. apply seg_app; [apply seg_plain; pl|].
    instantiate (1 := if negb (String.eqb (ep_file (f_ep f)) "") then tabch ++ "; " ++ ep_file (f_ep f) ++ ":" ++ fmt_d (ep_line (f_ep f)) else "").
    destruct (String.eqb (ep_file (f_ep f)) ""); cbn [negb]; [apply seg_plain; exact I|apply seg_paint; pl].
  - rewrite !sapp_assoc. reflexivity.
Qed.
Lemma pad_split f o : ascii_only f -> ascii_only o -> (f ++ pad (50 - len f) o = pad 50 (f ++ o) <-> len f <= 50 + len o).
Proof.
  intros Af Ao. unfold pad. rewrite sapp_assoc, (runes_ascii o Ao), (runes_ascii (f ++ o)) by (apply ascii_app; assumption). rewrite len_app.
  pose proof (len_nonneg f). pose proof (len_nonneg o). split.
  - intros E. assert (L : len (f ++ o ++ spaces (Z.to_nat (Z.abs (50 - len f) - len o))) = len (f ++ o ++ spaces (Z.to_nat (Z.abs 50 - (len f + len o))))) by (rewrite E; reflexivity).
    rewrite !len_app, !len_spaces in L. lia.
  - intros L. do 3 f_equal. lia.
Qed.
Lemma app_cancel_l (a b c : string) : a ++ b = a ++ c -> b = c.
Proof. induction a as [|x a IH]; [auto|]. cbn. intros E. injection E as E. auto. Qed.
Lemma app_cancel_r (a b c : string) : a ++ c = b ++ c -> a = b.
Proof.
  revert b. induction a as [|x a IH]; intros [|y b] E; [reflexivity| | |].
  - exfalso. assert (L : len c = len (String y b ++ c)) by (rewrite <- E; reflexivity). rewrite len_app in L. unfold len in L. cbn [String.length] in L. lia.
  - exfalso. assert (L : len c = len (String x a ++ c)) by (rewrite E; reflexivity). rewrite len_app in L. unfold len in L. cbn [String.length] in L. lia.
  - cbn in E. injection E as -> E. f_equal. apply IH. exact E.
Qed.
Theorem frame_iff nc v f : ep_plain (f_ep f) -> ep_ascii (f_ep f) -> (visible (out_frame nc v true f) = out_frame nc v false f <-> fits f).
Proof.
  intros P A. rewrite (seg_visible _ _ (frame_text nc v f P A)). unfold fits.
  assert (A2 : ascii_only ("+" ++ hx (ep_off (f_ep f)))) by (apply ascii_app; [cbn; repeat split; lia|apply ascii_hx]).
  rewrite <- (pad_split (ep_func (f_ep f)) _ (proj1 A) A2). unfold out_frame. cbn [negb]. split.
  - intros E. apply app_cancel_l in E. rewrite !sapp_assoc in E. apply app_cancel_l in E. rewrite <- (sapp_assoc (ep_func (f_ep f))) in E. apply app_cancel_r in E. exact E.
  - intros E. f_equal. rewrite !sapp_assoc. f_equal. rewrite <- (sapp_assoc (ep_func (f_ep f))), E. reflexivity.
Qed.
Lemma frame_seg nc v f : ep_plain (f_ep f) -> ep_ascii (f_ep f) -> fits f -> seg (out_frame nc v true f) (out_frame nc v false f).
Proof.
  intros P A F. eapply seg_eq; [apply frame_text; assumption|]. rewrite <- (seg_visible _ _ (frame_text nc v f P A)). apply frame_iff; assumption.
Qed.

(** ** Events *)
Lemma params_seg nc l : forall i, Forall plain l -> seg (out_params nc true i l) (out_params nc false i l).
Proof.
  induction l as [|p l IH]; intros i H; [apply seg_plain; exact I|]. inversion H as [|x y Hp Hl E]; subst. cbn [out_params].
  apply seg_app; [destruct i; apply seg_plain; cst|]. apply seg_app; [apply seg_paint; exact Hp|apply IH; exact Hl].
Qed.
Lemma func_seg nc v : event_plain v -> seg (out_func nc true v) (out_func nc false v).
Proof.
  intros (P1 & P2 & P3 & P4 & _). unfold out_func. apply seg_app.
  - eapply seg_eq; [apply seg_app; [apply seg_paint; pl|apply seg_paint; cst]|]. rewrite !sapp_assoc. reflexivity.
  - destruct (e_empty v); [destruct (e_exit v && negb (e_kmulti v)); apply seg_plain; cst|].
    apply seg_app; [apply seg_plain; cst|]. apply seg_app; [apply params_seg; exact P3|]. apply seg_app; [destruct (e_more v); [destruct (e_params v); apply seg_plain; cst|apply seg_plain; exact I]|].
    apply seg_app; [apply seg_plain; cst|]. destruct (e_ret v) as [r|]; [|apply seg_plain; exact I]. unfold out_ret. cbn [opt_plain] in P4.
    eapply seg_eq; [apply seg_app; [apply seg_paint; cst|]; apply seg_app; [apply seg_plain; cst|apply seg_paint; exact P4]|]. reflexivity.
Qed.
Lemma tail_seg nc v : event_plain v -> seg (out_tail nc true v) (out_tail nc false v).
Proof.
  intros (_ & _ & _ & _ & P5 & P6 & P7 & _). unfold out_tail. apply seg_app; [|apply seg_plain; cst].
  eapply seg_eq.
  - apply seg_app; [apply seg_paint; pl|]. apply seg_app; [apply seg_paint; pl|].
    apply (seg_app _ _ (match e_dur v with Some d => " duration=" ++ d | None => "" end)); [destruct (e_dur v); [apply seg_paint; pl|apply seg_plain; exact I]|apply seg_paint; pl].
  - rewrite !sapp_assoc. reflexivity.
Qed.
Lemma attrs_seg nc l : forall c, Forall attr_plain l -> seg (out_attrs_go nc true c l) (out_attrs_go nc false c l).
Proof.
  induction l as [|a l IH]; intros c H; [apply seg_plain; cst|]. inversion H as [|x y Ha Hl E]; subst. cbn [out_attrs_go].
  apply seg_app; [destruct c; apply seg_plain; cst|]. apply seg_app; [|apply IH; exact Hl]. destruct a; [apply seg_plain; exact I|apply seg_paint; exact Ha|apply seg_paint; exact Ha].
Qed.
Theorem event_seg nc vb nr v : event_plain v -> Forall fits (e_stack v) -> visible (out_event nc vb true nr v) = out_event nc vb false nr v.
Proof.
  intros H F. pose proof (func_seg nc v H) as S1. pose proof (tail_seg nc v H) as S2. destruct H as (_ & _ & _ & _ & _ & _ & _ & P8 & P9 & P10 & P11).
  apply seg_visible. unfold out_event. apply seg_app; [exact S1|]. apply seg_app; [exact S2|]. apply seg_app.
  - destruct (e_pkt v) as [t|]; [|apply seg_plain; exact I]. unfold out_pkt. cbn [opt_plain] in P8. apply seg_app; [apply seg_plain; cst|]. apply seg_app; [apply seg_paint; exact P8|apply seg_plain; cst].
  - apply seg_app; [destruct (e_attrs v) as [|a l]; [apply seg_plain; exact I|]; unfold out_attrs; apply seg_app; [destruct (existsb _ _); apply seg_plain; cst|apply attrs_seg; exact P9]|].
    apply seg_app; [destruct (e_lbr v) as [|x l]; [apply seg_plain; exact I|]; do 2 (apply seg_app; [apply seg_plain; cst|]); apply lbr_seg; exact P10|].
    destruct (e_stack v) as [|x l]; [apply seg_plain; exact I|]. do 2 (apply seg_app; [apply seg_plain; cst|]). apply seg_concat. intros f Hf.
    rewrite Forall_forall in F, P11. destruct (P11 f Hf). apply frame_seg; auto.
Qed.
Theorem insn_seg nc fn cpu dur desc : plain fn -> plain dur -> plain desc -> visible (out_insn nc true fn cpu dur desc) = out_insn nc false fn cpu dur desc.
Proof.
  intros. apply seg_visible. unfold out_insn. eapply seg_eq.
  - apply seg_app; [apply seg_app; [apply seg_paint; pl|]; apply seg_app; [apply seg_paint; pl|apply seg_paint; pl]|]. apply seg_plain; pl.
  - rewrite !sapp_assoc. reflexivity.
Qed.
Theorem dis_seg nc pc off bytes m o : plain m -> plain o -> visible (out_dis nc true pc off bytes m o) = out_dis nc false pc off bytes m o.
Proof.
  intros. apply seg_visible. unfold out_dis. cbn [negb]. assert (plain (String.concat " " (map hex2 bytes))).
  { apply plain_concat; [cst|]. rewrite Forall_forall. intros x Hx. apply in_map_iff in Hx. destruct Hx as (b & <- & _). apply plain_hex2. }
  sg.
Qed.
Theorem read_seg nc expr attrs : plain expr -> forall attrs', seg attrs attrs' -> visible (out_read nc true expr attrs) = out_read nc false expr attrs'.
Proof.
  intros. apply seg_visible. unfold out_read. apply seg_app; [apply seg_plain; cst|]. apply seg_app; [apply seg_paint; pl|]. apply seg_app; [apply seg_plain; cst|].
  apply seg_app; [assumption|apply seg_plain; cst].
Qed.
Lemma plain_rep n s : plain s -> plain (rep n s).
Proof. intros H. induction n; [exact I|]. cbn [rep]. apply plain_app; assumption. Qed.
Theorem graph_text nc depth fi fi' cpu cost dur : seg fi fi' -> plain cost -> plain dur -> exists rest,
  visible (out_graph nc true depth fi cpu cost dur) = rep depth ".." ++ rest /\ out_graph nc false depth fi' cpu cost dur = rep depth "  " ++ rest.
Proof.
  intros Hf Hc Hd. eexists. split.
  - apply seg_visible. unfold out_graph. pose proof (plain_rep depth ".." ltac:(cst)). eapply seg_eq.
    + apply seg_app; [|apply seg_plain; cst]. apply seg_app; [apply seg_paint; assumption|]. apply seg_app; [exact Hf|]. apply seg_app; [apply seg_paint; pl|apply seg_paint; pl].
    + rewrite !sapp_assoc. reflexivity.
  - unfold out_graph. rewrite !sapp_assoc. reflexivity.
Qed.
Lemma params_join nc l : forall i, out_params nc false i l = match l, i with [], _ => "" | _, O => String.concat ", " l | _, S _ => ", " ++ String.concat ", " l end.
Proof.
  induction l as [|p l IH]; intros i; [reflexivity|]. cbn [out_params]. rewrite IH. destruct l as [|q l].
  - destruct i; cbn [String.concat]; rewrite ?sapp_nil; reflexivity.
  - change (String.concat ", " (p :: q :: l)) with (p ++ ", " ++ String.concat ", " (q :: l)). destruct i; reflexivity.
Qed.
Theorem event_line nc v : e_empty v = false -> e_more v = false ->
  out_func nc false v ++ out_tail nc false v =
  e_arrow v ++ e_name v ++ " args=(" ++ String.concat ", " (e_params v) ++ ")" ++ match e_ret v with Some r => " retval=" ++ r | None => "" end ++
  " cpu=" ++ fmt_d (e_cpu v) ++ " process=(" ++ fmt_d (e_pid v) ++ ":" ++ e_comm v ++ ")" ++
  match e_dur v with Some d => " duration=" ++ d | None => "" end ++ " timestamp=" ++ e_time v ++ eol.
Proof.
  intros E1 E2. unfold out_func, out_tail, out_ret. rewrite E1, E2, params_join. rewrite !sapp_assoc. do 2 f_equal. cbn [append]. do 7 f_equal.
  destruct (e_params v); rewrite ?sapp_assoc; destruct (e_ret v); rewrite ?sapp_assoc; reflexivity.
Qed.
(** ** the line of the expressions, without colours *)
Definition attr_text (a : attr) : string := match a with AHidden => "" | ANull _ s => s | AShown s => s end.
Definition ordinary (a : attr) : Prop := match a with ANull false _ | AShown _ => True | _ => False end.
Lemma attrs_go_ordinary nc l : forall b, Forall ordinary l -> out_attrs_go nc false b l =
  match l with [] => eol | _ => (if (b : bool) then ", " else "") ++ String.concat ", " (map attr_text l) ++ eol end.
Proof.
  induction l as [|a l IH]; intros b H; [reflexivity|]. apply Forall_inv in H as Ha. apply Forall_inv_tail in H. cbn [out_attrs_go].
  rewrite (IH _ H). assert (Hc : (b || counts a)%bool = true) by (destruct a as [|[|] s|s]; cbn in Ha; try contradiction; apply Bool.orb_true_r). rewrite Hc.
  assert (Ht : (match a with AHidden => "" | ANull _ s => s | AShown s => s end) = attr_text a) by (destruct a; reflexivity). rewrite Ht.
  destruct l as [|c l]; [cbn [map String.concat]; reflexivity|].
  change (String.concat ", " (map attr_text (a :: c :: l))) with (attr_text a ++ ", " ++ String.concat ", " (map attr_text (c :: l))).
  rewrite !sapp_assoc. reflexivity.
Qed.
Lemma attrs_line nc n l : Forall ordinary l -> l <> [] -> out_attrs nc false (repeat AHidden n ++ l) = "Arg attrs: " ++ String.concat ", " (map attr_text l) ++ eol.
Proof.
  intros H Hn. unfold out_attrs. assert (E : existsb counts (repeat AHidden n ++ l) = true).
  { apply existsb_exists. destruct l as [|a l]; [congruence|]. exists a. split; [apply in_or_app; right; left; reflexivity|].
    apply Forall_inv in H. destruct a as [|[|] s|s]; cbn in H; try contradiction; reflexivity. }
  rewrite E. f_equal. induction n as [|n IH]; [cbn [repeat app]; rewrite attrs_go_ordinary by exact H; destruct l; [congruence|reflexivity]|].
  cbn [repeat app out_attrs_go counts orb]. apply IH. cbn [repeat app existsb counts orb] in E. exact E.
Qed.
Lemma attrs_hidden nc n : out_attrs nc false (repeat AHidden n) = eol.
Proof.
  unfold out_attrs. assert (E : existsb counts (repeat AHidden n) = false) by (induction n; [reflexivity|exact IHn]).
  rewrite E. cbn [append]. clear E. induction n as [|n IH]; [reflexivity|]. exact IH.
Qed.
