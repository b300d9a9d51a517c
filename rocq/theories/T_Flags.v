(** * Properties C29 (-k arguments), C36 (modes) and C59 (-p arguments). *)
From Coq Require Import List Bool String Ascii ZArith Lia.
From Verif Require S_Ltest P_Ltest.
From Verif Require Import M_Flags S_Flags P_Flags.
Import ListNotations.
Open Scope string_scope.

(** C29.  Parsing a -k argument ends exactly when it is a sequence of known prefixes followed by something that does not open a
    parenthesis. *)
Theorem C29_terminates_iff_known_prefixes_partial : forall g k,
  (exists r, parse_kfunc g k r) <-> exists ts rest, k = texts ts ++ rest /\ opens rest = false.
Proof.
  intros g k. split.
  - intros (r & s & Hl & _). apply kloop_eats in Hl as [(ts & rest & _ & -> & E) Ho]. exists ts, rest. split; [exact E|exact Ho].
  - intros (ts & rest & E & Ho). exists (kfinish g (after (kst0 k) ts rest)), (after (kst0 k) ts rest). split; [|reflexivity].
    apply kloop_run; assumption.
Qed.
Print Assumptions C29_terminates_iff_known_prefixes_partial.
(** So `-k '(x)tcp_*'` hangs: no result, ever. *)
Theorem C29_unknown_prefix_hangs_refuted : forall g r, ~ parse_kfunc g "(x)tcp_*" r.
Proof.
  intros g r H. destruct (proj1 (C29_terminates_iff_known_prefixes_partial g "(x)tcp_*") (ex_intro _ r H)) as (ts & rest & E & Ho).
  destruct ts as [|t ts]; [cbn in E; subst rest; discriminate|]. destruct t as [[]|[] [] []]; discriminate.
Qed.
Print Assumptions C29_unknown_prefix_hangs_refuted.
(** For known prefixes and NAME, NAME:ARG, NAME:(TYPE)ARG or NAME:ARG:TYPE there is one result: the name, argument and type, and
    each option set exactly when it was asked for here or globally. *)
Theorem C29_argument_recovered : forall g ts body n a t,
  target (asked Kskb ts) body n a t -> opens body = false ->
  (asked Ki ts || g_insn g) && (asked Kg ts || g_graph g) = false ->
  asked Km ts && (asked Ki ts || g_insn g) = false -> asked Km ts && String.eqb t "" = false ->
  forall r, parse_kfunc g (texts ts ++ body) r <-> r = KOk {| f_name := n; f_arg := a; f_typ := t; f_insn := asked Ki ts || g_insn g;
    f_graph := asked Kg ts || g_graph g; f_stack := asked Ks ts || g_stack g; f_lbr := asked Kl ts || g_lbr g; f_both := asked Kb ts || g_both g;
    f_pkt := asked Kp ts || g_pkt g; f_multi := asked Km ts; f_argName := if asked Km ts then a else ""; f_argType := if asked Km ts then t else "" |}.
Proof.
  intros g ts body n a t Ht Ho E1 E2 E3 r. pose proof (kloop_run (kst0 (texts ts ++ body)) ts body Ho eq_refl) as Hl.
  pose proof (kfinish_target g (after (kst0 (texts ts ++ body)) ts body) n a t Ht E1 E2 E3) as Hf. split.
  - intros (s & Hs & ->). rewrite (kloop_det _ _ Hs _ Hl). exact Hf.
  - intros ->. exists (after (kst0 (texts ts ++ body)) ts body). split; [exact Hl|]. symmetry. exact Hf.
Qed.
Print Assumptions C29_argument_recovered.
(** The conflicting options are refused. *)
(** White space around the name, the argument and the type is ignored. *)
Theorem C29_white_space_around_is_ignored : forall g ts w1 n w2 w3 a w4 w5 t w6,
  all_white w1 -> all_white w2 -> all_white w3 -> all_white w4 -> all_white w5 -> all_white w6 -> word n -> word a -> word t -> opens n = false ->
  forall r, parse_kfunc g (texts ts ++ (w1 ++ n ++ w2) ++ ":" ++ (w3 ++ a ++ w4) ++ ":" ++ (w5 ++ t ++ w6)) r <->
            parse_kfunc g (texts ts ++ n ++ ":" ++ a ++ ":" ++ t) r.
Proof.
  intros g ts w1 n w2 w3 a w4 w5 t w6 H1 H2 H3 H4 H5 H6 Hn Ha Ht Ho r.
  assert (Hw : forall w x, all_white w -> opens x = false -> opens (w ++ x) = false).
  { intros [|c w] x Hc0 Hx; [exact Hx|]. destruct Hc0 as [Hc _]. cbn [append opens]. destruct c as [b0 b1 b2 b3 b4 b5 b6 b7].
    destruct b0, b1, b2, b3, b4, b5, b6, b7; try reflexivity. unfold white in Hc. cbn in Hc. lia. }
  assert (Hp : forall x y, opens x = false -> opens y = false -> opens (x ++ y) = false) by (intros [|c x] y Hx Hy; [exact Hy|exact Hx]).
  set (B1 := (w1 ++ n ++ w2) ++ ":" ++ (w3 ++ a ++ w4) ++ ":" ++ (w5 ++ t ++ w6)). set (B2 := n ++ ":" ++ a ++ ":" ++ t).
  assert (O1 : opens B1 = false).
  { apply Hp; [|reflexivity]. apply Hw; [exact H1|]. apply Hp; [exact Ho|]. rewrite <- (app_nil_s w2). apply Hw; [exact H2|reflexivity]. }
  assert (O2 : opens B2 = false) by (apply Hp; [exact Ho|reflexivity]).
  pose proof (kloop_run (kst0 (texts ts ++ B1)) ts B1 O1 eq_refl) as L1. pose proof (kloop_run (kst0 (texts ts ++ B2)) ts B2 O2 eq_refl) as L2.
  assert (E : kfinish g (after (kst0 (texts ts ++ B1)) ts B1) = kfinish g (after (kst0 (texts ts ++ B2)) ts B2))
    by exact (kfinish_padded g (after (kst0 (texts ts ++ B1)) ts B1) w1 w2 w3 w4 w5 w6 n a t eq_refl H1 H2 H3 H4 H5 H6 Hn Ha Ht).
  split; intros (s & Hs & ->); eexists; (split; [eassumption|]).
  - rewrite (kloop_det _ _ Hs _ L1). exact E.
  - rewrite (kloop_det _ _ Hs _ L2). symmetry. exact E.
Qed.
Print Assumptions C29_white_space_around_is_ignored.
Theorem C29_conflicts_refused : forall g ts body r, opens body = false -> parse_kfunc g (texts ts ++ body) r ->
  ((asked Ki ts || g_insn g) && (asked Kg ts || g_graph g) = true -> r = KInsnGraph) /\
  (asked Km ts && (asked Ki ts || g_insn g) = true -> r = KInsnGraph \/ r = KMultiInsn) /\
  (forall f, r = KOk f -> asked Km ts = true -> f_typ f <> "").
Proof.
  intros g ts body r Ho (s & Hs & ->). pose proof (kloop_run (kst0 (texts ts ++ body)) ts body Ho eq_refl) as Hl. rewrite (kloop_det _ _ Hs _ Hl).
  unfold kfinish. cbn [after kst0 k_i k_g k_s k_l k_b k_p k_m k_skb k_rest orb]. cbv zeta. split; [|split].
  - intros ->. reflexivity.
  - intros E. rewrite E. destruct ((asked Ki ts || g_insn g) && (asked Kg ts || g_graph g)); [left|right]; reflexivity.
  - intros f E Em. rewrite Em in E. cbn [andb] in E. intros Et.
    assert (K : forall name arg typ, (if String.eqb typ "" then KMultiUntyped else KOk {| f_name := name; f_arg := arg; f_typ := typ; f_insn := asked Ki ts || g_insn g;
       f_graph := asked Kg ts || g_graph g; f_stack := asked Ks ts || g_stack g; f_lbr := asked Kl ts || g_lbr g; f_both := asked Kb ts || g_both g;
       f_pkt := asked Kp ts || g_pkt g; f_multi := true; f_argName := arg; f_argType := typ |}) = KOk f -> False).
    { intros name arg typ. destruct (String.eqb_spec typ ""); [discriminate|]. intros E'. injection E' as <-. cbn [f_typ] in Et. contradiction. }
    destruct ((asked Ki ts || g_insn g) && (asked Kg ts || g_graph g)); [discriminate|].
    destruct (asked Ki ts || g_insn g); [discriminate|].
    destruct (split_colon body) as [|n1 [|n2 [|n3 [|]]]]; try discriminate; try (eapply K; exact E).
    destruct (trim n2) as [|c q]; [eapply K; exact E|].
    destruct c as [b0 b1 b2 b3 b4 b5 b6 b7]; destruct b0, b1, b2, b3, b4, b5, b6, b7; try (eapply K; exact E).
    destruct (upto_paren q); [eapply K; exact E|discriminate].
Qed.
Print Assumptions C29_conflicts_refused.

(** C36.  Exactly the acceptable command lines are accepted, with the modes given or the default ones. *)
Theorem C36_acceptance : forall c m, parse_modes c = Some m <->
  acceptable c m /\ m = match c_modes c with [] => if forallb (contains "(m)") (c_kfuncs c) then ["entry"] else ["exit"] | l => l end.
Proof. intros c m. rewrite parse_modes_iff. unfold default_modes, multi_only, is_multi, entry_mode, exit_mode. tauto. Qed.
Print Assumptions C36_acceptance.
(** An accepted command line traces entry or exit, and nothing else. *)
Theorem C36_modes_in_force : forall c m, parse_modes c = Some m -> (In "entry" m \/ In "exit" m) /\ forall x, In x m -> x = "entry" \/ x = "exit".
Proof.
  intros c m H. apply parse_modes_iff in H as [_ (H1 & H2 & _)]. split; [|exact H1]. destruct m as [|a m]; [destruct H2; discriminate|].
  destruct (H1 a (or_introl eq_refl)) as [->| ->]; [left|right]; left; reflexivity.
Qed.
Print Assumptions C36_modes_in_force.
(** A -k argument goes to kprobe.multi (its text has "(m)") exactly when its (m) prefix is set, the rest of it not having "(m)". *)
Theorem C36_multi_split : forall g ts body f, opens body = false -> contains "(m)" body = false ->
  parse_kfunc g (texts ts ++ body) (KOk f) -> contains "(m)" (texts ts ++ body) = f_multi f.
Proof.
  intros g ts body f Ho Hb (s & Hs & E). pose proof (kloop_run (kst0 (texts ts ++ body)) ts body Ho eq_refl) as Hl. rewrite (kloop_det _ _ Hs _ Hl) in E.
  rewrite contains_texts, Hb, orb_false_r. unfold kfinish in E. cbn [after kst0 k_i k_g k_s k_l k_b k_p k_m k_skb k_rest orb] in E. cbv zeta in E.
  assert (K : forall name arg typ am at_, (if asked Km ts && String.eqb typ "" then KMultiUntyped else KOk {| f_name := name; f_arg := arg; f_typ := typ; f_insn := asked Ki ts || g_insn g;
       f_graph := asked Kg ts || g_graph g; f_stack := asked Ks ts || g_stack g; f_lbr := asked Kl ts || g_lbr g; f_both := asked Kb ts || g_both g;
       f_pkt := asked Kp ts || g_pkt g; f_multi := asked Km ts; f_argName := am; f_argType := at_ |}) = KOk f -> asked Km ts = f_multi f).
  { intros name arg typ am at_ E2. destruct (asked Km ts && String.eqb typ ""); [discriminate|]. assert (E3 : f_multi f = asked Km ts) by (inversion E2; reflexivity). symmetry. exact E3. }
  symmetry in E. destruct ((asked Ki ts || g_insn g) && (asked Kg ts || g_graph g)); [discriminate|].
  destruct (asked Km ts && (asked Ki ts || g_insn g)); [discriminate|].
  destruct (split_colon body) as [|n1 [|n2 [|n3 [|]]]]; try discriminate; try (eapply K; exact E).
  destruct (trim n2) as [|c q]; [eapply K; exact E|].
  destruct c as [b0 b1 b2 b3 b4 b5 b6 b7]; destruct b0, b1, b2, b3, b4, b5, b6, b7; try (eapply K; exact E).
  destruct (upto_paren q); [eapply K; exact E|discriminate].
Qed.
Print Assumptions C36_multi_split.
(** The -k arguments go, in their order, to multi-mode or to the other tracing: to multi-mode those with "(m)" somewhere in their text. *)
Theorem C36_every_kfunc_traced_once : forall c k,
  (In k (kfuncs_multi c) <-> In k (c_kfuncs c) /\ exists a b, k = a ++ "(m)" ++ b) /\
  (In k (kfuncs_plain c) <-> In k (c_kfuncs c) /\ ~ exists a b, k = a ++ "(m)" ++ b).
Proof.
  intros c k. unfold kfuncs_multi, kfuncs_plain, is_multi. rewrite !filter_In. pose proof (P_Ltest.contains_iff "(m)" k) as H. unfold S_Ltest.occurs_in in H.
  rewrite <- H, negb_true_iff, not_true_iff_false. tauto.
Qed.
Print Assumptions C36_every_kfunc_traced_once.
(** Refuted: the documented default is exit, yet without any -k (programs or tracepoints only) it is entry. *)
Theorem C36_default_without_kfuncs_refuted : forall c, c_modes c = [] -> c_kfuncs c = [] -> forall m, parse_modes c = Some m -> m = ["entry"].
Proof. intros c E1 E2 m H. apply C36_acceptance in H as [_ H]. rewrite E1, E2 in H. exact H. Qed.
Print Assumptions C36_default_without_kfuncs_refuted.
(** Refuted: a (m) function with its own (g) is refused, with the global graph option it is accepted. *)
Definition cli0 (ks : list string) (graph : bool) : cli := {| c_modes := []; c_kfuncs := ks; c_include := []; c_exclude := []; c_extra := [];
  c_filterArg := false; c_filterPkt := false; c_outputArg := false; c_outputPkt := false; c_fgraph := graph; c_depth := 5%N |}.
Theorem C36_multi_with_global_graph_refuted :
  parse_modes (cli0 ["(m)(g)ip_*:(struct sk_buff *)skb"] false) = None /\ parse_modes (cli0 ["(m)ip_*:(struct sk_buff *)skb"] true) = Some ["entry"].
Proof. split; reflexivity. Qed.
Print Assumptions C36_multi_with_global_graph_refuted.

(** C59.  A -p argument names its program and function, with the options asked for; nothing else comes out. *)
Theorem C59_program_recovered : forall ex g ts body d f,
  Forall progk ts -> names_prog ex body d f -> opens body = false ->
  forall r, parse_prog ex g (texts ts ++ body) r <-> r = POk {| p_desc := d; p_func := f; p_graph := asked Kg ts || g_graph g;
    p_stack := asked Ks ts || g_stack g; p_lbr := asked Kl ts || g_lbr g; p_both := asked Kb ts || g_both g; p_pkt := asked Kp ts || g_pkt g |}.
Proof.
  intros ex g ts body d f Hk Hn Ho r. pose proof (ploop_run (kst0 (texts ts ++ body)) ts body Hk Ho eq_refl) as Hl.
  pose proof (pfinish_names ex g (after (kst0 (texts ts ++ body)) ts body) d f Hn) as Hf. split.
  - intros (s & Hs & ->). rewrite (ploop_det _ _ Hs _ Hl). exact Hf.
  - intros ->. exists (after (kst0 (texts ts ++ body)) ts body). split; [exact Hl|]. symmetry. exact Hf.
Qed.
Print Assumptions C59_program_recovered.
(** Refuted: the prefixes of -k that make no sense here, such as (i) or (m), hang. *)
Theorem C59_kfunc_prefix_hangs_refuted : forall ex g r, ~ parse_prog ex g "(i)12:main" r.
Proof.
  intros ex g r (s & Hs & _). apply ploop_eats in Hs as [(ts & rest & Hk & -> & E) Ho]. destruct ts as [|t ts]; [cbn in E, Ho; subst rest; discriminate|].
  inversion Hk as [|? ? Ht _]; subst. destruct t as [[]|]; cbn in Ht; try contradiction; discriminate.
Qed.
Print Assumptions C59_kfunc_prefix_hangs_refuted.

Definition glob0 : globals := {| g_insn := false; g_graph := false; g_stack := true; g_lbr := false; g_both := false; g_pkt := false |}.
Example target_typed : target true "tcp_*:(struct sock *)sk" "tcp_*" "sk" "struct sock *".
Proof. apply (t_typed true "tcp_*" "struct sock *" "sk"); try reflexivity; (split; [reflexivity|]); apply tight_of; reflexivity. Qed.
Example demo_padded : forall r, parse_kfunc glob0 "(b) tcp_* : sk :  struct sock *" r <-> parse_kfunc glob0 "(b)tcp_*:sk:struct sock *" r.
Proof.
  refine (C29_white_space_around_is_ignored glob0 [Tok Kb] " " "tcp_*" " " " " "sk" " " "  " "struct sock *" "" _ _ _ _ _ _ _ _ _ eq_refl);
    try (cbn; unfold white; cbn; intuition congruence); (split; [reflexivity|]; apply tight_of; reflexivity).
Qed.
(** -k '(m)(SKB)(b)tcp_*:(struct sock * )sk' under --output-stack *)
Example demo_kfunc : forall r, parse_kfunc glob0 "(m)(sKB)(b)tcp_*:(struct sock *)sk" r <-> r = KOk {| f_name := "tcp_*"; f_arg := "sk"; f_typ := "struct sock *";
  f_insn := false; f_graph := false; f_stack := true; f_lbr := false; f_both := true; f_pkt := false; f_multi := true; f_argName := "sk"; f_argType := "struct sock *" |}.
Proof. exact (C29_argument_recovered glob0 [Tok Km; TokSkb false true true; Tok Kb] _ _ _ _ target_typed eq_refl eq_refl eq_refl eq_refl). Qed.
Example demo_modes : parse_modes (cli0 ["ip_rcv"; "(m)ip_*:(struct sk_buff *)skb"] false) = Some ["exit"].
Proof. reflexivity. Qed.
Example demo_prog : forall r, parse_prog (fun _ => false) glob0 "(g)(p)id:1207:handle_ipv4" r <-> r = POk {| p_desc := DId 1207; p_func := "handle_ipv4";
  p_graph := true; p_stack := true; p_lbr := false; p_both := false; p_pkt := true |}.
Proof.
  refine (C59_program_recovered (fun _ => false) glob0 [Tok Kg; Tok Kp] _ _ _ _ (n_num _ "id:" [1; 2; 0; 7] "handle_ipv4" _ _ _ _) eq_refl).
  - repeat constructor.
  - cbn; tauto.
  - discriminate.
  - intros d Hd. cbn in Hd. repeat (destruct Hd as [<-|Hd]; [repeat constructor|]). destruct Hd.
  - reflexivity.
Qed.
