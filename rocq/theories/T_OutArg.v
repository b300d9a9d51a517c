(** * Properties C18 (output expressions are displayed from their own bytes), C56 (output functions show the bytes asked for)
      and C57 (malformed output expressions). *)
From Coq Require Import ZArith List Bool String Lia.
From Verif Require Import M_Go M_Ebpf M_CcNum M_Cc M_Bytes M_FnArgs S_FnArgs S_CSem S_CSup S_Null M_OutArg S_OutArg.
From Verif Require Import P_CcMat P_OutArg5 P_OutArg6 T_CcVals X_CcDemo.
Import ListNotations.
Open Scope string_scope.
Open Scope Z_scope.

(** ** C18.  For every list of expressions, kernel types, parameters and memory: if every matched expression has a C value or
    follows a NULL pointer ([vs]), the injected program runs to completion, writes nothing outside the record, and the display of
    the record it wrote never fails, shows one item per matched expression, and
    the k-th item is what the k-th expression should show ([view_arg]), provided no earlier one was sampled (hist, tdigest).
    Missing: the items after a sampled one (refuted below); expressions outside the supported fragment of C01 and
    NULL pointers outside [hits_null]; records of 32768 bytes or more. *)
Theorem C18_shown_from_own_bytes_partial : forall T K C m s es l size buf args vs,
  tinfo_ok T -> matches K C m s args -> match_params T K es 0 = Some (l, size) -> size < 2 ^ 15 -> out_state C s buf size ->
  (forall e r, In e es -> compile_eval K e = Some r -> ready K r) ->
  Forall (fun a => 1 <= oa_true a /\ - 2 ^ 31 <= oa_off a < 2 ^ 31) l ->
  Forall2 (outcome K C) (filter (matches_params (cf_vars K)) es) vs -> Forall2 (arg_apart buf size) l vs ->
  exists s' got, (forall fuel, (List.length (code (gen_output_arg l)) <= fuel)%nat -> run fuel m (gen_output_arg l) 0 s = Done (rg s' R0) s') /\
    (forall x, ~ (buf <= x < buf + size) -> ker s' x = ker s x) /\
    dec_args l (record s' buf size) = Some got /\ List.length got = List.length l /\
    (forall pre x post, map (fun p => view_arg (S_FnArgs.mem_of m s) (fst p) (snd p)) (combine l vs) = (pre ++ x :: post)%list ->
       Forall (fun y => ~ sampled y) pre -> nth_error got (List.length pre) = Some x).
Proof.
  intros T K C m s es l size buf args vs HT (HE & HV & Hm & Hk & H1 & Hs).
  exact (output_round_trip T K C m s es l size buf args vs HT HE HV Hm Hk H1 Hs).
Qed.
Print Assumptions C18_shown_from_own_bytes_partial.

(** The demo kernel of X_CcDemo with a destination at 2^50: char cb[48] and char tag[4] are char arrays. *)
Definition demo_T : tinfo := {| ti_ccp := fun _ => false; ti_chars := fun t => match under t with TArr (TInt 1 _) n => Some n | _ => None end |}.
Lemma demo_T_ok : tinfo_ok demo_T.
Proof.
  split; [discriminate|]. intros t n. cbn [demo_T ti_chars]. intros H. destruct (under t) as [| | | |u k| | | |]; try discriminate.
  destruct u as [|sz| | | | | | |]; try discriminate.
  assert (Hn : k = n) by (destruct sz as [|sz|sz]; try discriminate; destruct sz; congruence). subst k. eauto.
Qed.
Definition out_ms : mst :=
  {| rg := fun r => if Nat.eqb r 1 then 4096 else if Nat.eqb r 2 then 2 ^ 50 else if Nat.eqb r 10 then 2 ^ 60 else 77; stk := fun _ => 0; ker := demo_mem; ncall := 0 |}.
Definition call f l := ECall (EName f) l.
(** skb->len; words; *words; slice(words, 1, 1); skb->dev->peer->ifindex (NULL); skb->tag; x (no such parameter); hex(skb, 112, 4); n *)
Definition out_es : list expr :=
  [EArrow skb "len"; EName "words"; EIndir (EName "words"); call "slice" [EName "words"; ENum "1"; ENum "1"];
   EArrow (EArrow (EArrow skb "dev") "peer") "ifindex"; EArrow skb "cb"; EName "x"; call "hex" [skb; ENum "112"; ENum "4"]; EName "n"].
Definition out_vs : list (option Z) := [Some 1500; Some 65736; Some 65736; Some 65736; None; Some (65536 + 40); Some 65536; Some (2 ^ 40)].
Definition out_show (md : mode) (es : list expr) : option (list shown) :=
  match match_params demo_T (X_CcDemo.K md) es 0 with
  | Some (l, size) =>
      match run (List.length (code (gen_output_arg l))) demo_m (gen_output_arg l) 0 out_ms with
      | Done _ s' => dec_args l (record s' (2 ^ 50) size)
      | _ => None
      end
  | None => None
  end.
Lemma out_apart (l : list oarg) vs size : forallb (fun p => match snd p with Some v => (0 <=? v + oa_off (fst p)) && (v + oa_off (fst p) + oa_true (fst p) <=? 2 ^ 50) && (0 <=? oa_true (fst p)) | None => true end) (combine l vs) = true ->
  List.length l = List.length vs -> Forall2 (arg_apart (2 ^ 50) size) l vs.
Proof.
  revert vs. induction l as [|a l IH]; intros [|v vs]; cbn [combine forallb List.length]; intros H Hl; try discriminate; constructor.
  - intros x -> _ i Hi. apply andb_true_iff in H as [H _]. cbn [fst snd] in H. apply andb_true_iff in H as [H H2]. apply andb_true_iff in H as [H0 H1].
    apply Z.leb_le in H0, H1, H2. rewrite (Z.mod_small (x + oa_off a)) by lia. rewrite Z.mod_small by lia. lia.
  - apply andb_true_iff in H as [_ H]. apply IH; [exact H|]. congruence.
Qed.
Lemma out_state_ok size : 0 <= size < 2 ^ 15 -> out_state demo_C out_ms (2 ^ 50) size.
Proof.
  intros Hs. split.
  - split; [reflexivity|]. lia.
  - intros i Hi. change (rg out_ms RFP) with (2 ^ 60). rewrite <- (Z_mod_plus _ 1), Z.mod_small by lia. lia.
  - intros a Ha. cbn [demo_C ce_map] in Ha. unfold demo_map in Ha. apply andb_true_iff in Ha as [_ Ha]. apply Z.ltb_lt in Ha. lia.
Qed.
Definition ready_b (K : cfg) (r : eres) : bool :=
  Nat.ltb (List.length (r_code r)) 1000 && forallb (fun i => match dest i with Some d => negb (Nat.eqb d 5) | None => true end) (r_code r).
Lemma ready_b_ok K es : forallb (fun e => match compile_eval K e with Some r => ready_b K r | None => true end) es = true ->
  forall e r, In e es -> compile_eval K e = Some r -> ready K r.
Proof.
  intros H e r He Hc. rewrite forallb_forall in H. specialize (H e He). rewrite Hc in H. unfold ready_b in H. apply andb_true_iff in H as [H1 H2]. split.
  - apply Nat.ltb_lt in H1. lia.
  - intros _. apply Forall_forall. intros i Hi. rewrite forallb_forall in H2. specialize (H2 i Hi). intros Hd. rewrite Hd in H2. discriminate.
Qed.
Lemma out_matches md : matches (X_CcDemo.K md) demo_C demo_m out_ms 4096.
Proof. unfold matches. split; [reflexivity|]. split; [reflexivity|]. split; [intros a H; exact H|]. split; [reflexivity|]. split; [reflexivity|]. exact demo_slots. Qed.
(** All hypotheses, for the nine expressions, in every memory mode *)
Definition out_hyps (md : mode) : Prop := exists l size,
  match_params demo_T (X_CcDemo.K md) out_es 0 = Some (l, size) /\ size < 2 ^ 15 /\ out_state demo_C out_ms (2 ^ 50) size /\
  (forall e r, In e out_es -> compile_eval (X_CcDemo.K md) e = Some r -> ready (X_CcDemo.K md) r) /\
  Forall (fun a => 1 <= oa_true a /\ - 2 ^ 31 <= oa_off a < 2 ^ 31) l /\
  Forall2 (outcome (X_CcDemo.K md) demo_C) (filter (matches_params (cf_vars (X_CcDemo.K md))) out_es) out_vs /\ Forall2 (arg_apart (2 ^ 50) size) l out_vs.
Lemma out_hyps_of md : match match_params demo_T (X_CcDemo.K md) out_es 0 with
   | Some (l, size) => (0 <=? size) && (size <? 2 ^ 15) &&
       forallb (fun e => match compile_eval (X_CcDemo.K md) e with Some r => ready_b (X_CcDemo.K md) r | None => true end) out_es &&
       forallb (fun a => (1 <=? oa_true a) && (- 2 ^ 31 <=? oa_off a) && (oa_off a <? 2 ^ 31)) l &&
       forallb (fun p => match snd p with Some v => (0 <=? v + oa_off (fst p)) && (v + oa_off (fst p) + oa_true (fst p) <=? 2 ^ 50) && (0 <=? oa_true (fst p)) | None => true end) (combine l out_vs) &&
       Nat.eqb (List.length l) (List.length out_vs)
   | None => false end = true ->
  Forall2 (outcome (X_CcDemo.K md) demo_C) (filter (matches_params (cf_vars (X_CcDemo.K md))) out_es) out_vs -> out_hyps md.
Proof.
  intros H Ho. unfold out_hyps. destruct (match_params demo_T (X_CcDemo.K md) out_es 0) as [[l size]|]; [|discriminate].
  repeat (apply andb_true_iff in H as [H ?]). apply Z.leb_le in H.
  repeat match goal with H : (_ <? _) = true |- _ => apply Z.ltb_lt in H end.
  exists l, size. split; [reflexivity|]. split; [assumption|]. split; [apply out_state_ok; lia|]. split; [apply ready_b_ok; assumption|].
  split. { apply Forall_forall. intros a Ha. match goal with H : forallb (fun a => (1 <=? oa_true a) && _ && _) l = true |- _ => rewrite forallb_forall in H; specialize (H a Ha) end.
    repeat match goal with H : _ && _ = true |- _ => apply andb_true_iff in H as [? ?] end.
    repeat match goal with H : (_ <? _) = true |- _ => apply Z.ltb_lt in H | H : (_ <=? _) = true |- _ => apply Z.leb_le in H end. lia. }
  split; [exact Ho|]. apply out_apart; [assumption|]. apply Nat.eqb_eq. assumption.
Qed.
Example C18_hypotheses_met : forall md, out_hyps md.
Proof.
  intros md. apply out_hyps_of; [destruct md; vm_compute; reflexivity|].
  match goal with |- Forall2 _ (filter ?f ?l) _ => assert (E : filter f l = [EArrow skb "len"; EName "words"; EIndir (EName "words"); call "slice" [EName "words"; ENum "1"; ENum "1"];
   EArrow (EArrow (EArrow skb "dev") "peer") "ifindex"; EArrow skb "cb"; call "hex" [skb; ENum "112"; ENum "4"]; EName "n"]) by reflexivity end.
  rewrite E. unfold out_vs.
  do 8 (apply Forall2_cons; [destruct md; vm_compute; reflexivity|]). apply Forall2_nil.
Qed.
Example C18_demo : map (fun md => out_show md out_es) [MProbe; MCore; MDirect] = repeat (Some
  [SNum 1500; SNumPtr 65736 (11 + 2 ^ 32 * 12); SBytes [11; 0; 0; 0]; SBytes [12; 0; 0; 0]; SNull; SText [7]; SBytes [220; 5; 0; 0]; SNum (2 ^ 40)]) 3.
Proof. vm_compute. reflexivity. Qed.

(** --output-arg 'hist(n)' --output-arg 'm', with n = 2^40, m = 3: m is shown as 2^40. *)
Theorem C18_hist_shifts_later_refuted :
  value_of (X_CcDemo.K MProbe) demo_C (EName "n") = Some (2 ^ 40) /\ value_of (X_CcDemo.K MProbe) demo_C (EName "m") = Some 3 /\
  out_show MProbe [call "hist" [EName "n"]; EName "m"] = Some [SSample (le8 (2 ^ 40)); SNum (2 ^ 40)].
Proof. vm_compute. auto. Qed.
Print Assumptions C18_hist_shifts_later_refuted.

(** ** C56.  [request]: the bytes each output function asks for.  For every call that compiles, shown for a pointer (or array
    address) v are exactly those bytes of v, whatever the memory; NULL for a NULL pointer. *)
Theorem C56_output_functions_show_requested_bytes : forall T K e r off a elem array o n str,
  compile_eval K e = Some r -> gen_arg T (cf_env K) r off = Some a -> elem_of (cf_env K) (operand_type K e) = Some (elem, array) ->
  request elem array e o n str ->
  forall M v, view_arg M a (Some v) = if v =? 0 then SNull else
    if str then SText (str_to M ((v + o) mod 2 ^ 64) (Z.to_nat n)) else SBytes (dump M ((v + o) mod 2 ^ 64) (Z.to_nat n)).
Proof. exact requested. Qed.
Print Assumptions C56_output_functions_show_requested_bytes.
(** C56.  pkt(p, n, proto) is accepted for eight protocols and a positive number of bytes, and no other. *)
Theorem C56_packet_protocols : forall p t proto, compile_func_call "pkt" p [ENum t; EName proto] <> None <->
  In proto ["eth"; "ip"; "ip4"; "ip6"; "icmp"; "icmp6"; "tcp"; "udp"] /\ exists n, parse_number t = inl n /\ 0 < n.
Proof.
  intros p t proto. assert (H : compile_func_call "pkt" p [ENum t; EName proto] =
    match expr_number (ENum t) with Some n => if in_names proto pkt_types then mkcall (RPkt proto) p 0 n else None | None => None end) by reflexivity.
  rewrite H. cbn [expr_number]. destruct (parse_number t) as [n|u].
  - unfold mkcall. destruct (in_names proto pkt_types) eqn:E.
    + apply existsb_exists in E as (q & Hq & Eq). apply String.eqb_eq in Eq. subst q. destruct (Z.leb_spec n 0) as [L|L].
      * split; [intros X; contradiction|]. intros (_ & k & Hk & Hp). assert (k = n) by congruence. lia.
      * split; [|intros _; discriminate]. intros _. split; [exact Hq|]. exists n. split; [reflexivity|lia].
    + split; [intros X; contradiction|]. intros [Hq _]. assert (X : in_names proto pkt_types = true); [|congruence].
      apply existsb_exists. exists proto. split; [exact Hq|apply String.eqb_refl].
  - split; [intros X; contradiction|]. intros (_ & k & Hk & _). discriminate.
Qed.
Print Assumptions C56_packet_protocols.
(** C56.  The number a pointer points to is shown for pointers to integers and enums, and nothing else. *)
Theorem C56_number_pointers : forall T E r off a t, gen_arg T E r off = Some a -> r_btf r = Some t ->
  (oa_num a = true <-> exists u, under t = TPtr u /\ match under u with TInt _ _ | TEnum _ _ => True | _ => False end).
Proof.
  intros T E r off a t H Ht. unfold gen_arg in H. rewrite Ht in H. destruct (sizeof E t) as [size|]; [|discriminate].
  assert (Hn : oa_num a = num_ptr t).
  { destruct (r_type r); cbn zeta in H; repeat match type of H with (if ?b then _ else _) = _ => destruct b | match ?b with _ => _ end = _ => destruct b end;
      try discriminate; injection H as <-; reflexivity. }
  rewrite Hn. unfold num_ptr. split.
  - destruct (under t) as [| | | |u k| | | |] eqn:Eu; try discriminate. all: try (intros X; discriminate X).
    all: match goal with |- context [TPtr ?w] => intros X; exists w; split; [reflexivity|destruct (under w); try discriminate; exact I] | _ => idtac end.
  - intros (u & Eu & Hu). rewrite Eu. destruct (under u); try contradiction; reflexivity.
Qed.
Print Assumptions C56_number_pointers.
(** C56.  What the functions take: buf, hex, the integer dumps, str and slice a pointer or an array; pkt, the addresses and ports a pointer. *)
Definition takes (rt : rtype) (t : ty) : Prop :=
  match rt with
  | RBuf | RHex | RInt _ | RString => (exists u, t = TPtr u) \/ (exists u n, t = TArr u n)
  | RPkt _ | RAddr _ | RPort _ => exists u, t = TPtr u
  | RHist | RTDigest => exists n b, t = TInt n b
  | RDefault | RDeref | RSlice => True
  end.
Theorem C56_operand_types : forall K e r t, compile_eval K e = Some r -> r_btf r = Some t -> takes (r_type r) t.
Proof.
  intros K e r t H Ht. unfold compile_eval in H. destruct (split_call e) as [[[[[rt a] off] size]|]|]; try discriminate.
  destruct (evaluate K a eval_init) as [v s| |]; try discriminate. destruct v; try discriminate.
  all: destruct (materialize K s _) as [w s'| |]; try discriminate.
  all: destruct (post_check (cf_env K) rt (v_btf w) (v_mem w) off size) as [[[bt o] n]|] eqn:E; [|discriminate].
  all: injection H as <-; cbn [r_btf r_type] in *; subst bt; unfold post_check in E; unfold takes; destruct rt; try exact I;
    (destruct (is_bf (v_mem w)); [discriminate|]); (destruct (v_btf w) as [ty0|]; [|discriminate]); cbv zeta in E;
    destruct (under ty0) eqn:Eu; cbn [is_ptr is_array orb] in E; try discriminate E;
    repeat match type of E with (if ?b then _ else _) = _ => destruct b; try discriminate E end; injection E as <- _ _; eauto.
Qed.
Print Assumptions C56_operand_types.
(** slice(words, 1, 2): bytes 4..12 of words *)
Example C56_demo : exists r a, compile_eval (X_CcDemo.K MProbe) (call "slice" [EName "words"; ENum "1"; ENum "2"]) = Some r /\ gen_arg demo_T demo_env r 0 = Some a /\
  elem_of demo_env (operand_type (X_CcDemo.K MProbe) (call "slice" [EName "words"; ENum "1"; ENum "2"])) = Some (4, None) /\
  request 4 None (call "slice" [EName "words"; ENum "1"; ENum "2"]) 4 8 false.
Proof.
  destruct (compile_eval (X_CcDemo.K MProbe) (call "slice" [EName "words"; ENum "1"; ENum "2"])) as [r|] eqn:H; [|vm_compute in H; discriminate].
  exists r. destruct (gen_arg demo_T demo_env r 0) as [a|] eqn:Ha.
  2:{ exfalso. apply (f_equal (fun x => match x with Some r => gen_arg demo_T demo_env r 0 | None => None end)) in H. rewrite Ha in H. vm_compute in H. discriminate. }
  exists a. split; [reflexivity|]. split; [reflexivity|]. split; [vm_compute; reflexivity|].
  exact (q_slice_off 4 None (EName "words") "1" "2" 1 2 eq_refl eq_refl).
Qed.

(** ** C57.  Compilation of an output expression gives code or an error; only a call without arguments, `f()`, crashes
    (inr: index out of range) instead. *)
Theorem C57_only_empty_calls_crash_partial : forall e, (forall f, e <> ECall (EName f) []) -> exists r, split_call e = inl r.
Proof.
  intros e H. destruct e; cbn [split_call]; eauto. destruct e; eauto. destruct args; [destruct (H s eq_refl)|].
  destruct (compile_func_call s e args); eauto.
Qed.
Print Assumptions C57_only_empty_calls_crash_partial.
Theorem C57_empty_call_crashes_refuted : forall f, split_call (ECall (EName f) []) = inr tt.
Proof. reflexivity. Qed.
Print Assumptions C57_empty_call_crashes_refuted.
