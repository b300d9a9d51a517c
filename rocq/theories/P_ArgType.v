(** * Proofs about parameter types of BPF programs. *)
From Coq Require Import List Bool String ZArith.
From Verif Require Import M_PktSel M_ArgType S_ArgType.
Import ListNotations.
Open Scope string_scope.

Section P.
  Variable krnl : string -> option ptype.
  Lemma arg_ctx t c k : behind c = Some k -> points_plainly t c -> correct_arg krnl t = struct_pointer krnl k.
  Proof.
    intros Hb (s & E). unfold correct_arg. rewrite E. unfold behind in Hb.
    destruct (String.eqb c "__sk_buff"); [congruence|]. destruct (String.eqb c "xdp_md"); congruence.
  Qed.
  Lemma arg_other t : (forall c k, behind c = Some k -> ~ points_plainly t c) -> correct_arg krnl t = Some t.
  Proof.
    intros H. unfold correct_arg. destruct (underlying t) as [| |u|] eqn:E; try reflexivity. destruct u as [|n s| |] eqn:Eu; try reflexivity.
    destruct (String.eqb n "__sk_buff") eqn:E1; [|destruct (String.eqb n "xdp_md") eqn:E2; [|reflexivity]].
    - destruct (H n "sk_buff"); [unfold behind; rewrite E1; reflexivity|exists s; exact E].
    - destruct (H n "xdp_buff"); [unfold behind; rewrite E1, E2; reflexivity|exists s; exact E].
  Qed.
  Lemma arg_cases t : (exists c k, behind c = Some k /\ points_plainly t c) \/ (forall c k, behind c = Some k -> ~ points_plainly t c).
  Proof.
    destruct (underlying t) as [| |u|] eqn:E; try (right; intros c k _ (s & H); rewrite E in H; discriminate).
    destruct u as [|n s| |] eqn:Eu; try (right; intros c k _ (s' & H); rewrite E in H; discriminate).
    destruct (behind n) as [k|] eqn:Eb.
    - left. exists n, k. split; [exact Eb|]. exists s. exact E.
    - right. intros c k Hb (s' & H). rewrite E in H. injection H as <- <-. congruence.
  Qed.
  Lemma params_nth ps : forall qs, correct_params krnl ps = Some qs -> List.length qs = List.length ps /\
    forall i n t, nth_error ps i = Some (n, t) -> exists t', nth_error qs i = Some (n, t') /\ correct_arg krnl t = Some t'.
  Proof.
    induction ps as [|[n t] ps IH]; intros qs H; cbn [correct_params] in H.
    - injection H as <-. split; [reflexivity|]. intros [|i] n t Hn; discriminate.
    - destruct (correct_arg krnl t) as [t'|] eqn:E; [|discriminate]. destruct (correct_params krnl ps) as [qs'|] eqn:Eq; [|discriminate]. injection H as <-.
      destruct (IH _ eq_refl) as [Hl Hi]. split; [cbn; congruence|]. intros [|i] m u Hn; cbn in Hn |- *; [injection Hn as <- <-; eauto|eauto].
  Qed.
  Lemma params_none ps : correct_params krnl ps = None <-> exists n t, In (n, t) ps /\ correct_arg krnl t = None.
  Proof.
    induction ps as [|[n t] ps IH]; cbn [correct_params].
    - split; [discriminate|]. intros (n & t & [] & _).
    - destruct (correct_arg krnl t) as [t'|] eqn:E.
      + destruct (correct_params krnl ps) as [qs|] eqn:Eq; cbn [option_map].
        * split; [discriminate|]. intros (m & u & [H|H] & Hu); [congruence|]. assert (Hx : Some qs = None) by (apply IH; eauto). discriminate.
        * split; [|reflexivity]. intros _. destruct (proj1 IH eq_refl) as (m & u & H & Hu). exists m, u. split; [right; exact H|exact Hu].
      + split; [|reflexivity]. intros _. exists n, t. split; [left; reflexivity|exact E].
  Qed.
  Lemma arg_none t : correct_arg krnl t = None <-> exists c k, behind c = Some k /\ points_plainly t c /\ struct_pointer krnl k = None.
  Proof.
    split.
    - intros H. destruct (arg_cases t) as [(c & k & Hb & Hp)|Ho]; [|rewrite (arg_other t Ho) in H; discriminate].
      exists c, k. rewrite (arg_ctx t c k Hb Hp) in H. auto.
    - intros (c & k & Hb & Hp & H). rewrite (arg_ctx t c k Hb Hp). exact H.
  Qed.

  (** the kernel's structs have the names they were asked under *)
  Hypothesis named : forall n m s, krnl n = Some (PStruct m s) -> m = n.
  Lemma sp_named k t : struct_pointer krnl k = Some t -> exists s, t = PPtr (PStruct k s).
  Proof.
    unfold struct_pointer. destruct (krnl k) as [u|] eqn:E; [|discriminate]. destruct u as [|m s| |]; try discriminate. intros H. injection H as <-.
    exists s. rewrite (named k m s E). reflexivity.
  Qed.
  Lemma arg_kind t t' n : correct_arg krnl t = Some t' -> struct_of t = Some n ->
    exists n', struct_of t' = Some n' /\ n' = match behind n with Some k => k | None => n end.
  Proof.
    unfold struct_of. intros H Hs. destruct (underlying t) as [| |u|] eqn:E; try discriminate. destruct u as [|m s| |] eqn:Eu; try discriminate. injection Hs as ->.
    destruct (behind n) as [k|] eqn:Eb.
    - rewrite (arg_ctx t n k Eb (ex_intro _ s E)) in H. destruct (sp_named k t' H) as (s' & ->). cbn. eauto.
    - rewrite arg_other in H; [injection H as <-; rewrite E; eauto|]. intros c k Hb (s' & Hc). rewrite E in Hc. injection Hc as -> _. congruence.
  Qed.
  Lemma arg_nostruct t t' : correct_arg krnl t = Some t' -> struct_of t = None -> t' = t.
  Proof.
    unfold struct_of, correct_arg. destruct (underlying t) as [| |u|]; try congruence. destruct u; congruence.
  Qed.
  Lemma kind_behind n : filter_kind (match behind n with Some k => k | None => n end) = option_map (fun kc => (fst kc, false)) (filter_kind n).
  Proof.
    unfold behind, filter_kind.
    destruct (String.eqb_spec n "__sk_buff") as [->|H1]; [reflexivity|]. destruct (String.eqb_spec n "xdp_md") as [->|H2]; [reflexivity|].
    apply String.eqb_neq in H1, H2. rewrite ?H1, ?H2. destruct (String.eqb n "sk_buff"); [reflexivity|]. destruct (String.eqb n "xdp_buff"); [reflexivity|].
    destruct (String.eqb n "xdp_frame"); reflexivity.
  Qed.
  Theorem same_choice ps : forall qs i, correct_params krnl ps = Some qs ->
    choose_filter i (map snd qs) = option_map (fun r => (fst r, false)) (choose_filter i (map snd ps)).
  Proof.
    induction ps as [|[n t] ps IH]; intros qs i H; cbn [correct_params] in H; [injection H as <-; reflexivity|].
    destruct (correct_arg krnl t) as [t'|] eqn:E; [|discriminate]. destruct (correct_params krnl ps) as [qs'|] eqn:Eq; [|discriminate]. injection H as <-.
    cbn [map snd choose_filter]. destruct (struct_of t) as [m|] eqn:Es.
    - destruct (arg_kind t t' m E Es) as (m' & -> & ->). rewrite kind_behind. destruct (filter_kind m) as [[k c]|]; cbn [option_map fst]; [reflexivity|].
      apply IH. reflexivity.
    - rewrite (arg_nostruct t t' E Es), Es. apply IH. reflexivity.
  Qed.
  Theorem no_context_left ps qs n t c k : correct_params krnl ps = Some qs -> In (n, t) qs -> behind c = Some k -> ~ points_plainly t c.
  Proof.
    revert qs. induction ps as [|[m u] ps IH]; intros qs H Hi Hb; cbn [correct_params] in H; [injection H as <-; destruct Hi|].
    destruct (correct_arg krnl u) as [u'|] eqn:E; [|discriminate]. destruct (correct_params krnl ps) as [qs'|]; [|discriminate]. injection H as <-.
    destruct Hi as [Hi|Hi]; [|eapply IH; eauto]. injection Hi as <- ->. intros (s & Hp).
    destruct (arg_cases u) as [(c' & k' & Hb' & Hp')|Ho].
    - rewrite (arg_ctx u c' k' Hb' Hp') in E. destruct (sp_named _ _ E) as (s' & ->). cbn [underlying] in Hp. injection Hp as <- _.
      unfold behind in Hb'. destruct (String.eqb c' "__sk_buff"); [injection Hb' as <-; discriminate|].
      destruct (String.eqb c' "xdp_md"); [injection Hb' as <-; discriminate|discriminate].
    - rewrite (arg_other u Ho) in E. injection E as ->. exact (Ho c k Hb (ex_intro _ s Hp)).
  Qed.
End P.
