(** * Property C115: what a name in a filter stands for. *)
From Coq Require Import ZArith List String Bool.
From Verif Require Import M_Ebpf M_Cc M_CcNum S_CcNames P_CcNames X_CcDemo.
Import ListNotations.
Open Scope Z_scope. Open Scope string_scope.

(** A name that is no variable of the function stands, beside an operand of enumeration type, for its number: the expression compiles
    to the very code that it compiles to with the number in its place (on either side, under every operator of two operands). *)
Theorem C115_enumerator_is_its_number : forall K o a x t s v s1 n,
  evaluate K a s = ROk v s1 -> known_at_run_time v -> foreign (cf_vars K) x -> enumerator (v_btf v) x n -> parse_number t = inl n ->
  evaluate K (apply o a (EName x)) s = evaluate K (apply o a (ENum t)) s /\
  evaluate K (apply o (EName x) a) s = evaluate K (apply o (ENum t) a) s.
Proof.
  intros K o a x t s v s1 n Ea Hv Hx He Ht. split; [eapply right_number|eapply left_number]; eassumption.
Qed.
Print Assumptions C115_enumerator_is_its_number.
(** A name that is neither a variable nor an enumerator of the other operand's type is refused, when the other operand is known only
    at run time. *)
Theorem C115_unknown_name_refused_partial : forall K o a x s v s1,
  evaluate K a s = ROk v s1 -> known_at_run_time v -> foreign (cf_vars K) x -> no_enumerator (v_btf v) x ->
  evaluate K (apply o a (EName x)) s = RErr /\ evaluate K (apply o (EName x) a) s = RErr.
Proof. exact refused. Qed.
Print Assumptions C115_unknown_name_refused_partial.
(** Alone, or in a comparison or under an arithmetic operator with a constant or another unknown name, it makes no filter either. *)
Theorem C115_name_alone_is_no_filter : forall K x, compile_filter K (EName x) = inl None.
Proof. reflexivity. Qed.
Print Assumptions C115_name_alone_is_no_filter.
Theorem C115_unknown_name_beside_a_constant_refused : forall K o x t n s, foreign (cf_vars K) x -> parse_number t = inl n ->
  evaluate K (ECmp o (EName x) (ENum t)) s = RErr.
Proof.
  intros K o x t n s Hx Ht. cbn [evaluate]. rewrite (eval_foreign K x Hx), Ht. reflexivity.
Qed.
Print Assumptions C115_unknown_name_beside_a_constant_refused.
(** But `NAME && 0` is accepted whatever NAME is, and so is `NAME || 1`: a misspelt name in a filter like
    `(nonesuch && 0) || skb->len` goes unnoticed. *)
Theorem C115_unknown_name_accepted_refuted : forall K x s, foreign (cf_vars K) x ->
  evaluate K (EAndAnd (EName x) (ENum "0")) s = ROk (VConst 0 None) s /\ evaluate K (EOrOr (EName x) (ENum "1")) s = ROk (VConst 1 None) s.
Proof. intros K x s Hx. cbn [evaluate]. rewrite (eval_foreign K x Hx). split; reflexivity. Qed.
Print Assumptions C115_unknown_name_accepted_refuted.

Definition state : expr := EArrow (EArrow (EName "skb") "dev") "state".
Example C115_hypotheses_met : forall md, exists v s1, evaluate (K md) state filter_init = ROk v s1 /\ known_at_run_time v /\
  foreign (cf_vars (K md)) "DOWN" /\ enumerator (v_btf v) "DOWN" 2 /\ parse_number "0x2" = inl 2 /\ no_enumerator (v_btf v) "UP".
Proof.
  intros md. eexists. eexists. split; [reflexivity|]. split; [exact I|]. split; [|split; [|split; [reflexivity|]]].
  - split; cbn; intuition congruence.
  - exists (TEnum 4 [("RUNNING", 1); ("DOWN", 2)]), 4, [("RUNNING", 1)], []. split; [reflexivity|]. split; [reflexivity|]. cbn. intuition congruence.
  - intros n H. apply extract_iff in H. cbn in H. discriminate.
Qed.
Example C115_accepted_filter : forall md, exists p, compile_filter (K md) (EOrOr (EAndAnd (EName "nonesuch") (ENum "0")) (ECmp CGt (EArrow (EName "skb") "len") (ENum "100"))) = inl (Some p).
Proof. intros md; destruct md; (eexists; vm_compute; reflexivity). Qed.
Example C115_same_program : forall md, compile_filter (K md) (ECmp CEq state (EName "DOWN")) = compile_filter (K md) (ECmp CEq state (ENum "2")) /\
  exists p, compile_filter (K md) (ECmp CEq state (EName "DOWN")) = inl (Some p).
Proof. intros md. split; [destruct md; vm_compute; reflexivity|]. destruct md; (eexists; vm_compute; reflexivity). Qed.
