(** * Property C01 (and C05): `&&` and `||` chains whose other operands are not supported, e.g. follow a NULL pointer. *)
From Coq Require Import ZArith List Bool String.
From Verif Require Import M_Ebpf M_CcNum M_Cc S_CSem S_CSup S_Null S_Short S_Run P_CcMat P_NullTop P_CcShort P_CcShort2 T_Cc T_CcVals T_CcSafe T_Null X_CcDemo.
Import ListNotations.
Open Scope string_scope.
Open Scope Z_scope.

(** Strengthens C01_filter_returns_truth_of_expression_partial: the expression need not be supported as a whole.  It is
    enough that one conjunct of a top-level `&&` chain is supported and false, or one disjunct of a top-level `||` chain of
    run-time operands is supported and true (S_Short.v); the remaining operands are arbitrary compilable expressions, for
    which C short-circuits while the emitted code runs them.  Missing: as in T_Cc.v; chains nested in other operators
    (refuted below). *)
Theorem C01_filter_short_circuits_partial :
  forall (K : cfg) (C : cenv) (m : mach) (ms : mst) args e p v,
  compile_filter K e = inl (Some p) ->
  csem C (cc2btf (cf_env K)) e = Some v ->
  decided K C e = true ->
  matches K C m ms args ->
  Z.of_nat (List.length (code p)) < 2 ^ 15 ->
  (cf_mode K <> MDirect -> Forall (fun i => dest i <> Some 5%nat) (code p)) ->
  exists b, truth v = Some b /\
    forall fuel, (List.length (code p) + 3 <= fuel)%nat ->
    exists ms', run fuel m p 0 ms = Done (if b then 1 else 0) ms'.
Proof.
  intros K C m ms args e p v H Hv Hd (HE & HV & Hm & Hk & H1 & Hs) Hl H5.
  exact (decided_correct K C m args Hm HE HV Hs e p v ms H Hv Hd Hl H5 H1 Hk).
Qed.
Print Assumptions C01_filter_short_circuits_partial.

(** A false conjunct keeps the filter from matching even when C gives the whole chain no value: any other conjunct may
    follow NULL, read unmapped memory, or be miscompiled. *)
Theorem C01_false_conjunct_never_matches_partial :
  forall (K : cfg) (C : cenv) (m : mach) (ms : mst) args a b p,
  compile_filter K (EAndAnd a b) = inl (Some p) ->
  refuted K C a || refuted K C b = true ->
  matches K C m ms args ->
  Z.of_nat (List.length (code p)) < 2 ^ 15 ->
  (cf_mode K <> MDirect -> Forall (fun i => dest i <> Some 5%nat) (code p)) ->
  exists ms', forall fuel, (List.length (code p) + 3 <= fuel)%nat -> run fuel m p 0 ms = Done 0 ms'.
Proof.
  intros K C m ms args a b p H Hr (HE & HV & Hm & Hk & H1 & Hs) Hl H5.
  exact (refuted_filter K C m args Hm HE HV Hs a b p ms H Hr Hl H5 H1 Hk).
Qed.
Print Assumptions C01_false_conjunct_never_matches_partial.

(** `skb->dev->peer && skb->dev->peer->ifindex == 5` and longer chains, with peer NULL; and a true disjunct before a NULL
    dereference.  The last one (a NULL dereference before a false conjunct) has no C value. *)
Definition guard := EAndAnd peer (ECmp CEq (EArrow peer "ifindex") (ENum "5")).
Definition guard2 := EAndAnd (EAndAnd (ECmp CEq (EArrow skb "len") (ENum "1500")) (EParen peer)) (ENot (EParen (EOrOr (EArrow peer "ifindex") (EArrow (EArrow peer "peer") "ifindex")))).
Definition guard3 := EOrOr (EOrOr (ECmp CEq (EArrow skb "len") (ENum "1")) (ECmp CEq (EArrow skb "len") (ENum "1500"))) (ECmp CEq (EArrow peer "ifindex") (ENum "5")).
Definition guard4 := EOrOr (ECmp CEq peer (ENum "0")) (ECmp CEq (EArrow peer "ifindex") (ENum "5")).
Definition late := EAndAnd (ECmp CEq (EArrow peer "ifindex") (ENum "0")) (ECmp CEq (EArrow skb "len") (ENum "1")).
Definition short_ok (md : mode) (e : expr) : bool :=
  match compile_filter (X_CcDemo.K md) e, csem demo_C (cc2btf demo_env) e with
  | inl (Some p), Some _ => Nat.ltb (List.length (code p)) 1000 && forallb (fun i => match dest i with Some r => negb (Nat.eqb r 5) | None => true end) (code p)
       && decided (X_CcDemo.K md) demo_C e && match sup (X_CcDemo.K md) demo_C e with None => true | Some _ => false end
  | _, _ => false
  end.
Example C01_short_demo : forallb (fun md => forallb (short_ok md) [guard; guard2; guard3; guard4]) [MProbe; MCore; MDirect] = true /\
  map sem_true [guard; guard2; guard3; guard4; late] = [Some false; Some false; Some true; Some true; None] /\
  map (fun md => map (verdict md) [guard; guard2; guard3; guard4; late]) [MProbe; MCore; MDirect] = repeat [Some 0; Some 0; Some 1; Some 1; Some 0] 3 /\
  match late with EAndAnd a b => refuted (X_CcDemo.K MProbe) demo_C a || refuted (X_CcDemo.K MProbe) demo_C b | _ => false end = true.
Proof. vm_compute. auto. Qed.
Example C01_short_matches : forall md, matches (X_CcDemo.K md) demo_C demo_m demo_ms 4096.
Proof. exact demo_matches. Qed.

(** Refuted for a guard nested in the other operator: both operands are compiled without a jump over the second, and the
    NULL met in the skipped operand leaves the whole filter.  `skb->len == 0 || (peer && peer->ifindex == 5)` matches with
    len = 1500 and peer NULL; `(!peer || peer->ifindex == 5) && skb->len == 1500` does not match; and neither does
    `(skb->len || peer->ifindex) || 0`. *)
Definition nested1 := EOrOr (ECmp CEq (EArrow skb "len") (ENum "0")) (EParen guard).
Definition nested2 := EAndAnd (EParen (EOrOr (ENot peer) (ECmp CEq (EArrow peer "ifindex") (ENum "5")))) (ECmp CEq (EArrow skb "len") (ENum "1500")).
Definition nested3 := EOrOr (EParen (EOrOr (EArrow skb "len") (EArrow peer "ifindex"))) (ENum "0").
Theorem C01_nested_guard_refuted : forall md,
  sem_true nested1 = Some false /\ verdict md nested1 = Some 1 /\
  sem_true nested2 = Some true /\ verdict md nested2 = Some 0 /\
  sem_true nested3 = Some true /\ verdict md nested3 = Some 0.
Proof. intros []; vm_compute; repeat split. Qed.
Print Assumptions C01_nested_guard_refuted.

(** ** C05 *)

(** The `||` half of C05 is refuted for every filter, not only for the example in T_CcSafe.v: a compiled `a || b` of
    run-time operands that follows a NULL pointer in [a] or [b] returns 1. *)
Theorem C05_every_or_following_null_matches_refuted :
  forall (K : cfg) (C : cenv) (m : mach) (ms : mst) args a b p,
  compile_filter K (EOrOr a b) = inl (Some p) -> matches K C m ms args ->
  Z.of_nat (List.length (code p)) < 2 ^ 15 -> (cf_mode K <> MDirect -> Forall (fun i => dest i <> Some 5%nat) (code p)) ->
  runtime_expr K a = true -> runtime_expr K b = true -> hits_null K C a || hits_null K C b = true ->
  exists ms', forall fuel, (List.length (code p) + 3 <= fuel)%nat -> run fuel m p 0 ms = Done 1 ms'.
Proof.
  intros K C m ms args a b p H (HE & HV & Hm & Hk & H1 & Hs) Hl H5 Ha Hb Hh.
  refine (null_oror K C m args Hm HE HV Hs a b p ms H _ Ha Hb Hl H5 H1 Hk).
  cbn [hits_null path andb orb]. rewrite Ha, Hb, andb_true_r, andb_true_l. exact Hh.
Qed.
Print Assumptions C05_every_or_following_null_matches_refuted.
Example C05_or_demo : let a := ECmp CEq (EArrow skb "len") (ENum "0") in let b := ECmp CEq (EArrow peer "ifindex") (ENum "5") in
  forallb (fun md => runtime_expr (X_CcDemo.K md) a && runtime_expr (X_CcDemo.K md) b && hits_null (X_CcDemo.K md) demo_C b) [MProbe; MCore; MDirect] = true /\
  map (fun md => verdict md (EOrOr a b)) [MProbe; MCore; MDirect] = repeat (Some 1) 3.
Proof. vm_compute. auto. Qed.
