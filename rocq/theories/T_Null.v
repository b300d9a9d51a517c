(** * Property C05, for expressions: a filter whose evaluation follows a NULL pointer does not match. *)
From Coq Require Import ZArith List Bool String.
From Verif Require Import M_Ebpf M_CcNum M_Cc S_CSem S_CSup S_Null S_Run P_CcMat P_NullTop T_CcVals T_CcSafe X_CcDemo.
Import ListNotations.
Open Scope string_scope.
Open Scope Z_scope.

(** For every expression whose evaluation (S_Null.v, in terms of the C semantics) dereferences, subscripts or takes a
    member through a pointer object that holds NULL, anywhere in the operands of arithmetic, comparisons, `!`, `&&`, in
    the condition of `?:`, in both its branches, or in the branch it selects when the condition's value is settled by
    S_Null.known: the compiled filter leaves through its NULL exit and returns 0, unless the outermost operator is `||`.
    Missing: `||` (refuted in T_CcSafe.v), NULL parameters (refuted there), NULL met in the selected branch
    of `?:` when the value of the condition is not settled by S_Null.known, pointers read in CO-RE
    mode from anything but a member of a struct or union, operands of && whose other operand is a constant. *)
Theorem C05_following_null_does_not_match_partial :
  forall (K : cfg) (C : cenv) (m : mach) (ms : mst) args e p,
  compile_filter K e = inl (Some p) -> matches K C m ms args ->
  Z.of_nat (List.length (code p)) < 2 ^ 15 -> (cf_mode K <> MDirect -> Forall (fun i => dest i <> Some 5%nat) (code p)) ->
  hits_null K C e = true ->
  (exists fuel, null_exit fuel m p 0 ms = true) /\
  ((forall a b, e <> EOrOr a b) ->
   exists ms', forall fuel, (List.length (code p) + 3 <= fuel)%nat -> run fuel m p 0 ms = Done 0 ms').
Proof.
  intros K C m ms args e p H (HE & HV & Hm & Hk & H1 & Hs) Hl H5 Hh.
  pose proof (null_filter K C m args Hm HE HV Hs e p ms H Hh Hl H5 H1 Hk) as Hx.
  split; [exact Hx|]. intros Ho. exact (C05_null_exit_does_not_match_partial K e p m ms H Hl Ho Hx).
Qed.
Print Assumptions C05_following_null_does_not_match_partial.

(** `skb->dev->peer->ifindex + 1 > 3 && !(skb->len == *skb->dev->peer->...)`: peer is NULL in the demo memory. *)
Definition peer := arrow skb ["dev"; "peer"]%string.
Definition null_exprs : list expr :=
  [ECmp CEq (EArrow peer "ifindex") (ENum "5");
   ECmp CGt (EBin BAdd (EArrow peer "ifindex") (ENum "1")) (ENum "3");
   EAndAnd (ECmp CGt (EArrow skb "len") (ENum "1")) (ENot (EParen (ECmp CEq (EArrow skb "len") (EArrow (EArrow peer "peer") "ifindex"))));
   EAndAnd (ECmp CNe (EBin BMul (ENum "3") (EDot (EIndir peer) "ifindex")) (ENum "4")) (ECmp CEq (EArrow skb "len") (ENum "1500"));
   ECmp CNe (EAddr (EArrow peer "state")) (ENum "0");
   ECmp CGt (ECond (ECmp CEq (EArrow peer "ifindex") (ENum "5")) (EArrow skb "len") (EArrow skb "mark")) (ENum "0");
   ECmp CGe (ECond (ECmp CGt (EArrow skb "len") (ENum "1")) (EArrow peer "ifindex") (EArrow (EArrow peer "peer") "ifindex")) (ENum "0");
   ECmp CGe (ECond (ECmp CEq (EArrow skb "len") (ENum "1500")) (EArrow peer "ifindex") (EArrow skb "len")) (ENum "0");
   ECmp CGe (ECond (ECmp CNe (EArrow skb "len") (ENum "1500")) (EArrow skb "len") (EArrow peer "ifindex")) (ENum "0")].
Definition null_hyps (md : mode) (e : expr) : bool :=
  match compile_filter (X_CcDemo.K md) e with
  | inl (Some p) => Nat.ltb (List.length (code p)) 1000 && forallb (fun i => match dest i with Some r => negb (Nat.eqb r 5) | None => true end) (code p)
                    && hits_null (X_CcDemo.K md) demo_C e
  | _ => false
  end.
Example C05_null_demo : forallb (fun md => forallb (null_hyps md) null_exprs) [MProbe; MCore; MDirect] = true /\
  map (fun md => map (verdict md) null_exprs) [MProbe; MCore; MDirect] = repeat (repeat (Some 0) 9) 3.
Proof. vm_compute. auto. Qed.
Example C05_null_matches : forall md, matches (X_CcDemo.K md) demo_C demo_m demo_ms 4096.
Proof. exact demo_matches. Qed.
