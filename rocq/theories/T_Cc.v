(** * Property C01: filters compute the C value of the expression. *)
From Coq Require Import ZArith List Bool String.
From Verif Require Import M_Ebpf M_CcNum M_Cc S_CSem S_CSup P_CcMat P_CcTop X_CcDemo.
Import ListNotations.
Open Scope Z_scope.

(** For every type environment, parameter list, read mode, kernel memory, argument values, junk left
    behind by helper calls, and every expression [e]: if CompileFilterExpr returns a program [p],
    the C semantics gives [e] the value [v], and [e] lies in the supported fragment (S_CSup.v), then
    the program stops within its length and returns 1 iff [v] is true, else 0.
    Missing from the English property: expressions outside the fragment [sup] (several are
    miscompiled, see the _refuted theorems), programs of 2^15 instructions or more, and, in the
    modes that call helpers, programs needing a fourth simultaneously live temporary (an instruction
    writing R5: the save/restore code is wrong there, see C03). *)
Theorem C01_filter_returns_truth_of_expression_partial :
  forall (K : cfg) (C : cenv) (m : mach) (ms : mst) (args : Z) e p v k,
  compile_filter K e = inl (Some p) ->
  csem C (cc2btf (cf_env K)) e = Some v ->
  sup K C e = Some k ->
  (* the C environment describes the same types, parameters and memory as the machine *)
  ce_bt C = cf_env K -> ce_vars C = cf_vars K ->
  (forall a, ce_map C a = true -> mapped m a = true) ->
  (forall a, ce_map C a = true -> ker ms a = ce_mem C a) ->
  (* R1 points to the 64-bit argument slots *)
  rg ms R1 = args ->
  (forall i, (i < List.length (cf_vars K))%nat ->
     Z.of_nat i * 8 < 2 ^ 15 /\ rd C (args + Z.of_nat i * 8) 8 = Some (ce_slot C i)) ->
  Z.of_nat (List.length (code p)) < 2 ^ 15 ->
  (cf_mode K <> MDirect -> Forall (fun i => dest i <> Some 5%nat) (code p)) ->
  exists b, truth v = Some b /\
    forall fuel, (List.length (code p) <= fuel)%nat ->
    exists ms', run fuel m p 0 ms = Done (if b then 1 else 0) ms'.
Proof.
  intros K C m ms args e p v k H1 H2 H3 H4 H5 H6 H7 H8 H9 H10 H11.
  exact (filter_correct K C m args H6 H4 H5 H9 e p v k ms H1 H2 H3 H10 H11 H8 H7).
Qed.
Print Assumptions C01_filter_returns_truth_of_expression_partial.

(** The hypotheses are met: `skb->len > 100 && skb->dev->ifindex == 5` (C value: true) and
    `skb->len + skb->queue_mapping > 0x5df || !skb->cloned` (false), in all three read modes. *)
Definition demo1 := EAndAnd (ECmp CGt (EArrow skb "len") (ENum "100"))
                            (ECmp CEq (arrow skb ["dev"; "ifindex"]%string) (ENum "5")).
Definition demo2 := EOrOr (ECmp CGt (EBin BAdd (EArrow skb "len") (EArrow skb "queue_mapping")) (ENum "0x5df"))
                          (ENot (EArrow skb "cloned")).
Definition demo3 := ECmp CEq (EIndir (ECast {| ct_ptr := true; ct_struct := false; ct_name := "u32" |}
                       (EAddr (EIndex (EArrow skb "pair") (ENum "1"))))) (ENum "12").
Definition demo4 := ECmp CEq (ECond (EArrow skb "pkt_type") (EBin BMul (EName "c") (ENum "1")) (ENum "3")) (EName "c").
Definition demo5 := ECmp CEq (arrow skb ["dev"; "state"]%string) (EName "RUNNING").
Definition hyps_ok (md : mode) (e : expr) : bool :=
  match compile_filter (X_CcDemo.K md) e, csem demo_C (cc2btf demo_env) e, sup (X_CcDemo.K md) demo_C e with
  | inl (Some p), Some _, Some _ =>
      Nat.ltb (List.length (code p)) 1000 &&
      forallb (fun i => match dest i with Some r => negb (Nat.eqb r 5) | None => true end) (code p)
  | _, _, _ => false
  end.
Example C01_demo : forallb (fun md => forallb (hyps_ok md) [demo1; demo2; demo3; demo4; demo5]) [MProbe; MCore; MDirect] = true
  /\ map sem_true [demo1; demo2; demo3; demo4; demo5] = [Some true; Some false; Some true; Some true; Some true]
  /\ map (fun md => map (verdict md) [demo1; demo2; demo3; demo4; demo5]) [MProbe; MCore; MDirect] =
     [[Some 1; Some 0; Some 1; Some 1; Some 1]; [Some 1; Some 0; Some 1; Some 1; Some 1]; [Some 1; Some 0; Some 1; Some 1; Some 1]].
Proof. vm_compute. auto. Qed.
(** Negative values: the parameter `ret` is -1 and skb->mark is -7.  `ret && skb->mark != 5`, `!ret`, `ret == skb->mark`,
    `(u8)skb->mark == 249` (the remainder) and `ret ? skb->len : 3` compared with 1500. *)
Definition demo6 := EAndAnd (EName "ret") (ECmp CNe (EArrow skb "mark") (ENum "5")).
Definition demo7 := ENot (EName "ret").
Definition demo8 := ECmp CEq (EName "ret") (EArrow skb "mark").
Definition demo9 := ECmp CEq (ECast {| ct_ptr := false; ct_struct := false; ct_name := "u8" |} (EArrow skb "mark")) (ENum "249").
Definition demo10 := ECmp CEq (ECond (EName "ret") (EArrow skb "len") (ENum "3")) (ENum "1500").
Example C01_demo_negative : forallb (fun md => forallb (hyps_ok md) [demo6; demo7; demo8; demo9; demo10]) [MProbe; MCore; MDirect] = true
  /\ map sem_true [demo6; demo7; demo8; demo9; demo10] = [Some true; Some false; Some false; Some true; Some true]
  /\ map (fun md => map (verdict md) [demo6; demo7; demo8; demo9; demo10]) [MProbe; MCore; MDirect] =
     [[Some 1; Some 0; Some 0; Some 1; Some 1]; [Some 1; Some 0; Some 0; Some 1; Some 1]; [Some 1; Some 0; Some 0; Some 1; Some 1]].
Proof. vm_compute. auto. Qed.
(* Arithmetic on negative values: skb->mark + 10 == 3;  (skb->mark & 0xff) == 0xf9;  ret + 4 == 3;
   (ret & skb->len) == 1500;  skb->mark - 2 != 0 *)
Definition demo11 := ECmp CEq (EBin BAdd (EArrow skb "mark") (ENum "10")) (ENum "3").
Definition demo12 := ECmp CEq (EBin BAnd (EArrow skb "mark") (ENum "0xff")) (ENum "0xf9").
Definition demo13 := ECmp CEq (EBin BAdd (EName "ret") (ENum "4")) (ENum "3").
Definition demo14 := ECmp CEq (EBin BAnd (EName "ret") (EArrow skb "len")) (ENum "1500").
Definition demo15 := ECmp CNe (EBin BSub (EArrow skb "mark") (ENum "2")) (ENum "0").
Example C01_demo_negarith : forallb (fun md => forallb (hyps_ok md) [demo11; demo12; demo13; demo14; demo15]) [MProbe; MCore; MDirect] = true
  /\ map sem_true [demo11; demo12; demo13; demo14; demo15] = [Some true; Some true; Some true; Some true; Some true]
  /\ map (fun md => map (verdict md) [demo11; demo12; demo13; demo14; demo15]) [MProbe; MCore; MDirect] =
     [[Some 1; Some 1; Some 1; Some 1; Some 1]; [Some 1; Some 1; Some 1; Some 1; Some 1]; [Some 1; Some 1; Some 1; Some 1; Some 1]].
Proof. vm_compute. auto. Qed.
Example C01_demo_slots : forall i, (i < List.length demo_vars)%nat ->
  Z.of_nat i * 8 < 2 ^ 15 /\ rd demo_C (4096 + Z.of_nat i * 8) 8 = Some (ce_slot demo_C i).
Proof. exact demo_slots. Qed.
