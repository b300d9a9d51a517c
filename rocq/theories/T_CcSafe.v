(** * Properties C04 and C05: emitted code always terminates, NULL exits. *)
From Coq Require Import ZArith List Bool String Lia.
From Verif Require Import M_Ebpf M_CcNum M_Cc S_CSem S_CSup S_Run P_CcSafe P_CcSafe3 P_CcTop2 X_CcDemo.
Import ListNotations.
Open Scope string_scope.
Open Scope Z_scope.

(** ** C04 *)

(** For every type environment, parameter list, read mode and expression: in the code returned by
    CompileFilterExpr every jump goes forward to an instruction of the code, and from every machine
    state (memory, registers, helper junk) the code reaches its exit within [length + 3] steps,
    without writing kernel memory.  Jump offsets are 16-bit, hence the bound on the length. *)
Theorem C04_filter_code_terminates_inside_itself :
  forall (K : cfg) e p,
  compile_filter K e = inl (Some p) -> Z.of_nat (List.length (code p)) < 2 ^ 15 ->
  jumps_inside p /\
  forall m ms, exists r0 ms',
    (forall fuel, (List.length (code p) + 3 <= fuel)%nat -> run fuel m p 0 ms = Done r0 ms') /\
    ker ms' = ker ms.
Proof.
  intros K e p H Hl. split; [exact (filter_jumps K e p H Hl)|].
  intros m ms. destruct (filter_run K e p H Hl m ms) as (r0 & ms' & [Hk _] & Hr & _). eauto.
Qed.
Print Assumptions C04_filter_code_terminates_inside_itself.

Definition peers (n : nat) : expr := Nat.iter n (fun e => EArrow e "peer") (EArrow skb "dev").
(** `(n ? skb->dev->peer->...->ifindex : 1) == 1` *)
Definition long_cond (n : nat) : expr :=
  ECmp CEq (EParen (ECond (EName "n") (EArrow (peers n) "ifindex") (ENum "1"))) (ENum "1").
Definition plen (md : mode) (e : expr) : option Z :=
  match compile_filter (K md) e with inl (Some p) => Some (Z.of_nat (List.length (code p))) | _ => None end.
Example C04_demo : map (fun md => plen md (long_cond 10)) [MProbe; MCore; MDirect] = [Some 99; Some 63; Some 38].
Proof. vm_compute. reflexivity. Qed.

(** The bound is needed: the 16-bit jump offset is computed without an overflow check
    (evaluate.go:1769, 1786), so the conditional of this longer expression jumps backwards, out of the code. *)
Definition third_insn (n : N) : option insn :=
  match compile_filter (K MProbe) (long_cond (N.to_nat n)) with inl (Some q) => nth_error (code q) 2 | _ => None end.
Lemma third_insn_long : third_insn 4800 = Some (IJmpI JEq R8 0 (-31917)).
Proof. vm_compute. reflexivity. Qed.
Lemma third_insn_inv n off : third_insn n = Some (IJmpI JEq R8 0 off) ->
  exists e p i, compile_filter (K MProbe) e = inl (Some p) /\ nth_error (code p) i = Some (IJmpI JEq R8 0 off) /\ i = 2%nat.
Proof.
  unfold third_insn. intros H. exists (long_cond (N.to_nat n)).
  destruct (compile_filter (K MProbe) (long_cond (N.to_nat n))) as [[p|]|]; [|discriminate H..].
  exists p, 2%nat. auto.
Qed.
Theorem C04_length_bound_is_needed :
  exists e p i off, compile_filter (K MProbe) e = inl (Some p) /\ nth_error (code p) i = Some (IJmpI JEq R8 0 off) /\
    Z.of_nat i + 1 + off < 0.
Proof.
  destruct (third_insn_inv 4800 (-31917) third_insn_long) as (e & p & i & H1 & H2 & ->).
  exists e, p, 2%nat, (-31917). split; [exact H1|]. split; [exact H2|reflexivity].
Qed.
Print Assumptions C04_length_bound_is_needed.

(** ** C05 *)

(** Unless the filter's top operator is `||`: if the execution takes a NULL exit, the filter's
    result is 0 ("not matched").  Missing: `||` and a NULL parameter (refuted below). *)
Theorem C05_null_exit_does_not_match_partial :
  forall (K : cfg) e p m ms,
  compile_filter K e = inl (Some p) -> Z.of_nat (List.length (code p)) < 2 ^ 15 ->
  (forall a b, e <> EOrOr a b) ->
  (exists fuel, null_exit fuel m p 0 ms = true) ->
  exists ms', forall fuel, (List.length (code p) + 3 <= fuel)%nat -> run fuel m p 0 ms = Done 0 ms'.
Proof.
  intros K e p m ms H Hl Ho [f Hf]. destruct (filter_run K e p H Hl m ms) as (r0 & ms' & _ & Hr & _ & [Hn|[->|[Hoo _]]]).
  - rewrite Hn in Hf. discriminate.
  - eauto.
  - destruct e; try discriminate. exfalso. eapply Ho. reflexivity.
Qed.
Print Assumptions C05_null_exit_does_not_match_partial.

(** `skb->dev->peer->ifindex == 5` with peer NULL takes the NULL exit and returns 0, in all modes. *)
Definition peer5 := ECmp CEq (arrow skb ["dev"; "peer"; "ifindex"]%string) (ENum "5").
Definition took_exit (md : mode) (ms : mst) (e : expr) : option bool :=
  match compile_filter (K md) e with inl (Some p) => Some (null_exit 200 demo_m p 0 ms) | _ => None end.
Example C05_demo : map (fun md => (took_exit md demo_ms peer5, verdict md peer5)) [MProbe; MCore; MDirect]
  = [(Some true, Some 0); (Some true, Some 0); (Some true, Some 0)].
Proof. vm_compute. reflexivity. Qed.

(** Refuted for `||`: `skb->len == 0 || skb->dev->peer->ifindex == 5` with peer NULL matches (the exit
    label sits on the last instruction emitted, which for `||` is `r = 1`; expr.go:96-98, evaluate.go:1613-1619). *)
Definition or_peer := EOrOr (ECmp CEq (EArrow skb "len") (ENum "0")) peer5.
Theorem C05_null_exit_of_or_matches_refuted :
  csem demo_C (cc2btf demo_env) (EParen (arrow skb ["dev"; "peer"]%string)) <> None /\
  csem demo_C (cc2btf demo_env) or_peer = None /\ forall md, took_exit md demo_ms or_peer = Some true /\ verdict md or_peer = Some 1.
Proof. split; [vm_compute; discriminate|]. split; [vm_compute; reflexivity|]. intros []; vm_compute; auto. Qed.
Print Assumptions C05_null_exit_of_or_matches_refuted.

(** Refuted for a NULL parameter: it is dereferenced without a check, the failed read yields 0, and
    `skb->len == 0` matches a call with skb = NULL. *)
Definition null_mem : Z -> Z := fun _ => 0.
Definition null_C : cenv := {| ce_bt := demo_env; ce_vars := demo_vars; ce_slot := fun _ => 0; ce_mem := null_mem;
  ce_map := demo_map; ce_enum := fun _ => None |}.
Definition null_ms : mst := {| rg := rg demo_ms; stk := stk demo_ms; ker := null_mem; ncall := 0 |}.
Theorem C05_null_parameter_matches_refuted :
  let e := ECmp CEq (EArrow skb "len") (ENum "0") in
  csem null_C (cc2btf demo_env) skb = Some (CPtr 0 (TStruct "sk_buff")) /\ csem null_C (cc2btf demo_env) e = None /\ forall md, verdict_with md null_C demo_m null_ms e = Some 1.
Proof. split; [vm_compute; reflexivity|]. split; [vm_compute; reflexivity|]. intros []; vm_compute; reflexivity. Qed.
Print Assumptions C05_null_parameter_matches_refuted.

(** ** C15 *)

(** [cf_resv K] is the reservation declared by the caller (rounded up by newCompiler: 8, 16, ...).
    Every store instruction of the code writes one aligned 8-byte slot of the frame strictly below the
    reservation and inside the 512-byte frame, and a run changes no byte of the frame except those slots
    and the 8-byte scratch word at -8 (which every reservation covers). *)
Theorem C15_stack_writes_stay_in_their_area :
  forall (K : cfg) e p,
  compile_filter K e = inl (Some p) -> Z.of_nat (List.length (code p)) < 2 ^ 15 ->
  8 <= cf_resv K <= 464 -> cf_resv K mod 8 = 0 ->
  (forall b off r n, In (ISt b off r n) (code p) ->
     b = RFP /\ n = 8%nat /\ off mod 8 = 0 /\ -512 <= off /\ off + 8 <= - cf_resv K) /\
  forall m ms, exists r0 ms',
    (forall fuel, (List.length (code p) + 3 <= fuel)%nat -> run fuel m p 0 ms = Done r0 ms') /\
    forall x, stk ms' x <> stk ms x -> -8 <= x < 0 \/ -512 <= x < - cf_resv K.
Proof. exact filter_stack. Qed.
Print Assumptions C15_stack_writes_stay_in_their_area.

(** The caller's reservation is normalised to a multiple of 8, at least 8. *)
Theorem C15_reservation_is_normalised : forall n, norm_resv n mod 8 = 0 /\ 8 <= norm_resv n /\ n <= norm_resv n /\ norm_resv n < Z.max n 1 + 8.
Proof. exact norm_resv_ok. Qed.
Print Assumptions C15_reservation_is_normalised.

(** A filter that does save registers on the stack: with four live temporaries in probe mode. *)
Definition deep4 := let l := EArrow skb "len" in let a x y := EBin BAdd x y in
  ECmp CEq (a (a l l) (a (a l l) (a (a l l) (a l l)))) (ENum "12000").
Example C15_demo : match compile_filter (K MProbe) deep4 with
  | inl (Some p) => map (fun i => match i with ISt b off r n => Some (b, off, r, n) | _ => None end)
                        (filter (fun i => match i with ISt _ _ _ _ => true | _ => false end) (code p))
                    = [Some (10%nat, -16, 1%nat, 8%nat); Some (10%nat, -16, 1%nat, 8%nat); Some (10%nat, -24, 1%nat, 8%nat); Some (10%nat, -16, 2%nat, 8%nat)]
  | _ => False end.
Proof. vm_compute. reflexivity. Qed.
