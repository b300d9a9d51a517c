(** * Properties C02 (register allocator) and C03 (values live across helper calls). *)
From Coq Require Import ZArith List Bool String Lia.
From Verif Require Import M_Ebpf P_Ebpf M_CcNum M_Cc S_CSem S_CSup P_CcReg X_CcDemo.
Import ListNotations.
Open Scope Z_scope.

(** ** C02: [u r] = "register r is in use". *)
Theorem C02_alloc_returns_a_free_register : forall u r u', alloc u = Some (r, u') ->
  (r <= 8)%nat /\ r <> R9 /\ r <> RFP /\ u r = false /\ u' r = true /\ (forall x, x <> r -> u' x = u x).
Proof.
  intros u r u' H. destruct (alloc_ok u r u' H) as (A & B & C & D & _). unfold R9, RFP.
  split; [exact A|]. split; [lia|]. split; [lia|]. auto.
Qed.
Print Assumptions C02_alloc_returns_a_free_register.
Theorem C02_alloc_fails_iff_all_in_use : forall u, alloc u = None <-> forall x, (x <= 8)%nat -> u x = true.
Proof. exact alloc_none. Qed.
Print Assumptions C02_alloc_fails_iff_all_in_use.
Theorem C02_alloc_after_free_succeeds : forall u r, (r <= 8)%nat -> alloc (free u r) <> None.
Proof. exact alloc_after_free. Qed.
Print Assumptions C02_alloc_after_free_succeeds.
Theorem C02_free_changes_only_its_register : forall u r x, free u r x = if Nat.eqb x r && Nat.leb r 9 then false else u x.
Proof.
  intros u r x. unfold free, upd. destruct (Nat.leb r 9); [|rewrite andb_false_r; reflexivity].
  rewrite andb_true_r. reflexivity.
Qed.
Print Assumptions C02_free_changes_only_its_register.
(** Over every history of allocations and frees ([ahist]: results, in order): a register handed out twice
    was freed in between, and a register in use at the start was freed before being handed out. *)
Theorem C02_no_register_is_handed_out_twice : forall u l r i j, (i < j)%nat ->
  nth_error (fst (ahist u l)) i = Some (Some r) -> nth_error (fst (ahist u l)) j = Some (Some r) ->
  exists k, (i < k < j)%nat /\ nth_error l k = Some (AFree r).
Proof. intros u l. exact (hist_twice l u). Qed.
Print Assumptions C02_no_register_is_handed_out_twice.
Theorem C02_register_in_use_is_not_handed_out : forall u l r j, u r = true ->
  nth_error (fst (ahist u l)) j = Some (Some r) -> exists k, (k < j)%nat /\ nth_error l k = Some (AFree r).
Proof. intros u l. exact (hist_held l u). Qed.
Print Assumptions C02_register_in_use_is_not_handed_out.
(** A register marked in use is not handed out before it is freed; marking changes no other register and panics beyond R9.
    The compiler starts with exactly R9 marked (the registers the caller of the expression compiler keeps). *)
Theorem C02_marked_register_is_not_handed_out : forall u r u', mark_used u r = Some u' ->
  u' r = true /\ (forall x, x <> r -> u' x = u x) /\
  forall l j, nth_error (fst (ahist u' l)) j = Some (Some r) -> exists k, (k < j)%nat /\ nth_error l k = Some (AFree r).
Proof.
  intros u r u' H. unfold mark_used in H. destruct (Nat.leb r 9); [|discriminate]. injection H as <-.
  assert (E : upd u r true r = true) by (unfold upd; rewrite Nat.eqb_refl; reflexivity).
  split; [exact E|]. split.
  - intros x Hx. unfold upd. destruct (Nat.eqb_spec x r); [contradiction|reflexivity].
  - intros l j. exact (hist_held l _ r j E).
Qed.
Print Assumptions C02_marked_register_is_not_handed_out.
Theorem C02_mark_panics_iff_not_R0_to_R9 : forall u r, mark_used u r = None <-> (9 < r)%nat.
Proof. intros u r. unfold mark_used. destruct (Nat.leb_spec r 9); split; intros; try discriminate; try lia; reflexivity. Qed.
Print Assumptions C02_mark_panics_iff_not_R0_to_R9.
Example C02_marks : exists u, mark_used (fun _ => false) R9 = Some u /\ forall x, u x = init_regs x.
Proof. eexists. split; [reflexivity|]. intros x. unfold upd, init_regs, R9. destruct (Nat.eqb x 9); reflexivity. Qed.
Example C02_demo : fst (ahist init_regs [AAlloc; AAlloc; AFree R8; AAlloc; AAlloc]) = [Some 8%nat; Some 7%nat; None; Some 8%nat; Some 6%nat].
Proof. vm_compute. reflexivity. Qed.

(** ** C03 *)

(** For every reservation, allocation state and code [c] that may clobber R0..R5 but leaves the save area alone: if no used
    register of R1..Rn has an unused one below it, then all used registers of R0..Rn survive push; c; pop.
    Missing: states with a gap (refuted below) - the allocator hands registers out from R8 downwards, so
    every state with one to four of R1..R5 in use has a gap. *)
Theorem C03_saved_registers_survive_partial : forall z u n m c ms,
  (n <= 5)%nat -> 8 <= z <= 464 -> (forall x, 0 <= rg ms x < M64) ->
  (forall s, exists s', exec m c 0 s = FFall 0 s' /\ forall x, x < -8 -> stk s' x = stk s x) ->
  (forall i j, (1 <= j < i)%nat -> (i <= n)%nat -> u i = true -> u j = true) ->
  exists ms', exec m (push_regs z u n ++ c ++ pop_regs z u n) 0 ms = FFall 0 ms' /\
    forall i, (i <= n)%nat -> u i = true -> rg ms' i = rg ms i.
Proof. exact save_restore_nogap. Qed.
Print Assumptions C03_saved_registers_survive_partial.
Example C03_call_meets_hypothesis : forall m s, exists s', exec m probe_call 0 s = FFall 0 s' /\ forall x, x < -8 -> stk s' x = stk s x.
Proof. exact probe_call_frame. Qed.
(** Registers R0..R5 after push; probe_read; pop, starting from R0..R5 = 77, 4096, 77, 77, 77, 77. *)
Definition around_call (u : reg -> bool) : option (list Z) :=
  match exec demo_m (push_regs 8 u 5 ++ probe_call ++ pop_regs 8 u 5) 0 demo_ms with
  | FFall _ s => Some (map (rg s) [0; 1; 2; 3; 4; 5]%nat) | _ => None end.
Example C03_demo : around_call (fun r => Nat.leb r 3) = Some [77; 4096; 77; 77; 12345; 12345].
Proof. vm_compute. reflexivity. Qed.

(** Refuted: expr.go:216-263 saves R1..Rk for k = number of used registers among R1..R5, so a live value
    in R5 is lost (allocation state R5..R9 in use: the fifth simultaneously live value). *)
Theorem C03_live_register_is_lost_refuted : exists u, u R5 = true /\ rg demo_ms R5 = 77 /\
  (forall r, (6 <= r <= 9)%nat -> u r = true) /\ around_call u = Some [18446744073709551602; 4096; 12345; 12345; 12345; 12345].
Proof.
  exists (fun r => Nat.leb 5 r && Nat.leb r 9). split; [reflexivity|]. split; [reflexivity|]. split.
  - intros r Hr. destruct (Nat.leb_spec 5 r); [|lia]. destruct (Nat.leb_spec r 9); [|lia]. reflexivity.
  - vm_compute. reflexivity.
Qed.
Print Assumptions C03_live_register_is_lost_refuted.
(** The same at the level of filters: `(len+len)+((len+len)+((len+len)+(len+len))) == 12000` is true
    (skb->len = 1500) but the filter returns 0 in both modes that call helpers; without helper calls it returns 1. *)
Definition deep_sum := let l := EArrow skb "len" in let a x y := EBin BAdd x y in
  ECmp CEq (a (a l l) (a (a l l) (a (a l l) (a l l)))) (ENum "12000").
Theorem C03_filter_loses_a_live_value_refuted :
  sem_true deep_sum = Some true /\ verdict MProbe deep_sum = Some 0 /\ verdict MCore deep_sum = Some 0 /\ verdict MDirect deep_sum = Some 1.
Proof. vm_compute. auto. Qed.
Print Assumptions C03_filter_loses_a_live_value_refuted.
