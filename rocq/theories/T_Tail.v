(** * Property C88: subprograms that may be tail-called into are left out only on kernels whose trampolines break tail calls. *)
From Coq Require Import List Bool ZArith Lia Arith.
From Verif Require Import M_Go M_Bytes M_Disasm S_Disasm P_Disasm M_Tail S_Tail P_Tail.
Import ListNotations.
Open Scope Z_scope.

(** C88 (the verdict, for a trampoline that lies after the program).  For every decoder, memory and probe program that starts with (endbr,) call or jump to
    the trampoline and xor eax, eax: the kernel is found to be fixed exactly when the trampoline's instructions save rax before they return; the probe ends
    in an error exactly when neither happens and more than ten of the 512 bytes cannot be decoded. *)
Theorem C88_verdict_partial : forall dec m buff e op d rest ksym data l, sound_decoder dec -> op = 232 \/ op = 233 -> (5 <= List.length rest)%nat ->
  0 <= ksym -> 0 <= d < 2 ^ 31 -> goes_to e ksym d + 512 < 2 ^ 64 ->
  List.length data = 512%nat -> S_Disasm.holds m (goes_to e ksym d) data -> Decoded dec data (goes_to e ksym d) l ->
  (probe dec m buff ksym (prologue e op d ++ rest) = POk true <-> saves_rax l) /\
  (probe dec m buff ksym (prologue e op d ++ rest) = PErr <-> ~ saves_rax l /\ ~ returns l /\ (10 < undecoded data l)%nat) /\
  probe dec m buff ksym (prologue e op d ++ rest) <> PPanic.
Proof. intros dec m buff e op d rest ksym data l H. apply (probe_ok dec H). Qed.
Print Assumptions C88_verdict_partial.
(** Refuted when the trampoline lies before the program: the displacement is taken as unsigned, 4 GiB too far (modulo 2^64); nothing readable there, the
    512 zero bytes are taken for instructions (x86: 00 00 is a two-byte add) and the kernel is found not to be fixed, whatever the trampoline does. *)
Theorem C88_trampoline_before_refuted : forall dec m buff e op d rest ksym i, op = 232 \/ op = 233 -> (5 <= List.length rest)%nat -> 0 <= ksym -> ksym + 16 < 2 ^ 64 ->
  - 2 ^ 31 <= d < 0 -> (forall j a, dec (repeat 0 (S (S j))) a = Some 2%nat) -> 0 <= i < 512 -> m ((goes_to e ksym d + 2 ^ 32) mod 2 ^ 64 + i) = None ->
  probe dec m buff ksym (prologue e op d ++ rest) = POk false.
Proof. exact probe_back. Qed.
Print Assumptions C88_trampoline_before_refuted.
(** For every kind of code: the kernel is taken for fixed only if the probe program can be tail-called into and a byte 0x50 (push rax) was read at its
    trampoline. *)
Theorem C88_fixed_only_if_seen : forall dec m buff ksym code, probe dec m buff ksym code = POk true ->
  exists kaddr jinsns t data, past_endbr ksym code = Some (kaddr, jinsns) /\ is_tailcall_reachable jinsns = Some true /\ tramp_addr kaddr jinsns = Some t /\
    fst (read_kernel m buff t 512) = Some data /\ In 80 data.
Proof. exact probe_true. Qed.
Print Assumptions C88_fixed_only_if_seen.
(** The same when the kernel does not show the instructions. *)
Theorem C88_hidden_code : forall dec m buff ksym, probe dec m buff ksym [] = POk false.
Proof. reflexivity. Qed.
Print Assumptions C88_hidden_code.
(** C88.  A function is left out exactly when it is not the entry, the kernel (amd64) allows tail calls with subprograms and was not found to be fixed, and
    the entry is one that may be tail-called into. *)
Theorem C88_left_out : forall arm64 l p b idx code, issue arm64 l p = Some b -> is_tailcall_reachable code <> None ->
  exists out, left_out b idx code = Some out /\
  (out = true <-> idx <> 0%nat /\ arm64 = false /\ l = LLoaded /\ p = POk false /\ is_tailcall_reachable code = Some true).
Proof.
  intros arm64 l p b idx code H Hn. unfold left_out. destruct (is_tailcall_reachable code) as [r|] eqn:Er; [|contradiction]. clear Hn.
  unfold issue in H. destruct l; [|destruct arm64; [|destruct p as [| |fixed]; try discriminate H]].
  1, 2: injection H as <-; rewrite andb_false_r; exists false; split; [reflexivity|]; split; [discriminate|intros (_ & E1 & E2 & _); discriminate].
  injection H as <-. destruct (Nat.eqb_spec idx 0) as [->|N]; cbn [negb andb].
  - exists false. split; [reflexivity|]. split; [discriminate|intros (E & _); contradiction].
  - destruct fixed; cbn [negb andb].
    + exists false. split; [reflexivity|]. split; [discriminate|intros (_ & _ & _ & E & _); discriminate].
    + exists r. split; [reflexivity|]. split; [intros ->; repeat split; assumption|intros (_ & _ & _ & _ & E); congruence].
Qed.
Print Assumptions C88_left_out.
(** The way the trampoline is entered (jump or call) is read off the first instruction. *)
Theorem C88_jump_mode : forall old e op d rest ksym, op = 232 \/ op = 233 -> (5 <= List.length rest)%nat -> 0 <= ksym -> ksym + 16 < 2 ^ 64 ->
  exists kaddr jinsns, past_endbr ksym (prologue e op d ++ rest) = Some (kaddr, jinsns) /\ jmp_mode old jinsns = Some (op =? 233).
Proof.
  intros old e op d rest ksym Ho Hr H0 H1. destruct (probe_pro old e op d rest ksym Ho Hr H0 H1) as (A & _ & _ & B). eexists. eexists. split; [exact A|exact B].
Qed.
Print Assumptions C88_jump_mode.

(** A decoder that takes one byte (two for a zero); a trampoline after the program: push rbp, push rax, nops, ret; the same before it. *)
Definition ex_dec (b : list Z) (pc : Z) : option nat := match b with [] => None | 0 :: _ :: _ => Some 2%nat | _ => Some 1%nat end.
Definition ex_data : list Z := [85; 80] ++ repeat 144 509 ++ [195].
Definition ex_mem (base : Z) : kmem := fun a => if (base <=? a) && (a <? base + 512) then Some (nth (Z.to_nat (a - base)) ex_data 0) else None.
Lemma ex_sound : sound_decoder ex_dec.
Proof. intros b pc sz H. unfold ex_dec in H. destruct b as [|[|p|p] [|y b]]; try discriminate; injection H as <-; cbn; lia. Qed.
Example demo_C88 : let m := ex_mem 69641 in let l := decode_all ex_dec 513 ex_data 69641 in
  S_Disasm.holds m (goes_to true 65536 4096) ex_data /\ Decoded ex_dec ex_data (goes_to true 65536 4096) l /\ saves_rax l /\
  probe ex_dec m buff0 65536 (prologue true 232 4096 ++ [1; 2; 3; 4; 5]) = POk true /\
  probe ex_dec (ex_mem 61449) buff0 65536 (prologue true 232 (-4096) ++ [1; 2; 3; 4; 5]) = POk false /\ goes_to true 65536 (-4096) = 61449.
Proof.
  intros m l. assert (D : Decoded ex_dec ex_data (goes_to true 65536 4096) l).
  { apply (decode_all_Decoded ex_dec ex_sound); [vm_compute; lia|vm_compute; discriminate|vm_compute; reflexivity]. }
  assert (HH : S_Disasm.holds m (goes_to true 65536 4096) ex_data).
  { intros i Hi. change (List.length ex_data) with 512%nat in Hi. unfold m, ex_mem. change (goes_to true 65536 4096) with 69641.
    destruct (Z.leb_spec 69641 (69641 + Z.of_nat i)); [|lia]. destruct (Z.ltb_spec (69641 + Z.of_nat i) (69641 + 512)); [|lia]. cbn [andb]. do 2 f_equal. lia. }
  assert (S : saves_rax l) by (exists [(69641, [85])], 69642; eexists; split; [vm_compute; reflexivity|cbn; intros [F|[]]; discriminate]).
  split; [exact HH|]. split; [exact D|]. split; [exact S|]. split.
  - apply (proj1 (probe_ok ex_dec ex_sound m buff0 true 232 4096 [1; 2; 3; 4; 5] 65536 ex_data l ltac:(left; reflexivity) ltac:(cbn; lia) ltac:(lia) ltac:(lia) ltac:(vm_compute; reflexivity) eq_refl HH D)). exact S.
  - split; [|reflexivity]. apply (probe_back ex_dec (ex_mem 61449) buff0 true 232 (-4096) [1; 2; 3; 4; 5] 65536 0 ltac:(left; reflexivity) ltac:(cbn; lia) ltac:(lia) ltac:(lia) ltac:(lia)); [|lia|reflexivity].
    intros j a. reflexivity.
Qed.
