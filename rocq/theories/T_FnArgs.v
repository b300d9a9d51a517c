(** * Properties C16 (function arguments are displayed from their own bytes) and C17 (kprobe.multi). *)
From Coq Require Import ZArith List Bool Lia.
From Verif Require Import M_Go M_Ebpf M_Bytes M_FnArgs S_FnArgs P_FnArgs P_FnArgs2.
Import ListNotations.
Open Scope Z_scope.

(** ** C16.  The injected program runs to completion writing nothing outside the record, and decoding the record it wrote
    never fails, shows as many arguments as the function has parameters, and
    - shows every parameter before the first one of more than 8 bytes as its register (string, number and pointed-to number);
    - shows that first larger parameter from its two registers, unless it is the last parameter;
    - shows the return value, when all parameters have at most 8 bytes.
    Missing: what follows a parameter of more than 8 bytes (refuted below). *)
Theorem C16_shown_from_own_registers_partial : forall m s pts prms rt withret vals retval buf c size,
  func_params false pts = Some prms -> (List.length pts <= 200)%nat -> List.length vals = List.length prms ->
  gen_output_fn_args prms (ret_flags rt) withret = (c, size) -> call_state m s vals retval buf size ->
  exists s' shown ret, (forall p fuel, code p = c -> (List.length c <= fuel)%nat -> run fuel m p 0 s = Done (rg s' R0) s') /\
    (forall x, ~ (buf <= x < buf + size) -> ker s' x = ker s x) /\
    output_fn_args (Z.of_nat (List.length pts)) prms (ret_flags rt) withret (record s' buf size) = Some (shown, ret) /\
    List.length shown = List.length pts /\
    (forall pre post, pts = pre ++ post -> Forall (fun t => pt_size t <= 8) pre ->
       map (fun pr => seen (fst pr) (snd pr)) (firstn (List.length pre) (combine prms shown)) =
       expected_args (mem_of m s) false pre (firstn (List.length pre) vals)) /\
    (forall pre t post v w rest, pts = pre ++ t :: post -> Forall (fun t => pt_size t <= 8) pre -> 8 < pt_size t -> post <> [] ->
       skipn (List.length pre) vals = v :: w :: rest ->
       exists a, nth_error shown (List.length pre) = Some a /\ sa_val a = v /\ sa_next a = w) /\
    (Forall (fun t => pt_size t <= 8) pts ->
       if withret then exists a, ret = Some a /\ seen (ret_flags rt) a = view_of (mem_of m s) (pt_charptr rt) (pt_numptr rt) retval
       else ret = None).
Proof. exact round_trip. Qed.
Print Assumptions C16_shown_from_own_registers_partial.

(** A machine: argument registers at 4096; "hi" at 8192; 7 at 12288; buffer at 16384; return value 99. *)
Definition put (a v n : Z) (x : Z) (rest : Z) : Z := if (a <=? x) && (x <? a + n) then Z.shiftr v (8 * (x - a)) mod 256 else rest.
Definition fa_mem (v0 v1 v2 : Z) (x : Z) : Z :=
  put 4096 v0 8 x (put 4104 v1 8 x (put 4112 v2 8 x (put 8192 (104 + 256 * 105) 8 x (put 12288 7 8 x 0)))).
Definition fa_m : mach := {| mapped := fun x => (4096 <=? x) && (x <? 65536); clob := fun _ _ => 0 |}.
Definition fa_s (v0 v1 v2 : Z) : mst :=
  {| rg := fun r => if Nat.eqb r 1 then 4096 else if Nat.eqb r 2 then 16384 else if Nat.eqb r 3 then 99 else if Nat.eqb r 10 then 1048576 else 0;
     stk := fun _ => 0; ker := fa_mem v0 v1 v2; ncall := 0 |}.
Definition t_str := {| pt_size := 8; pt_charptr := true; pt_numptr := false |}.
Definition t_ptr := {| pt_size := 8; pt_charptr := false; pt_numptr := true |}.
Definition t_u64 := {| pt_size := 8; pt_charptr := false; pt_numptr := false |}.
Definition t_pair := {| pt_size := 16; pt_charptr := false; pt_numptr := false |}.
Definition fa_run (pts : list ptype) (rt : ptype) (withret : bool) (s : mst) : option (list sarg * option sarg) :=
  match func_params false pts with
  | None => None
  | Some prms =>
      let '(c, size) := gen_output_fn_args prms (ret_flags rt) withret in
      match run (List.length c) fa_m {| code := c; label := None |} 0 s with
      | Done _ s' => output_fn_args (Z.of_nat (List.length pts)) prms (ret_flags rt) withret (record s' 16384 size)
      | _ => None
      end
  end.
Lemma fa_call v0 v1 v2 size : In v0 [8192; 10] -> In v1 [12288; 20] -> In v2 [30; 77] -> 0 <= size <= 1024 ->
  call_state fa_m (fa_s v0 v1 v2) [v0; v1; v2] 99 16384 size.
Proof.
  intros H0 H1 H2 Hs.
  assert (Hap : forall a n, (0 <= a) -> a + Z.of_nat n <= 16384 -> apart 16384 size a n).
  { intros a n Ha Hn i Hi. rewrite Z.mod_small by lia. lia. }
  cbn [In] in H0, H1, H2.
  split.
  - intros i v Hi. destruct i as [|[|[|i]]]; cbn [nth_error] in Hi; try (injection Hi as <-).
    1-3: split; [vm_compute; discriminate|]; split; [|apply Hap; cbn; lia];
      repeat match goal with H : _ \/ _ |- _ => destruct H as [H|H] | H : False |- _ => destruct H end; subst; vm_compute; reflexivity.
    destruct i; discriminate.
  - split; [reflexivity|]. lia.
  - intros i Hi. change (rg (fa_s v0 v1 v2) RFP) with 1048576. rewrite <- (Z_mod_plus _ 1), Z.mod_small by lia. lia.
  - intros v Hv. apply Hap; cbn [In] in Hv; change (Z.of_nat 64) with 64; lia.
  - split; [reflexivity|lia].
Qed.
(** f(const char *s, int *p, u64 n) called with ("hi", &7, 77), returning 99 *)
Example C16_hypotheses_met : exists prms c size, func_params false [t_str; t_ptr; t_u64] = Some prms /\ List.length [8192; 12288; 77] = List.length prms /\
  gen_output_fn_args prms (ret_flags t_u64) true = (c, size) /\ call_state fa_m (fa_s 8192 12288 77) [8192; 12288; 77] 99 16384 size.
Proof.
  do 3 eexists. split; [reflexivity|]. split; [reflexivity|]. split; [reflexivity|]. apply fa_call; cbn; auto. lia.
Qed.
Example C16_demo : expected_args (mem_of fa_m (fa_s 8192 12288 77)) false [t_str; t_ptr; t_u64] [8192; 12288; 77] = [VStr [104; 105]; VPtr 12288 7; VNum 77].
Proof. vm_compute. reflexivity. Qed.
Example C16_demo_shown : match fa_run [t_str; t_ptr; t_u64] t_u64 true (fa_s 8192 12288 77) with
  | Some (l, Some r) => (map sa_str l, map sa_val l, map sa_ptr l, sa_val r) | _ => ([], [], [], 0) end = ([[104; 105]; []; []], [0; 12288; 77], [0; 7; 0], 99).
Proof. vm_compute. reflexivity. Qed.

(** f(struct pair a, u64 n) called with a = {10, 20}, n = 30: n is shown as 20.  f(u64 n, struct pair a) with n = 10, a = {20, 30}:
    the second half of a is shown as 0.  With a return value, f(struct pair a, u64 n) = 99 shows 30. *)
Theorem C16_after_16_byte_struct_refuted :
  call_state fa_m (fa_s 10 20 30) [10; 20; 30] 99 16384 24 /\
  (exists a b, fa_run [t_pair; t_u64] t_u64 false (fa_s 10 20 30) = Some ([a; b], None) /\ (sa_val a, sa_next a) = (10, 20) /\ sa_val b = 20) /\
  (exists a b, fa_run [t_u64; t_pair] t_u64 false (fa_s 10 20 30) = Some ([a; b], None) /\ sa_val a = 10 /\ (sa_val b, sa_next b) = (20, 0)) /\
  (exists a b r, fa_run [t_pair; t_u64] t_u64 true (fa_s 10 20 30) = Some ([a; b], Some r) /\ sa_val r = 30).
Proof.
  split; [apply fa_call; cbn; auto; lia|].
  split; [do 2 eexists; split; [vm_compute; reflexivity|split; reflexivity]|].
  split; [do 2 eexists; split; [vm_compute; reflexivity|split; reflexivity]|].
  do 3 eexists; split; [vm_compute; reflexivity|reflexivity].
Qed.
Print Assumptions C16_after_16_byte_struct_refuted.

(** ** C17.  [vals]: the argument registers ([maxargs] of them: 6 on amd64, 8 on arm64).  Shown for parameter i: register i (and
    register i+1 as second half, 0 after the last); parameters beyond the registers become an ellipsis; then the return value. *)
Theorem C17_multi_probe_arguments_shown : forall m s maxargs nparams withret vals retval buf c size,
  List.length vals = maxargs -> (maxargs <= 1000)%nat -> gen_output_kmulti maxargs withret = (c, size) -> call_state m s vals retval buf size ->
  exists s', (forall p fuel, code p = c -> (List.length c <= fuel)%nat -> run fuel m p 0 s = Done (rg s' R0) s') /\
    (forall x, ~ (buf <= x < buf + size) -> ker s' x = ker s x) /\
    output_kmulti maxargs nparams (record s' buf size) withret =
      (map (fun i => (nth i vals 0, nth (i + 1) vals 0)) (seq 0 (Nat.min nparams maxargs)), (maxargs <? nparams)%nat, if withret then Some retval else None).
Proof. exact kmulti_round_trip. Qed.
Print Assumptions C17_multi_probe_arguments_shown.
Example C17_hypotheses_met : exists c size, gen_output_kmulti 3 true = (c, size) /\ call_state fa_m (fa_s 10 20 30) [10; 20; 30] 99 16384 size.
Proof. do 2 eexists. split; [reflexivity|]. apply fa_call; cbn; auto. lia. Qed.
