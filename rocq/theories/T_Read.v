(** * Property C105: --read shows the value its expression has in kernel memory. *)
From Coq Require Import ZArith List Bool String Lia.
From Verif Require Import M_Go M_Ebpf M_CcNum M_Cc M_Bytes M_FnArgs S_FnArgs S_CSem S_CSup S_Null M_OutArg S_OutArg M_Read S_Read.
From Verif Require Import P_CcMat P_OutArg5 P_Read T_OutArg X_CcDemo.
Import ListNotations.
Open Scope string_scope.
Open Scope Z_scope.

(** For every kernel, memory, expression and any calls of the probed function by any threads: if the expression compiles, is not
    a compile-time constant, and at the first call by the reading thread has a C value or follows a NULL pointer ([outcome]), then
    exactly one item is shown: what the expression should show ([view_arg]) in the memory of that call.  Calls by other threads, before
    it, and all calls after it make no difference.
    Missing: literal addresses that are not sign-extended 32-bit numbers, and constants (both refuted below); the rest of the
    supported fragment of C01; captures of 32767 bytes or more. *)
Theorem C105_read_shows_value_partial : forall T K C m e a B pid tid before h after v,
  tinfo_ok T -> sees K C m (h_st h) -> buff_at C (h_st h) B ->
  (forall r, compile_force K e = Some r -> ready K r) -> read_compile T K e = Some a ->
  runtime_expr K (subject e) = true -> outcome K C e v ->
  1 <= oa_true a < 2 ^ 15 - 1 -> - 2 ^ 31 <= oa_off a < 2 ^ 31 -> arg_apart B buff_size a v ->
  thread pid tid -> Forall (fun x => thread (h_pid x) (h_tid x) /\ ~ made_by pid tid x) before -> made_by pid tid h ->
  read_session m a B pid tid (before ++ h :: after) = Out (Some [view_arg (S_FnArgs.mem_of m (h_st h)) a v]).
Proof. exact read_shows. Qed.
Print Assumptions C105_read_shows_value_partial.

(** "reading kernel was not triggered" is reported exactly when the reading thread never called the probed function. *)
Theorem C105_not_triggered : forall m a B pid tid hs, thread pid tid -> Forall (fun x => thread (h_pid x) (h_tid x)) hs ->
  read_session m a B pid tid hs = NotTriggered <-> Forall (fun x => ~ made_by pid tid x) hs.
Proof. exact read_not_triggered. Qed.
Print Assumptions C105_not_triggered.

(** A kernel: an sk_buff at 0xffffffff81010000 (len 1500, dev a net_device on the heap, 0xffff888000020000, ifindex 5, peer NULL) and one on
    the heap, 0xffff888000010000 (len 900); something else at 0x10000.  The buffer is at 2^50. *)
Definition img := 18446744071578910720.
Definition heap := 18446612682070097920.
Definition read_mem : Z -> Z := X_CcDemo.mem_of
  [(img + 112, 1500, 4); (img + 16, heap + 65536, 8); (heap + 112, 900, 4); (heap + 65536 + 216, 5, 4); (65536 + 112, 66, 4)].
Definition read_map (a : Z) : bool := (4096 <=? a) && (a <? 2 ^ 64) && negb ((2 ^ 50 <=? a) && (a <? 2 ^ 50 + 65536)).
Definition read_K (md : mode) : cfg := {| cf_env := demo_env; cf_vars := []; cf_mode := md; cf_resv := 8; cf_fast := false |}.
Definition read_C : cenv := {| ce_bt := demo_env; ce_vars := []; ce_slot := fun _ => 0; ce_mem := read_mem; ce_map := read_map; ce_enum := fun _ => None |}.
Definition read_m : mach := {| mapped := read_map; clob := fun _ _ => 12345 |}.
Definition read_st (r0 : Z) : mst := {| rg := fun r => if Nat.eqb r 0 then r0 else if Nat.eqb r 10 then 2 ^ 60 else 77; stk := fun _ => 0; ker := read_mem; ncall := 0 |}.
Definition at_ (tag addr : string) : expr := EParen (ECast {| ct_ptr := true; ct_struct := true; ct_name := tag |} (ENum addr)).
Definition img_skb := at_ "sk_buff" "0xffffffff81010000".
(** what is shown after a call by another thread, a call of the reading thread and another one *)
Definition read_show (md : mode) (e : expr) (r0 : Z) : option rout :=
  option_map (fun a => read_session read_m a (2 ^ 50) 100 101
     [{| h_pid := 100; h_tid := 100; h_st := read_st 1 |}; {| h_pid := 100; h_tid := 101; h_st := read_st r0 |}; {| h_pid := 100; h_tid := 101; h_st := demo_ms |}])
    (read_compile demo_T (read_K md) e).
(** --read '((struct sk_buff * )0xffffffff81010000)->len', ...->dev->ifindex, hex(skb, 112, 4), ...->dev->peer->ifindex *)
Definition read_es : list (expr * option Z) :=
  [(EArrow img_skb "len", Some 1500); (EArrow (EArrow img_skb "dev") "ifindex", Some 5);
   (call "hex" [img_skb; ENum "112"; ENum "4"], Some img); (EArrow (EArrow (EArrow img_skb "dev") "peer") "ifindex", None)].
Example C105_demo : map (fun md => map (fun p => read_show md (fst p) 0) read_es) [MProbe; MCore] =
  repeat (map (fun x => Some (Out (Some [x]))) [SNum 1500; SNum 5; SBytes [220; 5; 0; 0]; SNull]) 2.
Proof. vm_compute. reflexivity. Qed.
(** all hypotheses are met *)
Example C105_hypotheses_met : forall md p, In p read_es -> exists a,
  read_compile demo_T (read_K md) (fst p) = Some a /\ sees (read_K md) read_C read_m (read_st 0) /\ buff_at read_C (read_st 0) (2 ^ 50) /\
  (forall r, compile_force (read_K md) (fst p) = Some r -> ready (read_K md) r) /\
  runtime_expr (read_K md) (subject (fst p)) = true /\ outcome (read_K md) read_C (fst p) (snd p) /\
  1 <= oa_true a < 2 ^ 15 - 1 /\ - 2 ^ 31 <= oa_off a < 2 ^ 31 /\ arg_apart (2 ^ 50) buff_size a (snd p).
Proof.
  intros md p Hp.
  assert (Hs : sees (read_K md) read_C read_m (read_st 0)) by (repeat split; auto).
  assert (Hb : buff_at read_C (read_st 0) (2 ^ 50)).
  { split; [unfold buff_size; lia| |].
    - intros i Hi. unfold buff_size in Hi. change (rg (read_st 0) RFP) with (2 ^ 60). rewrite <- (Z_mod_plus _ 1), Z.mod_small by lia. lia.
    - intros a Ha. cbn [read_C ce_map] in Ha. unfold read_map in Ha. apply andb_true_iff in Ha as [_ Ha]. apply negb_true_iff, andb_false_iff in Ha.
      rewrite Z.leb_gt, Z.ltb_ge in Ha. unfold buff_size. lia. }
  assert (Hr : forall e a, forall o, match read_compile demo_T (read_K md) e, compile_force (read_K md) e with
     | Some a', Some r => ready_b (read_K md) r && (1 <=? oa_true a') && (oa_true a' <? 32767) && (0 <=? oa_off a') && (oa_off a' <? 1000) &&
         match o with Some v => negb (reads a') || ((2 ^ 51 <=? v) && (v + oa_off a' + oa_true a' <? 2 ^ 64)) | None => true end
     | _, _ => false end = true -> runtime_expr (read_K md) (subject e) = true -> outcome (read_K md) read_C e o -> read_compile demo_T (read_K md) e = Some a ->
     (forall r, compile_force (read_K md) e = Some r -> ready (read_K md) r) /\
     runtime_expr (read_K md) (subject e) = true /\ outcome (read_K md) read_C e o /\
     1 <= oa_true a < 2 ^ 15 - 1 /\ - 2 ^ 31 <= oa_off a < 2 ^ 31 /\ arg_apart (2 ^ 50) buff_size a o).
  { intros e a o H Hrt Ho Ha. rewrite Ha in H. destruct (compile_force (read_K md) e) as [r|]; [|discriminate].
    do 5 (apply andb_true_iff in H as [H ?]).
    repeat match goal with H : (_ <? _)%Z = true |- _ => apply Z.ltb_lt in H | H : (_ <=? _) = true |- _ => apply Z.leb_le in H end.
    split. { intros r' Hr'. injection Hr' as <-. unfold ready_b in H. apply andb_true_iff in H as [Hq1 Hq2]. split.
      - apply Nat.ltb_lt in Hq1. lia.
      - intros _. apply Forall_forall. intros i Hi. rewrite forallb_forall in Hq2. specialize (Hq2 i Hi). intros Hd. rewrite Hd in Hq2. discriminate. }
    split; [exact Hrt|]. split; [exact Ho|]. split; [lia|]. split; [lia|].
    intros v -> Hrd i Hi. match goal with H : negb _ || _ = true |- _ => rewrite Hrd in H; cbn [negb orb] in H; apply andb_true_iff in H as [Hv1 Hv2] end.
    apply Z.leb_le in Hv1. apply Z.ltb_lt in Hv2. rewrite (Z.mod_small (v + oa_off a)) by lia. rewrite Z.mod_small by lia. unfold buff_size. lia. }
  destruct (read_compile demo_T (read_K md) (fst p)) as [a|] eqn:Ha.
  2:{ exfalso. cbn [read_es In] in Hp. destruct Hp as [<-|[<-|[<-|[<-|[]]]]]; destruct md; vm_compute in Ha; discriminate. }
  exists a. split; [reflexivity|]. split; [exact Hs|]. split; [exact Hb|]. apply Hr; [| | |exact Ha];
    clear Ha; cbn [read_es In] in Hp; destruct Hp as [<-|[<-|[<-|[<-|[]]]]]; destruct md; vm_compute; reflexivity.
Qed.

(** --read '((struct sk_buff * )0xffff888000010000)->len': the address is on the heap; its low 32 bits, sign-extended, are used instead,
    0x10000: shown is 66 instead of 900.  Through the pointer in the sk_buff of the image (dev->ifindex above) the heap is read correctly. *)
Theorem C105_heap_address_refuted : exists e, runtime_expr (read_K MProbe) e = true /\
  csem read_C (cc2btf demo_env) e = Some (CLoc (heap + 112) u32 None) /\ rval read_C (CLoc (heap + 112) u32 None) = Some (CInt 900 4 false) /\
  map (fun md => read_show md e 0) [MProbe; MCore] = [Some (Out (Some [SNum 66])); Some (Out (Some [SNum 66]))].
Proof. exists (EArrow (at_ "sk_buff" "0xffff888000010000") "len"). split; [vm_compute; reflexivity|]. split; [vm_compute; reflexivity|]. split; [vm_compute; reflexivity|]. vm_compute. reflexivity. Qed.
Print Assumptions C105_heap_address_refuted.

(** --read '(int)(1 + 2)', accepted by --read (not by --output-arg): the value shown is whatever register R0 happens to hold (the
    kernel's verifier refuses such a program). *)
Theorem C105_constant_refuted : exists e, csem read_C (cc2btf demo_env) e = Some (CInt 3 4 true) /\
  compile_eval (read_K MProbe) e = None /\ (forall x, In x [0; 7; 4096] -> read_show MProbe e x = Some (Out (Some [SNum x]))).
Proof.
  exists (ECast {| ct_ptr := false; ct_struct := false; ct_name := "int" |} (EParen (EBin BAdd (ENum "1") (ENum "2")))).
  split; [vm_compute; reflexivity|]. split; [vm_compute; reflexivity|].
  intros x [<-|[<-|[<-|[]]]]; vm_compute; reflexivity.
Qed.
Print Assumptions C105_constant_refuted.
(** `*(u32 * )(0x10000 + 112)`: likewise *)
Example C105_constant_address : map (fun x => read_show MProbe (EIndir (ECast {| ct_ptr := true; ct_struct := false; ct_name := "u32" |}
   (EParen (EBin BAdd (ENum "0x10000") (ENum "112"))))) x) [65648; 0; 18446744071578910832] =
  [Some (Out (Some [SBytes [66; 0; 0; 0]])); Some (Out (Some [SNull])); Some (Out (Some [SBytes [220; 5; 0; 0]]))].
Proof. vm_compute. reflexivity. Qed.
