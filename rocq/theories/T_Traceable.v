(** * C78, C79: functions that can be traced, and the return sites of their trampolines. *)
From Coq Require Import List Bool String ZArith Lia.
From Verif Require Import M_Go P_Go M_Kallsyms S_Kallsyms M_Bytes P_Bytes M_Disasm S_Disasm P_Disasm M_Traceable S_Traceable P_Traceable.
Import ListNotations.
Open Scope list_scope.
Open Scope Z_scope.

(** ** C78.  Any number of functions: kept are exactly those whose first 16 bytes can be read and that have, at their entry - after
    endbr64 in kernels built with it -, the 5-byte nop, or the call or jump that replaces it.  Partial: see the two refutations. *)
Theorem C78_kept_iff_partial : forall m endbr jmp keys, byte_mem m -> exists l, detect_traceable m endbr jmp keys = Some l /\ (NoDup keys -> NoDup l) /\
  forall a, In a l <-> In a keys /\ readable m a 16 /\ patch_site m (entry_of endbr a).
Proof. exact kept. Qed.
(** Refuted: in a kernel built with endbr64, a function that has none (compilers leave it out of static functions that are only called
    directly) is dropped although it begins with the nop. *)
Theorem C78_without_endbr_refuted : forall m jmp keys a l, byte_mem m -> holds m a [15; 31; 68; 0; 0] -> detect_traceable m true jmp keys = Some l -> ~ In a l.
Proof. exact no_endbr_dropped. Qed.
(** Refuted: a function that cannot be traced - no nop - is kept if its own first instruction is a call or a jump. *)
Theorem C78_own_call_refuted : forall m jmp keys a, byte_mem m -> In a keys -> readable m a 16 -> m a = Some 232 \/ m a = Some 233 ->
  exists l, detect_traceable m false jmp keys = Some l /\ In a l.
Proof.
  intros m jmp keys a Hm Hk Hr H. destruct (kept m false jmp keys Hm) as (l & E & _ & Hl). exists l. split; [exact E|].
  apply Hl. split; [exact Hk|]. split; [exact Hr|]. right. exact H.
Qed.
Print Assumptions C78_kept_iff_partial.
Print Assumptions C78_without_endbr_refuted.
Print Assumptions C78_own_call_refuted.

(** 4096: endbr64, jmp to 8192; 4128: nop without endbr64; 4160: endbr64, nop.  8192: push, call, ret, padding. *)
Definition tr_mem : kmem := fun a =>
  if (4096 <=? a) && (a <? 16384) then
    Some (nth (Z.to_nat (a - 4096)) [243; 15; 30; 250; 233; 247; 15; 0; 0; 85] (
          nth (Z.to_nat (a - 4128)) (if 4128 <=? a then [15; 31; 68; 0; 0; 85; 1; 1; 1] else []) (
          nth (Z.to_nat (a - 4160)) (if 4160 <=? a then [243; 15; 30; 250; 15; 31; 68; 0; 0] else []) (
          nth (Z.to_nat (a - 8192)) (if 8192 <=? a then [85; 232; 1; 0; 0; 0; 195] else []) 204))))
  else None.
Lemma nth_byte l i d : Forall is_byte l -> is_byte d -> is_byte (nth i l d).
Proof. intros Hl Hd. destruct (nth_in_or_default i l d) as [H| ->]; [|exact Hd]. rewrite Forall_forall in Hl. exact (Hl _ H). Qed.
Lemma tr_bytes : byte_mem tr_mem.
Proof.
  intros a b. unfold tr_mem. destruct ((4096 <=? a) && (a <? 16384)); [|discriminate]. intros H. cut (is_byte b); [exact (fun x => x)|].
  match type of H with Some ?x = _ => replace b with x by (exact (f_equal (fun o => match o with Some y => y | None => 0 end) H)) end. clear H. do 4 (apply nth_byte; [repeat match goal with |- context [if ?c then _ else _] => destruct c end;
    repeat (apply Forall_cons; [unfold is_byte; lia|]); apply Forall_nil|]). unfold is_byte; lia.
Qed.
Lemma tr_readable a n : 4096 <= a -> a + n <= 16384 -> readable tr_mem a n.
Proof.
  intros H1 H2 i Hi. unfold tr_mem. replace (4096 <=? a + i) with true by (symmetry; apply Z.leb_le; lia).
  replace (a + i <? 16384) with true by (symmetry; apply Z.ltb_lt; lia). discriminate.
Qed.
Example C78_case : byte_mem tr_mem /\ detect_traceable tr_mem true true [4160; 4128; 4096] = Some [4096; 4160] /\ holds tr_mem 4128 [15; 31; 68; 0; 0] /\
  readable tr_mem 4096 16 /\ patch_site tr_mem (entry_of true 4096) /\ readable tr_mem 8193 16 /\ tr_mem 8193 = Some 232.
Proof.
  split; [exact tr_bytes|]. split; [vm_compute; reflexivity|]. split; [|split; [apply tr_readable; lia|split; [right; right; reflexivity|split; [apply tr_readable; lia|reflexivity]]]].
  intros i Hi. cbn in Hi. do 5 (destruct i as [|i]; [vm_compute; reflexivity|]). lia.
Qed.

(** ** C79.  In kernels whose trampolines are reached by a jump, the table of return sites: everything in it is a return address of a call
    instruction in the trampoline of the function named, and no such address is missing.  [len t]: the bytes from t to the next symbol, at
    most 4096 (C40).  Functions that are traceable but were not attached contribute nothing. *)
Theorem C79_return_sites : forall dec, sound_decoder dec -> forall m ks buff endbr gs len, byte_mem m ->
  (forall f, In f gs -> readable m f 16) ->
  m 0 = None -> (forall k, (0 < k)%nat -> dec (repeat 0 k) 0 <> None) ->
  (forall t, 0 <= t < 2 ^ 64 -> guess_bytes ks t 0 = Some (len t) /\ 0 < len t <= 4096) ->
  (forall f t, In f gs -> jumps_to m (entry_of endbr f) t -> 0 < t /\ t + len t < 2 ^ 64 /\ readable m t (round8 (len t)) /\
     exists d i l, Z.of_nat (List.length d) = len t /\ holds m t d /\ Decoded dec (trim_tail d) t (i :: l)) ->
  exists ips, populate_tramps dec m ks buff endbr true gs = Some ips /\
    (forall ip f, aget Z.eqb ip ips = Some f -> In f gs /\ exists t, jumps_to m (entry_of endbr f) t /\ calls_back dec m t (len t) ip) /\
    (forall ip f t, In f gs -> jumps_to m (entry_of endbr f) t -> calls_back dec m t (len t) ip -> aget Z.eqb ip ips <> None).
Proof. exact tramps_ok. Qed.
(** In other kernels there is no such table: return sites are those after the call at the entry (C45). *)
Theorem C79_call_mode_none : forall dec m ks buff endbr gs, populate_tramps dec m ks buff endbr false gs = Some [].
Proof. reflexivity. Qed.
Print Assumptions C79_return_sites.
Print Assumptions C79_call_mode_none.

Definition tr_ls : list (list string) := [["0000000000001000"; "T"; "f"]; ["0000000000002000"; "t"; "bpf_trampoline_1"]; ["0000000000002010"; "t"; "next"]]%string.
Definition tr_dec (b : list Z) (pc : Z) : option nat :=
  match b with [] => None | x :: _ => if (x =? 232) && (5 <=? List.length b)%nat then Some 5%nat else Some 1%nat end.
Lemma tr_dec_sound : sound_decoder tr_dec.
Proof.
  intros b pc sz. unfold tr_dec. destruct b as [|x b]; [discriminate|].
  destruct (x =? 232); cbn [andb]; [destruct (Nat.leb_spec 5 (List.length (x :: b)))|]; injection 1 as <-; cbn [List.length] in *; lia.
Qed.
Example C79_case : exists ks, new_kallsyms tr_ls = Some ks /\ populate_tramps tr_dec tr_mem ks [] true true [4160; 4096] = Some [(8198, 4096)] /\
  let len t := match guess_bytes ks t 0 with Some n => n | None => 0 end in
  (forall t, 0 <= t < 2 ^ 64 -> guess_bytes ks t 0 = Some (len t) /\ 0 < len t <= 4096) /\
  (forall f, In f [4160; 4096] -> readable tr_mem f 16) /\ tr_mem 0 = None /\ (forall k, (0 < k)%nat -> tr_dec (repeat 0 k) 0 <> None) /\
  (forall f t, In f [4160; 4096] -> jumps_to tr_mem (entry_of true f) t -> 0 < t /\ t + len t < 2 ^ 64 /\ readable tr_mem t (round8 (len t)) /\
     exists d i l, Z.of_nat (List.length d) = len t /\ holds tr_mem t d /\ Decoded tr_dec (trim_tail d) t (i :: l)).
Proof.
  destruct (new_kallsyms tr_ls) as [ks|] eqn:E; [|vm_compute in E; discriminate]. exists ks. split; [reflexivity|].
  assert (T : text_syms tr_ls = [(4096, "f"); (8192, "bpf_trampoline_1"); (8208, "next")]%string) by (vm_compute; reflexivity).
  assert (G := guess_spec tr_ls ks). specialize (fun a => G a E). rewrite T in G.
  assert (L : guess_bytes ks 8192 0 = Some 16) by (vm_compute in E; injection E as <-; vm_compute; reflexivity).
  split; [vm_compute in E; injection E as <-; vm_compute; reflexivity|].
  cbv zeta. split; [|split; [|split; [reflexivity|split; [intros [|k] Hk; [lia|discriminate]|]]]].
  - intros t Ht. destruct (G t ltac:(discriminate) Ht) as (n & En & Hn & _); [intros s [<-|[<-|[<-|[]]]]; cbn [fst]; lia|]. rewrite En. auto.
  - intros f [<-|[<-|[]]]; apply tr_readable; lia.
  - intros f t [<-|[<-|[]]] (d0 & d1 & d2 & d3 & Hh & Ht).
    + specialize (Hh 0%nat ltac:(cbn; lia)). vm_compute in Hh. discriminate.
    + assert (H1 := Hh 1%nat ltac:(cbn; lia)). assert (H2 := Hh 2%nat ltac:(cbn; lia)). assert (H3 := Hh 3%nat ltac:(cbn; lia)). assert (H4 := Hh 4%nat ltac:(cbn; lia)).
      vm_compute in H1, H2, H3, H4. injection H1 as <-. injection H2 as <-. injection H3 as <-. injection H4 as <-. vm_compute in Ht. subst t.
      rewrite L. split; [lia|]. split; [reflexivity|]. split; [apply tr_readable; [lia|vm_compute; discriminate]|].
      exists [85; 232; 1; 0; 0; 0; 195; 204; 204; 204; 204; 204; 204; 204; 204; 204], (8192, [85]), [(8193, [232; 1; 0; 0; 0]); (8198, [195])].
      split; [reflexivity|]. split.
      * intros i Hi. cbn in Hi. do 16 (destruct i as [|i]; [vm_compute; reflexivity|]). lia.
      * apply (decode_all_Decoded tr_dec tr_dec_sound 8 (trim_tail [85; 232; 1; 0; 0; 0; 195; 204; 204; 204; 204; 204; 204; 204; 204; 204]) 8192); [vm_compute; lia|lia|reflexivity].
Qed.
