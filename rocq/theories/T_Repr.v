(** * Property C68: what is shown is the value of the variable. *)
From Coq Require Import List Bool String ZArith Lia.
From Verif Require Import M_Go P_Go M_Repr S_Repr P_Repr.
Import ListNotations.
Open Scope string_scope.
Open Scope list_scope.
Open Scope Z_scope.

(** C68.  An argument made of integers (1, 2, 4 or 8 bytes, signed or not) and pointers, in up to two registers: what is shown is the value, in its own width
    and signedness, of every one of them; whatever the unused upper bytes of the registers and the memory beyond hold. *)
Theorem C68_values_partial : forall find junk t n val next, List.length junk = 8%nat -> Forall is_byte junk -> plain t (Z.of_nat n) -> (n <= 16)%nat ->
  0 <= val < 2 ^ 64 -> 0 <= next < 2 ^ 64 -> exists s, repr find junk t val next = Some s /\ shows t (firstn n (le_put 8 val ++ le_put 8 next)) s.
Proof. intros find junk t n val next H1 H2 H3 H4 H5 H6. exact (repr_plain find junk H1 H2 t val next n H3 H4 H5 H6). Qed.
Print Assumptions C68_values_partial.
(** C68.  A pointer to an integer: the address, and for a non-NULL one the integer found there. *)
Theorem C68_pointer_partial : forall find junk t u n data data2 next, List.length junk = 8%nat -> Forall is_byte junk -> plain u (Z.of_nat n) -> (n <= 8)%nat ->
  0 <= data2 < 2 ^ 64 -> 0 <= next < 2 ^ 64 -> exists s, repr_value find junk t (Some u) data data2 next = Some (SHex data, s) /\
    (data = 0 -> s = None) /\ (data <> 0 -> exists x, s = Some x /\ shows u (firstn n (le_put 8 data2)) x).
Proof.
  intros find junk t u n data data2 next H1 H2 H3 H4 H5 H6. unfold repr_value. destruct (Z.eqb_spec data 0) as [E|E].
  - exists None. repeat split; auto. contradiction.
  - destruct (repr_plain find junk H1 H2 u data2 next n H3 ltac:(lia) H5 H6) as (s & -> & Hs). exists (Some s). split; [reflexivity|]. split; [contradiction|]. intros _. exists s. split; [reflexivity|].
    assert (X : firstn n (two data2 next) = firstn n (le_put 8 data2)); [|rewrite <- X; exact Hs]. unfold two. rewrite firstn_app, le_put_len. replace (n - 8)%nat with 0%nat by lia. apply app_nil_r.
Qed.
Print Assumptions C68_pointer_partial.
(** C68.  A bool, and an enum of 4 bytes, in a register whose other bytes are zero. *)
Theorem C68_bool_partial : forall find junk val, 0 <= val < 256 -> exists s, repr find junk (VInt 1 false true) val 0 = Some s /\ shows (VInt 1 false true) (le_put 8 val) s.
Proof.
  intros find junk val H. eexists. split; [reflexivity|]. apply sh_bool; [cbn; lia|]. cbn [repr_num le_put hd]. rewrite Z.mod_small by lia. reflexivity.
Qed.
Print Assumptions C68_bool_partial.
Theorem C68_enum_partial : forall find junk vals val, 0 <= val < 2 ^ 32 -> (forall x v, In (x, v) vals -> 0 <= v < 2 ^ 32) ->
  exists s, repr find junk (VEnum 4 vals) val 0 = Some s /\ shows (VEnum 4 vals) (le_put 8 val) s.
Proof.
  intros find junk vals val Hv Hs. eexists. split; [reflexivity|]. cbn [repr_num]. unfold enum_name.
  assert (E : le_bytes (firstn 4 (le_put 8 val)) = val) by (rewrite le_put_firstn by lia; rewrite le_put_val; apply Z.mod_small; exact Hv).
  destruct (List.find (fun p => snd p =? val) vals) as [[x v]|] eqn:F.
  - apply find_some in F as [F1 F2]. cbn [snd fst] in *. apply Z.eqb_eq in F2. subst v. apply (sh_enum 4 vals _ x val); [cbn; lia|exact F1|]. rewrite E. apply Z.mod_small. apply (Hs x val F1).
  - apply (sh_enum_other 4 vals); [cbn; lia| |rewrite E; reflexivity]. intros x v Hin. rewrite E. change (2 ^ (8 * Z.of_nat 4)) with (2 ^ 32). rewrite Z.mod_small by (apply (Hs x v Hin)).
    intros ->. assert (X := find_none _ _ F (x, val) Hin). cbn in X. rewrite Z.eqb_refl in X. discriminate.
Qed.
Print Assumptions C68_enum_partial.

(** C68, refuted for bool: false is shown as true whenever any other byte of the word is not zero: the rest of the register, or, in a struct, the members after it. *)
Theorem C68_bool_refuted : forall find junk val, 0 <= val < 2 ^ 64 -> val mod 256 = 0 -> val <> 0 ->
  repr find junk (VInt 1 false true) val 0 = Some (SBool true) /\ ~ shows (VInt 1 false true) (le_put 8 val) (SBool true).
Proof.
  intros find junk val Hv Hm Hz. split; [cbn [repr repr_num]; destruct (Z.eqb_spec val 0); [contradiction|reflexivity]|].
  intros H. inversion H as [n sg l s Hl Hn|l s Hl Hs| | | |]; subst. cbn [le_put hd] in Hs. rewrite Hm in Hs. discriminate.
Qed.
Print Assumptions C68_bool_refuted.
(** C68, refuted for the members of structs: struct { bool a; int b; } with a false and any other bytes not zero is shown with a true. *)
Theorem C68_bool_member_refuted : forall find junk val, List.length junk = 8%nat -> Forall is_byte junk -> 0 <= val < 2 ^ 64 -> val mod 256 = 0 -> val <> 0 ->
  exists r, repr find junk (VRec "s" [("a", 0, 0, VInt 1 false true); ("b", 32, 0, VInt 4 true false)]) val 0 = Some (SRec "s" (("a", SBool true) :: r)).
Proof.
  intros find junk val HL HB Hv Hm Hz. cbn [repr]. change (0 =? 0) with true. cbn [Z.div].
  destruct (member_words junk HL HB val 0 0 ltac:(lia)) as (v & w & E1 & E2 & R1 & R2 & T). change (Z.of_nat 0) with 0 in *. change (0 / 8) with 0. change (32 / 8) with (Z.of_nat 4). rewrite E1, E2.
  assert (V : v = val).
  { cbn [skipn] in T. rewrite words_eq in T. rewrite firstn_app, two_len, Nat.sub_diag, firstn_O, app_nil_r in T. rewrite firstn_all2 in T by (rewrite two_len; lia).
    assert (X : le_bytes (firstn 8 (two v w)) = le_bytes (firstn 8 (two val 0))) by (rewrite T; reflexivity). unfold two in X.
    rewrite !firstn_app, !le_put_len, !Nat.sub_diag, !firstn_O, !app_nil_r, !le_put_firstn, !le_put_val in X by lia. change (256 ^ Z.of_nat 8) with (2 ^ 64) in X. rewrite !Z.mod_small in X by lia. exact X. }
  subst v. destruct (member_words junk HL HB val 0 4 ltac:(lia)) as (v' & w' & E3 & E4 & _). rewrite E3, E4.
  cbn [repr repr_num option_map]. destruct (Z.eqb_spec val 0); [contradiction|]. eexists. reflexivity.
Qed.
Print Assumptions C68_bool_member_refuted.
(** C68, refuted for enums of 4 bytes: with anything in the upper half of the word (the register, the next member of a struct, the memory after a pointed-to enum)
    no name is shown and the number is not the enum's. *)
Theorem C68_enum_refuted : forall find junk vals x v val, (forall y u, In (y, u) vals -> 0 <= u < 2 ^ 32) -> In (x, v) vals -> val mod 2 ^ 32 = v -> 2 ^ 32 <= val < 2 ^ 64 ->
  repr find junk (VEnum 4 vals) val 0 = Some (SDec val) /\ ~ shows (VEnum 4 vals) (le_put 8 val) (SDec val).
Proof.
  intros find junk vals x v val Hs Hin Hm Hv.
  assert (E : le_bytes (firstn 4 (le_put 8 val)) = v) by (rewrite le_put_firstn by lia; rewrite le_put_val; exact Hm). split.
  - cbn [repr repr_num]. unfold enum_name. destruct (List.find (fun p => snd p =? val) vals) as [[y u]|] eqn:F; [|reflexivity].
    apply find_some in F as [F1 F2]. cbn [snd] in F2. apply Z.eqb_eq in F2. specialize (Hs y u F1). lia.
  - intros H. inversion H as [n sg l s Hl Hn|l s Hl Hs'|n vs l y u Hl Hy Hu|n vs l s Hl Hy Hu| |]; subst.
    assert (Hn4 : n = 4%nat) by lia. subst n. rewrite E in Hu. cbn [number] in Hu. injection Hu as Hu. specialize (Hs x _ Hin). lia.
Qed.
Print Assumptions C68_enum_refuted.
(** C68, refuted for negative enumerators: their value is kept sign-extended, the register holds 32 bits. *)
Theorem C68_negative_enum_refuted : forall find junk x v, - 2 ^ 31 <= v < 0 ->
  let vals := [(x, v mod 2 ^ 64)] in let val := v mod 2 ^ 32 in
  repr find junk (VEnum 4 vals) val 0 = Some (SDec val) /\ ~ shows (VEnum 4 vals) (le_put 8 val) (SDec val).
Proof.
  intros find junk x v Hv vals val. assert (E1 : v mod 2 ^ 64 = v + 2 ^ 64) by (symmetry; apply (Z.mod_unique v (2 ^ 64) (-1)); lia). assert (E2 : v mod 2 ^ 32 = v + 2 ^ 32) by (symmetry; apply (Z.mod_unique v (2 ^ 32) (-1)); lia).
  assert (E : le_bytes (firstn 4 (le_put 8 val)) = val) by (rewrite le_put_firstn by lia; rewrite le_put_val; change (256 ^ Z.of_nat 4) with (2 ^ 32); apply Z.mod_small; unfold val; lia).
  split.
  - cbn [repr repr_num]. unfold enum_name, vals. cbn [List.find snd]. destruct (Z.eqb_spec (v mod 2 ^ 64) val) as [X|X]; [unfold val in X; lia|reflexivity].
  - intros H. inversion H as [n sg l s Hl Hn|l s Hl Hs'|n vs l y u Hl Hy Hu|n vs l s Hl Hy Hu| |]; subst.
    assert (Hn4 : n = 4%nat) by lia. subst n. apply (Hy x (v mod 2 ^ 64)); [left; reflexivity|]. rewrite E. unfold val. change (2 ^ (8 * Z.of_nat 4)) with (2 ^ 32). rewrite E1, E2. symmetry. apply (Z.mod_unique _ _ (2 ^ 32 - 1)); lia.
Qed.
Print Assumptions C68_negative_enum_refuted.
(** C68, refuted for enums of another size: no name is ever shown. *)
Theorem C68_small_enum_refuted : forall find junk sz vals val x, sz = 1 \/ sz = 2 \/ sz = 8 -> repr find junk (VEnum sz vals) val 0 <> Some (SName x).
Proof. intros find junk sz vals val x [-> | [-> | ->]] H; cbn [repr repr_num] in H; [discriminate|discriminate|]. destruct (sint 8 val <? 0); discriminate. Qed.
Print Assumptions C68_small_enum_refuted.
(** C68, refuted for bit-fields of structs: every one of them shows the lowest bits of the struct. *)
Theorem C68_bitfield_refuted : forall find junk name a ta sa b tb off sb val next, sa <> 0 -> sb <> 0 ->
  repr find junk (VRec name [(a, 0, sa, ta); (b, off, sb, tb)]) val next = Some (SRec name [(a, SBits (bits 0 sa (words val next))); (b, SBits (bits 0 sb (words val next)))]).
Proof. intros. cbn [repr]. destruct (Z.eqb_spec sa 0); [contradiction|]. destruct (Z.eqb_spec sb 0); [contradiction|]. reflexivity. Qed.
Print Assumptions C68_bitfield_refuted.
(** C68, refuted as to crashes: a struct whose last member has no size and starts at byte 16 makes bpfsnoop panic. *)
Theorem C68_empty_member_refuted : forall find junk name a t val next, repr find junk (VRec name [(a, 128, 0, t)]) val next = None.
Proof. intros. cbn [repr]. change (0 =? 0) with true. cbn iota. change (128 / 8) with 16. unfold get8. change (16 + 8) with 24. reflexivity. Qed.
Print Assumptions C68_empty_member_refuted.

(** struct { short a; struct { char b; void *c; } d; } with sign-extension and an inner struct *)
Definition demo_ty : vty := VRec "s" [("a", 0, 0, VInt 2 true false); ("d", 64, 0, VRec "in" [("p", 0, 0, VPtr false)])].
Example C68_example : plain demo_ty 16 /\ repr (fun _ => "") (repeat 7 8) demo_ty 65535 4096 = Some (SRec "s" [("a", SDec (-1)); ("d", SRec "in" [("p", SHex 4096)])]).
Proof. split; [cbn; repeat split; try lia; auto|vm_compute; reflexivity]. Qed.
Example C68_bitfield_example : repr (fun _ => "") (repeat 7 8) (VRec "f" [("lo", 0, 4, VInt 4 false false); ("hi", 4, 4, VInt 4 false false)]) 18 0 = Some (SRec "f" [("lo", SBits 2); ("hi", SBits 2)]).
Proof. vm_compute. reflexivity. Qed.
