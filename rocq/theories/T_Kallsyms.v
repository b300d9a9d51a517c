(** * Property theorems C26, C27, C28: symbol table and KASLR. *)
From Coq Require Import ZArith List Bool String Permutation.
From Verif Require Import M_Go M_Kallsyms S_Kallsyms P_Kallsyms P_Kallsyms2.
Import ListNotations.
Open Scope Z_scope.

(** C26. For every listing that loads and every address with a symbol at or below it and one at or
    above it, the look-up returns the entry with the greatest address not above it (the last one
    listed at that address). *)
Theorem C26_find_returns_containing_symbol : forall ls ks a,
  new_kallsyms ls = Some ks ->
  (exists s, In s (text_syms ls) /\ fst s <= a) -> (exists s, In s (text_syms ls) /\ a <= fst s) ->
  exists e, ks_find ks a = FSome (Some e) /\ last_at (text_syms ls) (kaddr e, kname e) /\
    kaddr e <= a /\ forall s, In s (text_syms ls) -> fst s <= a -> fst s <= kaddr e.
Proof. exact find_in_range. Qed.
Print Assumptions C26_find_returns_containing_symbol.

Theorem C26_next_returns_following_symbol : forall ls ks a,
  new_kallsyms ls = Some ks ->
  (exists s, In s (text_syms ls) /\ fst s <= a) -> (exists s, In s (text_syms ls) /\ a < fst s) ->
  exists e, ks_next ks a = FSome (Some e) /\ last_at (text_syms ls) (kaddr e, kname e) /\
    a < kaddr e /\ forall s, In s (text_syms ls) -> a < fst s -> kaddr e <= fst s.
Proof. exact next_in_range. Qed.
Print Assumptions C26_next_returns_following_symbol.

Theorem C26_next_of_last_symbol_fails : forall ls ks a,
  new_kallsyms ls = Some ks ->
  (exists s, In s (text_syms ls) /\ fst s = a) -> (forall s, In s (text_syms ls) -> fst s <= a) ->
  ks_next ks a = FNone.
Proof. exact next_of_last. Qed.
Print Assumptions C26_next_of_last_symbol_fails.

(** Outside the range the look-up fails without crashing, provided the table is not empty. *)
Theorem C26_out_of_range_fails : forall ls ks a,
  new_kallsyms ls = Some ks -> text_syms ls <> [] ->
  (forall s, In s (text_syms ls) -> a < fst s) \/ (forall s, In s (text_syms ls) -> fst s < a) ->
  ks_find ks a = FNone /\ ks_next ks a = FNone.
Proof. exact find_out_of_range. Qed.
Print Assumptions C26_out_of_range_fails.

(** With an empty table (e.g. /proc/kallsyms without text symbols) every look-up panics. *)
Theorem C26_empty_table_crashes : forall ls ks a,
  new_kallsyms ls = Some ks -> text_syms ls = [] -> ks_find ks a = FPanic.
Proof. exact find_empty_panics. Qed.
Print Assumptions C26_empty_table_crashes.

(** Addresses printed by the kernel in %016lx notation are read back exactly. *)
Theorem C26_addresses_parsed_exactly : forall v, 0 <= v < 2 ^ 64 -> parse_hex (hex16 v) = Some v.
Proof. exact parse_hex16. Qed.
Print Assumptions C26_addresses_parsed_exactly.

(** C27. Every text symbol of the listing has its entry, and an entry is marked duplicated exactly
    when another line carries the same name. *)
Theorem C27_duplicates_marked : forall ls ks,
  new_kallsyms ls = Some ks ->
  map (fun e => (kaddr e, kname e)) (heap ks) = text_syms ls /\
  forall i e, nth_error (heap ks) i = Some e ->
    (kduped e = true <-> exists j s, j <> i /\ nth_error (text_syms ls) j = Some s /\ snd s = kname e).
Proof. exact dup_marks. Qed.
Print Assumptions C27_duplicates_marked.

(** The by-name look-up returns the first entry of that name; it lists the other addresses. *)
Theorem C27_lookup_by_name : forall ls ks order n,
  new_kallsyms ls = Some ks -> (exists s, In s (text_syms ls) /\ snd s = n) ->
  exists i e, find_by_symbol ks order n = Some e /\ nth_error (heap ks) i = Some e /\ kname e = n /\
    (forall j s, (j < i)%nat -> nth_error (text_syms ls) j = Some s -> snd s <> n) /\
    kextra e = map fst (filter (fun s => String.eqb (snd s) n) (skipn (S i) (text_syms ls))) /\
    (kduped e = true <-> kextra e <> []).
Proof. exact by_name. Qed.
Print Assumptions C27_lookup_by_name.

(** C28. *)
Theorem C28_kaslr_invertible : forall k a,
  0 <= k_kaddr k < 2 ^ 64 -> 0 <= k_saddr k < 2 ^ 64 -> 0 <= a < 2 ^ 64 ->
  revert_addr k (effective_addr k a) = a /\ effective_addr k (revert_addr k a) = a.
Proof. exact kaslr_inv. Qed.
Print Assumptions C28_kaslr_invertible.

(** The static base and the run-time base are mapped to each other. *)
Theorem C28_kaslr_is_translation : forall k a,
  0 <= k_kaddr k < 2 ^ 64 -> 0 <= k_saddr k < 2 ^ 64 ->
  effective_addr k a = (a - k_kaddr k + k_saddr k) mod 2 ^ 64 /\
  revert_addr k a = (a - k_saddr k + k_kaddr k) mod 2 ^ 64.
Proof. exact (fun k a H1 H2 => kaslr_offset_mod k H1 H2 a). Qed.
Print Assumptions C28_kaslr_is_translation.

(** Non-vacuity: a listing with a duplicated name and two names at one address. *)
Definition demo : list (list string) :=
  [["ffffffff81000000"; "T"; "_stext"]; ["ffffffff81000040"; "t"; "do_one"]; ["0000000000000010"; "d"; "x"];
   ["ffffffff81000080"; "T"; "do_two"]; ["ffffffff81000080"; "t"; "do_two_alias"];
   ["ffffffffc0000000"; "t"; "do_one"; "mymod"]]%string.
Example C26_demo : exists ks, new_kallsyms demo = Some ks /\
  (exists s, In s (text_syms demo) /\ fst s <= 18446744071578845270) /\
  (exists s, In s (text_syms demo) /\ 18446744071578845270 <= fst s) /\
  (exists e, ks_find ks 18446744071578845270 = FSome (Some e) /\ kname e = "do_one"%string /\ kduped e = true) /\
  (exists e, ks_next ks 18446744071578845270 = FSome (Some e) /\ kname e = "do_two_alias"%string /\ kduped e = false) /\
  ks_find ks 5 = FNone /\ mods ks = ["mymod"%string].
Proof.
  eexists. split; [vm_compute; reflexivity|].
  split; [eexists; split; [left; reflexivity|vm_compute; discriminate]|].
  split; [exists (18446744072635809792, "do_one"%string); split; [vm_compute; tauto|vm_compute; discriminate]|].
  split; [eexists; split; [vm_compute; reflexivity|split; reflexivity]|].
  split; [eexists; split; [vm_compute; reflexivity|split; reflexivity]|].
  split; vm_compute; reflexivity.
Qed.
Example C26_empty_demo : exists ks, new_kallsyms [["0000000000000010"; "d"; "x"]]%string = Some ks /\ ks_find ks 16 = FPanic.
Proof. eexists; split; vm_compute; reflexivity. Qed.
Example C28_demo : let k := {| k_kaddr := 18446744072367376384; k_saddr := 18446744071578845184 |} in
  effective_addr k 18446744072367376400 = 18446744071578845200.
Proof. reflexivity. Qed.

(** C54. A function given by name that is not itself in the listing is looked up as the compiler's clones of it: the first of the
    GCC suffixes with a listed symbol decides ... *)
Theorem C54_gcc_clones : forall ls ks order sym pre sfx post, new_kallsyms ls = Some ks ->
  ~ listed ls sym -> clone_suffixes = pre ++ sfx :: post -> (forall s, In s pre -> ~ listed ls (String.append sym s)) ->
  listed ls (String.append sym sfx) ->
  exists e, find_by_symbol ks order sym = Some e /\ kname e = String.append sym sfx /\ first_named (text_syms ls) (kaddr e, kname e).
Proof. exact by_suffix. Qed.
Print Assumptions C54_gcc_clones.
(** ... then an LLVM clone if one is listed; if none is, the look-up fails. [order] is the iteration order of the Go map. *)
Theorem C54_llvm_clones_partial : forall ls ks order sym, new_kallsyms ls = Some ks -> Permutation order (n2s ks) ->
  ~ listed ls sym -> (forall s, In s clone_suffixes -> ~ listed ls (String.append sym s)) ->
  match find_by_symbol ks order sym with
  | Some e => llvm_clone sym (kname e) /\ first_named (text_syms ls) (kaddr e, kname e)
  | None => forall n, llvm_clone sym n -> ~ listed ls n
  end.
Proof. exact by_llvm. Qed.
Print Assumptions C54_llvm_clones_partial.
(** Refuted: with two LLVM clones the one found depends on the iteration order, i.e. differs from run to run. *)
Definition llvm_demo : list (list string) := [["0000000000000010"; "t"; "f.llvm.1"]; ["0000000000000020"; "t"; "f.llvm.2"]]%string.
Theorem C54_llvm_ambiguous_refuted : exists ks o1 o2, new_kallsyms llvm_demo = Some ks /\ Permutation o1 (n2s ks) /\ Permutation o2 (n2s ks) /\
  option_map kaddr (find_by_symbol ks o1 "f"%string) = Some 16 /\ option_map kaddr (find_by_symbol ks o2 "f"%string) = Some 32.
Proof.
  eexists. exists [("f.llvm.1"%string, 0%nat); ("f.llvm.2"%string, 1%nat)], [("f.llvm.2"%string, 1%nat); ("f.llvm.1"%string, 0%nat)].
  split; [vm_compute; reflexivity|]. split; [cbn; apply Permutation_refl|]. split; [cbn; apply perm_swap|].
  split; vm_compute; reflexivity.
Qed.
Print Assumptions C54_llvm_ambiguous_refuted.
Example C54_demo : let ls := [["0000000000000010"; "t"; "f.cold"]; ["0000000000000020"; "T"; "f.isra.0"]]%string in
  exists ks, new_kallsyms ls = Some ks /\ option_map kaddr (find_by_symbol ks [] "f"%string) = Some 32.
Proof. eexists. split; vm_compute; reflexivity. Qed.
