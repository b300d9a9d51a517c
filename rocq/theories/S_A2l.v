(** * Specification: the line of a run-time address. *)
From Coq Require Import List Bool String ZArith.
From Verif Require Import M_Go M_Kallsyms M_Cache M_A2l.
Import ListNotations.
Open Scope Z_scope.

(** Code linked at saddr runs at kaddr, so what runs at a was linked at a + saddr - kaddr (64-bit). *)
Definition linked_at (k : kaslr) (a : Z) : Z := (a + k_saddr k - k_kaddr k) mod 2 ^ 64.
(** The source line of run-time address a, in the kernel image or in the module the symbol belongs to. *)
Definition true_line (b : boot) (sym : option string) (a : Z) : option Z :=
  match sym with
  | None => b_vmlinux b (linked_at (b_kaslr b) a)
  | Some m =>
      if is_builtin_mod m then b_vmlinux b (linked_at (b_kaslr b) a)
      else match b_mods b m with MFound (Some d) k => d (linked_at k a) | _ => None end
  end.
Definition addr_ok (a : Z) : Prop := 0 <= a < 2 ^ 64.
Definition kaslr_ok (k : kaslr) : Prop := addr_ok (k_kaddr k) /\ addr_ok (k_saddr k).
Definition boot_ok (b : boot) : Prop := kaslr_ok (b_kaslr b) /\ forall m d k, b_mods b m = MFound d k -> kaslr_ok k.
(** A cache that was filled during this very boot. *)
Definition of_this_boot (b : boot) (sym : Z -> option string) (c : cache) : Prop := forall a l, aget Z.eqb a c = Some l -> true_line b (sym a) a = Some l.
