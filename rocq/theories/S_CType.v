(** * Specification of the types a cast may name. *)
From Coq Require Import ZArith List String Bool.
From Verif Require Import M_Cc.
Import ListNotations.
Open Scope Z_scope. Open Scope string_scope.

(** The integer types of C on a 64-bit machine, as the parser names them: size in bytes and whether signed. *)
Definition c_integers : list (string * (Z * bool)) :=
  [("char", (1, true)); ("uchar", (1, false)); ("short", (2, true)); ("ushort", (2, false)); ("int", (4, true)); ("uint", (4, false));
   ("long", (8, true)); ("ulong", (8, false)); ("longlong", (8, true)); ("ulonglong", (8, false))].
(** What a kernel calls its integer types (include/linux/types.h, asm-generic/int-ll64.h), up to typedefs. *)
Definition kernel_integers : list (string * (Z * bool)) :=
  [("char", (1, true)); ("unsigned char", (1, false)); ("s16", (2, true)); ("u16", (2, false)); ("int", (4, true)); ("uint", (4, false));
   ("s64", (8, true)); ("u64", (8, false)); ("ulong", (8, false))].
Definition kernel_types (E : benv) : Prop :=
  forall n z s, In (n, (z, s)) kernel_integers -> exists t, e_kfind E n = Some t /\ under t = TInt z s.
Definition pointer_if (p : bool) (t : ty) : ty := if p then TPtr t else t.
(** The words that the parser does not hand over as they were written *)
Definition c_words : list string := "void" :: map fst c_integers.
