(** * Specification of positions (C85). *)
From Coq Require Import List Bool String ZArith.
From Verif Require Import M_Kallsyms S_Kallsyms M_Cache M_A2l S_A2l M_Line M_LineInfo.
Import ListNotations.
Open Scope string_scope.
Open Scope Z_scope.

(** What is shown of a file name: without the build directory when it lies in it, whole otherwise. *)
Definition shown_file (dir f s : string) : Prop := f = dir ++ s \/ (s = f /\ forall r, f <> dir ++ r).
(** A text symbol of the listing with its module (the fourth field, none for the kernel itself). *)
Definition listed_in (ls : list (list string)) (addr : Z) (name md : string) : Prop :=
  exists fa ft rest, In (fa :: ft :: name :: rest) ls /\ (ft = "t" \/ ft = "T") /\ parse_hex fa = Some addr /\
    md = match rest with m :: _ => m | [] => "" end.
(** The symbol an address belongs to: the greatest address at or below it; of several there, the one listed last. *)
Definition symbol_of (ls : list (list string)) (a addr : Z) (name md : string) : Prop :=
  last_at (text_syms ls) (addr, name) /\ listed_in ls addr name md /\ addr <= a /\ (forall s, In s (text_syms ls) -> fst s <= a -> fst s <= addr).
(** between the first and the last symbol *)
Definition between (ls : list (list string)) (a : Z) : Prop :=
  (exists s, In s (text_syms ls) /\ fst s <= a) /\ (exists s, In s (text_syms ls) /\ a <= fst s).
Definition in_no_function (progs : list pfunc) (a : Z) : Prop := forall f, In f progs -> ~ (pf_start f <= a < pf_end f).
(** the module of the address's symbol *)
Definition module_of (ks : kallsyms) (a : Z) : option string := match ks_find ks a with FSome (Some e) => Some (kmod e) | _ => None end.
