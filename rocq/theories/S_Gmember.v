(** * Specification: which functions may join a call graph. *)
From Coq Require Import List Bool String ZArith.
From Verif Require Import M_Go M_Flags M_Kfuncs S_Kfuncs M_Gmember.
From Verif Require M_Kallsyms S_Kallsyms.
Import ListNotations.
Open Scope string_scope.
Open Scope list_scope.

(** The name stands on exactly one line of the symbol listing (as a text symbol). *)
Definition once (ls : list (list string)) (n : string) : Prop :=
  exists l1 a l2, S_Kallsyms.text_syms ls = l1 ++ (a, n) :: l2 /\ forall s, In s (l1 ++ l2) -> snd s <> n.
(** The listing has the text symbol in the pseudo module of the BPF programs. *)
Definition bpf_line (ls : list (list string)) (a : Z) (n : string) : Prop :=
  exists fa ft rest, In (fa :: ft :: n :: "bpf" :: rest) ls /\ (ft = "t" \/ ft = "T") /\ M_Kallsyms.parse_hex fa = Some a.
(** The BTF has one type of that name: this function. *)
Definition declared (ts : list typ) (n : string) (d : decl) : Prop :=
  exists l1 t l2, ts = l1 ++ t :: l2 /\ t_name t = n /\ t_decl t = Some d /\ forall t', In t' (l1 ++ l2) -> t_name t' <> n.
(** What a trampoline can be put on: neither variable arguments nor a struct as result. *)
Definition plain (n : string) (d : decl) : Prop := ~ has_varargs (to_func n d) /\ d_ret_struct d = false.
(** Every argument fits in two registers. *)
Definition small (d : decl) : Prop := forall p, In p (d_params d) -> (snd p <= 16)%Z.
(** Registers used: two for an argument of more than 8 bytes. *)
Definition regs (d : decl) : Z := (Z.of_nat (List.length (d_params d)) + Z.of_nat (List.length (filter (fun p => (8 <? snd p)%Z) (d_params d))))%Z.
Definition any_fits (glob : string -> string -> bool) (ms : list kflag) (n : string) (d : decl) : Prop := exists m, In m ms /\ fits glob m (to_func n d).
(** The declaration is one that the patterns given allow: without patterns, any whose arguments fit in the registers; with patterns, one that fits a
    pattern and has no more arguments than the limit. *)
Definition allowed (glob : string -> string -> bool) (w : mworld) (n : string) (d : decl) : Prop :=
  plain n d /\ small d /\
  match mw_includes w with
  | [] => (regs d <= mw_max w)%Z
  | ms => any_fits glob ms n d /\ (Z.of_nat (List.length (d_params d)) <= mw_max w)%Z
  end.
(** A declaration at which the search gives up with an error. *)
Definition fatal (w : mworld) (n : string) (d : decl) : Prop := mw_includes w = [] /\ plain n d /\ ~ small d.
(** The first BTF in search order with a declaration that is allowed (fatal): that one. *)
Definition first_spec (Q : spec -> Prop) (ss : list spec) (s : spec) : Prop := exists l1 l2, ss = l1 ++ s :: l2 /\ Q s /\ forall s', In s' l1 -> ~ Q s'.
(** Ruled out by the user: some BTF declares the function (traceably) in a way that fits an exclude pattern. *)
Definition ruled_out (glob : string -> string -> bool) (w : mworld) (n : string) : Prop :=
  exists b ts d, In (b, ts) (mw_specs w) /\ declared ts n d /\ plain n d /\ small d /\ (Z.of_nat (List.length (d_params d)) <= mw_max w)%Z /\ any_fits glob (mw_excludes w) n d.
(** The kernel function at ip, by name. *)
Definition kernel_function (ls : list (list string)) (w : mworld) (ip : Z) (n : string) : Prop :=
  mw_progs w ip = None /\ S_Kallsyms.last_at (S_Kallsyms.text_syms ls) (ip, n) /\ once ls n /\ ~ bpf_line ls ip n /\ ~ denied n /\ ~ never_returns n.
Definition no_multi (w : mworld) : Prop := forall m, In m (mw_includes w) \/ In m (mw_excludes w) -> f_multi m = false.
(** The last link of a program in the listing. *)
Definition last_link (ls : list blink) (id : Z) (l : blink) : Prop := exists l1 l2, ls = l1 ++ l :: l2 /\ l_prog l = id /\ forall l', In l' l2 -> l_prog l' <> id.
