(** * What a run needs and what it prepares: /repo/internal/bpfsnoop/flags.go:152, 221-235, bpf_feature.go:26-129 (DetectBPFFeatures,
    btfEnumValue), /repo/bpf/feature.c, kernel_functions_multi.go:28-35 and the parts of main.go:36-37, 72-83, 121-140 that use them.

    Loading, attaching and running the probe, opening the perf events (M_LbrOpen), searching a vmlinux file (M_Dbg) and reading it (M_A2l)
    each succeed or not.  The other steps of main.go are left out. *)
From Coq Require Import List Bool String.
From Verif Require Import M_Flags.
Import ListNotations.
Open Scope string_scope.
Open Scope list_scope.

(** the command line; [a_flame]: --output-flamegraph has a file *)
Record nargs := { a_kfuncs : list string; a_ktps : list string; a_progs : list string; a_lbr : bool; a_stack : bool; a_flame : bool; a_novmlinux : bool }.
(** flags.go:152 *)
Definition out_stack (a : nargs) : bool := a_stack a || a_flame a.
(** flags.go:221-233: the loops over the -k, -t and -p arguments *)
Definition required_lbr (a : nargs) : bool :=
  fold_left (fun r s => r || contains "(l)" s) (a_progs a) (fold_left (fun r s => r || contains "(l)" s) (a_kfuncs a) (a_lbr a)).
Definition wants_lines (a : nargs) : bool :=
  fold_left (fun r s => r || contains "(s)" s) (a_progs a)
    (fold_left (fun r s => r || contains "(s)" s) (a_ktps a) (fold_left (fun r s => r || contains "(s)" s) (a_kfuncs a) false)).
(** flags.go:234-235 *)
Definition required_vmlinux (a : nargs) : bool := negb (a_novmlinux a) && (wants_lines a || out_stack a || a_lbr a || required_lbr a).

(** Types of the kernel's BTF, by name; only enumerations matter *)
Inductive ntype := NEnum (values : list string) | NOther.
Definition nbtf := list (string * ntype).
(** btf.Spec.AnyTypeByName: an error unless exactly one type has the name *)
Definition any_type (b : nbtf) (n : string) : option ntype :=
  match filter (fun p => String.eqb (fst p) n) b with [p] => Some (snd p) | _ => None end.
(** bpf_feature.go:110-129 btfEnumValue; None: error *)
Definition btf_enum_value (b : nbtf) (enum value : string) : option bool :=
  match any_type b enum with Some (NEnum vs) => Some (existsb (fun v => String.eqb v value) vs) | _ => None end.
(** bpf_core_enum_value_exists: the loader looks at every enumeration of that name *)
Definition core_exists (b : nbtf) (enum value : string) : bool :=
  existsb (fun p => String.eqb (fst p) enum && match snd p with NEnum vs => existsb (fun v => String.eqb v value) vs | NOther => false end) b.
(** feature.c:9-40: the four bytes of .bss after the probe; [ran]: it ran *)
Definition bss (b : nbtf) (ran : bool) : list bool :=
  if ran then [true; core_exists b "bpf_map_type" "BPF_MAP_TYPE_RINGBUF"; false; core_exists b "bpf_func_id" "BPF_FUNC_get_stackid"]
  else [false; false; false; false].
(** bpf_feature.go:26-31 BPFFeatures, read from those bytes in the order of its fields *)
Record nfeat := { n_run : bool; n_ringbuf : bool; n_branch : bool; n_stackid : bool }.
Definition decode (l : list bool) : nfeat :=
  {| n_run := nth 0 l false; n_ringbuf := nth 1 l false; n_branch := nth 2 l false; n_stackid := nth 3 l false |}.
Record feats := { has_fsession : bool; has_kmulti : bool; has_ksession : bool; has_endbr : bool }.
(** bpf_feature.go:33-108; [endbr]: haveEndbrInsn; None: the run ends with an error *)
Definition detect (a : nargs) (b : nbtf) (loaded ran : bool) (endbr : option bool) : option feats :=
  if negb loaded then None else
  let f := decode (bss b ran) in
  if negb (n_run f) then None else if negb (n_ringbuf f) then None else
  match btf_enum_value b "bpf_func_id" "BPF_FUNC_get_branch_snapshot" with
  | None => None
  | Some branch =>
      if required_lbr a && negb branch then None else
      if out_stack a && negb (n_stackid f) then None else
      match btf_enum_value b "bpf_attach_type" "BPF_TRACE_FSESSION" with
      | None => None
      | Some fs =>
          match btf_enum_value b "bpf_attach_type" "BPF_TRACE_KPROBE_MULTI" with
          | None => None
          | Some km =>
              match btf_enum_value b "bpf_attach_type" "BPF_TRACE_KPROBE_SESSION" with
              | None => None
              | Some ks => match endbr with
                           | None => None
                           | Some e => Some {| has_fsession := fs; has_kmulti := km; has_ksession := ks; has_endbr := e |}
                           end
              end
          end
      end
  end.
(** bpfsnoop.FindVmlinux: the file, ErrNotFound, another error *)
Inductive vmfile := VFound | VNotFound | VError.
Inductive started := SRefused | SGo (f : feats) (branches_recorded lines_loaded : bool).
(** main.go: features, branch recording, multi-mode functions, line information.  [lbr_ok]: OpenLbrPerfEvent and ReadLbrNr succeed;
    [a2l_ok]: the vmlinux file can be used. *)
Definition start (a : nargs) (b : nbtf) (loaded ran : bool) (endbr : option bool) (lbr_ok : bool) (vm : vmfile) (a2l_ok : bool) : started :=
  match detect a b loaded ran endbr with
  | None => SRefused
  | Some f =>
      if required_lbr a && negb lbr_ok then SRefused else
      if negb (match filter (contains "(m)") (a_kfuncs a) with [] => true | _ => has_kmulti f end) then SRefused else
      match vm with
      | VError => SRefused
      | VNotFound => SGo f (required_lbr a) false
      | VFound => if required_vmlinux a then (if a2l_ok then SGo f (required_lbr a) true else SRefused) else SGo f (required_lbr a) false
      end
  end.
