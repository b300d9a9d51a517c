(** * --show-func-proto: /repo/internal/btfx/types.go:118-190 (Repr), /repo/internal/bpfsnoop/func_proto.go (showFuncProto, printFuncProto, printKfuncProto, and
    ShowFuncProto's part for kernel functions).

    - Types are trees: Repr stops at names, so the cycles of BTF (through struct members) do not matter to it.
    - Colours are left out, and the comment line with source positions that is printed before each function with -S and debug data (C85 is about those).
    - Kernel functions, patterns, modules and BTF files are those of M_Kfuncs. *)
From Coq Require Import ZArith NArith List Bool String Ascii DecimalString Decimal DecimalN.
From Verif Require Import M_Go M_Flags M_Kfuncs.
Import ListNotations.
Open Scope string_scope.

(** The types of the BTF library; TOther: any other type, with the text %v prints *)
Inductive ty : Type :=
| TVoid | TInt (n : string) | TEnum (n : string) | TStruct (n : string) | TUnion (n : string) | TFunc (n : string) | TFuncProto | TFloat (n : string)
| TArray (t : ty) (nelems : N) | TPtr (t : ty) | TTypedef (n : string) (t : ty) | TVolatile (t : ty) | TConst (t : ty) | TRestrict (t : ty)
| TTag (v : string) (t : ty) | TOther (s : string).

(** fmt %d *)
Definition fmt_d (n : N) : string := NilEmpty.string_of_uint (N.to_uint n).
(** s[len(s)-1] == '*'; None: index out of range *)
Fixpoint ends_star (s : string) : option bool :=
  match s with
  | EmptyString => None
  | String c EmptyString => Some (Ascii.eqb c "*"%char)
  | String _ s' => ends_star s'
  end.
(** types.go:133-190 Repr; [sb]: what the builder holds.  None: crash. *)
Fixpoint repr_go (sb : string) (t : ty) : option string :=
  match t with
  | TTypedef n _ => Some n
  | TVolatile t' => repr_go (sb ++ "volatile ") t'
  | TConst t' => repr_go (sb ++ "const ") t'
  | TRestrict t' => repr_go (sb ++ "restrict ") t'
  | TTag v t' => repr_go (sb ++ v ++ " ") t'
  | TPtr t' =>
      match repr_go "" t' with
      | None => None
      | Some r => match ends_star r with
                  | None => None
                  | Some b => Some (sb ++ r ++ (if b then "*" else " *"))
                  end
      end
  | TVoid => Some (sb ++ "void")
  | TInt n => Some (sb ++ n)
  | TEnum n => Some (sb ++ "enum " ++ n)
  | TStruct n => Some (sb ++ "struct " ++ n)
  | TUnion n => Some (sb ++ "union " ++ n)
  | TFunc n => Some (sb ++ "func " ++ n)
  | TFuncProto => Some (sb ++ "func")
  | TFloat _ => Some (sb ++ "float")
  | TArray t' n => match repr_go "" t' with None => None | Some r => Some (sb ++ "array(" ++ r ++ "[" ++ fmt_d n ++ "])") end
  | TOther s => Some (sb ++ s)
  end.
Definition repr (t : ty) : option string := repr_go "" t.

(** btf.Func with its prototype *)
Record bfn := { bf_name : string; bf_ret : ty; bf_params : list (string * ty) }.
Definition nl : string := String (ascii_of_nat 10) "".
Definition tab : string := String (ascii_of_nat 9) "".
(** func_proto.go:23-29, 48-52: a type and what it is the type of *)
Definition typed (d n : string) : option string :=
  match ends_star d with None => None | Some b => Some (d ++ (if b then "" else " ") ++ n) end.
(** func_proto.go:46-55 *)
Definition show_param (p : string * ty) : option string :=
  match repr (snd p) with
  | None => None
  | Some d => if String.eqb (fst p) "" then Some d else typed d (fst p)
  end.
(** func_proto.go:37-56 *)
Fixpoint show_params (list_params : bool) (i : nat) (ps : list (string * ty)) : option string :=
  match ps with
  | [] => Some ""
  | p :: ps' =>
      match show_param p, show_params list_params (S i) ps' with
      | Some d, Some r => Some ((match i with O => "" | S _ => ", " end) ++ (if list_params then nl ++ fmt_d (N.of_nat i) ++ ":" ++ tab else "") ++ d ++ r)
      | _, _ => None
      end
  end.
(** func_proto.go:21-61 showFuncProto *)
Definition show_func (list_params : bool) (fn : bfn) : option string :=
  match repr (bf_ret fn) with
  | None => None
  | Some d =>
      match typed d (bf_name fn), show_params list_params 0 (bf_params fn) with
      | Some s, Some ps => Some (s ++ "(" ++ ps ++ (if list_params && negb (match bf_params fn with [] => true | _ => false end) then nl else "") ++ ")")
      | _, _ => None
      end
  end.
(** func_proto.go:63-66 printFuncProto *)
Definition print_func (list_params : bool) (fn : bfn) : option string := option_map (fun s => s ++ ";" ++ nl) (show_func list_params fn).
(** func_proto.go:86-91 printKfuncProto *)
Definition print_kfunc (list_params traceable : bool) (fn : bfn) : option string :=
  option_map (fun s => s ++ ";" ++ (if traceable then " [traceable]" else "") ++ nl) (show_func list_params fn).

(** func_proto.go:128-136: the modules whose functions are shown.  [fs] is not empty. *)
Definition proto_kmods (mods : list string) (sym_mod : string -> option string) (kmods fs : list string) : list string :=
  sort_compact ("vmlinux" :: match sym_mod (hd "" fs) with
                             | Some m => if String.eqb m "" then infer mods kmods fs else [m]
                             | None => infer mods kmods fs
                             end)%list.
(** func_proto.go:138: MAX_BPF_FUNC_ARGS *)
Definition find_protos (glob : string -> string -> bool) (syms : string -> option ksym) (ms : list kflag) (all : list (string * func)) : kfuncs :=
  find_funcs glob syms ms 12 all.
(** func_proto.go:143-149: [kfuncs] in the order in which the map is ranged over *)
Definition name_le (a b : kfunc) : bool := String.leb (fn_name (kf_func a)) (fn_name (kf_func b)).
Definition shown (kfuncs : list (Z * kfunc)) : list kfunc := isort name_le (map snd kfuncs).
(** func_proto.go:140-141, 173-177: [decl]: the prototype, [traceable]: detectKfuncTraceable (None: an error, which ends the program) *)
Fixpoint lines (list_params : bool) (decl : kfunc -> bfn) (traceable : string -> option bool) (l : list kfunc) : option string :=
  match l with
  | [] => Some ""
  | k :: l' =>
      match traceable (fn_name (kf_func k)) with
      | None => None
      | Some b => match print_kfunc list_params b (decl k), lines list_params decl traceable l' with
                  | Some s, Some r => Some (s ++ r)
                  | _, _ => None
                  end
      end
  end.
Definition show_kernel (list_params : bool) (decl : kfunc -> bfn) (traceable : string -> option bool) (kfuncs : list (Z * kfunc)) : option string :=
  option_map (fun s => "Kernel functions: (total " ++ fmt_d (N.of_nat (List.length kfuncs)) ++ ")" ++ nl ++ s) (lines list_params decl traceable (shown kfuncs)).
