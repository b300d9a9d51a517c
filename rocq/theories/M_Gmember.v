(** * Which functions may join a call graph: /repo/internal/bpfsnoop/func_graph_parser.go:218-316 and 351-433, bpf_links.go, bpf_tracing_info.go:29-99.

    - A BTF is a list of types: a name and, for a function, its declaration.  A parameter comes with its size (btf.Sizeof is trusted to succeed).
    - The BTFs come in the order in which iterateKernelBtfs (true, ...) searches them; loading each succeeds.
    - Cloning the descriptor of a BPF program succeeds.
    - The symbol table is the one of M_Kallsyms; patterns and the rest of the selection are those of M_Flags and M_Kfuncs. *)
From Coq Require Import List Bool String ZArith.
From Verif Require Import M_Go M_Flags M_Kfuncs.
From Verif Require M_Kallsyms.
Import ListNotations.
Open Scope string_scope.
Open Scope list_scope.

Record decl := { d_params : list (param * Z); d_ret_struct : bool }.
Record typ := { t_name : string; t_decl : option decl }.
Definition spec : Type := string * list typ.
(** bpf_tracing_info.go:44-46: getFuncParams fails *)
Definition params_ok (d : decl) : bool := forallb (fun p => negb (16 <? snd p)%Z) (d_params d).
(** bpf_tracing_info.go:47-62: the number of entries getFuncParams returns *)
Definition reg_count (d : decl) : Z := fold_right (fun p n => (n + if (8 <? snd p)%Z then 2 else 1)%Z) 0%Z (d_params d).
Definition to_func (n : string) (d : decl) : func :=
  {| fn_name := n; fn_params := map fst (d_params d); fn_ret_struct := d_ret_struct d; fn_params_ok := params_ok d |}.
(** btf.Spec.AnyTypeByName (cilium/ebpf): fails when no type or several types have the name; func_graph_parser.go:226-234, 264-277 *)
Definition func_named (ts : list typ) (n : string) : option func * option decl :=
  match filter (fun t => String.eqb (t_name t) n) ts with
  | [t] => (option_map (to_func n) (t_decl t), t_decl t)
  | _ => (None, None)
  end.

(** bpf_links.go:24-48 newBPFLinks: of the links of a program the last in iteration order is kept.  A link: program, whether its attach type is
    fentry or fexit, the program it is attached to (0: none). *)
Record blink := { l_prog : Z; l_fentry_exit : bool; l_target : Z }.
Definition new_links (ls : list blink) : list (Z * blink) := fold_left (fun m l => aput Z.eqb (l_prog l) l m) ls [].
(** bpf_tracing_info.go:82-99 canTrace *)
Record bprog := { b_id : Z; b_tracing : bool }.
Definition can_trace (links : list (Z * blink)) (p : bprog) : bool :=
  if negb (b_tracing p) then true
  else match aget Z.eqb (b_id p) links with
       | None => true
       | Some l => if l_fentry_exit l then (l_target l =? 0)%Z else true
       end.

Record mworld := { mw_ks : M_Kallsyms.kallsyms; mw_progs : Z -> option bprog; mw_links : list blink; mw_specs : list spec;
  mw_includes : list kflag; mw_excludes : list kflag; mw_max : Z }.
(** ksyms.n2s *)
Definition sym_of (ks : M_Kallsyms.kallsyms) (n : string) : option ksym :=
  match aget String.eqb n (M_Kallsyms.n2s ks) with
  | Some p => option_map (fun e => {| ky_addr := M_Kallsyms.kaddr e; ky_duped := M_Kallsyms.kduped e |}) (nth_error (M_Kallsyms.heap ks) p)
  | None => None
  end.
(** ksyms.a2s *)
Definition sym_at (ks : M_Kallsyms.kallsyms) (ip : Z) : option M_Kallsyms.ksym :=
  match aget Z.eqb ip (M_Kallsyms.a2s ks) with Some p => nth_error (M_Kallsyms.heap ks) p | None => None end.

Section W.
  Variable glob : string -> string -> bool.
  Variable w : mworld.
  Definition msyms := sym_of (mw_ks w).
  (** func_graph_parser.go:218-248 isExcludedKfunc *)
  Fixpoint excluded (n : string) (ss : list spec) : bool :=
    match ss with
    | [] => false
    | (_, ts) :: ss' =>
        match func_named ts n with
        | (Some fn, _) => match match_kernel_func glob msyms (mw_excludes w) (mw_max w) fn with Some _ => true | None => excluded n ss' end
        | (None, _) => excluded n ss'
        end
    end.
  Inductive found := FErr | FNone | FYes (btf : string) (d : decl).
  (** func_graph_parser.go:250-316 checkIncludedKfunc *)
  Fixpoint included (n : string) (ss : list spec) : found :=
    match ss with
    | [] => FNone
    | (b, ts) :: ss' =>
        match func_named ts n with
        | (Some fn, Some d) =>
            match traceable msyms fn false with
            | None => included n ss'
            | Some _ =>
                match mw_includes w with
                | [] => if negb (params_ok d) then FErr else if (reg_count d <=? mw_max w)%Z then FYes b d else included n ss'
                | _ => match match_kernel_func glob msyms (mw_includes w) (mw_max w) fn with Some _ => FYes b d | None => included n ss' end
                end
            end
        | _ => included n ss'
        end
    end.
  Inductive verdict := VErr | VSkip | VProg (p : bprog) | VFunc (name btf : string) (d : decl).
  (** func_graph_parser.go:351-433 (in add); [taken]: the names in p.syms *)
  Definition may_join (taken : list string) (ip : Z) : verdict :=
    match mw_progs w ip with
    | Some p => if can_trace (new_links (mw_links w)) p then VProg p else VSkip
    | None =>
        match sym_at (mw_ks w) ip with
        | None => VSkip
        | Some s =>
            let n := M_Kallsyms.kname s in
            if M_Kallsyms.kduped s then VSkip
            else if String.eqb (M_Kallsyms.kmod s) "bpf" then VSkip
            else if mem n deny || mem n noreturn then VSkip
            else if excluded n (mw_specs w) then VSkip
            else match included n (mw_specs w) with
                 | FErr => VErr
                 | FNone => VSkip
                 | FYes b d => if mem n taken then VSkip else VFunc n b d
                 end
        end
    end.
End W.
