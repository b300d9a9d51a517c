(** * Tracepoints: /repo/internal/bpfsnoop/bpf_tracepoints.go, bpf_tracepoints_module.go, kernel_tracepoints.go; bpf/tracepoint.c,
    bpf/tracepoint_module.c.

    - The kernel's table of raw tracepoints is a function from the address of an entry (struct bpf_raw_event_map) to its name, the address
      of its function and its number of arguments; names are readable.
    - The symbol table is its look-up by exact address (ksyms.a2s), BTF a look-up of functions by name.
    - Loading and running the BPF programs succeeds. *)
From Coq Require Import List Bool String Ascii ZArith Arith.
From Verif Require Import M_Go M_Flags M_Kfuncs.
Import ListNotations.
Open Scope list_scope.
Open Scope Z_scope.

(** the first n characters *)
Fixpoint take (n : nat) (s : string) : string :=
  match n, s with S n', String c s' => String c (take n' s') | _, _ => EmptyString end.
Record raw_tp := { r_name : string; r_sym : Z; r_nargs : Z }.
Record tp_info := { t_name : string; t_kmod : string; t_sym : Z; t_nargs : Z; t_fn : func }.

Section Probe.
  Variable table : Z -> raw_tp.
  Variable csize : Z.                           (* sizeof(struct bpf_raw_event_map) in the BPF program *)
  (** tracepoint.c:26-56: the first min(cnt, 256) of the 256 records filled (name: 63 characters and NUL), the others zero *)
  Fixpoint bpf_probe (i n : nat) (cnt btp : Z) : list (string * Z * Z) :=
    match n with
    | O => []
    | S n' => if Z.of_nat i <? cnt then (take 63 (r_name (table btp)), r_sym (table btp), r_nargs (table btp)) :: bpf_probe (S i) n' cnt (u64 (btp + csize))
              else repeat (EmptyString, 0, 0) n
    end.
  (** bpf_tracepoints.go:81-91: records without function are left out; a later one of the same name replaces an earlier one *)
  Definition probe_infos (start cnt : Z) : list (string * (Z * Z)) :=
    fold_left (fun m r => let '(nm, sym, na) := r in if sym =? 0 then m else aput String.eqb nm (sym, na) m) (bpf_probe 0 256 cnt start) [].

  Variable a2s : Z -> option string.            (* kallsyms: name of the symbol at exactly this address *)
  Variable btf_fn : string -> option func.      (* None: no such type, or not a function *)
  (** bpf_tracepoints.go:110-136: one batch's entries into the result (in the order of Go's map iteration) *)
  Definition resolve (tps : option (list (string * tp_info))) (x : string * (Z * Z)) : option (list (string * tp_info)) :=
    match tps with
    | None => None
    | Some m =>
        match a2s (fst (snd x)) with
        | None => None
        | Some nm => match btf_fn nm with
                     | None => None
                     | Some fn => Some (aput String.eqb (fst x) {| t_name := fst x; t_kmod := EmptyString; t_sym := fst (snd x); t_nargs := snd (snd x); t_fn := fn |} m)
                     end
        end
    end.
  (** bpf_tracepoints.go:95-141; [order]: Go's map iteration; [n]: iterations allowed (at most total of them are needed) *)
  Variable order : list (string * (Z * Z)) -> list (string * (Z * Z)).
  Fixpoint probe_loop (n : nat) (size start total : Z) (tps : list (string * tp_info)) : option (list (string * tp_info)) :=
    if total <=? 0 then Some tps
    else match n with
         | O => None
         | S n' =>
             let cnt := Z.min total 256 in
             match fold_left resolve (order (probe_infos start cnt)) (Some tps) with
             | None => None
             | Some tps' => probe_loop n' size (u64 (start + size * cnt)) (total - cnt) tps'
             end
         end.
  Definition probe_tracepoints (size start total : Z) : option (list (string * tp_info)) :=
    if size =? 0 then None else probe_loop (Z.to_nat total) size start total [].
  (** bpf_tracepoints.go:143-166 *)
  Definition probe_vmlinux (size start stop : Z) : option (list (string * tp_info)) :=
    if (start =? 0) || (stop =? 0) || (stop <=? start) then None
    else if size =? 0 then None else probe_tracepoints size start ((stop - start) / size).
End Probe.

(** ** Modules *)
(** the list of modules with tracepoints, in memory: [next] is the list pointer, [info] what a node's module holds *)
Record mod_info := { m_name : string; m_nr : Z; m_events : Z }.
Section Mods.
  Variable next : Z -> Z.
  Variable info : Z -> mod_info.
  (** tracepoint_module.c:56-68: result: modules read, and where the walk stands *)
  Fixpoint walk (n : nat) (head cur : Z) : list mod_info * Z :=
    match n with
    | O => ([], cur)
    | S n' => if cur =? head then ([], cur)
              else let '(l, e) := walk n' head (next cur) in
                   ({| m_name := take 55 (m_name (info cur)); m_nr := m_nr (info cur); m_events := m_events (info cur) |} :: l, e)
    end.
  (** bpf_tracepoints_module.go:37-92: None: "too many modules" *)
  Definition mod_list (head : Z) : option (list mod_info) :=
    let '(l, e) := walk 256 head (next head) in if e =? head then Some l else None.
  (** bpf_tracepoints_module.go:108-136.  [probe m]: probeTracepoints with the BTF of the module; [has_btf]: 0 no file, 1 loads, else error *)
  Variable probe : mod_info -> option (list (string * tp_info)).
  Variable has_btf : string -> Z.
  Fixpoint mod_tps (ms : list mod_info) (acc : list (string * list (string * tp_info))) : option (list (string * list (string * tp_info))) :=
    match ms with
    | [] => Some acc
    | m :: ms' =>
        if (m_nr m =? 0) || (65536 <? m_nr m) then mod_tps ms' acc
        else if has_btf (m_name m) =? 0 then mod_tps ms' acc
        else if negb (has_btf (m_name m) =? 1) then None
        else match probe m with None => None | Some tps => mod_tps ms' (aput String.eqb (m_name m) tps acc) end
    end.
End Mods.
(** kernel_tracepoints.go:109-116: [mods] in the order of Go's map iteration, as are the tracepoints of each *)
Definition add_mod (tps : list (string * tp_info)) (x : string * tp_info) (md : string) : list (string * tp_info) :=
  let tp := snd x in
  match aget String.eqb (t_name tp) tps with
  | Some _ => tps
  | None => aput String.eqb (t_name tp) {| t_name := t_name tp; t_kmod := md; t_sym := t_sym tp; t_nargs := t_nargs tp; t_fn := t_fn tp |} tps
  end.
Definition merge_mods (tps : list (string * tp_info)) (mods : list (string * list (string * tp_info))) : list (string * tp_info) :=
  fold_left (fun m md => fold_left (fun m x => add_mod m x (fst md)) (snd md) m) mods tps.

(** ** Selection *)
Record ktp := { kt_name : string; kt_params : list param; kt_kmod : string; kt_flag : kflag }.
Inductive mres := MOk (m : list (string * ktp)) | MErr | MPanic.
Section Select.
  Variable glob : string -> string -> bool.
  Variable mod_btf : string -> bool.            (* LoadKernelModuleSpec succeeds *)
  (** kernel_tracepoints.go:23-26 *)
  Definition no_insn_graph (f : kflag) : kflag :=
    {| f_name := f_name f; f_arg := f_arg f; f_typ := f_typ f; f_insn := false; f_graph := false; f_stack := f_stack f; f_lbr := f_lbr f;
       f_both := f_both f; f_pkt := f_pkt f; f_multi := f_multi f; f_argName := f_argName f; f_argType := f_argType f |}.
  (** kernel_tracepoints.go:32-86: one tracepoint *)
  Definition sel1 (ms : list kflag) (acc : mres) (x : string * tp_info) : mres :=
    match acc with
    | MOk m =>
        match fn_params (t_fn (snd x)) with
        | [] => MPanic
        | _ :: ps =>
            if Z.of_nat (List.length ps) <? t_nargs (snd x) then MOk m
            else if 12 <? Z.of_nat (List.length ps) then MOk m
            else match match_kfunc glob {| fn_name := fst x; fn_params := ps; fn_ret_struct := false; fn_params_ok := true |} ms with
                 | None => MOk m
                 | Some f =>
                     if negb (fn_params_ok (t_fn (snd x))) then MOk m
                     else if negb (String.eqb (t_kmod (snd x)) EmptyString) && negb (mod_btf (t_kmod (snd x))) then MErr
                     else MOk (aput String.eqb (fst x) {| kt_name := fst x; kt_params := ps; kt_kmod := t_kmod (snd x); kt_flag := f |} m)
                 end
        end
    | r => r
    end.
  Definition select_tps (flags : list kflag) (tps : list (string * tp_info)) : mres := fold_left (sel1 (map no_insn_graph flags)) tps (MOk []).
End Select.

(** ** MergeTracepointsToKfuncs *)
(** kernel_tracepoints.go:124-138; [V]: what is known of a function; [rnd]: the random numbers drawn, one after the other; None: they are all
    taken (the program draws on) *)
Fixpoint draw {V} (kfs : list (Z * V)) (rnd : list Z) : option (Z * list Z) :=
  match rnd with
  | [] => None
  | r :: rnd' => match aget Z.eqb r kfs with None => Some (r, rnd') | Some _ => draw kfs rnd' end
  end.
Fixpoint merge_tps {V} (tps : list V) (kfs : list (Z * V)) (rnd : list Z) : option (list (Z * V)) :=
  match tps with
  | [] => Some kfs
  | tp :: tps' => match draw kfs rnd with None => None | Some (id, rnd') => merge_tps tps' (aput Z.eqb id tp kfs) rnd' end
  end.
