(** * What an event is labelled with: /repo/internal/bpfsnoop/bpfsnoop_func.go:25-122 (findKfuncInMulti, getFuncInfo, the head of outputFuncInfo) and
    kernel_tracepoints.go:132-144 (MergeTracepointsToKfuncs).

    [A] stands for the description used to show arguments (prototype, parameters, return value, --output-arg list); colours are left out. *)
From Coq Require Import ZArith List Bool String Ascii.
From Verif Require Import M_Go M_Kallsyms.
Import ListNotations.
Open Scope Z_scope.

(** fmt %x *)
Definition xdigit (d : Z) : ascii := ascii_of_nat (Z.to_nat (if d <? 10 then 48 + d else 87 + d)).
Fixpoint hex_go (fuel : nat) (v : Z) (acc : string) : string :=
  match fuel with
  | O => acc
  | S k => if v <? 16 then String (xdigit v) acc else hex_go k (v / 16) (String (xdigit (v mod 16)) acc)
  end.
Definition fmt_x (v : Z) : string := hex_go 16 v EmptyString.

Section L.
  Variable A : Type.
  (** A function of a BPF program (bpfProgFuncInfo: funcName and the description); a kernel function or tracepoint (KFunc: Func.Name, IsTp) *)
  Record kfn := { k_name : string; k_tp : bool; k_data : A }.
  (** FuncGraph: Bprog, Kfunc (nil or not) *)
  Record gnode := { g_bprog : option (string * A); g_kfunc : option kfn }.

  (** bpfsnoop_func.go:25-32 *)
  Fixpoint find_multi (multi : list (list (Z * kfn))) (ip : Z) : option kfn :=
    match multi with
    | [] => None
    | m :: multi' => match aget Z.eqb ip m with Some f => Some f | None => find_multi multi' ip end
    end.
  (** bpfsnoop_func.go:34-84.  None: Ksyms.find panics (no symbols at all).  [kmulti]: the flag of the event. *)
  Definition get_func_info (progs : list (Z * (string * A))) (ks : kallsyms) (kfuncs : list (Z * kfn)) (multi : list (list (Z * kfn)))
      (graph : option gnode) (kmulti : bool) (ip : Z) : option (string * option A) :=
    let prog_info := match aget Z.eqb ip progs with
                     | Some p => Some p
                     | None => match graph with Some g => g_bprog g | None => None end
                     end in
    match prog_info with
    | Some (n, d) => Some (append n "[bpf]", Some d)
    | None =>
        match match ks_find ks ip with
              | FPanic => None
              | FSome (Some e) => Some (kname e)
              | FSome None | FNone => Some (append "0x" (fmt_x ip))
              end with
        | None => None
        | Some name =>
            let fn := match (if kmulti then find_multi multi ip else None) with
                      | Some f => Some f
                      | None => match aget Z.eqb ip kfuncs with
                                | Some f => Some f
                                | None => match graph with Some g => g_kfunc g | None => None end
                                end
                      end in
            match fn with
            | None => Some (name, None)
            | Some f => Some (if k_tp f then append (k_name f) "[tp]" else name, Some (k_data f))
            end
        end
    end.

  (** kernel_tracepoints.go:134-139: the next random number that is no key; [rs]: the numbers drawn *)
  Fixpoint draw (kfuncs : list (Z * kfn)) (rs : list Z) : option (Z * list Z) :=
    match rs with
    | [] => None                                   (* the loop goes on *)
    | r :: rs' => match aget Z.eqb r kfuncs with Some _ => draw kfuncs rs' | None => Some (r, rs') end
    end.
  (** kernel_tracepoints.go:132-144, over the tracepoints in the order of iteration; second result: tp.Ksym.addr of each, which becomes FUNC_IP of its
      probe (bpf_tracing_func.go:111) *)
  Fixpoint merge_tps (tps : list kfn) (kfuncs : list (Z * kfn)) (rs : list Z) : option (list (Z * kfn) * list (Z * kfn)) :=
    match tps with
    | [] => Some (kfuncs, [])
    | tp :: tps' =>
        match draw kfuncs rs with
        | None => None
        | Some (id, rs') =>
            match merge_tps tps' (aput Z.eqb id tp kfuncs) rs' with
            | Some (k', ids) => Some (k', (id, tp) :: ids)
            | None => None
            end
        end
    end.
End L.
Arguments k_name {A}. Arguments k_tp {A}. Arguments k_data {A}. Arguments Build_kfn {A}.
Arguments g_bprog {A}. Arguments g_kfunc {A}. Arguments Build_gnode {A}.
Arguments get_func_info {A}. Arguments merge_tps {A}. Arguments find_multi {A}. Arguments draw {A}.

(** bpfsnoop_func.go:86-103: the start of an event's line *)
Definition header (exit is_tp : bool) (name : string) : string :=
  append (append (if exit then "← " else if negb exit then if negb is_tp then "→ " else "- " else "") name) " args".
