(** * Function stacks: bpf_get_stackid in bpf/bpfsnoop_event_output.h:45-56 and /repo/internal/bpfsnoop/bpfsnoop_func_stack.go.

    - The stack map (bpf/bpfsnoop_stack_map.h:11-18) is the kernel's BPF_MAP_TYPE_STACK_TRACE: a stack goes to the bucket given by
      its 32-bit hash modulo 256; flags are BPF_F_FAST_STACK_CMP alone, so an occupied bucket with the same hash counts as the same
      stack and one with another hash makes the helper fail with -EEXIST.  The hash is a parameter.
    - Recording an event and handling it are separate steps: events wait in the ring buffer in order.
    - The text of one frame (line or symbol only) is a parameter; an address has its function name from getLineInfo. *)
From Coq Require Import List Bool String ZArith.
From Verif Require Import M_Go M_Flags.
Import ListNotations.
Open Scope list_scope.
Open Scope Z_scope.

Section Stack.
  Variable hash : list Z -> Z.
  Variable fname : Z -> string.
  (** one frame as it is shown; the flag is symbolOnly *)
  Variable line : bool -> Z -> string.
  (** kernel.perf_event_max_stack *)
  Variable maxstack : nat.
  Variables (verbose flame : bool).

  (** bucket id -> hash and addresses *)
  Definition smap := list (Z * (Z * list Z)).
  (** bpfsnoop_event_output.h:55 bpf_get_stackid(ctx, &bpfsnoop_stacks, BPF_F_FAST_STACK_CMP) *)
  Definition get_stackid (m : smap) (ips : list Z) : Z * smap :=
    let h := hash ips in let id := h mod 256 in
    match aget Z.eqb id m with
    | Some (h', _) => if h' =? h then (id, m) else (-17, m)
    | None => (id, aput Z.eqb id (h, ips) m)
    end.

  (** bpfsnoop_func_stack.go:16-19 fnStack *)
  Record fnstack := { f_ips : list Z; f_stack : list string }.
  (** bpfsnoop_func_stack.go:21-26 *)
  Definition new_fnstack : fnstack := {| f_ips := repeat 0 maxstack; f_stack := [] |}.
  (** bpfsnoop_func_stack.go:28-30 *)
  Definition fs_reset (s : fnstack) : fnstack := {| f_ips := f_ips s; f_stack := [] |}.
  (** bpfsnoop_func_stack.go:57-58 *)
  Definition is_entry (n : string) : bool := has_prefix "bpf_trampoline_" n || has_prefix "bpf_trace_run" n.
  (** bpfsnoop_func_stack.go:47-98, the loop *)
  Fixpoint frames (sym : bool) (skip : bool) (ips : list Z) (acc : list string) : list string :=
    match ips with
    | [] => acc
    | ip :: ips' =>
        if ip =? 0 then frames sym skip ips' acc
        else if skip && negb verbose then frames sym (if is_entry (fname ip) then false else skip) ips' acc
        else frames sym skip ips' (acc ++ [line sym ip])
    end.
  (** user-space look-up in a stack map: the addresses followed by zeros up to the value size *)
  Definition map_lookup (m : smap) (id : Z) : option (list Z) :=
    match aget Z.eqb id m with Some (_, ips) => Some (firstn maxstack (ips ++ repeat 0 maxstack)) | None => None end.
  (** bpfsnoop_func_stack.go:32-99 get *)
  Definition fs_get (s : fnstack) (m : smap) (id : Z) (sym : bool) : fnstack * smap :=
    let ips0 := match f_stack s with [] => f_ips s | _ => repeat 0 (List.length (f_stack s)) ++ skipn (List.length (f_stack s)) (f_ips s) end in
    match map_lookup m id with
    | None => ({| f_ips := ips0; f_stack := f_stack s |}, m)
    | Some ips => ({| f_ips := ips; f_stack := frames sym true ips (f_stack s) |}, adel Z.eqb id m)
    end.
  (** bpfsnoop_func_stack.go:101-121 output: what is printed for this event, and what is added to the flame graph *)
  Definition fs_output (s : fnstack) (m : smap) (id : Z) : (list string * option (list string)) * fnstack * smap :=
    let '(s', m') := fs_get s m id flame in
    match f_stack s' with
    | [] => (([], None), s', m')
    | st => if flame then (([], Some (rev st)), s', m') else ((("Func stack:"%string) :: st, None), s', m')
    end.

  (** ** Recording and handling events *)
  (** OHandle: the oldest waiting event is handled and output (bpfsnoop.go:200-223).  OSkip: the handler returns before
      (bpfsnoop.go:141-153: the call was shorter than --filter-delta or its session is unknown). *)
  Inductive op := ORec (ips : list Z) | OHandle | OSkip.
  Record sys := { y_map : smap; y_fs : fnstack; y_queue : list (Z * list Z) }.
  Definition sys0 : sys := {| y_map := []; y_fs := new_fnstack; y_queue := [] |}.
  (** The second component: the stack of the event handled and what was shown for it *)
  Definition step (y : sys) (o : op) : sys * option (list Z * (list string * option (list string))) :=
    match o with
    | ORec ips => let '(id, m) := get_stackid (y_map y) ips in ({| y_map := m; y_fs := y_fs y; y_queue := y_queue y ++ [(id, ips)] |}, None)
    | OHandle =>
        match y_queue y with
        | [] => (y, None)
        | (id, ips) :: q =>
            (** bpfsnoop.go:200: event.StackID >= 0 *)
            if 0 <=? id then
              let '(out, s, m) := fs_output (y_fs y) (y_map y) id in
              ({| y_map := m; y_fs := fs_reset s; y_queue := q |}, Some (ips, out))
            else ({| y_map := y_map y; y_fs := fs_reset (y_fs y); y_queue := q |}, Some (ips, ([], None)))
        end
    | OSkip => ({| y_map := y_map y; y_fs := y_fs y; y_queue := tl (y_queue y) |}, None)
    end.
  Fixpoint run (y : sys) (os : list op) : list (list Z * (list string * option (list string))) :=
    match os with
    | [] => []
    | o :: os' => let '(y', r) := step y o in match r with Some x => x :: run y' os' | None => run y' os' end
    end.
End Stack.
