(** * Attaching the probes: /repo/internal/bpfsnoop/bpf_tracing.go:88-160 (NewBPFTracing, HaveTracing, Close) and the goroutines it starts
    (bpf_tracing_prog.go, bpf_tracing_func.go, bpf_tracing_func_multi.go, bpf_tracing_insn.go, bpf_tracing_graph.go).

    - What the programs are is the subject of other models (M_FnArgs, M_Asm, M_Multi, M_Ghook ...); here a probe is a name and a place.
    - Each goroutine loads a program, attaches it and records it; these are its steps.  The scheduler and the kernel's answers are the labels of an
      execution.  A step of the kernel either succeeds or is refused with an error, described by the properties the code asks about.
    - [opened], [links], [log]: what exists in the kernel and what it answered (not variables of the code).  Collections close what is left in them
      when the function returns (defer coll.Close()), so a program that was not attached is closed in all cases.
    - One step appends to progs and to the list of its kind: both happen under llock. *)
From Coq Require Import List Bool String Arith.
From Verif Require Import M_Go.
Import ListNotations.
Open Scope list_scope.

Inductive kind := KProg | KFn | KMulti | KInsn | KGraph.
Inductive ptype := PEntry | PExit | PSession | PTp | PKprobe.
Definition kind_eqb (a b : kind) : bool :=
  match a, b with KProg, KProg | KFn, KFn | KMulti, KMulti | KInsn, KInsn | KGraph, KGraph => true | _, _ => false end.
(** What the code asks about an error: errors.Is(err, unix.E...), errors.Is(err, ebpf.ErrNotSupported), strings.Contains(err.Error(), ...) *)
Inductive trait := ENOENT | EINVAL | EOPNOTSUPP | NotSupported | EBUSY | EADDRNOTAVAIL | StructArg | UnionArg | Recursive.
Definition trait_eqb (a b : trait) : bool :=
  match a, b with
  | ENOENT, ENOENT | EINVAL, EINVAL | EOPNOTSUPP, EOPNOTSUPP | NotSupported, NotSupported | EBUSY, EBUSY | EADDRNOTAVAIL, EADDRNOTAVAIL
  | StructArg, StructArg | UnionArg, UnionArg | Recursive, Recursive => true
  | _, _ => false end.
Definition err := list trait.
Definition is (e : err) (t : trait) : bool := existsb (trait_eqb t) e.
(** bpf_tracing_func.go:40-66 ignoreFuncTraceVerifierErr, used by traceFunc and traceGraph; traceProg, traceInsn and traceKfuncMultiMode have none *)
Definition ignore_load (k : kind) (e : err) : bool :=
  match k with KFn | KGraph => is e ENOENT || is e StructArg || is e UnionArg | KProg | KMulti | KInsn => false end.
(** bpf_tracing_func.go:28-38 ignoreFuncTraceErr (traceFunc, traceGraph); bpf_tracing_prog.go:157-161; bpf_tracing_insn.go:59-61 *)
Definition ignore_attach (k : kind) (e : err) : bool :=
  match k with
  | KFn | KGraph => is e ENOENT || is e EINVAL || is e EOPNOTSUPP || is e NotSupported || is e EBUSY
  | KProg => is e Recursive
  | KInsn => is e ENOENT || is e EINVAL || is e EADDRNOTAVAIL
  | KMulti => false
  end.

(** ** The goroutines *)
(** One goroutine: the probes it attaches, one after the other *)
Record job := { j_kind : kind; j_target : string; j_probes : list ptype }.
(** The options that decide about the probes: of a function or tracepoint (KFunc), of a BPF function (bpfTracingInfo), of the first function of a group
    of kprobe.multi symbols, of a function of a call graph *)
Record afn := { a_target : string; a_tp : bool; a_insn : bool; a_graph : bool; a_both : bool }.
Record cfg := {
  c_fsession : bool; c_ksession : bool; c_exit : bool;    (* hasFsession, hasKprobeSession, hasModeExit() *)
  c_progs : list afn; c_fns : list afn; c_multi : list (string * bool); c_insns : list string;
  c_graphs : list (string * bool) (* name, root *) }.
Definition c_has_graphs (c : cfg) : bool := match c_graphs c with [] => false | _ => true end.
(** bpf_tracing_func.go:187-227 traceFuncs, one function *)
Definition fn_jobs (c : cfg) (f : afn) : list job :=
  let one p := {| j_kind := KFn; j_target := a_target f; j_probes := [p] |} in
  if a_tp f then [one PTp]
  else if a_insn f || a_graph f || a_both f then if c_fsession c then [one PSession] else [one PEntry; one PExit]
  else [one (if c_exit c then PExit else PEntry)].
(** bpf_tracing_prog.go:180-212 traceProgs, one BPF function *)
Definition prog_jobs (c : cfg) (f : afn) : list job :=
  let one p := {| j_kind := KProg; j_target := a_target f; j_probes := [p] |} in
  if a_graph f || a_both f then if c_fsession c then [one PSession] else [one PEntry; one PExit]
  else [one (if c_exit c then PExit else PEntry)].
(** bpf_tracing_func_multi.go:147-163 traceKfuncMulti, one group *)
Definition multi_job (c : cfg) (g : string * bool) : job :=
  {| j_kind := KMulti; j_target := fst g;
     j_probes := if snd g && c_ksession c then [PSession] else if snd g then [PEntry; PExit] else [if c_exit c then PExit else PEntry] |}.
(** bpf_tracing_insn.go:76-95 *)
Definition insn_job (t : string) : job := {| j_kind := KInsn; j_target := t; j_probes := [PKprobe] |}.
(** bpf_tracing_graph.go:226-262 *)
Definition graph_jobs (c : cfg) (g : string * bool) : list job :=
  let one p := {| j_kind := KGraph; j_target := fst g; j_probes := [p] |} in
  if snd g then [] else if c_fsession c then [one PSession] else [one PEntry; one PExit].
Definition jobs (c : cfg) : list job :=
  flat_map (prog_jobs c) (c_progs c) ++ flat_map (fn_jobs c) (c_fns c) ++ map (multi_job c) (c_multi c) ++ map insn_job (c_insns c) ++
  flat_map (graph_jobs c) (c_graphs c).

(** ** State *)
Inductive stage := SReady | SLoaded | SAttached.
Inductive jst := JRun (n : nat) (s : stage) | JDone | JSkipped | JFailed.
(** the n-th probe of the i-th goroutine *)
Definition id := (nat * nat)%type.
Definition id_eqb (a b : id) : bool := Nat.eqb (fst a) (fst b) && Nat.eqb (snd a) (snd b).
Definition drop (x : id) (l : list id) : list id := filter (fun y => negb (id_eqb x y)) l.
(** main goroutine: NewBPFTracing before each call; waiting; returned *)
Inductive mpc := MStart | MMulti | MInsns | MGraphs | MWait | MReturned (ok : bool).
(** the goroutine of traceGraphs *)
Inductive gpc := GInit | GRun | GDone (ok : bool).
(** the kernel's answer to a load or attach; AInject: the program cannot be prepared *)
Inductive answer := AOk | AErr (e : err) | AInject.
Record st := { pc : mpc; gr : gpc; js : list jst; opened : list id; links : list id;
  progs : list id; bprgs : list id; kfns : list id; insns : list id; grphs : list id;
  log : list (id * bool * answer) }.   (* bool: an attach *)
Definition init (c : cfg) : st :=
  {| pc := MStart; gr := GInit; js := map (fun _ => JRun 0 SReady) (jobs c); opened := []; links := []; progs := []; bprgs := []; kfns := []; insns := []; grphs := []; log := [] |}.
Definition finished (j : jst) : bool := match j with JRun _ _ => false | _ => true end.
Definition failed (j : jst) : bool := match j with JFailed => true | _ => false end.
(** is the goroutine started? *)
Definition started (s : st) (k : kind) : bool :=
  match k with
  | KProg | KFn => match pc s with MStart => false | _ => true end
  | KMulti => match pc s with MStart | MMulti => false | _ => true end
  | KInsn => match pc s with MStart | MMulti | MInsns => false | _ => true end
  | KGraph => match gr s with GRun => true | _ => false end
  end.
Fixpoint set_nth {A} (n : nat) (x : A) (l : list A) : list A :=
  match l, n with [], _ => [] | _ :: l', O => x :: l' | y :: l', S n' => y :: set_nth n' x l' end.
(** bpf_tracing.go:127-160 Close: the links and programs of the four lists *)
Definition close (s : st) : st :=
  let all := bprgs s ++ kfns s ++ insns s ++ grphs s in
  {| pc := pc s; gr := gr s; js := js s; opened := fold_left (fun l x => drop x l) all (opened s); links := fold_left (fun l x => drop x l) all (links s);
     progs := progs s; bprgs := bprgs s; kfns := kfns s; insns := insns s; grphs := grphs s; log := log s |}.
Definition set_pc (s : st) (p : mpc) : st :=
  {| pc := p; gr := gr s; js := js s; opened := opened s; links := links s; progs := progs s; bprgs := bprgs s; kfns := kfns s; insns := insns s; grphs := grphs s; log := log s |}.
Definition set_gr (s : st) (g : gpc) : st :=
  {| pc := pc s; gr := g; js := js s; opened := opened s; links := links s; progs := progs s; bprgs := bprgs s; kfns := kfns s; insns := insns s; grphs := grphs s; log := log s |}.
Definition of_kind (k : kind) (js : list job) (l : list jst) : list jst := map snd (filter (fun x => kind_eqb (j_kind (fst x)) k) (combine js l)).
Definition not_kind (k : kind) (js : list job) (l : list jst) : list jst := map snd (filter (fun x => negb (kind_eqb (j_kind (fst x)) k)) (combine js l)).

Inductive label := LMain (ok : bool) | LGraph (ok : bool) | LJob (i : nat) (a : answer).
(** a goroutine's next step; None: it has none *)
Definition job_step (j : job) (i : nat) (s : st) (a : answer) : option st :=
  match nth_error (js s) i with
  | Some (JRun n SReady) =>
      let upd js' op := {| pc := pc s; gr := gr s; js := set_nth i js' (js s); opened := op; links := links s; progs := progs s; bprgs := bprgs s; kfns := kfns s; insns := insns s; grphs := grphs s;
                           log := log s ++ [((i, n), false, a)] |} in
      Some (match a with
            | AInject => upd JFailed (opened s)
            | AOk => upd (JRun n SLoaded) (opened s ++ [(i, n)])
            | AErr e => upd (if ignore_load (j_kind j) e then JSkipped else JFailed) (opened s)
            end)
  | Some (JRun n SLoaded) =>
      let upd js' op li := {| pc := pc s; gr := gr s; js := set_nth i js' (js s); opened := op; links := li; progs := progs s; bprgs := bprgs s; kfns := kfns s; insns := insns s; grphs := grphs s;
                              log := log s ++ [((i, n), true, a)] |} in
      match a with
      | AInject => None
      | AOk => Some (upd (JRun n SAttached) (opened s) (links s ++ [(i, n)]))
      | AErr e => Some (upd (if ignore_attach (j_kind j) e then JSkipped else JFailed) (drop (i, n) (opened s)) (links s))
      end
  | Some (JRun n SAttached) =>
      let add (k : bool) (l : list id) := if k then l ++ [(i, n)] else l in
      let kd := j_kind j in
      Some {| pc := pc s; gr := gr s; js := set_nth i (if Nat.ltb (S n) (List.length (j_probes j)) then JRun (S n) SReady else JDone) (js s);
              opened := opened s; links := links s; progs := progs s ++ [(i, n)];
              bprgs := add (kind_eqb kd KProg) (bprgs s); kfns := add (kind_eqb kd KFn || kind_eqb kd KMulti) (kfns s);
              insns := add (kind_eqb kd KInsn) (insns s); grphs := add (kind_eqb kd KGraph) (grphs s); log := log s |}
  | _ => None
  end.
Definition step (c : cfg) (s : st) (l : label) : option st :=
  match l with
  | LJob i a => match nth_error (jobs c) i with
                | Some j => if started s (j_kind j) then job_step j i s a else None
                | None => None
                end
  (* bpf_tracing_graph.go:198-225: no graphs; maps and programs prepared, or not; 264-276: Wait, and the maps filled, or not *)
  | LGraph ok =>
      match gr s, pc s with
      | GInit, MWait => Some (set_gr s (if c_has_graphs c then if ok then GRun else GDone false else GDone true))
      | GRun, MWait => if forallb finished (of_kind KGraph (jobs c) (js s))
                       then Some (set_gr s (GDone (negb (existsb failed (of_kind KGraph (jobs c) (js s))) && ok))) else None
      | _, _ => None
      end
  (* bpf_tracing.go:88-123 *)
  | LMain ok =>
      match pc s with
      | MStart => Some (set_pc s MMulti)
      | MMulti => Some (set_pc s (if ok then MInsns else MReturned false))      (* available_filter_functions *)
      | MInsns => Some (set_pc s (if ok || match c_insns c with [] => true | _ => false end then MGraphs else MReturned false))
      | MGraphs => Some (set_pc s MWait)
      | MWait =>
          match gr s with
          | GDone gok => if forallb finished (not_kind KGraph (jobs c) (js s))
                         then Some (if negb (existsb failed (not_kind KGraph (jobs c) (js s))) && gok then set_pc s (MReturned true) else set_pc (close s) (MReturned false))
                         else None
          | _ => None
          end
      | MReturned _ => None
      end
  end.
Fixpoint run (c : cfg) (ls : list label) (s : st) : option st :=
  match ls with [] => Some s | l :: ls' => match step c s l with Some s' => run c ls' s' | None => None end end.
(** bpf_tracing.go:120-125 HaveTracing; main.go: "No tracing target" otherwise *)
Definition have_tracing (s : st) : bool := match progs s with [] => false | _ => true end.
