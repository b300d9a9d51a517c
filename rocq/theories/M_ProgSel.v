(** * Which BPF programs are traced: /repo/internal/bpfsnoop/bpf_prog_flag.go, bpf_tracing_info.go.

    - A loaded program is its id, its tag, the name of its entry function (None: no BTF), the names of its functions, whether it can be traced
      (canTrace, bpf_tracing_info.go:81-98) and which of its functions are skipped (tail_call_reachable subprograms, 131-150).
    - A program with BTF has an entry name; getFuncParams succeeds; programs are neither loaded nor unloaded meanwhile.
    - [w_pins]: the program pinned at a path; [w_fds]: the programs a process holds open. *)
From Coq Require Import List Bool String ZArith.
From Verif Require Import M_Go.
Import ListNotations.
Open Scope string_scope.
Open Scope list_scope.

(** bpf_prog_flag.go:19-30 (without the fields that are used for logging and for kprobe.multi) *)
Record imm := { im_func : string; im_graph : bool; im_stack : bool; im_lbr : bool; im_both : bool; im_pkt : bool }.
(** flags_prog.go:21-32 *)
Inductive sel := PAll | PId (i : Z) | PTag (t : string) | PName (n : string) | PPinned (p : string) | PPid (p : Z).
Record pflag := { pf_sel : sel; pf_imm : imm }.
Record prog := { pg_id : Z; pg_tag : string; pg_entry : option string; pg_funcs : list string; pg_can : bool; pg_skip : string -> bool }.
Record world := { w_progs : list prog; w_pins : string -> option Z; w_fds : Z -> list Z }.
Definition load (w : world) (i : Z) : option prog := find (fun p => Z.eqb (pg_id p) i) (w_progs w).

Definition key := (Z * string)%type.
Definition keyb (a b : key) : bool := Z.eqb (fst a) (fst b) && String.eqb (snd a) (snd b).
Definition tracings := list (key * imm).
(** bpf_tracing_info.go:100-191 addTracing; None: error *)
Definition add_tracing (disasm : bool) (p : prog) (fn : string) (im : imm) (tr : tracings) : option tracings :=
  if negb (pg_can p) && negb disasm then Some tr
  else match aget keyb (pg_id p, fn) tr with
       | Some _ => Some tr
       | None =>
           if negb (existsb (String.eqb fn) (pg_funcs p)) then None
           else if pg_skip p fn then Some tr
           else Some (aput keyb (pg_id p, fn) im tr)
       end.
(** bpf_prog_flag.go:316-322 getProgFuncName *)
Definition func_name (f : string) (p : prog) : option string := if String.eqb f "" then pg_entry p else Some f.
(** bpf_prog_flag.go:92-115, 143-168, 170-190: the program of that id, pinned there or open there *)
Definition add_by_id (w : world) (disasm : bool) (i : Z) (im : imm) (tr : tracings) : option tracings :=
  match load w i with
  | None => None
  | Some p => match func_name (im_func im) p with None => None | Some fn => add_tracing disasm p fn im tr end
  end.
(** bpf_prog_flag.go:117-126 prepareProgInfosByIDs *)
Fixpoint by_ids (w : world) (disasm : bool) (fs : list pflag) (tr : tracings) : option tracings :=
  match fs with
  | [] => Some tr
  | f :: fs' => match pf_sel f with
                | PId i => match add_by_id w disasm i (pf_imm f) tr with Some tr' => by_ids w disasm fs' tr' | None => None end
                | _ => None   (** not reached: allID *)
                end
  end.

(** bpf_prog_flag.go:32-40 *)
Record pflags := { ps_all : option imm; ps_ids : list (Z * imm); ps_tags : list (string * imm); ps_names : list (string * imm); ps_other : bool }.
(** bpf_prog_flag.go:51-58: the fields that newProgFlags copies: not pkt *)
Definition strip (im : imm) : imm := {| im_func := im_func im; im_graph := im_graph im; im_stack := im_stack im; im_lbr := im_lbr im; im_both := im_both im; im_pkt := false |}.
(** bpf_prog_flag.go:42-86 newProgFlags *)
Fixpoint new_flags (acc : pflags) (fs : list pflag) : pflags :=
  match fs with
  | [] => acc
  | f :: fs' =>
      let im := strip (pf_imm f) in
      match pf_sel f with
      | PAll => {| ps_all := Some im; ps_ids := ps_ids acc; ps_tags := ps_tags acc; ps_names := ps_names acc; ps_other := ps_other acc |}
      | PId i => new_flags {| ps_all := ps_all acc; ps_ids := aput Z.eqb i im (ps_ids acc); ps_tags := ps_tags acc; ps_names := ps_names acc; ps_other := ps_other acc |} fs'
      | PTag t => new_flags {| ps_all := ps_all acc; ps_ids := ps_ids acc; ps_tags := aput String.eqb t im (ps_tags acc); ps_names := ps_names acc; ps_other := ps_other acc |} fs'
      | PName n => new_flags {| ps_all := ps_all acc; ps_ids := ps_ids acc; ps_tags := ps_tags acc; ps_names := aput String.eqb n im (ps_names acc); ps_other := ps_other acc |} fs'
      | PPinned _ | PPid _ => new_flags {| ps_all := ps_all acc; ps_ids := ps_ids acc; ps_tags := ps_tags acc; ps_names := ps_names acc; ps_other := true |} fs'
      end
  end.
Definition no_flags : pflags := {| ps_all := None; ps_ids := []; ps_tags := []; ps_names := []; ps_other := false |}.
(** bpf_prog_flag.go:88-96 allID *)
Definition all_id (p : pflags) : bool :=
  match ps_ids p, ps_tags p, ps_names p, ps_all p with _ :: _, [], [], None => negb (ps_other p) | _, _, _, _ => false end.
(** bpf_prog_flag.go:192-239 prepareProgInfoByPid *)
Fixpoint by_fds (w : world) (disasm : bool) (ids : list Z) (im : imm) (tr : tracings) : option tracings :=
  match ids with [] => Some tr | i :: ids' => match add_by_id w disasm i im tr with Some tr' => by_fds w disasm ids' im tr' | None => None end end.
(** bpf_prog_flag.go:298-311: the pinned and pid flags *)
Fixpoint by_others (w : world) (disasm : bool) (fs : list pflag) (tr : tracings) : option tracings :=
  match fs with
  | [] => Some tr
  | f :: fs' =>
      match (match pf_sel f with
             | PPinned s => match w_pins w s with Some i => add_by_id w disasm i (pf_imm f) tr | None => None end
             | PPid q => by_fds w disasm (w_fds w q) (pf_imm f) tr
             | _ => Some tr
             end) with
      | Some tr' => by_others w disasm fs' tr'
      | None => None
      end
  end.
(** bpf_prog_flag.go:258-287: one of the maps *)
Definition opt_add (disasm : bool) (p : prog) (e : string) (o : option imm) (tr : tracings) : option tracings :=
  match o with
  | None => Some tr
  | Some im => add_tracing disasm p (if String.eqb (im_func im) "" then e else im_func im) im tr
  end.
(** bpf_prog_flag.go:241-290 prepareProgInfo *)
Definition visit (disasm : bool) (ps : pflags) (p : prog) (tr : tracings) : option tracings :=
  match pg_entry p with
  | None => Some tr
  | Some e =>
      match ps_all ps with
      | Some im => add_tracing disasm p e im tr
      | None =>
          match opt_add disasm p e (aget Z.eqb (pg_id p) (ps_ids ps)) tr with
          | None => None
          | Some tr1 => match opt_add disasm p e (aget String.eqb (pg_tag p) (ps_tags ps)) tr1 with
                        | None => None
                        | Some tr2 => opt_add disasm p e (aget String.eqb e (ps_names ps)) tr2
                        end
          end
      end
  end.
Fixpoint visit_all (disasm : bool) (ps : pflags) (l : list prog) (tr : tracings) : option tracings :=
  match l with [] => Some tr | p :: l' => match visit disasm ps p tr with Some tr' => visit_all disasm ps l' tr' | None => None end end.
(** bpf_prog_flag.go:292-314 prepareProgInfos *)
Definition prepare (w : world) (disasm : bool) (fs : list pflag) : option tracings :=
  let ps := new_flags no_flags fs in
  if all_id ps then by_ids w disasm fs []
  else match by_others w disasm fs [] with Some tr => visit_all disasm ps (w_progs w) tr | None => None end.
