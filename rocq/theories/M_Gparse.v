(** * Which functions --output-fgraph traces: /repo/internal/bpfsnoop/func_graph_parser.go and func_graph.go.

    - Code is seen through [w_callees] (the targets of the call instructions found in the body, in order) and [w_repl] (the program that replaces a
      BPF program, func_graph_parser.go:165-186).  [w_ok ip]: the function at ip passes the checks of func_graph_parser.go:353-421 (it is the entry of a
      traceable program or of an allowed kernel function); disassembling succeeds.
    - Symbol names of traceable functions are unique (duplicates are refused, 367-371), so p.syms never holds a name twice; p.untraceables only
      holds addresses that are in p.graphs, so it is never consulted with effect; p.callee caches w_callees.  These three are left out.
    - Every goroutine runs "parse" then ends; the main thread runs the calls of "add" for the roots.  A goroutine is a [task]:
      [Start ip d]: parse(ip, depth d) has not begun; [Run cur todo]: in a call add(ip, d) between the insertion into p.graphs and the moment
      g.bytes is set ([cur]), with the calls of add still to make ([todo]).
    - An entry of p.graphs is None until its fields are set (g.bytes is 0), then Some root. *)
From Coq Require Import List Bool ZArith.
From Verif Require Import M_Go.
Import ListNotations.
Open Scope list_scope.

Record gworld := { w_ok : Z -> bool; w_callees : Z -> list Z; w_repl : Z -> option Z; w_max : nat }.
Inductive task := Start (ip : Z) (d : nat) | Run (cur : option (Z * nat)) (todo : list (Z * nat)).
Record gst := { g_graphs : list (Z * option bool); g_parsed : list (Z * nat); g_tasks : list task }.
(** func_graph_parser.go:143-207: the calls of add that parse(ip, d) makes *)
Definition succ (w : gworld) (ip : Z) (d : nat) : list (Z * nat) :=
  match w_repl w ip with Some r => [(r, d)] | None => map (fun c => (c, S d)) (w_callees w ip) end.
Definition put (s : gst) (l : list task) : gst := {| g_graphs := g_graphs s; g_parsed := g_parsed s; g_tasks := l |}.

(** One step of one task.  The label is true for the step of func_graph_parser.go:344-349 that finds an entry which another task has
    inserted but not yet filled. *)
Inductive gstep (w : gworld) : bool -> gst -> gst -> Prop :=
| (** 133-135: checkParsed *) s_again s l1 l2 ip d : g_tasks s = l1 ++ Start ip d :: l2 -> In (ip, d) (g_parsed s) ->
    gstep w false s (put s (l1 ++ l2))
| s_parse s l1 l2 ip d : g_tasks s = l1 ++ Start ip d :: l2 -> ~ In (ip, d) (g_parsed s) ->
    gstep w false s {| g_graphs := g_graphs s; g_parsed := (ip, d) :: g_parsed s; g_tasks := l1 ++ Run None (succ w ip d) :: l2 |}
| (** 332-334 *) s_deep s l1 l2 ip d todo : g_tasks s = l1 ++ Run None ((ip, d) :: todo) :: l2 -> (w_max w < d)%nat ->
    gstep w false s (put s (l1 ++ Run None todo :: l2))
| (** 337-348: there, with its size *) s_found s l1 l2 ip d todo r : g_tasks s = l1 ++ Run None ((ip, d) :: todo) :: l2 -> (d <= w_max w)%nat ->
    aget Z.eqb ip (g_graphs s) = Some (Some r) -> gstep w false s (put s (l1 ++ Run None todo :: l2 ++ [Start ip d]))
| (** 337-348: there, without size *) s_empty s l1 l2 ip d todo b : g_tasks s = l1 ++ Run None ((ip, d) :: todo) :: l2 -> (d <= w_max w)%nat ->
    aget Z.eqb ip (g_graphs s) = Some None -> (b = true <-> exists d' todo', In (Run (Some (ip, d')) todo') (g_tasks s)) ->
    gstep w b s (put s (l1 ++ Run None todo :: l2))
| (** 337-342: not there *) s_insert s l1 l2 ip d todo : g_tasks s = l1 ++ Run None ((ip, d) :: todo) :: l2 -> (d <= w_max w)%nat ->
    aget Z.eqb ip (g_graphs s) = None ->
    gstep w false s {| g_graphs := aput Z.eqb ip None (g_graphs s); g_parsed := g_parsed s; g_tasks := l1 ++ Run (Some (ip, d)) todo :: l2 |}
| (** 351-446 *) s_fill s l1 l2 ip d todo : g_tasks s = l1 ++ Run (Some (ip, d)) todo :: l2 -> w_ok w ip = true ->
    gstep w false s {| g_graphs := aput Z.eqb ip (Some (Nat.eqb d 0)) (g_graphs s); g_parsed := g_parsed s; g_tasks := l1 ++ Run None todo :: l2 ++ [Start ip d] |}
| (** 351-433: not traceable *) s_untraceable s l1 l2 ip d todo : g_tasks s = l1 ++ Run (Some (ip, d)) todo :: l2 -> w_ok w ip = false ->
    gstep w false s (put s (l1 ++ Run None todo :: l2))
| s_end s l1 l2 : g_tasks s = l1 ++ Run None [] :: l2 -> gstep w false s (put s (l1 ++ l2)).
(** func_graph.go:181-205: the roots (depth 0) and the extra functions (depth 1) *)
Definition ginit (roots : list (Z * nat)) : gst := {| g_graphs := []; g_parsed := []; g_tasks := [Run None roots] |}.
Inductive gsteps (w : gworld) : nat -> bool -> gst -> gst -> Prop :=
| g_refl s : gsteps w 0 false s s
| g_trans n b b' s1 s2 s3 : gsteps w n b s1 s2 -> gstep w b' s2 s3 -> gsteps w (S n) (b || b') s1 s3.
Definition gdone (s : gst) : Prop := g_tasks s = [].
(** func_graph.go:212-226: what remains, given the graphs of the deny list's run *)
Definition gfinal (debug : bool) (deny : list (Z * option bool)) (s : gst) : list (Z * bool) :=
  flat_map (fun kv => match snd kv with
                      | Some r => if negb debug && (match aget Z.eqb (fst kv) deny with Some _ => true | None => false end) then [] else [(fst kv, r)]
                      | None => []
                      end) (g_graphs s).
