(** * Call-tree listings (--show-func-proto with --fgraph): internal/bpfsnoop/func_graph_proto.go.
    Simplifications: the machine code of every function is fixed during the listing, so disassembling is a function of address and length
    (an error of the disassembler ends the process and is not modelled); the tables of symbols, BPF functions and BTF are functions of their
    keys; a line is its depth and its text, without colours; the depth dots are the depth.  The interrupt is an oracle: [cancel i] tells what
    the [i]-th look at the context sees. *)
From Coq Require Import List Bool String ZArith.
From Verif Require Import M_Go.
Import ListNotations.
Open Scope string_scope.
Open Scope list_scope.
Open Scope Z_scope.

(** What the listing reads.  func_graph_proto.go:34-46 (fgraphProto), bpf_progs.go (funcs), kallsyms.go (a2s). *)
Record world := World {
  w_prog : Z -> option (string * string * Z); (* progs.funcs: name, text of the prototype, length in bytes *)
  w_sym : Z -> option string;                  (* ksyms.a2s: name of the symbol at an address *)
  w_btf : string -> option string;             (* findBtfOfKfunc: text of the prototype of a kernel function *)
  w_mark : string -> bool;                     (* detectKfuncTraceable, by name *)
  w_guess : Z -> Z -> Z;                       (* guessBytes(ip, ksyms, limit), see M_Bytes.guess_bytes *)
  w_dis : Z -> Z -> list Z                     (* disasmKfuncAt + getCalleeIPFromInsn: per instruction its call target, 0 if none *)
}.
(** func_graph_proto.go:27-32 (fgraphCallee; name is never read) *)
Record callee := Callee { ce_ip : Z; ce_text : string; ce_bytes : Z }.
Inductive gline := GLine (depth : nat) (text : string) | GBlank.
Record gst := Gst {
  g_ips : list (Z * string);            (* ips *)
  g_callees : list (Z * list callee);   (* callees *)
  g_out : list gline;                   (* standard output *)
  g_log : list (Z * Z * nat);           (* what was disassembled: address, length, number of looks at the context before *)
  g_polls : nat                         (* looks at the context so far *)
}.
Definition g0 : gst := Gst [] [] [] [] 0.
Definition emit (l : gline) (st : gst) : gst := Gst (g_ips st) (g_callees st) (g_out st ++ [l]) (g_log st) (g_polls st).
Definition poll (st : gst) : gst := Gst (g_ips st) (g_callees st) (g_out st) (g_log st) (S (g_polls st)).
Definition put_ip (ip : Z) (s : string) (st : gst) : gst := Gst (aput Z.eqb ip s (g_ips st)) (g_callees st) (g_out st) (g_log st) (g_polls st).
Definition put_callees (ip : Z) (cs : list callee) (st : gst) : gst := Gst (g_ips st) (aput Z.eqb ip cs (g_callees st)) (g_out st) (g_log st) (g_polls st).
Definition log_dis (ip bytes : Z) (st : gst) : gst := Gst (g_ips st) (g_callees st) (g_out st) (g_log st ++ [(ip, bytes, g_polls st)]) (g_polls st).

(** func_graph_proto.go:102-115 (getFuncProto) and 92-100 (checkTraceable, whose memo by name changes nothing) *)
Definition func_text (W : world) (name proto : string) : string := (proto ++ ";" ++ (if w_mark W name then " [traceable]" else ""))%string.
(** func_graph_proto.go:159-165, 181-187: the text of a function, remembered by address *)
Definition memo_text (W : world) (ip : Z) (name proto : string) (st : gst) : string * gst :=
  match aget Z.eqb ip (g_ips st) with
  | Some s => (s, st)
  | None => let s := func_text W name proto in (s, put_ip ip s st)
  end.
(** func_graph_proto.go:153-194 (getCallee) *)
Definition get_callee (W : world) (ip : Z) (st : gst) : option callee * gst :=
  match w_prog W ip with
  | Some (name, proto, len) => let '(s, st) := memo_text W ip name proto st in (Some (Callee ip s len), st)
  | None =>
      match w_sym W ip with
      | Some name =>
          match w_btf W name with
          | None => (Some (Callee ip name (w_guess W ip 0)), st)
          | Some proto => let '(s, st) := memo_text W ip name proto st in (Some (Callee ip s (w_guess W ip 0)), st)
          end
      | None => (None, st)
      end
  end.
(** func_graph_proto.go:213-223: the instructions of a function *)
Fixpoint find_callees (W : world) (ts : list Z) (st : gst) : list callee * gst :=
  match ts with
  | [] => ([], st)
  | t :: ts' =>
      if t =? 0 then find_callees W ts' st
      else let '(c, st) := get_callee W t st in
           let '(cs, st) := find_callees W ts' st in
           (match c with Some c => c :: cs | None => cs end, st)
  end.
(** func_graph_proto.go:207-226 *)
Definition callees_of (W : world) (ip bytes : Z) (st : gst) : list callee * gst :=
  match aget Z.eqb ip (g_callees st) with
  | Some cs => (cs, st)
  | None => let '(cs, st) := find_callees W (w_dis W ip bytes) (log_dis ip bytes st) in (cs, put_callees ip cs st)
  end.
(** func_graph_proto.go:196-232 (parse); [fuel]: maxDepth + 1 - depth, so that 0 is "depth > maxDepth" *)
Fixpoint parse (W : world) (cancel : nat -> bool) (fuel : nat) (ip bytes : Z) (depth : nat) (st : gst) {struct fuel} : gst :=
  match fuel with
  | O => st
  | S fuel' =>
      if cancel (g_polls st) then poll st
      else let '(cs, st) := callees_of W ip bytes (poll st) in
           fold_left (fun st c => parse W cancel fuel' (ce_ip c) (ce_bytes c) (S depth) (emit (GLine depth (ce_text c)) st)) cs st
  end.
(** One function asked for: its name (the sort key), text, address and length. *)
Record groot := Groot { r_name : string; r_text : string; r_ip : Z; r_bytes : Z }.
(** func_graph_proto.go:291-305, 318-326: the body of both loops *)
Definition show_root (W : world) (cancel : nat -> bool) (maxd : nat) (r : groot) (st : gst) : gst :=
  emit GBlank (parse W cancel maxd (r_ip r) (r_bytes r) 1 (emit (GLine 0 (r_text r)) st)).
Definition show_roots (W : world) (cancel : nat -> bool) (maxd : nat) (rs : list groot) (st : gst) : gst :=
  fold_left (fun st r => show_root W cancel maxd r st) rs st.
(** func_graph_proto.go:291-301: what is shown for a kernel function; [limit]: --disasm-bytes *)
Definition kroot (W : world) (limit : Z) (name : string) (addr : Z) : groot :=
  Groot name (match w_btf W name with Some p => func_text W name p | None => name end) addr (w_guess W addr limit).
(** func_graph_proto.go:318-323: what is shown for a BPF function; the text comes from the BTF of its program *)
Definition proot (W : world) (name proto : string) (ip len : Z) : groot := Groot name (func_text W name proto) ip len.
Definition by_name (a b : groot) : bool := String.leb (r_name a) (r_name b).
(** func_graph_proto.go:283-328 (ShowFuncGraphProto, after the tables are made); functions of the same name come in any order there *)
Definition show_graph (W : world) (cancel : nat -> bool) (maxd : nat) (ks ps : list groot) : gst :=
  let st := show_roots W cancel maxd (isort by_name ks) g0 in
  match ps with
  | [] => st
  | _ => show_roots W cancel maxd (isort by_name ps) (match ks with [] => st | _ => emit GBlank st end)
  end.
