(** * Kernel source lines: Addr2Line of /repo/internal/bpfsnoop/addr2line.go.

    The DWARF tables (github.com/Asphaltt/addr2line) are functions from link-time addresses to lines; line information is a number.
    Finding and opening the files of a module is a parameter with its three outcomes. *)
From Coq Require Import List Bool String ZArith.
From Verif Require Import M_Go M_Kallsyms M_Cache.
Import ListNotations.
Open Scope Z_scope.

Definition dwarf := Z -> option Z.
(** What addKmod finds for a module (addr2line.go:217-275): debug data (None when it cannot be read, :241-247) and the load address;
    nothing (ErrNotFound); or another error *)
Inductive modfile := MFound (d : option dwarf) (k : kaslr) | MMissing | MError.
(** One boot of one kernel *)
Record boot := { b_vmlinux : dwarf; b_kaslr : kaslr; b_mods : string -> modfile }.
(** addr2line.go:33-47: the cache, its counter and the modules opened so far *)
Record st := { t_cache : cache; t_cnt : Z; t_kmods : list (string * (option dwarf * kaslr)) }.
Inductive answer := ALine (l : Z) | ANotFound | AError | APanic.

(** addr2line.go:277-303 getMod, for the module of the symbol (None: no symbol) *)
Definition get_mod (b : boot) (s : st) (sym : option string) : option (option dwarf * kaslr) * st :=
  match sym with
  | None => (Some (Some (b_vmlinux b), b_kaslr b), s)
  | Some m =>
      if is_builtin_mod m then (Some (Some (b_vmlinux b), b_kaslr b), s)
      else
        match aget String.eqb m (t_kmods s) with
        | Some r => (Some r, s)
        | None =>
            let add r := (Some r, {| t_cache := t_cache s; t_cnt := t_cnt s; t_kmods := aput String.eqb m r (t_kmods s) |}) in
            match b_mods b m with
            | MMissing => add (None, {| k_kaddr := 0; k_saddr := 0 |})
            | MError => (None, s)
            | MFound d k => add (d, k)
            end
        end
  end.
(** addr2line.go:306-334 get, once create() is done; [save_ok]: saveFile works if it is called *)
Definition get (b : boot) (save_ok : bool) (s : st) (addr : Z) (sym : option string) : answer * st :=
  match aget Z.eqb addr (t_cache s) with
  | Some l => (ALine l, s)
  | None =>
      let '(r, s1) := get_mod b s sym in
      match r with
      | None => (match sym with None => APanic | Some _ => AError end, s1)
      | Some (None, _) => (ANotFound, s1)
      | Some (Some d, k) =>
          match d (effective_addr k addr) with
          | None => (AError, s1)
          | Some l =>
              match sym with
              | None => (APanic, s1)  (* ksym.mod with a nil ksym *)
              | Some m =>
                  if String.eqb m "bpf" then (ALine l, s1)
                  else
                    let '(c, n, sv) := add (t_cache s1) (t_cnt s1) addr l in
                    let s2 := {| t_cache := c; t_cnt := n; t_kmods := t_kmods s1 |} in
                    if (sv : bool) && negb save_ok then (AError, s2) else (ALine l, s2)
              end
          end
      end
  end.
(** The look-ups of one run *)
Fixpoint gets (b : boot) (s : st) (l : list (Z * option string * bool)) : list answer * st :=
  match l with
  | [] => ([], s)
  | (a, sym, ok) :: l' => let '(r, s1) := get b ok s a sym in let '(rs, s2) := gets b s1 l' in (r :: rs, s2)
  end.
(** NewAddr2Line with a cache loaded from disk (addr2line.go:84-101) *)
Definition fresh (c : cache) : st := {| t_cache := c; t_cnt := 0; t_kmods := [] |}.
