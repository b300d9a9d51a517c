(** * Kernel symbol table: /repo/internal/bpfsnoop/kallsyms.go and kaslr.go *)
From Coq Require Import ZArith List Bool String Ascii.
From Verif Require Import M_Go.
Import ListNotations.
Open Scope Z_scope.

(** strconv.ParseUint(s, 16, 64): used at kallsyms.go:127,158.  (Underscores are only accepted by
    strconv when base = 0, so they are bad digits here.) *)
Definition hexval (c : ascii) : option Z :=
  let n := Z.of_nat (nat_of_ascii c) in
  if (48 <=? n) && (n <=? 57) then Some (n - 48)
  else if (97 <=? n) && (n <=? 102) then Some (n - 87)
  else if (65 <=? n) && (n <=? 70) then Some (n - 55)
  else None.
Fixpoint parse_hex_go (s : string) (acc : Z) : option Z :=
  match s with
  | EmptyString => Some acc
  | String c s' =>
      match hexval c with
      | None => None
      | Some d => let acc' := acc * 16 + d in
                  if W64 <=? acc' then None else parse_hex_go s' acc'
      end
  end.
Definition parse_hex (s : string) : option Z :=
  match s with EmptyString => None | _ => parse_hex_go s 0 end.

(** KsymEntry, kallsyms.go:58-64.  Entries are heap objects shared by the two maps: the model keeps
    them in one list (the heap) and the maps hold positions in it. *)
Record ksym := { kaddr : Z; kname : string; kmod : string; kextra : list Z; kduped : bool }.

Record kallsyms := {
  heap : list ksym;
  a2s : list (Z * nat);           (* addr => heap position *)
  n2s : list (string * nat);      (* name => heap position *)
  mods : list string;
  specials : list (string * Z)    (* stext, sysBPF, bpfRawTpStart, ... : symbol => address *)
}.
Definition ks_empty : kallsyms := {| heap := []; a2s := []; n2s := []; mods := []; specials := [] |}.

Fixpoint upd_nth {A} (n : nat) (f : A -> A) (l : list A) {struct l} : list A :=
  match l with
  | [] => []
  | x :: l' => match n with O => f x :: l' | S k => x :: upd_nth k f l' end
  end.

(** kallsyms.go:55-57.  "bpf", "__builtin..." and the empty module name. *)
Definition is_builtin_mod (m : string) : bool :=
  String.eqb m "" || prefix "__builtin" m || String.eqb m "bpf".

Definition code_specials : list string :=
  ["_stext"; "__x64_sys_bpf"; "__start__bpf_raw_tp"; "__stop__bpf_raw_tp"; "bpf_trace_modules"; "x86_pmu"]%string.
Definition data_specials : list string :=
  ["__start__bpf_raw_tp"; "__stop__bpf_raw_tp"; "bpf_trace_modules"; "x86_pmu"]%string.
Definition mem_str (s : string) (l : list string) : bool := existsb (String.eqb s) l.

(** One line of /proc/kallsyms already split into fields (strings.Fields is trusted); the module
    field comes with its brackets removed (strings.Trim).  kallsyms.go:118-209.
    Result None = NewKallsyms returns an error. *)
Definition ks_line (ks : kallsyms) (fields : list string) : option kallsyms :=
  match fields with
  | fa :: ft :: fn :: rest =>
      if String.eqb ft "t" || String.eqb ft "T" then
        match parse_hex fa with
        | None => None
        | Some a =>
            let md := match rest with m :: _ => m | [] => EmptyString end in
            let pos := List.length (heap ks) in
            let dup := aget String.eqb fn (n2s ks) in
            let e := {| kaddr := a; kname := fn; kmod := md; kextra := [];
                        kduped := match dup with Some _ => true | None => false end |} in
            let heap' := match dup with
                         | Some p => upd_nth p (fun x => {| kaddr := kaddr x; kname := kname x; kmod := kmod x;
                                                            kextra := kextra x ++ [a]; kduped := true |}) (heap ks)
                         | None => heap ks
                         end in
            Some {| heap := heap' ++ [e];
                    a2s := aput Z.eqb a pos (a2s ks);
                    n2s := match dup with Some _ => n2s ks | None => aput String.eqb fn pos (n2s ks) end;
                    mods := if mem_str md (mods ks) || is_builtin_mod md then mods ks else mods ks ++ [md];
                    specials := if mem_str fn code_specials then aput String.eqb fn a (specials ks) else specials ks |}
        end
      else if String.eqb ft "D" || String.eqb ft "d" then
        if mem_str fn data_specials then
          match parse_hex fa with
          | None => None
          | Some a => Some {| heap := heap ks; a2s := a2s ks; n2s := n2s ks; mods := mods ks;
                              specials := aput String.eqb fn a (specials ks) |}
          end
        else Some ks
      else if String.eqb ft "R" || String.eqb ft "r" then
        if String.eqb fn "btf_id_deny" then
          match parse_hex fa with
          | None => None
          | Some a => Some {| heap := heap ks; a2s := a2s ks; n2s := n2s ks; mods := mods ks;
                              specials := aput String.eqb fn a (specials ks) |}
          end
        else Some ks
      else Some ks
  | _ => Some ks     (* fewer than three fields: skipped, kallsyms.go:119-121 *)
  end.

Fixpoint ks_lines (ks : kallsyms) (ls : list (list string)) : option kallsyms :=
  match ls with
  | [] => Some ks
  | l :: ls' => match ks_line ks l with None => None | Some ks' => ks_lines ks' ls' end
  end.

(** NewKallsyms, kallsyms.go:102-222.  Simplified: the modules are left in the order of the file (the code sorts them). *)
Definition new_kallsyms (ls : list (list string)) : option kallsyms := ks_lines ks_empty ls.
(** ks.addrs = sorted keys of a2s, kallsyms.go:214-215 *)
Definition addrs (ks : kallsyms) : list Z := isort Z.leb (keys (a2s ks)).

(** index, kallsyms.go:234-255.  [fuel] bounds the loop; [index] supplies j - i iterations, which
    the loop can never exceed.  Outcome: IPanic = index out of range (run-time panic). *)
Inductive ires := IPanic | INone | ISome (i : nat).
Fixpoint index_loop (fuel : nat) (l : list Z) (addr : Z) (i j : nat) : nat :=
  match fuel with
  | O => (i - 1)%nat
  | S f =>
      if (i <? j)%nat then
        let h := ((i + j) / 2)%nat in
        if nth h l 0 <=? addr then
          if (h + 1 <? List.length l)%nat && (addr <? nth (h + 1) l 0) then h
          else index_loop f l addr (h + 1) j
        else index_loop f l addr i h
      else (i - 1)%nat
  end.
Definition ks_index (l : list Z) (addr : Z) : ires :=
  match l with
  | [] => IPanic                                      (* ks.addrs[0] on an empty slice *)
  | a0 :: _ => if (addr <? a0) || (last l 0 <? addr) then INone
               else ISome (index_loop (List.length l) l addr 0 (List.length l))
  end.

(** find / next, kallsyms.go:258-279.  The a2s map lookup of an address taken from addrs. *)
Definition entry_at (ks : kallsyms) (a : Z) : option ksym :=
  match aget Z.eqb a (a2s ks) with Some p => nth_error (heap ks) p | None => None end.
Inductive fres := FPanic | FNone | FSome (e : option ksym).
Definition ks_find (ks : kallsyms) (addr : Z) : fres :=
  match ks_index (addrs ks) addr with
  | IPanic => FPanic
  | INone => FNone
  | ISome i => FSome (entry_at ks (nth i (addrs ks) 0))
  end.
Definition ks_next (ks : kallsyms) (addr : Z) : fres :=
  match ks_index (addrs ks) addr with
  | IPanic => FPanic
  | INone => FNone
  | ISome i => if (List.length (addrs ks) <=? i + 1)%nat then FNone
               else FSome (entry_at ks (nth (i + 1) (addrs ks) 0))
  end.

(** findBySymbol, kallsyms.go:281-309.  Go's map iteration order is a parameter: [order] is any
    permutation of the map's pairs. *)
Definition suffixes : list string :=
  [".constprop.0"; ".isra.0"; ".isra.0.cold"; ".cold"; ".part.0"]%string.
Definition entry_pos (ks : kallsyms) (p : option nat) : option ksym :=
  match p with Some p => nth_error (heap ks) p | None => None end.
Fixpoint first_suffix (m : list (string * nat)) (sym : string) (sfx : list string) : option nat :=
  match sfx with
  | [] => None
  | s :: sfx' => match aget String.eqb (String.append sym s) m with
                 | Some p => Some p
                 | None => first_suffix m sym sfx'
                 end
  end.
Fixpoint first_prefix (order : list (string * nat)) (pfx : string) : option nat :=
  match order with
  | [] => None
  | (n, p) :: o => if prefix pfx n then Some p else first_prefix o pfx
  end.
Definition find_by_symbol (ks : kallsyms) (order : list (string * nat)) (sym : string) : option ksym :=
  entry_pos ks
    (match aget String.eqb sym (n2s ks) with
     | Some p => Some p
     | None => match first_suffix (n2s ks) sym suffixes with
               | Some p => Some p
               | None => first_prefix order (String.append sym ".llvm.")
               end
     end).

(** findSymbol, kallsyms.go:311-317 *)
Definition find_symbol (ks : kallsyms) (addr : Z) : string :=
  match entry_at ks addr with Some e => kname e | None => EmptyString end.

(** ** kaslr.go *)
Record kaslr := { k_kaddr : Z; k_saddr : Z }.
(** effectiveAddr, kaslr.go:14-20 (uint64 arithmetic wraps). *)
Definition effective_addr (k : kaslr) (a : Z) : Z :=
  if k_saddr k <? k_kaddr k then u64 (a - u64 (k_kaddr k - k_saddr k))
  else u64 (a + u64 (k_saddr k - k_kaddr k)).
(** revertAddr, kaslr.go:22-28 *)
Definition revert_addr (k : kaslr) (a : Z) : Z :=
  if k_saddr k <? k_kaddr k then u64 (a + u64 (k_kaddr k - k_saddr k))
  else u64 (a - u64 (k_saddr k - k_kaddr k)).
(** offset, kaslr.go:30-36 *)
Definition kaslr_offset (k : kaslr) : Z :=
  if k_saddr k <? k_kaddr k then u64 (k_kaddr k - k_saddr k) else u64 (k_saddr k - k_kaddr k).
