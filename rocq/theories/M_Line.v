(** * Line information of BPF programs: /repo/internal/bpfsnoop/bpf_prog_info.go and bpf_prog.go (get).

    Addresses are Z.  Simplified: of a function only its range, name and lines are kept; locking and waiting for the parser
    (bpf_prog.go:127-135) are modelled in M_A2l. *)
From Coq Require Import List Bool String Ascii ZArith.
Import ListNotations.
Open Scope string_scope.
Open Scope Z_scope.

(** btf.LineOffset: file and number of a source line *)
Record line := { l_file : string; l_num : Z }.
(** bpf_prog_info.go:17-44 bpfProgFuncInfo *)
Record pfunc := { pf_start : Z; pf_end : Z; pf_name : string; pf_addrs : list Z; pf_lines : list line }.
(** bpf_prog_info.go:46-52 bpfProgLineInfo *)
Record linfo := { li_func : string; li_start : Z; li_file : string; li_line : Z }.
Inductive lres := LNone | LPanic | LOk (l : linfo).

(** bpf_prog_info.go:21-23 *)
Definition contains_addr (f : pfunc) (a : Z) : bool := (pf_start f <=? a) && (a <? pf_end f).
(** bpf_prog_info.go:131-152: the function with the lines of its range, taken from the lines of the whole program *)
Definition new_func (start len : Z) (name : string) (tab : list (Z * line)) : pfunc :=
  let mine := filter (fun p => (start <=? fst p) && (fst p <? start + len)) tab in
  {| pf_start := start; pf_end := start + len; pf_name := name; pf_addrs := map fst mine; pf_lines := map snd mine |}.

(** Go's slices.BinarySearch on integers: the loop, [fuel] at least j - i *)
Fixpoint bsearch_loop (fuel : nat) (x : list Z) (t : Z) (i j : nat) : nat :=
  match fuel with
  | O => i
  | S fuel' => if Nat.ltb i j then let h := Nat.div2 (i + j) in
                 if nth h x 0 <? t then bsearch_loop fuel' x t (S h) j else bsearch_loop fuel' x t i h
               else i
  end.
Definition bsearch (x : list Z) (t : Z) : nat * bool :=
  let i := bsearch_loop (List.length x) x t 0 (List.length x) in
  (i, match nth_error x i with Some y => y =? t | None => false end).
(** strings.TrimLeft(s, "./") *)
Fixpoint trim_dots (s : string) : string :=
  match s with String c s' => if Ascii.eqb c "." || Ascii.eqb c "/" then trim_dots s' else s | EmptyString => s end.
Definition short_name (f : string) : string := match f with String "." _ => trim_dots f | _ => f end.
(** bpf_prog_info.go:58-80 bpfProgFuncInfo.get; LPanic for an index out of range *)
Definition func_get (f : pfunc) (a : Z) : lres :=
  if negb (contains_addr f a) then LNone
  else
    let '(i, ok) := bsearch (pf_addrs f) a in
    let idx := if (ok : bool) then Z.of_nat i else Z.of_nat i - 1 in
    if idx <? 0 then LPanic
    else match nth_error (pf_lines f) (Z.to_nat idx) with
         | None => LPanic
         | Some l => LOk {| li_func := pf_name f; li_start := pf_start f; li_file := short_name (l_file l); li_line := l_num l |}
         end.
(** bpf_prog.go:127-141 bpfProgs.get: the functions in the order the map is walked; also bpf_prog_info.go:161-169 *)
Fixpoint progs_get (fs : list pfunc) (a : Z) : lres :=
  match fs with
  | [] => LNone
  | f :: fs' => match func_get f a with LNone => progs_get fs' a | r => r end
  end.
