(** * Last branch records: /repo/internal/bpfsnoop/bpfsnoop_lbr.go and lbr_stack.go.

    An endpoint is its address and function name (found by getLineInfo, given here as the function [name]); widths for alignment,
    colours and the line texts are left out.  Slices and pointers are lists. *)
From Coq Require Import List Bool String ZArith.
Import ListNotations.
Open Scope Z_scope.

(** bpfsnoop_lbr.go:15-19 LbrEntry *)
Record branch := { b_from : Z; b_to : Z; b_flags : Z }.
(** lbr_stack.go:12-24, 81-83: endpoints with their function *)
Record entry := { e_from : Z; e_fromf : string; e_to : Z; e_tof : string }.

Section Lbr.
  Variable name : Z -> string.
  (** bpfsnoop_lbr.go:68-73 *)
  Definition endpoint (b : branch) : entry := {| e_from := b_from b; e_fromf := name (b_from b); e_to := b_to b; e_tof := name (b_to b) |}.
  (** bpfsnoop_lbr.go:33-39 and the like: entries = entries[i:] for the first i that satisfies p, all when none does *)
  Fixpoint from_first (p : branch -> bool) (l : list branch) : option (list branch) :=
    match l with [] => None | b :: l' => if p b then Some l else from_first p l' end.
  Definition cut_front (p : branch -> bool) (l : list branch) : list branch := match from_first p l with Some r => r | None => l end.
  (** bpfsnoop_lbr.go:48-53: the last i that satisfies p: entries[:i+1] *)
  Definition cut_back (p : branch -> bool) (l : list branch) : list branch := rev (cut_front p (rev l)).
  (** What is being traced, for the trimming of bpfsnoop_lbr.go:31-64: [inf a] is "a lies in the traced function" *)
  Inductive what := Verbose | Kernel | ProgExit | ProgEntry.
  Definition trim (w : what) (inf : Z -> bool) (l : list branch) : list branch :=
    match w with
    | Verbose => l
    | Kernel | ProgEntry => cut_front (fun b => inf (b_from b)) l
    | ProgExit => let p := fun b => inf (b_from b) || inf (b_to b) in cut_back p (cut_front p l)
    end.

  (** lbr_stack.go:93-97, 124-127: records of entries; the stack with the index of its last record *)
  Record stack := { s_last : nat; s_recs : list (list entry) }.
  Definition reset : stack := {| s_last := 0; s_recs := [] |}.
  (** lbr_stack.go:147-149 pushFirstEntry *)
  Definition push_first (s : stack) (e : entry) : stack := {| s_last := s_last s; s_recs := s_recs s ++ [[e]] |}.
  Fixpoint set_nth (l : list (list entry)) (n : nat) (x : list entry) : list (list entry) :=
    match l, n with
    | [], _ => []
    | _ :: l', O => x :: l'
    | a :: l', S n' => a :: set_nth l' n' x
    end.
  (** lbr_stack.go:151-161 pushEntry; None for an index out of range *)
  Definition push (s : stack) (e : entry) : option stack :=
    match nth_error (s_recs s) (s_last s) with
    | None => None
    | Some r =>
        match rev r with
        | [] => None
        | last :: _ =>
            if String.eqb (e_tof last) (e_fromf e) then Some {| s_last := s_last s; s_recs := set_nth (s_recs s) (s_last s) (r ++ [e]) |}
            else Some {| s_last := S (s_last s); s_recs := s_recs s ++ [[e]] |}
        end
    end.
  Fixpoint pushes (s : stack) (l : list entry) : option stack :=
    match l with
    | [] => Some s
    | e :: l' => match push s e with None => None | Some s' => pushes s' l' end
    end.
  Inductive res := RPanic | RNothing | RShown (l : list (Z * list entry)).
  (** lbr_stack.go:194-203 output: the records with their numbers, counting down from lbrNr-1 *)
  Fixpoint number (i : Z) (l : list (list entry)) : list (Z * list entry) := match l with [] => [] | r :: l' => (i, r) :: number (i - 1) l' end.
  (** bpfsnoop_lbr.go:26-82 get and 84-105 outputStack after the map look-up: [data] the 32 hardware entries, newest first *)
  Definition show (w : what) (inf : Z -> bool) (lbr_nr : Z) (data : list branch) (nr_bytes : Z) : res :=
    match data with
    | [] => RNothing
    | b0 :: _ =>
        if (nr_bytes <=? 0) || ((b_from b0 =? 0) && (b_to b0 =? 0) && (b_flags b0 =? 0)) then RNothing
        else
          let n := nr_bytes / 24 in
          if Z.of_nat (List.length data) <? n then RPanic
          else
            let l := trim w inf (firstn (Z.to_nat n) data) in
            match w, l with
            | Verbose, [] => RPanic
            | _, [] => RNothing
            | _, _ =>
                match rev (map endpoint l) with
                | [] => RNothing
                | e :: es => match pushes (push_first reset e) es with None => RPanic | Some s => RShown (number (lbr_nr - 1) (s_recs s)) end
                end
            end
    end.
End Lbr.
