(** * Flame graph: /repo/internal/bpfsnoop/flamegraph.go.

    Simplified: Go ints are Z (no overflow); the tree of pointers is an inductive tree; a folded line is kept as its path and
    number until [render]; the file written by Save (108-130) is the concatenation [content].  The slice [path] that traverse shares
    between siblings (77) is a list: a sibling only overwrites the slot of the frame already printed. *)
From Coq Require Import List Bool String ZArith DecimalString.
Import ListNotations.
Open Scope string_scope.
Open Scope Z_scope.

(** flamegraph.go:15-19 StackFrame *)
Inductive frame := Frame (name : string) (value : Z) (kids : list frame).
Definition fname (f : frame) := let 'Frame n _ _ := f in n.
Definition fval (f : frame) := let 'Frame _ v _ := f in v.
Definition fkids (f : frame) := let 'Frame _ _ k := f in k.

(** flamegraph.go:46-63: the children after one pass of the loop; the first child of that name is taken. *)
Fixpoint update (x : string) (v : Z) (sub : list frame -> list frame) (l : list frame) : list frame :=
  match l with
  | [] => [Frame x v (sub [])]
  | Frame n w k :: l' => if String.eqb n x then Frame n (w + v) (sub k) :: l' else Frame n w k :: update x v sub l'
  end.
Fixpoint insert (st : list string) (v : Z) (l : list frame) : list frame :=
  match st with
  | [] => l
  | x :: st' => update x v (insert st' v) l
  end.
(** flamegraph.go:21-31 FlameGraph, NewFlameGraph *)
Record graph := { g_root : frame; g_total : Z }.
Definition new_graph : graph := {| g_root := Frame "root" 0 []; g_total := 0 |}.
(** flamegraph.go:36-64 AddStack *)
Definition add_stack (g : graph) (st : list string) (v : Z) : graph :=
  match st with
  | [] => g
  | _ => let 'Frame n w k := g_root g in {| g_root := Frame n (w + v) (insert st v k); g_total := g_total g + v |}
  end.

(** flamegraph.go:68-103 generateFoldedStacks *)
Definition self_value (f : frame) : Z := fold_left (fun s c => s - fval c) (fkids f) (fval f).
Fixpoint traverse (f : frame) (path : list string) {struct f} : list (list string * Z) :=
  match f with
  | Frame n v k =>
      let is_root := String.eqb n "root" in
      let cur := if is_root then path else (path ++ [n])%list in
      let own := if negb is_root && (0 <? self_value (Frame n v k)) then [(cur, self_value (Frame n v k))] else [] in
      (own ++ (fix go (l : list frame) := match l with [] => [] | c :: l' => traverse c cur ++ go l' end) k)%list
  end.
Definition folded (g : graph) : list (list string * Z) := traverse (g_root g) [].
Definition render (l : list string * Z) : string := String.concat ";" (fst l) ++ " " ++ NilZero.string_of_int (Z.to_int (snd l)).
(** flamegraph.go:106-130 Save: None when no file is written *)
Definition content (g : graph) : option string :=
  match fkids (g_root g), folded g with
  | [], _ => None
  | _, [] => None
  | _, l => Some (String.concat (String (Ascii.ascii_of_nat 10) "") (map render l) ++ String (Ascii.ascii_of_nat 10) "")
  end.
