(** * Variables of an expression: ExtractVarNames of /repo/internal/cc/variable.go.

    A parsed expression (rsc.io/c2go/cc) is seen as a tree: names, other leaves (numbers, strings), operators with their operands, and calls.
    Type names inside casts are not expressions: cc.Walk visits them without meeting a Name expression. *)
From Coq Require Import List Bool String.
From Verif Require Import M_Go M_Cc M_Kfuncs.
Import ListNotations.
Open Scope string_scope.
Open Scope list_scope.

Inductive node := NName (x : string) | NLeaf | NOp (kids : list node) | NCall (f : node) (args : list node).
(** variable.go:23-30: cc.Walk, collecting the text of Name expressions *)
Fixpoint walk (e : node) : list string :=
  match e with
  | NName x => [x]
  | NLeaf => []
  | NOp kids => (fix go (l : list node) := match l with [] => [] | k :: l' => walk k ++ go l' end) kids
  | NCall f args => walk f ++ (fix go (l : list node) := match l with [] => [] | k :: l' => walk k ++ go l' end) args
  end.
(** variable.go:13-35 after parsing; None: index out of range (e.List[0] of a call without arguments).  [sort_compact] is slices.Sort
    followed by slices.Compact. *)
Definition extract (e : node) : option (list string) :=
  match e with
  | NCall _ [] => None
  | NCall _ (a :: _) => Some (sort_compact (walk a))
  | _ => Some (sort_compact (walk e))
  end.
(** The expressions of the compiler model as trees (EOther: constructs the compiler rejects; they are not looked into). *)
Fixpoint tree (e : expr) : node :=
  match e with
  | EName x => NName x
  | ENum _ | EOther => NLeaf
  | EArrow a _ | EDot a _ | EIndir a | EAddr a | ECast _ a | EParen a | ENot a | ETwid a | EMinus a | EPlus a | EPreInc a | EPreDec a => NOp [tree a]
  | EIndex a b | EBin _ a b | ECmp _ a b | EAndAnd a b | EOrOr a b => NOp [tree a; tree b]
  | ECond a b c => NOp [tree a; tree b; tree c]
  | ECall f args => NCall (tree f) (map tree args)
  end.
