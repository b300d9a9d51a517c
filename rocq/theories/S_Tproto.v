(** * What a type listing should say. *)
From Coq Require Import List Bool String ZArith.
From Verif Require Import M_Go M_Tproto.
Import ListNotations.
Open Scope Z_scope.

(** The member reached by following [p] - the position of a member in its record, then the position in that member's type, ... - and its
    distance in bits from the start of the outermost record. *)
Fixpoint at_path (ms : list tmember) (p : list nat) : option (tmember * Z) :=
  match p with
  | [] => None
  | i :: p' =>
      match nth_error ms i with
      | None => None
      | Some m =>
          match p' with
          | [] => Some (m, tm_off m)
          | _ => match tm_type m with
                 | TRec _ _ ms' => match at_path ms' p' with Some (m', o) => Some (m', tm_off m + o) | None => None end
                 | TLeaf _ _ => None
                 end
          end
      end
  end.
Definition is_leaf (m : tmember) : Prop := match tm_type m with TLeaf _ _ => True | TRec _ _ _ => False end.
(** order of declaration *)
Fixpoint before (p q : list nat) : Prop :=
  match p, q with
  | i :: p', j :: q' => (i < j)%nat \/ i = j /\ before p' q'
  | _, _ => False
  end.
(** records begin at whole bytes, and offsets fit in 32 bits, as in every C type *)
Definition layout_ok (ms : list tmember) : Prop :=
  forall p m o, at_path ms p = Some (m, o) -> 0 <= o < 2 ^ 32 /\ 0 <= tm_off m /\ (~ is_leaf m -> tm_off m mod 8 = 0).
(** The line of a leaf member [m] at bit [o], [k] records deep. *)
Definition line_of (k : nat) (m : tmember) (o : Z) (l : tline) : Prop :=
  match tm_type m with
  | TLeaf kd size =>
      l = LMember k (decl kd (tm_name m)) (o / 8) (if tm_bits m =? 0 then None else Some (o mod 8, tm_bits m)) (if tm_bits m =? 0 then size else 0)
  | TRec _ _ _ => False
  end.
Definition member_lines (ls : list tline) : list tline := filter (fun l => match l with LMember _ _ _ _ _ => true | _ => false end) ls.
