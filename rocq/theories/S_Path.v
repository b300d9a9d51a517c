(** * Access paths (specification): members and elements reached from an object. *)
From Coq Require Import ZArith List Bool String.
From Verif Require Import M_Ebpf M_CcNum M_Cc.
Import ListNotations.
Open Scope Z_scope.

(** An access path of members and elements with literal indices. *)
Inductive step := SDot (f : string) | SIdx (i : string).
Definition add_step (e : expr) (s : step) : expr := match s with SDot f => EDot e f | SIdx i => EIndex e (ENum i) end.
Definition path (e : expr) (l : list step) : expr := List.fold_left add_step l e.

Section Path.
  Variable K : cfg.
  Notation E := (cf_env K).
  (** ** Paths: offset and type of the object reached from an object of type t. *)
  Fixpoint path_off (t : ty) (l : list step) : option (Z * ty) :=
    match l with
    | [] => Some (0, t)
    | SDot f :: l' =>
        match find_member E (under t) f with
        | Some (x, off) => if m_bits x =? 0 then
                             match path_off (m_ty x) l' with Some (o, u) => Some (off + o, u) | None => None end
                           else None
        | None => None
        end
    | SIdx i :: l' =>
        match under t, parse_unsigned i with
        | TArr u _, inl n => match sizeof E u, path_off u l' with Some k, Some (o, u') => if 0 <? k then Some (n * k + o, u') else None | _, _ => None end
        | _, _ => None
        end
    end.
  (** Every prefix has an offset in [0, 2^15); indexed arrays are not 1, 2 or 4 bytes long in total. *)
  Fixpoint path_ok (t : ty) (o : Z) (l : list step) : Prop :=
    0 <= o < 2 ^ 15 /\
    match l with
    | [] => True
    | SDot f :: l' => match find_member E (under t) f with Some (x, off) => 0 <= off /\ path_ok (m_ty x) (o + off) l' | None => False end
    | SIdx i :: l' => match under t, parse_unsigned i with
                      | TArr u k, inl n => sizeof E t <> Some 1 /\ sizeof E t <> Some 2 /\ sizeof E t <> Some 4 /\ 0 <= n /\
                                           path_ok u (o + n * sizeof0 E (Some u)) l'
                      | _, _ => False
                      end
    end.
End Path.
