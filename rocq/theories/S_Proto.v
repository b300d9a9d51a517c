(** * Specification: reading prototypes (C91). *)
From Coq Require Import List Bool String Ascii Arith.
From Verif Require Import M_Proto.
Import ListNotations.
Open Scope string_scope.
Open Scope list_scope.

(** Names of C. *)
Definition word_char (c : ascii) : bool :=
  let n := nat_of_ascii c in
  (Nat.leb 48 n && Nat.leb n 57) || (Nat.leb 65 n && Nat.leb n 90) || (Nat.leb 97 n && Nat.leb n 122) || Nat.eqb n 95.
Fixpoint all_chars (p : ascii -> bool) (s : string) : bool := match s with EmptyString => true | String c s' => p c && all_chars p s' end.
Definition int_words : list string := ["int"; "char"; "short"; "long"; "unsigned"; "signed"; "_Bool"; "__int128"].
Definition keywords : list string := int_words ++ ["void"; "enum"; "struct"; "union"; "const"; "volatile"; "restrict"].
Definition tag (n : string) : Prop := n <> "" /\ all_chars word_char n = true.
Definition name (n : string) : Prop := tag n /\ ~ In n keywords.
(** An integer type: "int", "long unsigned int", ... *)
Definition int_name (n : string) : Prop := exists ws, ws <> [] /\ (forall w, In w ws -> In w int_words) /\ n = String.concat " " ws.

(** Types without qualified pointers, qualified typedefs, arrays, floats, tags below qualifiers or other tags, and types of functions. *)
Inductive qualified : ty -> Prop :=
| Q_void : qualified TVoid
| Q_int n : int_name n -> qualified (TInt n)
| Q_enum n : tag n -> qualified (TEnum n)
| Q_struct n : tag n -> qualified (TStruct n)
| Q_union n : tag n -> qualified (TUnion n)
| Q_const t : qualified t -> qualified (TConst t)
| Q_volatile t : qualified t -> qualified (TVolatile t).
Inductive plain : ty -> Prop :=
| P_qual t : qualified t -> plain t
| P_tag v t : name v -> qualified t -> plain (TTag v t)
| P_typedef n t : name n -> plain (TTypedef n t)
| P_ptr t : plain t -> plain (TPtr t).
(** The same type, where typedefs are the same if they have the same name. *)
Inductive same : ty -> ty -> Prop :=
| S_refl t : same t t
| S_typedef n t t' : same (TTypedef n t) (TTypedef n t')
| S_ptr t t' : same t t' -> same (TPtr t) (TPtr t').

Definition plain_param (p : string * ty) : Prop := (fst p = "" \/ name (fst p)) /\ plain (snd p).
Definition plain_func (f : bfn) : Prop := name (bf_name f) /\ plain (bf_ret f) /\ Forall plain_param (bf_params f).
Definition same_param (p q : string * ty) : Prop := fst p = fst q /\ same (snd p) (snd q).
(** The same prototype: name, result, and parameters one by one. *)
Definition same_func (f g : bfn) : Prop := bf_name f = bf_name g /\ same (bf_ret f) (bf_ret g) /\ Forall2 same_param (bf_params f) (bf_params g).

(** Types all of whose names are not empty. *)
Inductive has_names : ty -> Prop :=
| N_void : has_names TVoid | N_int n : n <> "" -> has_names (TInt n) | N_enum n : has_names (TEnum n) | N_struct n : has_names (TStruct n)
| N_union n : has_names (TUnion n) | N_func n : has_names (TFunc n) | N_proto : has_names TFuncProto | N_float n : has_names (TFloat n)
| N_array t n : has_names t -> has_names (TArray t n) | N_ptr t : has_names t -> has_names (TPtr t)
| N_typedef n t : n <> "" -> has_names (TTypedef n t) | N_volatile t : has_names t -> has_names (TVolatile t) | N_const t : has_names t -> has_names (TConst t)
| N_restrict t : has_names t -> has_names (TRestrict t) | N_tag v t : has_names t -> has_names (TTag v t) | N_other s : s <> "" -> has_names (TOther s).
