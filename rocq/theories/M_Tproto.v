(** * Type listings: /repo/internal/bpfsnoop/type_proto.go.

    - A type as the listing sees it: a struct or union with its members, or anything else.  The C text of a type (btfx.Repr) is given; its size
      (btf.Sizeof) too.  A member whose type is a typedef of a struct is not expanded: it is a leaf.
    - Lines are structured: indentation depth, text and the numbers of the comment at their end; padding is left out. *)
From Coq Require Import List Bool String ZArith.
From Verif Require Import M_Go.
Import ListNotations.
Open Scope list_scope.
Open Scope Z_scope.

(** type_proto.go:95-117: the ways a leaf member is declared: pointer to function, other pointer, array, other *)
Inductive tkind := KFuncPtr (proto : string -> string) | KPtr (repr : string) | KArr (elem : string) (n : string) | KOther (repr : string).
Inductive tty :=
| TRec (struct : bool) (name : string) (ms : list tmember)
| TLeaf (k : tkind) (size : Z)
with tmember := TMember (name : string) (off bits : Z) (t : tty).       (** bit offset, bit-field size (0: none) *)
Definition tm_name (m : tmember) := let 'TMember n _ _ _ := m in n.
Definition tm_off (m : tmember) := let 'TMember _ o _ _ := m in o.
Definition tm_bits (m : tmember) := let 'TMember _ _ b _ := m in b.
Definition tm_type (m : tmember) := let 'TMember _ _ _ t := m in t.

Inductive tline :=
| LOpen (depth : nat) (struct : bool) (name : string)
| LClose (depth : nat) (name : string)                       (** "} name;" or "};" *)
| LMember (depth : nat) (decl : string) (off : Z) (bit : option (Z * Z)) (size : Z).
(** type_proto.go:95-124 *)
Definition decl (k : tkind) (n : string) : string :=
  match k with
  | KFuncPtr p => p n ++ ";"
  | KPtr r => r ++ n ++ ";"
  | KArr e c => e ++ " " ++ n ++ "[" ++ c ++ "]"
  | KOther r => r ++ " " ++ n ++ ";"
  end%string.
(** type_proto.go:52-66: offsets are uint32 *)
Definition member_line (depth : nat) (k : tkind) (size : Z) (n : string) (off bits prev : Z) : tline :=
  LMember depth (decl k n) (u32 (off + prev) / 8) (if bits =? 0 then None else Some (Z.land off 7, bits)) (if bits =? 0 then size else 0).
(** type_proto.go:126-178 showStructUnionMemberProto, showStructProto, showUnionProto *)
Fixpoint show_member (prev : Z) (depth : nat) (m : tmember) {struct m} : list tline :=
  match m with
  | TMember n off bits t =>
      match t with
      | TRec s rn ms =>
          LOpen depth s rn :: (fix go (l : list tmember) : list tline := match l with [] => [] | x :: l' => show_member (u32 (off + prev)) (S depth) x ++ go l' end) ms ++ [LClose depth n]
      | TLeaf k size => [member_line depth k size n off bits prev]
      end
  end.
Definition show_rec (s : bool) (rn : string) (ms : list tmember) : list tline :=
  LOpen 0 s rn :: flat_map (show_member 0 1) ms ++ [LClose 0 EmptyString].
(** type_proto.go:180-194: enumerators, values printed as unsigned 64-bit numbers (cilium/ebpf keeps negative ones sign-extended) *)
Definition show_enum (vals : list (string * Z)) : list (string * Z) := map (fun v => (fst v, u64 (snd v))) vals.
(** type_proto.go:201-234 showTypeProto: what is printed, in order *)
Inductive tnamed := NRec (s : bool) (rn : string) (ms : list tmember) | NEnum (name : string) (vals : list (string * Z)) | NFunc (proto : string).
Inductive tout := OLines (l : list tline) | OEnum (name : string) (vals : list (string * Z)) | OFunc (proto : string) | OSemi.
Fixpoint show_types (ts : list tnamed) : list tout * list tout :=            (* printed at once; kept in the builder *)
  match ts with
  | [] => ([], [])
  | t :: ts' =>
      let '(now, sb) := show_types ts' in
      match t with
      | NRec s rn ms => (now, OLines (show_rec s rn ms) :: sb)
      | NEnum n vs => (now, OEnum n (show_enum vs) :: sb)
      | NFunc p => (OFunc p :: now, OSemi :: sb)
      end
  end.
Definition show_type_proto (ts : list tnamed) : list tout := let '(now, sb) := show_types ts in now ++ sb.
