(** * How values are shown: /repo/internal/btfx/types.go.

    - A type is what is left after mybtf.UnderlyingType (typedef, const, volatile removed at every level).
    - Numbers are shown as structured values; the digits that fmt's %d and %#x print are left out.
    - Values are 64-bit numbers; [junk] stands for the memory after the 24-byte array that the unsafe reads of GetU64 may touch.
    - Enum values are the 64-bit numbers given by cilium/ebpf (negative ones sign-extended). *)
From Coq Require Import List Bool String ZArith.
From Verif Require Import M_Go.
Import ListNotations.
Open Scope list_scope.
Open Scope Z_scope.

Inductive vty :=
| VInt (size : Z) (signed isbool : bool)
| VEnum (size : Z) (vals : list (string * Z))
| VPtr (fn : bool)
| VRec (name : string) (ms : list (string * Z * Z * vty))   (** struct or union: name, bit offset and bit-field size (0: none) of the members *)
| VOther (size : option Z).                               (** arrays, floats, ...; None: btf.Sizeof fails *)
Inductive shown :=
| SHex (v : Z) | SDec (v : Z) | SHexDec (v : Z) | SFunc (v : Z) (sym : string) | SBool (b : bool) | SName (s : string) | SBits (v : Z)
| SRec (name : string) (ms : list (string * shown)) | SUnk | SErr.

(** types.go:202-208 GetU64: 8 bytes from an index that must lie in the 24-byte array *)
Definition get8 (junk data : list Z) (off : Z) : option Z :=
  if (off <? 0) || (24 <=? off) then None else Some (le_bytes (firstn 8 (skipn (Z.to_nat off) (data ++ junk)))).
Fixpoint le_put (n : nat) (v : Z) : list Z := match n with O => [] | S k => v mod 256 :: le_put k (v / 256) end.
(** types.go:248-251: SetU64 twice *)
Definition words (val next : Z) : list Z := le_put 8 val ++ le_put 8 next ++ repeat 0 8.
(** int64(v), int32(v), ... *)
Definition sint (n v : Z) : Z := let m := v mod 2 ^ (8 * n) in if m <? 2 ^ (8 * n - 1) then m else m - 2 ^ (8 * n).
Definition uint (n v : Z) : Z := v mod 2 ^ (8 * n).
(** types.go:187-200 ReprEnumValue *)
Definition enum_name (vals : list (string * Z)) (v : Z) : shown := match find (fun p => snd p =? v) vals with Some p => SName (fst p) | None => SDec v end.
(** mybtf.DumpBitfield(offset, size, data) *)
Definition bits (off size : Z) (data : list Z) : Z := Z.shiftr (le_bytes data) off mod 2 ^ size.
(** types.go:264-318: the switch over the size *)
Definition repr_num (find : Z -> string) (t : vty) (v : Z) : shown :=
  match t with
  | VInt 8 s _ => if s then SDec (sint 8 v) else if sint 8 v <? 0 then SHex v else SHexDec v
  | VEnum 8 _ | VOther (Some 8) => if sint 8 v <? 0 then SHex v else SHexDec v
  | VPtr fn => if fn then (if String.eqb (find v) "" then SHex v else SFunc v (find v)) else SHex v
  | VEnum 4 vals => enum_name vals v
  | VInt 4 s _ => if s then SDec (sint 4 v) else SHexDec (uint 4 v)
  | VOther (Some 4) => SHexDec (uint 4 v)
  | VInt 2 s _ => if s then SDec (sint 2 v) else SHexDec (uint 2 v)
  | VEnum 2 _ | VOther (Some 2) => SHexDec (uint 2 v)
  | VInt 1 s b => if s then SDec (sint 1 v) else if b then SBool (negb (v =? 0)) else SHexDec (uint 1 v)
  | VEnum 1 _ | VOther (Some 1) => SHexDec (uint 1 v)
  | VOther None => SErr
  | _ => SUnk
  end.
(** types.go:210-237 reprMember, reprStructUnionMembers, 239-321 ReprValue; None: index out of range *)
Fixpoint repr (find : Z -> string) (junk : list Z) (t : vty) (val next : Z) : option shown :=
  match t with
  | VRec name ms =>
      option_map (SRec name)
        ((fix go (ms : list (string * Z * Z * vty)) : option (list (string * shown)) :=
          match ms with
          | [] => Some []
          | (n, boff, bsz, mt) :: ms' =>
              match (if bsz =? 0 then
                       match get8 junk (words val next) (boff / 8), get8 junk (words val next) (boff / 8 + 8) with
                       | Some v, Some w => repr find junk mt v w
                       | _, _ => None
                       end
                     else Some (SBits (bits 0 bsz (words val next)))) with
              | Some s => match go ms' with Some l => Some ((n, s) :: l) | None => None end
              | None => None
              end
          end) ms)
  | _ => Some (repr_num find t val)
  end.
(** types.go:323-332 reprValue for what is not a string; [target]: the type pointed to when isNumberPtr *)
Definition repr_value (find : Z -> string) (junk : list Z) (t : vty) (target : option vty) (data data2 next : Z) : option (shown * option shown) :=
  match target with
  | Some u => if data =? 0 then Some (SHex data, None) else option_map (fun s => (SHex data, Some s)) (repr find junk u data2 next)
  | None => option_map (fun s => (s, None)) (repr find junk t data next)
  end.
