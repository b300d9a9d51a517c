(** * Reference C semantics of filter expressions (specification, no compiler notions).

    An expression is evaluated on a kernel memory (bytes), the 64-bit argument slots of the traced
    function and an environment of declared types and enumerators, as a C compiler for x86-64 Linux
    (LP64, little endian) would: integer promotions, usual arithmetic conversions, pointer scaling,
    array decay, short-circuit && || ?:.  [None] = undefined behaviour, a type error, or an access
    to an unmapped address.  Only the type environment ([ty], [under], [sizeof], member lookup) is
    shared with the model of the compiler. *)
From Coq Require Import ZArith List Bool String.
From Verif Require Import M_Ebpf M_CcNum M_Cc.
Import ListNotations.
Open Scope Z_scope.

Record cenv := {
  ce_bt : benv;                      (* sizes and members of types *)
  ce_vars : list (string * ty);      (* parameters, in order *)
  ce_slot : nat -> Z;                (* 64-bit slot of the i-th parameter *)
  ce_mem : Z -> Z;                   (* memory byte at an address (taken modulo 256) *)
  ce_map : Z -> bool;                (* readable addresses *)
  ce_enum : string -> option Z       (* enumerators in scope *)
}.

(** Values: an integer of a type of [w] bytes, a pointer to [t], or an object of type [t] at
    address [a] (bf: bit-field starting [st] bits into the byte at [a], [b] bits wide). *)
Inductive cv :=
| CInt (n w : Z) (sg : bool)
| CPtr (a : Z) (t : ty)
| CLoc (a : Z) (t : ty) (bf : option (Z * Z)).

(** The value of type [t] whose representation has the low bytes of [raw]. *)
Definition of_raw (t : ty) (raw : Z) : option cv :=
  match under t with
  | TInt w sg => if (w =? 1) || (w =? 2) || (w =? 4) || (w =? 8)
                 then Some (CInt (if sg then sgn (8 * w) raw else raw mod 2 ^ (8 * w)) w sg)
                 else None
  | TEnum w _ => if (w =? 4) || (w =? 8) then Some (CInt (raw mod 2 ^ (8 * w)) w false) else None
  | TPtr u => Some (CPtr (wrap raw) u)
  | _ => None
  end.

Definition rd (C : cenv) (a : Z) (n : nat) : option Z :=
  if forallb (fun i => ce_map C (wrap (a + Z.of_nat i))) (seq 0 n)
  then Some (le (fun x => ce_mem C (wrap x)) a n) else None.

(** Lvalue conversion: read the object, or decay an array. *)
Definition rval (C : cenv) (v : cv) : option cv :=
  match v with
  | CLoc a t None =>
      match under t with
      | TArr el _ => Some (CPtr (wrap a) el)
      | _ => match sizeof (ce_bt C) t with
             | Some w => match rd C a (Z.to_nat w) with
                         | Some raw => of_raw t raw
                         | None => None
                         end
             | None => None
             end
      end
  | CLoc a t (Some (st, b)) =>
      match rd C a (Z.to_nat ((st + b + 7) / 8)) with
      | Some raw => match of_raw t 0 with
                    | Some (CInt _ w sg) =>
                        let f := Z.shiftr raw st mod 2 ^ b in
                        Some (CInt (if sg then sgn b f else f) w sg)
                    | _ => None
                    end
      | None => None
      end
  | _ => Some v
  end.

(** The number compared with zero. *)
Definition num (v : cv) : option Z :=
  match v with CInt n _ _ => Some n | CPtr a _ => Some a | CLoc _ _ _ => None end.
Definition truth (v : cv) : option bool :=
  match num v with Some n => Some (negb (n =? 0)) | None => None end.

(** Integer types: (bytes, signed). *)
Definition ity : Type := Z * bool.
Definition promote (t : ity) : ity := if fst t <? 4 then (4, true) else t.
Definition common (a b : ity) : ity :=
  let '(wa, sa) := promote a in
  let '(wb, sb) := promote b in
  if wa =? wb then (wa, sa && sb) else if wa <? wb then (wb, sb) else (wa, sa).
Definition tmax (t : ity) : Z := if snd t then 2 ^ (8 * fst t - 1) - 1 else 2 ^ (8 * fst t) - 1.
Definition tmin (t : ity) : Z := if snd t then - 2 ^ (8 * fst t - 1) else 0.
(** Conversion to an integer type. *)
Definition conv (t : ity) (n : Z) : Z := if snd t then sgn (8 * fst t) n else n mod 2 ^ (8 * fst t).
(** Result of an arithmetic operation of that type: unsigned wraps, signed overflow is undefined. *)
Definition arith (t : ity) (n : Z) : option Z :=
  if snd t then (if (tmin t <=? n) && (n <=? tmax t) then Some n else None)
  else Some (n mod 2 ^ (8 * fst t)).
Definition mkint (t : ity) (o : option Z) : option cv :=
  match o with Some n => Some (CInt n (fst t) (snd t)) | None => None end.

Definition c_int_op (op : binop) (a b : Z) (ta tb : ity) : option cv :=
  let t := common ta tb in
  let x := conv t a in
  let y := conv t b in
  match op with
  | BAdd => mkint t (arith t (x + y))
  | BSub => mkint t (arith t (x - y))
  | BMul => mkint t (arith t (x * y))
  | BDiv => if y =? 0 then None else mkint t (arith t (Z.quot x y))
  | BMod => if y =? 0 then None else mkint t (arith t (Z.rem x y))
  | BAnd => mkint t (Some (Z.land x y))
  | BOr => mkint t (Some (Z.lor x y))
  | BXor => mkint t (Some (Z.lxor x y))
  | BLsh => let p := promote ta in
            let x := conv p a in
            if (b <? 0) || (8 * fst p <=? b) || (snd p && (x <? 0)) then None
            else mkint p (arith p (Z.shiftl x b))
  | BRsh => let p := promote ta in
            let x := conv p a in
            if (b <? 0) || (8 * fst p <=? b) then None
            else mkint p (Some (Z.shiftr x b))
  end.
(** Size of a pointed-to object for pointer arithmetic (GNU C: 1 for void). *)
Definition step_size (C : cenv) (t : ty) : option Z :=
  match under t with
  | TVoid => Some 1
  | _ => match sizeof (ce_bt C) t with Some n => if 0 <? n then Some n else None | None => None end
  end.
Definition c_bin (C : cenv) (op : binop) (l r : cv) : option cv :=
  match op, l, r with
  | _, CInt a wa sa, CInt b wb sb => c_int_op op a b (wa, sa) (wb, sb)
  | BAdd, CPtr a t, CInt b _ _ =>
      match step_size C t with Some k => Some (CPtr (wrap (a + b * k)) t) | None => None end
  | BAdd, CInt b _ _, CPtr a t =>
      match step_size C t with Some k => Some (CPtr (wrap (a + b * k)) t) | None => None end
  | BSub, CPtr a t, CInt b _ _ =>
      match step_size C t with Some k => Some (CPtr (wrap (a - b * k)) t) | None => None end
  | BSub, CPtr a t, CPtr b _ =>
      match step_size C t with Some k => Some (CInt (Z.quot (s64 (a - b)) k) 8 true) | None => None end
  | _, _, _ => None
  end.

Definition c_rel (op : cmpop) (a b : Z) : bool :=
  match op with
  | CEq => a =? b | CNe => negb (a =? b) | CLt => a <? b | CLe => a <=? b
  | CGt => b <? a | CGe => b <=? a
  end.
Definition int_bool (b : bool) : cv := CInt (if b then 1 else 0) 4 true.
Definition c_cmp (op : cmpop) (l r : cv) : option cv :=
  match l, r with
  | CInt a wa sa, CInt b wb sb =>
      let t := common (wa, sa) (wb, sb) in Some (int_bool (c_rel op (conv t a) (conv t b)))
  | CPtr a _, CPtr b _ => Some (int_bool (c_rel op a b))
  | CPtr a _, CInt b _ _ => Some (int_bool (c_rel op a (wrap b)))
  | CInt a _ _, CPtr b _ => Some (int_bool (c_rel op (wrap a) b))
  | _, _ => None
  end.

(** Type of an integer literal. *)
Definition lit_type (text : string) (n : Z) : ity :=
  if n <? 2 ^ 31 then (4, true)
  else if has_prefix "0" text && (n <? 2 ^ 32) then (4, false)
  else if n <? 2 ^ 63 then (8, true) else (8, false).
Definition enum_type (n : Z) : ity :=
  if (- 2 ^ 31 <=? n) && (n <? 2 ^ 31) then (4, true) else (8, true).

Fixpoint lookup_var (vs : list (string * ty)) (x : string) (i : nat) : option (nat * ty) :=
  match vs with
  | [] => None
  | (y, t) :: vs' => if String.eqb x y then Some (i, t) else lookup_var vs' x (S i)
  end.

(** Member [name] of an object of type [t] at address [a]. *)
Definition c_member (C : cenv) (a : Z) (t : ty) (name : string) : option cv :=
  let look := match under t with
              | TStruct tag => e_smember (ce_bt C) tag name
              | TUnion tag => e_umember (ce_bt C) tag name
              | _ => None
              end in
  match look with
  | Some (m, off) =>
      Some (CLoc (a + off) (m_ty m)
              (if m_bits m =? 0 then None else Some (m_bitoff m mod 8, m_bits m)))
  | None => None
  end.

Definition c_cast (t : ty) (v : cv) : option cv :=
  match num v with Some n => of_raw t n | None => None end.

(** Conversion of the selected branch of ?: to the common type of both. *)
Definition c_sel (sel other : cv) : option cv :=
  match sel, other with
  | CInt a wa sa, CInt _ wb sb => let t := common (wa, sa) (wb, sb) in mkint t (Some (conv t a))
  | CPtr _ _, _ => Some sel
  | CInt 0 _ _, CPtr _ t => Some (CPtr 0 t)
  | _, _ => None
  end.

(** The type denoted by a cast; C spelling to declared type is an oracle of the environment. *)
Section Sem.
  Variable C : cenv.
  Variable tyname : cctype -> option ty.

  Fixpoint csem (e : expr) : option cv :=
    let ev a := match csem a with Some v => rval C v | None => None end in
    match e with
    | EName x =>
        if String.eqb x "NULL" || String.eqb x "false" then Some (CInt 0 4 true)
        else if String.eqb x "true" then Some (CInt 1 4 true)
        else match lookup_var (ce_vars C) x 0 with
             | Some (i, t) => of_raw t (ce_slot C i)
             | None => match ce_enum C x with
                       | Some n => mkint (enum_type n) (Some n)
                       | None => None
                       end
             end
    | ENum t => match parse_unsigned t with
                | inl n => mkint (lit_type t n) (Some n)
                | inr _ => None
                end
    | EArrow a m => match ev a with Some (CPtr p t) => c_member C p t m | _ => None end
    | EDot a m => match csem a with Some (CLoc p t None) => c_member C p t m | _ => None end
    | EIndex a i =>
        match ev a, ev i with
        | Some (CPtr p t), Some (CInt n _ _) =>
            match step_size C t with Some k => Some (CLoc (p + n * k) t None) | None => None end
        | _, _ => None
        end
    | EIndir a => match ev a with Some (CPtr p t) => Some (CLoc p t None) | _ => None end
    | EAddr a => match csem a with Some (CLoc p t None) => Some (CPtr (wrap p) t) | _ => None end
    | ECast ct a => match ev a, tyname ct with
                    | Some v, Some t => c_cast t v
                    | _, _ => None
                    end
    | EParen a => csem a
    | EPlus a => match ev a with
                 | Some (CInt n w sg) => mkint (promote (w, sg)) (Some n)
                 | _ => None
                 end
    | EBin op a b => match ev a, ev b with Some x, Some y => c_bin C op x y | _, _ => None end
    | ECmp op a b => match ev a, ev b with Some x, Some y => c_cmp op x y | _, _ => None end
    | EAndAnd a b =>
        match ev a with
        | Some x => match truth x with
                    | Some false => Some (int_bool false)
                    | Some true => match ev b with
                                   | Some y => option_map int_bool (truth y)
                                   | None => None
                                   end
                    | None => None
                    end
        | None => None
        end
    | EOrOr a b =>
        match ev a with
        | Some x => match truth x with
                    | Some true => Some (int_bool true)
                    | Some false => match ev b with
                                    | Some y => option_map int_bool (truth y)
                                    | None => None
                                    end
                    | None => None
                    end
        | None => None
        end
    | ENot a => match ev a with
                | Some x => option_map (fun b => int_bool (negb b)) (truth x)
                | None => None
                end
    | ETwid a => match ev a with
                 | Some (CInt n w sg) =>
                     let t := promote (w, sg) in mkint t (Some (conv t (Z.lnot (conv t n))))
                 | _ => None
                 end
    | EMinus a => match ev a with
                  | Some (CInt n w sg) => let t := promote (w, sg) in mkint t (arith t (- conv t n))
                  | _ => None
                  end
    | ECond c a b =>
        match ev c with
        | Some x => match truth x, ev a, ev b with
                    | Some true, Some y, Some z => c_sel y z
                    | Some false, Some y, Some z => c_sel z y
                    | _, _, _ => None
                    end
        | None => None
        end
    | EPreInc _ | EPreDec _ | ECall _ _ | EOther => None
    end.
End Sem.
