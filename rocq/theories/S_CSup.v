(** * The supported fragment of filter expressions (specification).

    [sup e] computes, next to the C value [csem e] of an expression, whether the expression lies
    (for the given arguments and memory) in the fragment for which the compiler is proved correct.
    Every guard is a condition on C values, C types, widths and memory; none mentions emitted code.
    What each guard excludes is shown to be a real miscompilation by a _refuted theorem of T_CcVals.v, T_CcAddr.v, T_CcNum.v, T_CcReg.v
    or T_CcSafe.v, or is noted here.

    - operands of / % << >> < <= > >= are non-negative (the compiler has no signed operations); negative
      values may be tested for truth, offset by a constant, masked with a non-negative one, narrowed
      by a cast, used in 64-bit + - * & | ^ and, where their representations tell them apart, compared
      with == and !=;
    - results are representable in the C result type and in the width the compiler tracks for the
      value (that of the left operand), or both are 64-bit;
    - run-time constants lie in the range of a signed 32-bit immediate and, in comparisons, below
      2^width of the other operand;
    - pointers that are dereferenced further are not NULL; an integer member to which a constant is
      added directly is not 0 (the compiler null-checks it);
    - reads need as many mapped bytes as the read instruction fetches;
    - member offsets are below 2^15; arrays whose total size is 1, 2 or 4 are not used as pointers;
    - array elements are used only for their address;
    - CO-RE mode: the object is read through a pointer to a struct/union known to the kernel, or
      has offset 0. *)
From Coq Require Import ZArith List Bool String.
From Verif Require Import M_Ebpf M_CcNum M_Cc S_CSem.
Import ListNotations.
Open Scope Z_scope.

(** How the compiler holds the value of a sub-expression. *)
Inductive tk :=
| KNum (t : option ty)                 (* integer constant (possibly cast to t) *)
| KEnum (x : string)                   (* an enumerator, resolved by the other operand's type *)
| KLoc (prev : option ty) (off : Z)    (* object not yet read: offset [off] behind a pointer of type prev *)
| KElem (off : Z)                      (* object of which only the address is available *)
| KVal (t : option ty) (pend hop : bool). (* value of tracked type t; pend: not yet in a register;
                                             hop: obtained by reading memory last *)

(** Literals whose cast to a pointer (or integer) is available: not 0, sign-extended 32-bit numbers, like the addresses of the
    kernel image and modules, 0xffffffff8....... to 0xffffffffffffffff. *)
Definition literal_ok (n : Z) : bool := (0 <? n) && ((n <? 2 ^ 31) || ((2 ^ 64 - 2 ^ 31 <=? n) && (n <? 2 ^ 64))).

Section Sup.
  Variable K : cfg.
  Variable C : cenv.
  Notation E := (cf_env K).
  Notation ctype := (cc2btf (cf_env K)).
  Notation sem := (csem C (cc2btf (cf_env K))).

  (** Width in bytes the compiler masks values of a type to. *)
  Definition tw (t : option ty) : Z :=
    let n := sizeof0 E t in if (n =? 1) || (n =? 2) || (n =? 4) then n else 8.
  Definition lim (t : option ty) : Z := 2 ^ (8 * tw t).

  Definition ptr_elt (t : ty) : option ty :=
    match under t with TPtr u => Some u | TArr u _ => Some u | _ => None end.
  Definition optr (t : option ty) : option ty := match t with Some u => ptr_elt u | None => None end.

  (** Bytes fetched by the instruction that reads an object of type t at offset off behind a
      pointer of type prev. *)
  Definition nbytes (prev t : option ty) (off : Z) : option nat :=
    match cf_mode K with
    | MDirect | MProbe => Some 8%nat
    | MCore =>
        match can_cast K prev with
        | None => None
        | Some None => if off =? 0 then Some 8%nat else None
        | Some (Some _) =>
            match ld_size E t with
            | None => None
            | Some n => if can_read_cast t then Some n
                        else if off =? 0 then Some 8%nat else None
            end
        end
    end.
  Definition readable (a : Z) (prev t : option ty) (off : Z) : option nat :=
    if (0 <=? off) && (off <? 2 ^ 15) then
      match nbytes prev t off with
      | Some n => match rd C a n with Some _ => Some n | None => None end
      | None => None
      end
    else None.

  (** The value of a run-time operand: C value, tracked type, and the bound l such that the value is
      represented by its remainder modulo l. *)
  Definition ldr (v : cv) (k : tk) : option (Z * option ty * Z) :=
    match k, v with
    | KVal t _ _, (CInt n _ _ | CPtr n _) =>
        if (- lim t <=? 2 * n) && (n <? lim t) then Some (n, t, lim t) else None
    | KLoc prev off, CLoc a t bf =>
        match readable a prev (Some t) off, rval C v with
        | Some nb, Some (CInt n _ _ | CPtr n _) =>
            if is_arr t then None else
            match bf with
            | None => Some (n, Some t, lim (Some t))
            | Some (st, b) =>
                if (0 <=? st) && (st <? 8) && (0 <? b) && (b <? 32) && (st + b <=? 8 * Z.of_nat nb)
                then Some (n, Some t, 2 ^ b) else None
            end
        | _, _ => None
        end
    | KElem _, CLoc a t None =>
        if is_arr t && (tw (Some t) =? 8) then Some (wrap a, Some t, 2 ^ 64) else None
    | _, _ => None
    end.
  (** The same, for non-negative values only. *)
  Definition ld (v : cv) (k : tk) : option (Z * option ty * Z) :=
    match ldr v k with
    | Some (n, t, l) => if n <? 0 then None else Some (n, t, l)
    | None => None
    end.
  Definition pend_of (k : tk) : bool :=
    match k with KLoc _ _ | KElem _ => true | KVal _ p _ => p | _ => false end.
  Definition hop_of (k : tk) : bool :=
    match k with KLoc _ _ => true | KVal _ p h => p && h | _ => false end.
  Definition bf_of (v : cv) : bool := match v with CLoc _ _ (Some _) => true | _ => false end.

  (** A pointer that is followed: address and tracked pointer type. *)
  Definition ptrval (v : cv) (k : tk) : option (Z * ty) :=
    match ld v k with
    | Some (p, Some t, _) =>
        match ptr_elt t, rval C v with
        | Some _, Some (CPtr _ _) => if hop_of k && (p =? 0) then None else Some (p, t)
        | _, _ => None
        end
    | _ => None
    end.
  Definition small (off : Z) : bool := (0 <=? off) && (off <? 2 ^ 31).
  Definition s32ok (c : Z) : bool := (- 2 ^ 31 <=? c) && (c <? 2 ^ 31).

  (** Member (m, off) reached through a followed pointer. *)
  Definition sup_member (prev : option ty) (t : ty) (name : string) : option tk :=
    match find_member E (under t) name with
    | Some (m, off) =>
        if is_arr (m_ty m) then (if small off && (m_bits m =? 0) then Some (KElem off) else None)
        else if (0 <=? off) && (off <? 2 ^ 15) then Some (KLoc prev off) else None
    | None => None
    end.

  (** Operand of a binary operator: constant or run-time value. *)
  Inductive opnd := ONum (n : Z) (t : option ty) | ORun (n : Z) (t : option ty) (l : Z).
  Definition tracked (v : cv) (k : tk) : option ty :=
    match k, v with
    | KVal t _ _, _ => t
    | (KLoc _ _ | KElem _), CLoc _ t _ => Some t
    | _, _ => None
    end.
  Definition is_run (k : tk) : bool :=
    match k with KVal _ _ _ | KLoc _ _ | KElem _ => true | _ => false end.
  Definition operand_by (load : cv -> tk -> option (Z * option ty * Z)) (v : cv) (k : tk) (v' : cv) (k' : tk)
    : option opnd :=
    match k, v with
    | KNum t, CInt n _ _ => Some (ONum n t)
    | KEnum x, CInt n _ _ =>
        if is_run k' then
          match extract_enum (tracked v' k') x with
          | Some n' => if (n' =? n) && (- 2 ^ 63 <=? n) && (n <? 2 ^ 63)
                       then Some (ONum n None) else None
          | None => None
          end
        else None
    | _, _ => match load v k with Some (n, t, l) => Some (ORun n t l) | None => None end
    end.
  Definition operand := operand_by ld.      (* non-negative at run time *)
  Definition operandr := operand_by ldr.    (* any value *)

  (** No overflow, operands converted without change; L: bound of the tracked width. *)
  Definition ring_ok (z : Z) (ct : ity) (L : Z) : bool :=
    ((0 <=? z) && (z <? L) && (z <=? tmax ct)) ||
    ((L =? 2 ^ 64) && (fst ct =? 8)).
  Definition arith_ok (op : binop) (a b : Z) (ct : ity) (L : Z) : bool :=
    let both := (0 <=? a) && (0 <=? b) && (a <=? tmax ct) && (b <=? tmax ct) in
    let full := (L =? 2 ^ 64) && (fst ct =? 8) in
    match op with
    | BAdd => ring_ok (a + b) ct L
    | BSub => ring_ok (a - b) ct L
    | BMul => ring_ok (a * b) ct L
    | BDiv | BMod => both && (0 <? b) && (a <? L)
    | BAnd => full || ((0 <=? b) && (b <=? tmax ct) && (b <? L)) || ((0 <=? a) && (a <=? tmax ct) && (a <? L))
    | BOr => full || (both && (Z.lor a b <? L))
    | BXor => full || (both && (Z.lxor a b <? L))
    | BLsh => (0 <=? a) && (a <=? tmax ct) && (0 <=? b) && (b <? 64) &&
              ring_ok (Z.shiftl a b) ct L
    | BRsh => (0 <=? a) && (a <=? tmax ct) && (0 <=? b) && (b <? 64) && (a <? L)
    end.
  Definition const_ok (op : binop) (a b : Z) (ct : ity) : bool :=
    let both := (0 <=? a) && (0 <=? b) && (a <=? tmax ct) && (b <=? tmax ct) in
    let rng z := (tmin ct <=? z) && (z <=? tmax ct) && (- 2 ^ 63 <=? z) && (z <? 2 ^ 63) in
    match op with
    | BAdd => rng (a + b)
    | BSub => rng (a - b)
    | BMul => rng (a * b)
    | BDiv | BMod => both && (0 <? b) && (a <? 2 ^ 63)
    | BAnd | BOr | BXor => both && (a <? 2 ^ 63) && (b <? 2 ^ 63)
    | BLsh => (0 <=? a) && (a <=? tmax ct) && (0 <=? b) && (b <? 64) && rng (Z.shiftl a b)
    | BRsh => (0 <=? a) && (a <=? tmax ct) && (0 <=? b) && (b <? 64) && (a <? 2 ^ 63)
    end.

  Definition shift_op (op : binop) : bool := match op with BLsh | BRsh => true | _ => false end.
  (** The representations of a and b, modulo la and lb, serve as 64-bit ones: the values are not negative or use all
      64 bits; for &, one of them is not negative and below the other's bound. *)
  Definition wide (n l : Z) : bool := (0 <=? n) || (l =? 2 ^ 64).
  Definition reps_ok (op : binop) (a la b lb : Z) : bool :=
    (wide a la && wide b lb) ||
    match op with BAnd => ((0 <=? b) && (b <? la)) || ((0 <=? a) && (a <? lb)) | _ => false end.
  (** Size by which the compiler scales constants added to a pending value of tracked type t. *)
  Definition const_step (t : option ty) : option Z :=
    match t with
    | Some u =>
        match under u with
        | TPtr tgt => match under tgt with
                      | TVoid => Some 1
                      | _ => let n := sizeof0 E (Some tgt) in if n =? 0 then None else Some n
                      end
        | TArr el _ => let n := sizeof0 E (Some el) in if n =? 0 then None else Some n
        | _ => Some 1
        end
    | None => Some 1
    end.
  (** [pending value] + c. *)
  Definition sup_add_const (v : cv) (k : tk) (n : Z) (t : option ty) (c : Z) (res : cv) (sub : bool)
    : option tk :=
    if bf_of v || (c =? 0) || negb (s32ok c) || (hop_of k && (n =? 0)) then None else
    match const_step t with
    | None => None
    | Some step =>
        if negb (s32ok (c * step)) || negb (s32ok (- (c * step))) then None else
        match res, optr t with
        | CPtr _ _, Some _ => Some (KVal t true false)
        | CInt _ w sg, None =>
            if ring_ok (if sub then n - c else n + c) (w, sg) (lim t) || (tw t <=? w)
            then Some (KVal t true false) else None
        | _, _ => None
        end
    end.
  Definition run_size (t : option ty) : Z :=
    match optr t with Some u => sizeof0 E (Some u) | None => 0 end.

  Definition op_ring (op : binop) : bool := match op with BAdd | BSub => true | _ => false end.

  Definition sup_bin (op : binop) (v1 : cv) (k1 : tk) (v2 : cv) (k2 : tk) (res : cv) : option tk :=
    match operandr v1 k1 v2 k2, operandr v2 k2 v1 k1 with
    | Some (ONum a _), Some (ONum b _) =>
        match res with
        | CInt _ w sg => if const_ok op a b (w, sg) then Some (KNum None) else None
        | _ => None
        end
    | Some (ORun a t la), Some (ONum b _) =>
        match op, pend_of k1 with
        | BAdd, true => sup_add_const v1 k1 a t b res false
        | BSub, true => sup_add_const v1 k1 a t b res true
        | _, _ =>
            if negb (s32ok b) || (shift_op op && (b =? 0)) || negb (reps_ok op a la b (2 ^ 64)) then None else
            match res, optr t with
            | CPtr _ _, Some _ =>
                if (op_ring op) && (run_size t <? 2 ^ 31) then Some (KVal t false false) else None
            | CInt _ w sg, None => if arith_ok op a b (w, sg) (lim t)
                                   then Some (KVal t false false) else None
            | _, _ => None
            end
        end
    | Some (ONum a ta), Some (ORun b t lb) =>
        match op, pend_of k2 with
        | BAdd, true => sup_add_const v2 k2 b t a res false
        | _, _ =>
            if negb (s32ok a) || negb (reps_ok op a (2 ^ 64) b lb) then None else
            match res, optr ta with
            | CInt _ w sg, None => if arith_ok op a b (w, sg) (lim ta)
                                   then Some (KVal ta false false) else None
            | _, _ => None
            end
        end
    | Some (ORun a t la), Some (ORun b _ lb) =>
        if negb (reps_ok op a la b lb) then None else
        match res, optr t with
        | CPtr _ _, Some _ =>
            match rval C v1, rval C v2 with
            | Some (CPtr _ _), Some (CInt _ _ _) =>
                if (op_ring op) && (run_size t <? 2 ^ 31) then Some (KVal t false false) else None
            | _, _ => None
            end
        | CInt _ w sg, None => if arith_ok op a b (w, sg) (lim t)
                               then Some (KVal t false false) else None
        | _, _ => None
        end
    | _, _ => None
    end.

  (** Comparisons.  Two values, at least one of them negative, represented modulo la and lb: their
      representations are equal iff they are. *)
  Definition eq_ok (a la b lb : Z) : bool :=
    ((la =? lb) && (2 * a <? la) && (2 * b <? lb)) ||
    ((a <? 0) && (0 <=? b) && (2 * b <? la)) || ((b <? 0) && (0 <=? a) && (2 * a <? lb)).
  (** A constant compared with a value represented modulo l: a negative one needs an immediate that
      equals its representation, which a 32-bit one lacks. *)
  Definition imm_ok (b l : Z) : bool :=
    s32ok b && (- l <=? 2 * b) && (2 * b <? l) && ((0 <=? b) || (l <=? 2 ^ 31) || (l =? 2 ^ 64)).
  Definition is_eq (op : cmpop) : bool := match op with CEq | CNe => true | _ => false end.

  Definition sup_cmp (op : cmpop) (v1 : cv) (k1 : tk) (v2 : cv) (k2 : tk) : option tk :=
    let ct := match rval C v1, rval C v2 with
              | Some (CInt _ w1 s1), Some (CInt _ w2 s2) => common (w1, s1) (w2, s2)
              | _, _ => (8, false)
              end in
    let fits a b := (tmin ct <=? a) && (a <=? tmax ct) && (tmin ct <=? b) && (b <=? tmax ct) in
    match operandr v1 k1 v2 k2, operandr v2 k2 v1 k1 with
    | Some (ONum a _), Some (ONum b _) => if fits a b then Some (KNum None) else None
    | Some (ORun a t l), Some (ONum b _) =>
        if ((0 <=? a) && (0 <=? b) && (b <? 2 ^ 31) && (b <? l) && (a <=? tmax ct)) ||
           (is_eq op && fits a b && eq_ok a l b l && imm_ok b l)
        then Some (KVal t false false) else None
    | Some (ONum a ta), Some (ORun b t l) =>
        if ((0 <=? b) && (0 <=? a) && (a <? 2 ^ 31) && (a <? l) && (b <=? tmax ct)) ||
           (is_eq op && fits a b && eq_ok a l b l && imm_ok a l)
        then Some (KVal ta false false) else None
    | Some (ORun a t la), Some (ORun b _ lb) =>
        if ((0 <=? a) && (0 <=? b) && (a <=? tmax ct) && (b <=? tmax ct)) ||
           (is_eq op && fits a b && eq_ok a la b lb)
        then Some (KVal t false false) else None
    | _, _ => None
    end.

  (** && and ||: [z] is the value of a constant operand that decides the result. *)
  Definition sup_logic (v1 : cv) (k1 : tk) (v2 : cv) (k2 : tk) (decides : Z -> bool) : option tk :=
    match operandr v1 k1 v2 k2, operandr v2 k2 v1 k1 with
    | Some (ONum _ _), Some (ONum _ _) => Some (KNum None)
    | Some (ONum a _), Some (ORun _ t _) => if decides a then Some (KNum None) else Some (KVal t false false)
    | Some (ORun _ t _), Some (ONum b _) => if decides b then Some (KNum None) else Some (KVal t false false)
    | Some (ORun _ t _), Some (ORun _ _ _) => Some (KVal t false false)
    | _, _ => None
    end.

  (** Casts of anything but a literal. *)
  Definition sup_cast (t : ty) (v : cv) (k : tk) (res : cv) : option tk :=
    match num res with
    | None => None
    | Some n' =>
        match k with
        | KNum _ => match v, res with
                    | CInt n _ _, CInt _ _ _ => if n' =? n then Some (KNum (Some t)) else None
                    | _, _ => None
                    end
        | KEnum _ => None
        | KElem _ => match v with
                     | CLoc _ t0 None => if is_arr t0 then Some (KVal (Some t) true false) else None
                     | _ => None
                     end
        | KVal t0 true false =>
            match ldr v k with
            | Some _ => if tw (Some t) <=? tw t0 then Some (KVal (Some t) true false) else None
            | None => None
            end
        | KVal _ true true => None
        | KVal t0 false _ =>
            match ld v k with
            | Some (n, _, _) => if n' =? n then Some (KVal (Some t) false false) else None
            | None => None
            end
        | KLoc prev off =>
            match v, ldr v k with
            | CLoc a t0 None, Some _ =>
                match readable a prev (Some t) off with
                | Some _ => if tw (Some t) <=? tw (Some t0)
                            then Some (KVal (Some t) true true) else None
                | None => None
                end
            | _, _ => None
            end
        end
    end.

  (** ?: with a run-time condition of tracked type tc. *)
  Definition sup_branch (tc : option ty) (v : cv) (k : tk) (res : cv) : option tk :=
    match res with
    | CInt n' _ _ =>
        match k with
        | KNum _ => match v with
                    | CInt n _ _ => if (n' =? n) && (0 <=? n) && (n <? 2 ^ 31) && (n <? lim tc)
                                    then Some (KVal tc false false) else None
                    | _ => None
                    end
        | KEnum _ => None
        | _ => match ld v k with
               | Some (n, _, _) => if (n' =? n) && (n <? lim tc) then Some (KVal tc false false) else None
               | None => None
               end
        end
    | _ => None
    end.
  Definition not_enum (k : tk) : bool := match k with KEnum _ => false | _ => true end.
  Definition sup_cond (vc : cv) (kc : tk) (v1 : cv) (k1 : tk) (v2 : cv) (k2 : tk) (res : cv) : option tk :=
    match kc, vc with
    | KNum _, CInt n _ _ =>
        let '(v, k) := if negb (n =? 0) then (v1, k1) else (v2, k2) in
        match k, v, res with
        | (KNum _ | KVal _ _ _), CInt m _ _, CInt m' _ _ => if m =? m' then Some k else None
        | _, _, _ => None
        end
    | _, _ =>
        match ldr vc kc with
        | Some (n, t, _) =>
            if not_enum k1 && not_enum k2 then
              (if negb (n =? 0) then sup_branch t v1 k1 res else sup_branch t v2 k2 res)
            else None
        | None => None
        end
    end.

  Fixpoint sup (e : expr) : option tk :=
    match e with
    | EName x =>
        if String.eqb x "NULL" || String.eqb x "false" || String.eqb x "true" then Some (KNum None)
        else match lookup_var (cf_vars K) x 0 with
             | Some (i, t) => Some (KVal (Some t) true false)
             | None => Some (KEnum x)
             end
    | ENum t => match parse_unsigned t with
                | inl n => if n <? 2 ^ 63 then Some (KNum None) else None
                | inr _ => None
                end
    | EArrow a m =>
        match sem a, sup a with
        | Some v, Some k =>
            match ptrval v k with
            | Some (_, t) => match ptr_elt t with
                             | Some u => sup_member (Some t) u m
                             | None => None
                             end
            | None => None
            end
        | _, _ => None
        end
    | EDot a m =>
        match sem a, sup a with
        | Some (CLoc _ t None), Some (KLoc prev off) =>
            match find_member E (under t) m with
            | Some (mm, off') =>
                if is_arr (m_ty mm) then
                  (if small (off + off') && (m_bits mm =? 0) then Some (KElem (off + off')) else None)
                else if (0 <=? off + off') && (off + off' <? 2 ^ 15)
                     then Some (KLoc prev (off + off')) else None
            | None => None
            end
        | Some (CLoc _ t None), Some (KElem off) =>
            match find_member E (under t) m with
            | Some (mm, off') => if small (off + off') && (m_bits mm =? 0)
                                 then Some (KElem (off + off')) else None
            | None => None
            end
        | _, _ => None
        end
    | EIndex a i =>
        match sem a, sup a, i with
        | Some v, Some k, ENum txt =>
            match ptrval v k, parse_unsigned txt with
            | Some (_, t), inl n =>
                match ptr_elt t with
                | Some u => let off := n * sizeof0 E (Some u) in
                            if small off && (n <? 2 ^ 63) then Some (KElem off) else None
                | None => None
                end
            | _, _ => None
            end
        | _, _, _ => None
        end
    | EIndir a =>
        match sem a, sup a with
        | Some v, Some k => match ptrval v k with
                            | Some (_, t) => Some (KLoc (Some t) 0)
                            | None => None
                            end
        | _, _ => None
        end
    | EAddr a =>
        match sem a, sup a with
        | Some (CLoc _ t None), Some (KLoc _ _ | KElem _) => Some (KVal (Some (TPtr t)) true false)
        | _, _ => None
        end
    | ECast ct a =>
        match a, ctype ct, sem e with
        | ENum txt, Some t, Some _ =>
            match parse_unsigned txt with
            | inl n => if literal_ok n then Some (KVal (Some t) true false) else None
            | inr _ => None
            end
        | _, Some t, Some res =>
            match sem a, sup a with
            | Some v, Some k => sup_cast t v k res
            | _, _ => None
            end
        | _, _, _ => None
        end
    | EParen a => sup a
    | EPlus a => match sup a with
                 | Some (KNum t) => Some (KNum t)
                 | Some (KVal t p h) => Some (KVal t p h)
                 | _ => None
                 end
    | EBin op a b =>
        match sem a, sup a, sem b, sup b, sem e with
        | Some v1, Some k1, Some v2, Some k2, Some res => sup_bin op v1 k1 v2 k2 res
        | _, _, _, _, _ => None
        end
    | ECmp op a b =>
        match sem a, sup a, sem b, sup b with
        | Some v1, Some k1, Some v2, Some k2 => sup_cmp op v1 k1 v2 k2
        | _, _, _, _ => None
        end
    | EAndAnd a b =>
        match sem a, sup a, sem b, sup b with
        | Some v1, Some k1, Some v2, Some k2 => sup_logic v1 k1 v2 k2 (fun n => n =? 0)
        | _, _, _, _ => None
        end
    | EOrOr a b =>
        match sem a, sup a, sem b, sup b with
        | Some v1, Some k1, Some v2, Some k2 => sup_logic v1 k1 v2 k2 (fun n => negb (n =? 0))
        | _, _, _, _ => None
        end
    | ENot a =>
        match sem a, sup a with
        | Some _, Some (KNum _) => Some (KNum None)
        | Some v, Some k => match ldr v k with Some (_, t, _) => Some (KVal t false false) | None => None end
        | _, _ => None
        end
    | ETwid a =>
        match sem a, sup a, sem e with
        | Some (CInt n _ _), Some (KNum _), Some (CInt n' _ _) =>
            if n' =? Z.lnot n then Some (KNum None) else None
        | Some v, Some k, Some (CInt _ w sg) =>
            match ld v k with
            | Some (_, t, l) => if (w =? 8) && negb sg && (lim t =? 2 ^ 64) && (l =? 2 ^ 64)
                                then Some (KVal t false false) else None
            | None => None
            end
        | _, _, _ => None
        end
    | EMinus a =>
        match sem a, sup a, sem e with
        | Some (CInt n _ _), Some (KNum _), Some (CInt n' _ _) =>
            if (n' =? - n) && (- 2 ^ 63 <=? n') && (n' <? 2 ^ 63) then Some (KNum None) else None
        | _, _, _ => None
        end
    | ECond c a b =>
        match sem c, sup c, sem a, sup a, sem b, sup b, sem e with
        | Some vc, Some kc, Some v1, Some k1, Some v2, Some k2, Some res =>
            sup_cond vc kc v1 k1 v2 k2 res
        | _, _, _, _, _, _, _ => None
        end
    | EPreInc _ | EPreDec _ | ECall _ _ | EOther => None
    end.
  Definition supported (e : expr) : bool := match sup e with Some _ => true | None => false end.
End Sup.
