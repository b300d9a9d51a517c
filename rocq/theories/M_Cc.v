(** * The expression compiler of /repo/internal/cc.

    Models compiler.go, register.go, expr_value.go, evaluate.go, materialize.go,
    bpf_direct_read.go, bpf_probe_read.go, bpf_core_read.go, bpf_btf.go, insn.go and expr.go.

    External oracles (fields of [benv]): member lookup and offsets (github.com/Asphaltt/mybtf
    FindStructMember/StructMemberOffset/FindUnionMember/UnionMemberOffset), type-by-name lookup
    (cilium btf.Spec.AnyTypeByName), type ids (btf.Spec.TypeID).  The C parser (rsc.io/c2go) is
    represented by the [expr] AST it returns. *)
From Coq Require Import ZArith List Bool String.
From Verif Require Import M_Ebpf M_CcNum.
Import ListNotations.
Open Scope Z_scope.

(** BTF types (cilium/ebpf btf.Type).  [TAlias] stands for every wrapper removed by
    mybtf.UnderlyingType (typedef, const, volatile, restrict, type tag).  Struct and union
    contents are looked up by tag. [TOther] is any other type (func, float, fwd, ...), with its
    btf.Sizeof when it has one. *)
Inductive ty :=
| TVoid
| TInt (size : Z) (signed : bool)
| TEnum (size : Z) (vals : list (string * Z))
| TPtr (t : ty)
| TArr (t : ty) (n : Z)
| TStruct (tag : string)
| TUnion (tag : string)
| TAlias (t : ty)
| TOther (size : option Z).

(** btf.Member: Type, Offset (bits), BitfieldSize (0 when not a bit-field). *)
Record member := { m_ty : ty; m_bitoff : Z; m_bits : Z }.

Record benv := {
  e_size : string -> Z;                                   (* byte size of a struct/union *)
  e_smember : string -> string -> option (member * Z);    (* struct member and its byte offset *)
  e_umember : string -> string -> option (member * Z);    (* union member and its byte offset *)
  e_find : string -> option ty;                           (* compiler.findType: Spec, then Kernel *)
  e_kfind : string -> option ty;                          (* Kernel.AnyTypeByName *)
  e_tid : ty -> option Z                                  (* getPointerTypeID of a struct/union *)
}.

(** mybtf.UnderlyingType. *)
Fixpoint under (t : ty) : ty := match t with TAlias u => under u | _ => t end.

(** btf.Sizeof (cilium/ebpf): None = error (unsized type). *)
Fixpoint sizeof (E : benv) (t : ty) : option Z :=
  match t with
  | TVoid => Some 0
  | TInt n _ => Some n
  | TEnum n _ => Some n
  | TPtr _ => Some 8
  | TArr u n => match sizeof E u with Some k => Some (k * n) | None => None end
  | TStruct tag => Some (e_size E tag)
  | TUnion tag => Some (e_size E tag)
  | TAlias u => sizeof E u
  | TOther o => o
  end.
(** "size, _ := btf.Sizeof(t)": 0 on error; a nil type is an error too. *)
Definition sizeof0 (E : benv) (t : option ty) : Z :=
  match t with
  | Some u => match sizeof E u with Some n => n | None => 0 end
  | None => 0
  end.

(** A C type as written in a cast (rsc.io/c2go cc.Type): struct/union tag or a type name. *)
Record cctype := { ct_ptr : bool; ct_struct : bool; ct_name : string }.

Inductive binop := BAdd | BSub | BMul | BDiv | BMod | BAnd | BOr | BXor | BLsh | BRsh.
Inductive cmpop := CEq | CNe | CLt | CLe | CGt | CGe.

(** rsc.io/c2go cc.Expr restricted to the operators evaluate.go:19-135 dispatches on; [EOther]
    is any operator of its default branch, [ECall] a call (only meaningful at top level). *)
Inductive expr :=
| EName (s : string)
| ENum (text : string)
| EArrow (e : expr) (m : string)
| EDot (e : expr) (m : string)
| EIndex (e i : expr)
| EIndir (e : expr)
| EAddr (e : expr)
| ECast (t : cctype) (e : expr)
| EParen (e : expr)
| EBin (op : binop) (l r : expr)
| ECmp (op : cmpop) (l r : expr)
| EAndAnd (l r : expr)
| EOrOr (l r : expr)
| ENot (e : expr)
| ETwid (e : expr)
| EMinus (e : expr)
| EPlus (e : expr)
| EPreInc (e : expr)
| EPreDec (e : expr)
| ECond (c l r : expr)
| ECall (f : expr) (args : list expr)
| EOther.

(** expr_value.go:44-51 pendingOffset. *)
Record poff := {
  o_off : Z; o_deref : bool; o_btf : option ty; o_prev : option ty;
  o_inarr : bool; o_bf : bool }.

(** expr_value.go:55-79 exprValue.  The base of a pending value: varIndex >= 0, uptr, baseReg. *)
Inductive pbase := PVar (i : nat) | PUptr (n : Z) | PReg (r : reg).
Inductive value :=
| VConst (n : Z) (t : option ty)
| VPend (b : pbase) (offs : list poff) (t : option ty) (m : option member)
| VMat (r : reg) (t : option ty) (m : option member)
| VEnum (name : string) (t : option ty).

Definition is_const v := match v with VConst _ _ => true | _ => false end.
Definition is_pend v := match v with VPend _ _ _ _ => true | _ => false end.
Definition is_mat v := match v with VMat _ _ _ => true | _ => false end.
Definition v_btf v := match v with
  | VConst _ t => t | VPend _ _ t _ => t | VMat _ t _ => t | VEnum _ t => t end.
Definition v_mem v := match v with
  | VPend _ _ _ m => m | VMat _ _ m => m | _ => None end.

Inductive mode := MProbe | MCore | MDirect.       (* expr.go:22-24 *)

(** The constant part of compiler.go:27-46 (struct compiler). *)
Record cfg := {
  cf_env : benv;
  cf_vars : list (string * ty);
  cf_mode : mode;
  cf_resv : Z;            (* reservedStack after newCompiler's normalisation *)
  cf_fast : bool          (* rdonlyCastFastcall *)
}.

(** compiler.go:69-73: reservedStack <= 0 -> 8, else rounded up to 8. *)
Definition norm_resv (n : Z) : Z := if n <=? 0 then 8 else (n + 7) / 8 * 8.

(** The mutable part: register allocator, instructions, labelExitUsed. *)
Record cst := { c_regs : reg -> bool; c_code : list insn; c_lab : bool }.

(** Result of a compiler method: value, error, or Go panic. *)
Inductive res (A : Type) := ROk (a : A) (s : cst) | RErr | RPanic.
Arguments ROk {A}. Arguments RErr {A}. Arguments RPanic {A}.
Definition bind {A B} (x : res A) (f : A -> cst -> res B) : res B :=
  match x with ROk a s => f a s | RErr => RErr | RPanic => RPanic end.
Notation "'let*' a , s ':=' x 'in' y" := (bind x (fun a s => y))
  (at level 200, a name, s name, right associativity).

(** register.go:16-25 Alloc: R8 down to R0, first free. *)
Fixpoint alloc_from (u : reg -> bool) (n : nat) : option reg :=
  match n with
  | O => if u O then None else Some O
  | S k => if u n then alloc_from u k else Some n
  end.
Definition alloc (u : reg -> bool) : option (reg * (reg -> bool)) :=
  match alloc_from u 8 with
  | Some r => Some (r, upd u r true)
  | None => None
  end.
(** register.go:27-31 Free, 33-39 IsUsed, 41-47 MarkUsed (registers 0..9). *)
Definition free (u : reg -> bool) (r : reg) : reg -> bool :=
  if Nat.leb r 9 then upd u r false else u.
Definition is_used (u : reg -> bool) (r : reg) : bool := u r.
Definition mark_used (u : reg -> bool) (r : reg) : option (reg -> bool) :=
  if Nat.leb r 9 then Some (upd u r true) else None.   (* None = panic *)

Definition calloc (s : cst) : res reg :=
  match alloc (c_regs s) with
  | Some (r, u) => ROk r {| c_regs := u; c_code := c_code s; c_lab := c_lab s |}
  | None => RErr                                           (* ErrRegisterNotEnough *)
  end.
Definition cfree (s : cst) (r : reg) : cst :=
  {| c_regs := free (c_regs s) r; c_code := c_code s; c_lab := c_lab s |}.
(** compiler.go:107-109 emit. *)
Definition emit (s : cst) (l : list insn) : cst :=
  {| c_regs := c_regs s; c_code := c_code s ++ l; c_lab := c_lab s |}.
Definition use_label (s : cst) : cst :=
  {| c_regs := c_regs s; c_code := c_code s; c_lab := true |}.

(** compiler.go:111-113 emitLoadArg; argsReg = R9. *)
Definition load_arg (i : nat) (r : reg) : list insn := [ILd r R9 (s16 (Z.of_nat i * 8)) 8].
(** compiler.go:115-121 emitReg2bool. *)
Definition reg2bool (r : reg) : list insn := [IMovI r 1; IJa 1; IAluR AXor r r].

(** evaluate.go:1861-1863 isMemberBitfield. *)
Definition is_bf (m : option member) : bool :=
  match m with Some x => negb (m_bits x =? 0) | None => false end.

(** bpf_btf.go:13-21 canCalculate (nil type: UnderlyingType(nil) matches no case). *)
Definition can_calc (t : option ty) : bool :=
  match t with
  | Some u => match under u with
              | TInt _ _ | TEnum _ _ | TPtr _ | TArr _ _ => true
              | _ => false
              end
  | None => false
  end.

(** ** Memory reads *)

(** expr.go:216-263 push/popUsedCallerSavedRegsN: counts the used registers among R1..Rn, then
    saves/restores R1..R_count (plus R0 when it is used). *)
Fixpoint count_used (u : reg -> bool) (from n : nat) : nat :=
  match n with
  | O => O
  | S k => ((if u from then 1 else 0) + count_used u (S from) k)%nat
  end.
Definition push_regs (resv : Z) (u : reg -> bool) (n : nat) : list insn :=
  let k := count_used u 1 n in
  let offset := resv + Z.of_nat k * 8 in
  (if u R0 then [ISt RFP (s16 (- offset - 8)) R0 8] else []) ++
  map (fun i => ISt RFP (s16 (- offset + Z.of_nat i * 8)) (1 + i)%nat 8) (seq 0 k).
Definition pop_regs (resv : Z) (u : reg -> bool) (n : nat) : list insn :=
  let k := count_used u 1 n in
  let offset := resv + Z.of_nat k * 8 in
  map (fun i => ILd (1 + i)%nat RFP (s16 (- offset + Z.of_nat i * 8)) 8) (seq 0 k) ++
  (if u R0 then [ILd R0 RFP (s16 (- offset - 8)) 8] else []).

Definition addi (r : reg) (off : Z) : list insn :=
  if off =? 0 then [] else [IAluI AAdd r (s32 off)].

(** bpf_direct_read.go:8-30 emitDirectRead.  Returns the code and whether the label is used. *)
Fixpoint direct_read (r : reg) (l : list poff) : list insn * bool :=
  match l with
  | [] => ([], false)
  | o :: rest =>
      let '(c, u) := direct_read r rest in
      if negb (o_deref o) then (addi r (o_off o) ++ c, u)
      else match rest with
           | [] => (ILd r r (s16 (o_off o)) 8 :: c, u)
           | _ => (ILd r r (s16 (o_off o)) 8 :: IJmpL JEq r 0 :: c, true)
           end
  end.

(** bpf_probe_read.go:8-49 emitProbeRead (body, without push/pop). *)
Definition probe_call : list insn :=
  [IMovI R2 8; IMovR R1 RFP; IAluI AAdd R1 (-8); IProbeRead].
Fixpoint probe_read (r : reg) (l : list poff) : list insn * bool :=
  match l with
  | [] => ([], false)
  | o :: rest =>
      let '(c, u) := probe_read r rest in
      let last := match rest with [] => true | _ => false end in
      let a := addi R3 (o_off o) in
      if negb (o_deref o) then
        (a ++ (if last && negb (Nat.eqb r R3) then [IMovR r R3] else []) ++ c, u)
      else if last then (a ++ probe_call ++ [ILd r RFP (-8) 8] ++ c, u)
      else (a ++ probe_call ++ [ILd R3 RFP (-8) 8; IJmpL JEq R3 0] ++ c, true)
  end.
Definition emit_probe_read (K : cfg) (s : cst) (l : list poff) (r : reg) : cst :=
  let '(c, u) := probe_read r l in
  let s1 := emit s (push_regs (cf_resv K) (c_regs s) 5 ++
                    (if Nat.eqb r R3 then [] else [IMovR R3 r]) ++ c ++
                    pop_regs (cf_resv K) (c_regs s) 5) in
  if u then use_label s1 else s1.

(** bpf_core_read.go:14-31 canRdonlyCast: None = error; Some None = cannot; Some (Some id). *)
Definition can_cast (K : cfg) (t : option ty) : option (option Z) :=
  match t with
  | None => Some None
  | Some u =>
      match under u with
      | TPtr tgt =>
          match under tgt with
          | TStruct _ | TUnion _ =>
              match e_tid (cf_env K) (under tgt) with
              | Some id => Some (Some id)
              | None => None
              end
          | _ => Some None
          end
      | _ => Some None
      end
  end.
(** bpf_core_read.go:33-40 canReadByRdonlyCast. *)
Definition can_read_cast (t : option ty) : bool :=
  match t with
  | Some u => match under u with TPtr _ | TInt _ _ | TEnum _ _ => true | _ => false end
  | None => false
  end.
(** bpf_btf.go:47-66 sizeof -> asm.Size (in bytes); error when btf.Sizeof fails. *)
Definition ld_size (E : benv) (t : option ty) : option nat :=
  match t with
  | None => None
  | Some u => match sizeof E u with
              | None => None
              | Some n => Some (if n =? 1 then 1%nat else if n =? 2 then 2%nat else if n =? 4 then 4%nat else 8%nat)
              end
  end.
(** bpf_core_read.go:50-64 coreReadByProbeRead. *)
Definition core_probe (r : reg) (last : bool) : list insn :=
  let res := if last && negb (Nat.eqb r R1) then r else R1 in
  [IMovR R3 R1; IMovI R2 8; IMovR R1 RFP; IAluI AAdd R1 (-8); IProbeRead; ILd res RFP (-8) 8].
(** bpf_core_read.go:66-126 emitCoreRead (body). None = error. *)
Fixpoint core_read (K : cfg) (r : reg) (l : list poff) : option (list insn * bool) :=
  match l with
  | [] => Some ([], false)
  | o :: rest =>
      let last := match rest with [] => true | _ => false end in
      let head : option (list insn * bool) :=
        if negb (o_deref o) then
          Some (addi R1 (o_off o) ++ (if last && negb (Nat.eqb r R1) then [IMovR r R1] else []), false)
        else match can_cast K (o_prev o) with
             | None => None
             | Some None => Some (core_probe r last, false)
             | Some (Some id) =>
                 match ld_size (cf_env K) (o_btf o) with
                 | None => None
                 | Some sz =>
                     if negb (can_read_cast (o_btf o)) then Some (core_probe r last, false)
                     else
                       let call := [IMovI R2 (s32 id); IRdonlyCast (cf_fast K)] in
                       if negb last then
                         Some (call ++ [ILd R1 R0 (s16 (o_off o)) sz; IJmpL JEq R1 0], true)
                       else if negb (Nat.eqb r R1) then
                         Some (call ++ [ILd r R0 (s16 (o_off o)) sz], false)
                       else Some (call, false)
                 end
             end in
      match head, core_read K r rest with
      | Some (c1, u1), Some (c2, u2) => Some (c1 ++ c2, u1 || u2)
      | _, _ => None
      end
  end.
Definition emit_core_read (K : cfg) (s : cst) (l : list poff) (r : reg) : res unit :=
  let n := if cf_fast K then 2%nat else 5%nat in
  match core_read K r l with
  | None => RErr
  | Some (c, u) =>
      let s1 := emit s (push_regs (cf_resv K) (c_regs s) n ++
                        (if Nat.eqb r R1 then [] else [IMovR R1 r]) ++ c ++
                        pop_regs (cf_resv K) (c_regs s) n) in
      ROk tt (if u then use_label s1 else s1)
  end.

(** materialize.go:98-129 emitOffsetChain. *)
Definition all_addr (l : list poff) : bool := forallb (fun o => negb (o_deref o)) l.
Definition emit_chain (K : cfg) (s : cst) (l : list poff) (r : reg) : res unit :=
  if all_addr l then ROk tt (emit s (flat_map (fun o => addi r (o_off o)) l))
  else match cf_mode K with
       | MCore => emit_core_read K s l r
       | MDirect => let '(c, u) := direct_read r l in
                    let s1 := emit s c in ROk tt (if u then use_label s1 else s1)
       | MProbe => ROk tt (emit_probe_read K s l r)
       end.

(** materialize.go:132-140 emitBitfieldExtract. *)
Definition bf_extract (m : member) (r : reg) : list insn :=
  let delta := m_bitoff m mod 8 in
  (if delta =? 0 then [] else [IAluI ARsh r delta]) ++
  [IAluI AAnd r (s32 (wrap (Z.shiftl 1 (m_bits m)) - 1))].
(** materialize.go:143-162 adjustRegisterSize. *)
Definition adjust_size (E : benv) (t : option ty) (r : reg) : list insn :=
  let n := sizeof0 E t in
  if n =? 1 then [IAluI AAnd r 255]
  else if n =? 2 then [IAluI AAnd r 65535]
  else if n =? 4 then [IAluI ALsh r 32; IAluI ARsh r 32]
  else [].

(** materialize.go:58-72: loading the base. *)
Definition base_code (b : pbase) (r : reg) : list insn :=
  match b with
  | PVar i => load_arg i r
  | PUptr n => if n =? 0 then [IMovR r R0] else [IMovI r (s64 n)]
  | PReg b => [IMovR r b]
  end.
(** materialize.go:52-94 materializePending. *)
Definition mat_pending (K : cfg) (s : cst) (b : pbase) (offs : list poff)
    (t : option ty) (m : option member) : res value :=
  let* r, s1 := calloc s in
  let s2 := emit s1 (base_code b r) in
  let* _u, s3 := (match offs with [] => ROk tt s2 | _ => emit_chain K s2 offs r end) in
  let tail := match m with
              | Some x => if is_bf m then bf_extract x r else adjust_size (cf_env K) t r
              | None => adjust_size (cf_env K) t r
              end in
  ROk (VMat r t m) (emit s3 tail).
(** materialize.go:15-49 materialize, materializeConstant. *)
Definition materialize (K : cfg) (s : cst) (v : value) : res value :=
  match v with
  | VMat _ _ _ => ROk v s
  | VConst n t =>
      let* r, s1 := calloc s in ROk (VMat r t None) (emit s1 [IMovI r n])
  | VPend b offs t m => mat_pending K s b offs t m
  | VEnum _ _ => RErr
  end.
(** The register of a materialized value. *)
Definition vreg (v : value) : reg := match v with VMat r _ _ => r | _ => R0 end.

(** ** Names, members, indexing *)

Fixpoint var_index (vs : list (string * ty)) (x : string) (i : nat) : option (nat * ty) :=
  match vs with
  | [] => None
  | (y, t) :: vs' => if String.eqb x y then Some (i, t) else var_index vs' x (S i)
  end.
(** evaluate.go:139-157 evaluateName. *)
Definition eval_name (K : cfg) (x : string) : value :=
  if String.eqb x "NULL" || String.eqb x "false" then VConst 0 None
  else if String.eqb x "true" then VConst 1 None
  else match var_index (cf_vars K) x 0 with
       | Some (i, t) => VPend (PVar i) [] (Some t) None
       | None => VEnum x None
       end.

Definition is_arr (t : ty) : bool := match under t with TArr _ _ => true | _ => false end.

(** base.offsets[len-1] updated by f (no-op on the empty list). *)
Fixpoint upd_last (f : poff -> poff) (l : list poff) : list poff :=
  match l with
  | [] => []
  | [o] => [f o]
  | o :: l' => o :: upd_last f l'
  end.
(** expr_value.go:131-136 prevBtf. *)
Definition prev_btf (l : list poff) : option ty :=
  match rev l with [] => None | o :: _ => o_prev o end.

(** evaluate.go:198-249 accessMember (lookup part). *)
Definition find_member (E : benv) (t : ty) (name : string) : option (member * Z) :=
  match t with
  | TStruct tag => e_smember E tag name
  | TUnion tag => e_umember E tag name
  | _ => None
  end.
Definition arrow_off (off : Z) (m : member) (prev : option ty) : poff :=
  {| o_off := off; o_deref := negb (is_arr (m_ty m)); o_btf := Some (m_ty m); o_prev := prev;
     o_inarr := false; o_bf := is_bf (Some m) |}.
(** evaluate.go:198-317 accessMember, accessMemberPending, accessMemberMaterialized. *)
Definition access_member (K : cfg) (v : value) (name : string) (arrow : bool) : option value :=
  if is_bf (v_mem v) then None else
  match v_btf v with
  | None => None
  | Some t0 =>
      let t1 := under t0 in
      let t2 := if arrow then match t1 with TPtr u => Some (under u) | _ => None end
                else Some t1 in
      match t2 with
      | None => None
      | Some t =>
          match find_member (cf_env K) t name with
          | None => None
          | Some (m, off) =>
              let mem := if is_arr (m_ty m) then None else Some m in
              match v with
              | VPend b offs bt _ =>
                  if arrow then
                    Some (VPend b (offs ++ [arrow_off off m bt]) (Some (m_ty m)) mem)
                  else match offs with
                       | [] => None
                       | _ =>
                           let f o := {| o_off := s64 (o_off o + off);
                                         o_deref := if is_arr (m_ty m) then false else o_deref o;
                                         o_btf := Some (m_ty m); o_prev := o_prev o;
                                         o_inarr := o_inarr o; o_bf := is_bf (Some m) |} in
                           Some (VPend b (upd_last f offs) (Some (m_ty m)) mem)
                       end
              | VMat r bt _ =>
                  if arrow then Some (VPend (PReg r) [arrow_off off m bt] (Some (m_ty m)) mem)
                  else None
              | _ => None
              end
          end
      end
  end.

(** evaluate.go:320-392 evaluateIndex (base already evaluated, index literal parsed). *)
Definition index_value (K : cfg) (v : value) (index : Z) : option value :=
  match v_btf v with
  | None => None
  | Some t0 =>
      let el := match under t0 with
                | TPtr u => Some (u, false)
                | TArr u _ => Some (u, true)
                | _ => None
                end in
      match el with
      | None => None
      | Some (elt, inarr) =>
          let size := sizeof0 (cf_env K) (Some elt) in
          if size =? 0 then None else
          let off := s64 (index * size) in
          match v with
          | VPend b offs bt _ =>
              Some (VPend b (offs ++ [{| o_off := off; o_deref := false; o_btf := Some elt;
                                         o_prev := prev_btf offs; o_inarr := inarr; o_bf := false |}])
                      (Some elt) None)
          | VMat r bt _ =>
              Some (VPend (PReg r) [{| o_off := off; o_deref := false; o_btf := Some elt;
                                       o_prev := bt; o_inarr := inarr; o_bf := false |}]
                      (Some elt) None)
          | _ => None
          end
      end
  end.

(** evaluate.go:395-438 evaluateIndir. *)
Definition indir_value (v : value) : option value :=
  if is_bf (v_mem v) then None else
  match v_btf v with
  | None => None
  | Some t0 =>
      match under t0 with
      | TPtr u =>
          let o bt := {| o_off := 0; o_deref := true; o_btf := Some u; o_prev := bt;
                         o_inarr := false; o_bf := false |} in
          match v with
          | VPend b offs bt _ => Some (VPend b (offs ++ [o bt]) (Some u) None)
          | VMat r bt _ => Some (VPend (PReg r) [o bt] (Some u) None)
          | _ => None
          end
      | _ => None
      end
  end.

(** evaluate.go:441-461 evaluateAddr. *)
Definition addr_value (v : value) : option value :=
  match v with
  | VPend b offs bt _ =>
      match offs, bt with
      | [], _ => None
      | _, Some t =>
          let f o := {| o_off := o_off o; o_deref := false; o_btf := Some (TPtr t);
                        o_prev := o_prev o; o_inarr := o_inarr o; o_bf := o_bf o |} in
          Some (VPend b (upd_last f offs) (Some (TPtr t)) None)
      | _, None => None      (* unreachable: a pending value always has a type *)
      end
  | _ => None
  end.

(** evaluate.go:1865-1922 cc2btf. *)
Definition cc2btf (E : benv) (c : cctype) : option ty :=
  let base :=
    if ct_struct c then
      match e_find E (ct_name c) with
      | Some t => match under t with TStruct _ | TUnion _ => Some t | _ => None end
      | None => None
      end
    else
      let n := ct_name c in
      if String.eqb n "void" then Some TVoid
      else if String.eqb n "uchar" then e_kfind E "unsigned char"
      else if String.eqb n "short" then e_kfind E "s16"
      else if String.eqb n "ushort" then e_kfind E "u16"
      else if String.eqb n "long" || String.eqb n "longlong" then e_kfind E "s64"
      else if String.eqb n "ulonglong" then e_kfind E "u64"
      else e_kfind E n in
  match base with
  | Some t => Some (if ct_ptr c then TPtr t else t)
  | None => None
  end.

(** evaluate.go:489-497: retyping the evaluated operand of a cast. *)
Definition cast_value (v : value) (t : ty) : value :=
  match v with
  | VConst n _ => VConst n (Some t)
  | VMat r _ m => VMat r (Some t) m
  | VEnum n _ => VEnum n (Some t)
  | VPend b offs _ m =>
      let f o := {| o_off := o_off o; o_deref := o_deref o; o_btf := Some t;
                    o_prev := o_prev o; o_inarr := o_inarr o; o_bf := o_bf o |} in
      VPend b (upd_last f offs) (Some t) m
  end.

(** evaluate.go:1924-1939 extractEnum. *)
Fixpoint assoc (l : list (string * Z)) (x : string) : option Z :=
  match l with
  | [] => None
  | (y, n) :: l' => if String.eqb y x then Some n else assoc l' x
  end.
Definition extract_enum (t : option ty) (name : string) : option Z :=
  match t with
  | Some u => match under u with TEnum _ vals => assoc vals name | _ => None end
  | None => None
  end.
(** evaluate.go:1792-1827 resolveEnums: an EnumMaybe side is looked up in the other side's type
    when that side is materialized or pending.  newConstant drops the type. *)
Definition runtime v := is_mat v || is_pend v.
Definition resolve_enums (l r : value) : option (value * value) :=
  let l' := match l with
            | VEnum n _ => if runtime r then
                             match extract_enum (v_btf r) n with
                             | Some k => Some (VConst (s64 k) None) | None => None end
                           else Some l
            | _ => Some l
            end in
  let r' := match r with
            | VEnum n _ => if runtime l then
                             match extract_enum (v_btf l) n with
                             | Some k => Some (VConst (s64 k) None) | None => None end
                           else Some r
            | _ => Some r
            end in
  match l', r' with Some a, Some b => Some (a, b) | _, _ => None end.

(** evaluate.go:1841-1858 adjustNumForType; int64 arithmetic. *)
Definition adjust_num (E : benv) (n : Z) (t : option ty) (m : option member) : Z :=
  match m with
  | Some x =>
      if is_bf m then Z.land n (s64 (s64 (Z.shiftl 1 (m_bits x)) - 1))
      else let k := sizeof0 E t in
           if k =? 1 then Z.land n 255 else if k =? 2 then Z.land n 65535
           else if k =? 4 then Z.land n 4294967295 else n
  | None => let k := sizeof0 E t in
            if k =? 1 then Z.land n 255 else if k =? 2 then Z.land n 65535
            else if k =? 4 then Z.land n 4294967295 else n
  end.
(** evaluate.go:1830-1838 adjustNums. *)
Definition adjust_nums (E : benv) (l r : value) : value * value :=
  match l, r with
  | VConst n t, VConst _ _ => (l, r)
  | VConst n t, _ => if runtime r then (VConst (adjust_num E n (v_btf r) (v_mem r)) t, r) else (l, r)
  | _, VConst n t => if runtime l then (l, VConst (adjust_num E n (v_btf l) (v_mem l)) t) else (l, r)
  | _, _ => (l, r)
  end.

(** ** Arithmetic *)

Definition operands_ok (l r : value) : bool :=
  negb (is_pend l && negb (can_calc (v_btf l))) && negb (is_pend r && negb (can_calc (v_btf r))).

(** Go's constant operations on int64 (evaluate.go: newConstant(left.num op right.num)).
    None = run-time panic (negative shift count).  Division by a zero constant is excluded before. *)
Definition fold_const (op : binop) (a b : Z) : option Z :=
  match op with
  | BAdd => Some (s64 (a + b))
  | BSub => Some (s64 (a - b))
  | BMul => Some (s64 (a * b))
  | BDiv => Some (s64 (Z.quot a b))
  | BMod => Some (s64 (Z.rem a b))
  | BAnd => Some (Z.land a b)
  | BOr => Some (Z.lor a b)
  | BXor => Some (Z.lxor a b)
  | BLsh => if b <? 0 then None else if 64 <=? b then Some 0 else Some (s64 (Z.shiftl a b))
  | BRsh => if b <? 0 then None else if 64 <=? b then Some (if a <? 0 then -1 else 0)
            else Some (Z.shiftr a b)
  end.

(** evaluate.go:576-618 addConstantToPending; None = error. *)
Definition add_const_pending (E : benv) (b : pbase) (offs : list poff) (t : option ty)
    (m : option member) (num : Z) : option value :=
  if num =? 0 then Some (VPend b offs t m) else
  let mk off rt := Some (VPend b (offs ++ [{| o_off := off; o_deref := false; o_btf := rt;
                                              o_prev := prev_btf offs; o_inarr := false;
                                              o_bf := false |}]) t None) in
  match t with
  | Some u =>
      match under u with
      | TPtr tgt =>
          match under tgt with
          | TVoid => mk num t
          | _ => let size := sizeof0 E (Some tgt) in
                 if size =? 0 then None else mk (s64 (num * size)) t
          end
      | TArr el _ => let size := sizeof0 E (Some el) in
                     if size =? 0 then None else mk (s64 (num * size)) (Some (TPtr el))
      | _ => mk num t
      end
  | None => mk num t
  end.

(** evaluate.go:555-567, 671-683: pointer scaling of the right operand. *)
Definition scale_code (E : benv) (t : option ty) (r : reg) : list insn :=
  match t with
  | Some u =>
      match under u with
      | TPtr tgt => let n := sizeof0 E (Some tgt) in
                    if 1 <? n then [IAluI AMul r (s32 n)] else []
      | TArr el _ => let n := sizeof0 E (Some el) in
                     if 1 <? n then [IAluI AMul r (s32 n)] else []
      | _ => []
      end
  | None => []
  end.

Definition alu_of (op : binop) : alu :=
  match op with
  | BAdd => AAdd | BSub => ASub | BMul => AMul | BDiv => ADiv | BMod => AMod
  | BAnd => AAnd | BOr => AOr | BXor => AXor | BLsh => ALsh | BRsh => ARsh
  end.

(** Run-time part shared by all binary arithmetic operators once the special cases are gone:
    materialize left, materialize right, emit, free right. *)
Definition bin_runtime (K : cfg) (s : cst) (l r : value)
    (ins : reg -> reg -> list insn) : res value :=
  let* lv, s1 := materialize K s l in
  let* rv, s2 := materialize K s1 r in
  let s3 := emit s2 (ins (vreg lv) (vreg rv)) in
  ROk (VMat (vreg lv) (v_btf lv) None) (cfree s3 (vreg rv)).

Definition of_opt {A} (o : option A) (s : cst) : res A :=
  match o with Some a => ROk a s | None => RErr end.

(** Binary arithmetic on evaluated operands: evaluate.go:516-573 addValues, 636-689 subValues,
    692-1117 (Mul, Div, Mod, And, Or, Xor, Lsh, Rsh). *)
Definition bin_values (K : cfg) (op : binop) (s : cst) (l0 r0 : value) : res value :=
  let E := cf_env K in
  match resolve_enums l0 r0 with
  | None => RErr
  | Some (l, r) =>
      let zero_div := match op, r with
                      | (BDiv | BMod), VConst 0 _ => true
                      | _, _ => false
                      end in
      if zero_div then RErr else
      match l, r with
      | VConst a _, VConst b _ =>
          match fold_const op a b with Some n => ROk (VConst n None) s | None => RPanic end
      | _, _ =>
          if negb (operands_ok l r) then RErr else
          match op with
          | BAdd =>
              match l, r with
              | VPend b offs t m, VConst n _ => of_opt (add_const_pending E b offs t m n) s
              | VConst n _, VPend b offs t m => of_opt (add_const_pending E b offs t m n) s
              | _, _ =>
                  let* lv, s1 := materialize K s l in
                  let* rv, s2 := materialize K s1 r in
                  let s3 := emit s2 (scale_code E (v_btf lv) (vreg rv) ++
                                     [IAluR AAdd (vreg lv) (vreg rv)]) in
                  ROk (VMat (vreg lv) (v_btf lv) None) (cfree s3 (vreg rv))
              end
          | BSub =>
              match l, r with
              | VPend b offs t m, VConst n _ => of_opt (add_const_pending E b offs t m (s64 (- n))) s
              | _, _ =>
                  let* lv, s1 := materialize K s l in
                  let* rv, s2 := materialize K s1 r in
                  let s3 := emit s2 (scale_code E (v_btf lv) (vreg rv) ++
                                     [IAluR ASub (vreg lv) (vreg rv)]) in
                  ROk (VMat (vreg lv) (v_btf lv) None) (cfree s3 (vreg rv))
              end
          | BMul => bin_runtime K s l r (fun a b => [IAluR AMul a b])
          | BDiv =>
              match r with
              | VConst n _ =>
                  let* lv, s1 := materialize K s l in
                  ROk (VMat (vreg lv) (v_btf lv) None) (emit s1 [IAluI ADiv (vreg lv) (s32 n)])
              | _ => bin_runtime K s l r (fun a b =>
                       [IJmpI JNE b 0 2; IMovI a 0; IJa 1; IAluR ADiv a b])
              end
          | BMod =>
              match r with
              | VConst n _ =>
                  let* lv, s1 := materialize K s l in
                  ROk (VMat (vreg lv) (v_btf lv) None)
                      (emit s1 (if n =? 1 then [IMovI (vreg lv) 0]
                                else [IAluI AMod (vreg lv) (s32 n)]))
              | _ => bin_runtime K s l r (fun a b =>
                       [IJmpI JNE b 0 2; IMovI a 0; IJa 1; IAluR AMod a b])
              end
          | BAnd | BOr | BXor =>
              match r with
              | VConst n _ =>
                  let* lv, s1 := materialize K s l in
                  ROk (VMat (vreg lv) (v_btf lv) None)
                      (emit s1 [IAluI (alu_of op) (vreg lv) (s32 n)])
              | _ => bin_runtime K s l r (fun a b => [IAluR (alu_of op) a b])
              end
          | BLsh | BRsh =>
              match r with
              | VConst n _ =>
                  let* lv, s1 := materialize K s l in
                  if n <? 0 then RErr
                  else if n =? 0 then ROk lv s1
                  else ROk (VMat (vreg lv) (v_btf lv) None)
                           (emit s1 [IAluI (alu_of op) (vreg lv) (s32 n)])
              | _ => bin_runtime K s l r (fun a b => [IJmpI JLE b 0 1; IAluR (alu_of op) a b])
              end
          end
      end
  end.

(** ** Comparisons: evaluate.go:1144-1465.  Constants compare as int64; the emitted jump is the
    inverse condition, over emitReg2bool. *)
Definition cmp_const (op : cmpop) (a b : Z) : bool :=
  match op with
  | CEq => a =? b | CNe => negb (a =? b) | CLt => a <? b | CLe => a <=? b
  | CGt => b <? a | CGe => b <=? a
  end.
Definition inv_jop (op : cmpop) : jop :=
  match op with
  | CEq => JNE | CNe => JEq | CLt => JGE | CLe => JGT | CGt => JLE | CGe => JLT
  end.
Definition b2z (b : bool) : Z := if b then 1 else 0.
Definition cmp_values (K : cfg) (op : cmpop) (s : cst) (l0 r0 : value) : res value :=
  match resolve_enums l0 r0 with
  | None => RErr
  | Some (l1, r1) =>
      let '(l, r) := adjust_nums (cf_env K) l1 r1 in
      match l, r with
      | VConst a _, VConst b _ => ROk (VConst (b2z (cmp_const op a b)) None) s
      | _, _ =>
          if negb (operands_ok l r) then RErr else
          let* lv, s1 := materialize K s l in
          match r with
          | VConst n _ =>
              ROk (VMat (vreg lv) (v_btf lv) None)
                  (emit s1 (IJmpI (inv_jop op) (vreg lv) n 2 :: reg2bool (vreg lv)))
          | _ =>
              let* rv, s2 := materialize K s1 r in
              let s3 := emit s2 (IJmpR (inv_jop op) (vreg lv) (vreg rv) 2 :: reg2bool (vreg lv)) in
              ROk (VMat (vreg lv) (v_btf lv) None) (cfree s3 (vreg rv))
          end
      end
  end.

(** Test a single run-time value: JEq r,0,+2; reg2bool. *)
Definition to_bool (K : cfg) (s : cst) (v : value) : res value :=
  let* x, s1 := materialize K s v in
  ROk (VMat (vreg x) (v_btf x) None)
      (emit s1 (IJmpI JEq (vreg x) 0 2 :: reg2bool (vreg x))).
Definition free_if_mat (s : cst) (v : value) : cst :=
  match v with VMat r _ _ => cfree s r | _ => s end.

(** evaluate.go:1468-1543 evaluateAndAnd. *)
Definition andand_values (K : cfg) (s : cst) (l0 r0 : value) : res value :=
  match resolve_enums l0 r0 with
  | None => RErr
  | Some (l, r) =>
      match l, r with
      | VConst a _, VConst b _ =>
          ROk (VConst (b2z (negb (a =? 0) && negb (b =? 0))) None) s
      | _, _ =>
          if negb (operands_ok l r) then RErr else
          match l, r with
          | VConst a _, _ => if a =? 0 then ROk (VConst 0 None) s else to_bool K s r
          | _, VConst b _ =>
              if b =? 0 then ROk (VConst 0 None) (free_if_mat s l) else to_bool K s l
          | _, _ => bin_runtime K s l r (fun a b =>
                      [IJmpI JEq a 0 3; IJmpI JEq b 0 2] ++ reg2bool a)
          end
      end
  end.
(** evaluate.go:1546-1622 evaluateOrOr. *)
Definition oror_values (K : cfg) (s : cst) (l0 r0 : value) : res value :=
  match resolve_enums l0 r0 with
  | None => RErr
  | Some (l, r) =>
      match l, r with
      | VConst a _, VConst b _ =>
          ROk (VConst (b2z (negb (a =? 0) || negb (b =? 0))) None) s
      | _, _ =>
          if negb (operands_ok l r) then RErr else
          match l, r with
          | VConst a _, _ => if negb (a =? 0) then ROk (VConst 1 None) s else to_bool K s r
          | _, VConst b _ =>
              if negb (b =? 0) then ROk (VConst 1 None) (free_if_mat s l) else to_bool K s l
          | _, _ => bin_runtime K s l r (fun a b =>
                      [IJmpI JNE a 0 3; IJmpI JNE b 0 2; IAluR AXor a a; IJa 1; IMovI a 1])
          end
      end
  end.

(** Unary operators on an evaluated operand: 1120-1141 (~), 1625-1644 (!), 1647-1664 (-),
    1667-1704 (++/--). *)
Definition unary (K : cfg) (s : cst) (v : value) (k : Z -> Z) (chk : bool)
    (ins : reg -> list insn) : res value :=
  match v with
  | VConst n _ => ROk (VConst (k n) None) s
  | _ =>
      if chk && is_pend v && negb (can_calc (v_btf v)) then RErr else
      let* x, s1 := materialize K s v in
      ROk (VMat (vreg x) (v_btf x) None) (emit s1 (ins (vreg x)))
  end.

Definition set_off (i : insn) (off : Z) : insn :=
  match i with
  | IJmpI op d c _ => IJmpI op d c off
  | IJmpR op d r _ => IJmpR op d r off
  | IJa _ => IJa off
  | _ => i
  end.
Fixpoint patch (l : list insn) (n : nat) (off : Z) : list insn :=
  match l, n with
  | [], _ => []
  | i :: l', O => set_off i off :: l'
  | i :: l', S k => i :: patch l' k off
  end.
Definition cpatch (s : cst) (n : nat) (off : Z) : cst :=
  {| c_regs := c_regs s; c_code := patch (c_code s) n off; c_lab := c_lab s |}.
Definition clen (s : cst) : nat := List.length (c_code s).

(** evaluate.go:1757-1766 / 1774-1783: one branch of a run-time conditional. *)
Definition cond_branch (K : cfg) (s : cst) (v : value) (rc : reg) : res unit :=
  match v with
  | VConst n _ => ROk tt (emit s [IMovI rc (s32 n)])
  | _ => let* x, s1 := materialize K s v in
         ROk tt (cfree (emit s1 [IMovR rc (vreg x)]) (vreg x))
  end.
(** evaluate.go:1707-1789 evaluateCond on evaluated operands. *)
Definition cond_values (K : cfg) (s : cst) (c l r : value) : res value :=
  if negb (operands_ok c c && operands_ok l r) then RErr else
  match c with
  | VConst n _ => if negb (n =? 0) then ROk l s else ROk r s
  | _ =>
      let* cv, s1 := materialize K s c in
      let rc := vreg cv in
      let jidx := clen s1 in
      let s2 := emit s1 [IJmpI JEq rc 0 2] in
      let* _u1, s3 := cond_branch K s2 l rc in
      let jaidx := clen s3 in
      let s4 := emit s3 [IJa 1] in
      let s5 := cpatch s4 jidx (s16 (Z.of_nat (clen s4) - Z.of_nat jidx - 1)) in
      let* _u2, s6 := cond_branch K s5 r rc in
      let s7 := cpatch s6 jaidx (s16 (Z.of_nat (clen s6) - Z.of_nat jaidx - 1)) in
      ROk (VMat rc (v_btf cv) None) s7
  end.

(** evaluate.go:19-135 evaluate. *)
Fixpoint evaluate (K : cfg) (e : expr) (s : cst) : res value :=
  match e with
  | EName x => ROk (eval_name K x) s
  | ENum t => match parse_number t with inl n => ROk (VConst n None) s | inr _ => RErr end
  | EArrow a m =>
      let* v, s1 := evaluate K a s in
      match v with VEnum _ _ => RErr | _ => of_opt (access_member K v m true) s1 end
  | EDot a m =>
      let* v, s1 := evaluate K a s in
      match v with VEnum _ _ => RErr | _ => of_opt (access_member K v m false) s1 end
  | EIndex a i =>
      let* v, s1 := evaluate K a s in
      if is_bf (v_mem v) then RErr else
      match i with
      | ENum t => match parse_number t with
                  | inl n => of_opt (index_value K v n) s1
                  | inr _ => RErr
                  end
      | _ => RErr
      end
  | EIndir a => let* v, s1 := evaluate K a s in of_opt (indir_value v) s1
  | EAddr a => let* v, s1 := evaluate K a s in of_opt (addr_value v) s1
  | ECast ct a =>
      match a with
      | ENum t =>
          match parse_unsigned t with
          | inr _ => RErr
          | inl n => match cc2btf (cf_env K) ct with
                     | Some ty => ROk (VPend (PUptr n) [] (Some ty) None) s
                     | None => RErr
                     end
          end
      | _ =>
          let* v, s1 := evaluate K a s in
          match cc2btf (cf_env K) ct with
          | Some ty => ROk (cast_value v ty) s1
          | None => RErr
          end
      end
  | EParen a => evaluate K a s
  | EPlus a => evaluate K a s
  | EBin op a b =>
      let* l, s1 := evaluate K a s in
      let* r, s2 := evaluate K b s1 in bin_values K op s2 l r
  | ECmp op a b =>
      let* l, s1 := evaluate K a s in
      let* r, s2 := evaluate K b s1 in cmp_values K op s2 l r
  | EAndAnd a b =>
      let* l, s1 := evaluate K a s in
      let* r, s2 := evaluate K b s1 in andand_values K s2 l r
  | EOrOr a b =>
      let* l, s1 := evaluate K a s in
      let* r, s2 := evaluate K b s1 in oror_values K s2 l r
  | ETwid a =>
      let* v, s1 := evaluate K a s in
      unary K s1 v Z.lnot true (fun r => [IAluI AXor r (-1)])
  | ENot a =>
      let* v, s1 := evaluate K a s in
      unary K s1 v (fun n => b2z (n =? 0)) false (fun r => IJmpI JNE r 0 2 :: reg2bool r)
  | EMinus a =>
      let* v, s1 := evaluate K a s in
      unary K s1 v (fun n => s64 (- n)) false (fun r => [INegR r r])
  | EPreInc a =>
      let* v, s1 := evaluate K a s in
      unary K s1 v (fun n => s64 (n + 1)) false (fun r => [IAluI AAdd r 1])
  | EPreDec a =>
      let* v, s1 := evaluate K a s in
      unary K s1 v (fun n => s64 (n - 1)) false (fun r => [IAluI ASub r 1])
  | ECond c a b =>
      let* cv, s1 := evaluate K c s in
      let* l, s2 := evaluate K a s1 in
      let* r, s3 := evaluate K b s2 in cond_values K s3 cv l r
  | ECall _ _ => RErr
  | EOther => RErr
  end.

(** ** CompileFilterExpr: expr.go:46-105. *)
Definition top_op_ok (e : expr) : bool :=
  match e with
  | EAndAnd _ _ | EOrOr _ _ | ENot _ => true
  | ECmp _ _ _ => true
  | _ => false
  end.
(** c.emit(Mov R9, R1); registers[R9] = true. *)
Definition init_regs : reg -> bool := fun r => Nat.eqb r 9.
Definition filter_init : cst :=
  {| c_regs := init_regs; c_code := [IMovR R9 R1]; c_lab := false |}.

(** The label is attached to the last instruction emitted by evaluate (expr.go:96-98), before the
    final move and return. *)
Definition compile_filter (K : cfg) (e : expr) : option prog + unit :=
  if negb (top_op_ok e) then inl None else
  match evaluate K e filter_init with
  | ROk (VConst _ _) _ => inl None
  | ROk v s =>
      let body := c_code s in
      inl (Some {| code := body ++ (if Nat.eqb (vreg v) 0 then [] else [IMovR R0 (vreg v)]) ++ [IExit];
                   label := if c_lab s then Some (List.length body - 1)%nat else None |})
  | RErr => inl None
  | RPanic => inr tt
  end.
