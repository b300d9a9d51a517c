(** * --output-arg: compiling the expressions, capturing their values, displaying them.

    Modelled: CompileEvalExpr (internal/cc/expr.go:140-214), compileFuncCall and postCheckFuncCall
    (internal/cc/expr_func.go:72-446), ExtractVarNames (internal/cc/variable.go:13-35), funcArgumentOutput.compile
    with genDerefInsns, genBufInsns, genDefaultInsns, argDataOutput.matchParams and genInsns
    (internal/bpfsnoop/output_arg.go:98-392), __outputFuncArgAttrs (internal/bpfsnoop/bpfsnoop_arg.go:41-273).
    Simplified: the text made from the bytes of one expression (mybtf.DumpData, gopacket, net.IP, ...) is not modelled,
    the bytes handed to it are; Go's int conversions of sizes and offsets (int64 -> int) are the identity. *)
From Coq Require Import ZArith List Bool String.
From Verif Require Import M_Go M_Ebpf M_CcNum M_Cc M_Bytes M_FnArgs.
Import ListNotations.
Open Scope string_scope.
Open Scope Z_scope.

(** ** Function calls *)
(** expr.go:107-121 EvalResultType with the pkt/addr/port/int names of EvalResult. *)
Inductive rtype := RDefault | RDeref | RBuf | RString | RPkt (s : string) | RAddr (s : string) | RPort (s : string)
  | RSlice | RHex | RInt (s : string) | RHist | RTDigest.
(** expr_func.go:62-70 funcCallValue *)
Record fcall := { f_type : rtype; f_expr : expr; f_off : Z; f_size : Z }.
(** expr_func.go:72-84 parseExprNumber *)
Definition expr_number (e : expr) : option Z :=
  match e with ENum t => match parse_number t with inl n => Some n | inr _ => None end | _ => None end.
Definition in_names (x : string) (l : list string) : bool := existsb (String.eqb x) l.
Definition pkt_types : list string := ["eth"; "ip"; "ip4"; "ip6"; "icmp"; "icmp6"; "tcp"; "udp"].
(** sizes: expr_func.go:54-60, 246-278, 298-311 *)
Definition addr_size (f : string) : option (rtype * Z) :=
  if String.eqb f "eth" then Some (RAddr f, 6) else if String.eqb f "eth2" then Some (RAddr f, 12) else
  if String.eqb f "ip4" then Some (RAddr f, 4) else if String.eqb f "ip42" then Some (RAddr f, 8) else
  if String.eqb f "ip6" then Some (RAddr f, 16) else if String.eqb f "ip62" then Some (RAddr f, 32) else
  if String.eqb f "port" then Some (RPort f, 2) else if String.eqb f "port2" then Some (RPort f, 4) else None.
Definition int_size (f : string) : option (rtype * Z) :=
  if in_names f ["u8"; "s8"] then Some (RInt f, 1) else
  if in_names f ["u16"; "s16"; "le16"; "be16"] then Some (RInt f, 2) else
  if in_names f ["u32"; "s32"; "le32"; "be32"] then Some (RInt f, 4) else
  if in_names f ["u64"; "s64"; "le64"; "be64"] then Some (RInt f, 8) else None.
Definition mkcall (t : rtype) (e : expr) (off size : Z) : option fcall :=
  if size <=? 0 then None else Some {| f_type := t; f_expr := e; f_off := off; f_size := size |}.
(** expr_func.go:86-326 compileFuncCall; None: error; the caller deals with an empty argument list (index out of range). *)
Definition compile_func_call (f : string) (e : expr) (rest : list expr) : option fcall :=
  match addr_size f, int_size f with
  | Some (t, n), _ | None, Some (t, n) =>
      match rest with
      | [] => Some {| f_type := t; f_expr := e; f_off := 0; f_size := n |}
      | [o] => match expr_number o with Some off => Some {| f_type := t; f_expr := e; f_off := off; f_size := n |} | None => None end
      | _ => None
      end
  | None, None =>
      if in_names f ["buf"; "slice"; "hex"] then
        let t := if String.eqb f "slice" then RSlice else if String.eqb f "hex" then RHex else RBuf in
        match rest with
        | [a] => match expr_number a with Some n => mkcall t e 0 n | None => None end
        | [a; b] => match expr_number a, expr_number b with Some o, Some n => mkcall t e o n | _, _ => None end
        | _ => None
        end
      else if String.eqb f "str" then
        match rest with
        | [] => Some {| f_type := RString; f_expr := e; f_off := 0; f_size := -1 |}
        | [a] => match expr_number a with Some n => mkcall RString e 0 n | None => None end
        | _ => None
        end
      else if String.eqb f "pkt" then
        match rest with
        | [a] => match expr_number a with Some n => mkcall (RPkt "eth") e 0 n | None => None end
        | [a; EName p] => match expr_number a with Some n => if in_names p pkt_types then mkcall (RPkt p) e 0 n else None | None => None end
        | [a; b] => match expr_number a, expr_number b with Some o, Some n => mkcall (RPkt "eth") e o n | _, _ => None end
        | [a; b; EName p] => match expr_number a, expr_number b with
                             | Some o, Some n => if in_names p pkt_types then mkcall (RPkt p) e o n else None
                             | _, _ => None end
        | _ => None
        end
      else if in_names f ["hist"; "tdigest"] then
        match rest with
        | [] => Some {| f_type := if String.eqb f "hist" then RHist else RTDigest; f_expr := e; f_off := 0; f_size := 8 |}
        | _ => None
        end
      else None
  end.

(** expr_func.go:328-446 postCheckFuncCall: Btf, Off, Size of the result; None: error. *)
Definition is_ptr (t : ty) : bool := match t with TPtr _ => true | _ => false end.
Definition is_array (t : ty) : bool := match t with TArr _ _ => true | _ => false end.
Definition post_check (E : benv) (rt : rtype) (vt : option ty) (vm : option member) (off size : Z) : option (option ty * Z * Z) :=
  match rt with
  | RDefault => Some (vt, 0, 0)
  | _ =>
    if is_bf vm then None else
    match vt with
    | None => None            (* UnderlyingType(nil) is none of the accepted types *)
    | Some t0 =>
      let t := under t0 in
      match rt with
      | RDefault => None
      | RDeref => match t with
                  | TPtr u => let n := sizeof0 E (Some u) in if n =? 0 then None else Some (Some u, 0, n)
                  | _ => None end
      | RBuf | RHex | RInt _ => if is_ptr t || is_array t then Some (Some t, off, size) else None
      | RString => match t with
                   | TPtr _ => Some (Some t, 0, if size =? -1 then 64 else size)
                   | TArr u n => if size =? -1 then (if sizeof0 E (Some u) =? 1 then Some (Some t, 0, n) else None)
                                 else Some (Some t, 0, size)
                   | _ => None end
      | RPkt _ | RAddr _ | RPort _ => if is_ptr t then Some (Some t, off, size) else None
      | RSlice => match t with
                  | TPtr u | TArr u _ => let n := sizeof0 E (Some u) in if n =? 0 then None else Some (Some u, off * n, size * n)
                  | _ => None end
      | RHist | RTDigest => match t with TInt n _ => Some (Some t, 0, n) | _ => None end
      end
    end
  end.

(** ** CompileEvalExpr (expr.go:140-214), MemoryReadFlag without Force. *)
Record eres := { r_type : rtype; r_code : list insn; r_reg : reg; r_lab : bool; r_btf : option ty; r_off : Z; r_size : Z }.
(** UsedRegisters: R8 (buffer), R9 (arguments): output_arg.go:252 *)
Definition eval_init : cst := {| c_regs := fun r => Nat.eqb r 8 || Nat.eqb r 9; c_code := []; c_lab := false |}.
(** expr.go:163-190: the expression to evaluate, its result type, offset and size.  None: error. *)
Definition split_call (e : expr) : option (rtype * expr * Z * Z) + unit :=
  match e with
  | EIndir a => inl (Some (RDeref, a, 0, 0))
  | ECall (EName _) [] => inr tt                   (* expr.List[0] *)
  | ECall (EName f) (a :: rest) => match compile_func_call f a rest with
                                   | Some c => inl (Some (f_type c, f_expr c, f_off c, f_size c))
                                   | None => inl None end
  | ECall _ _ => inl None
  | _ => inl (Some (RDefault, e, 0, 0))
  end.
Definition compile_eval (K : cfg) (e : expr) : option eres :=
  match split_call e with
  | inl (Some (rt, a, off, size)) =>
      match evaluate K a eval_init with
      | ROk (VConst _ _) _ => None
      | ROk v s =>
          match materialize K s v with
          | ROk w s' =>
              match post_check (cf_env K) rt (v_btf w) (v_mem w) off size with
              | Some (bt, o, n) => Some {| r_type := rt; r_code := c_code s'; r_reg := vreg w; r_lab := c_lab s'; r_btf := bt; r_off := o; r_size := n |}
              | None => None
              end
          | _ => None
          end
      | _ => None
      end
  | _ => None
  end.

(** ** Code of one expression (output_arg.go:98-327) *)
(** Type questions answered by mybtf and btfx: IsConstCharPtr; the element count if IsCharArray. *)
Record tinfo := { ti_ccp : ty -> bool; ti_chars : ty -> option Z }.
(** btfx/types.go:35-49 IsNumberPointer *)
Definition num_ptr (t : ty) : bool :=
  match under t with TPtr u => match under u with TInt _ _ | TEnum _ _ => true | _ => false end | _ => false end.
Definition is_str_ty (T : tinfo) (t : ty) : bool := ti_ccp T t || match ti_chars T t with Some _ => true | None => false end.

Definition mov3 (r : reg) : list insn := if Nat.eqb r R3 then [] else [IMovR R3 r].
(** bpf_probe_read_kernel[_str](buff + off, size, R3) *)
Definition read_to (off size : Z) (call : insn) : list insn :=
  if off =? 0 then [IMovI R2 (s32 size); IMovR R1 R8; call]
  else [IMovI R2 (s32 size); IMovR R1 R8; IAluI AAdd R1 (s32 off); call].
(** output_arg.go:102-134 genDerefInsns *)
Definition gen_deref (r : reg) (off size : Z) : list insn := IJmpL JEq r 0 :: mov3 r ++ read_to off size IProbeRead.
(** output_arg.go:136-177 genBufInsns *)
Definition gen_buf (r : reg) (roff rsize off : Z) (str : bool) : list insn :=
  IJmpL JEq r 0 :: (if roff =? 0 then [] else [IAluI AAdd r (s32 roff)]) ++ mov3 r ++
  read_to off rsize (if str then IProbeReadStr else IProbeRead).
(** output_arg.go:179-240 genDefaultInsns *)
Definition gen_num (r : reg) (off : Z) (nump : bool) : list insn :=
  ISt R8 (s16 off) r 8 ::
  (if nump then mov3 r ++ [IJmpI JEq R3 0 5; IMovI R2 8; IMovR R1 R8; IAluI AAdd R1 (s32 (off + 8)); IProbeRead; IJa 1; ISt R8 (s16 (off + 8)) R3 8] else []).
Definition gen_str (r : reg) (off size : Z) (chk : bool) : list insn :=
  (if chk then [IJmpL JEq r 0] else []) ++ mov3 r ++ read_to off size IProbeReadStr.

(** One captured expression.  oa_chk: its pointer is tested for NULL by the capturing code. *)
Record oarg := { oa_type : rtype; oa_str : bool; oa_num : bool; oa_chk : bool; oa_off : Z; oa_true : Z; oa_insn : list insn }.
Definition oa_size (a : oarg) : Z := oa_true a + 1.

(** The assembler (cilium/ebpf) turns a jump to the label into a relative jump; the label stands k instructions after the end of l. *)
Fixpoint link (l : list insn) (k : nat) : list insn :=
  match l with
  | [] => []
  | IJmpL op d c :: l' => IJmpI op d c (Z.of_nat (List.length l' + k)) :: link l' k
  | i :: l' => i :: link l' k
  end.
(** output_arg.go:309-326: 0 or 1 (NULL) after the value *)
Definition finish (body : list insn) (lab : bool) (off : Z) : list insn :=
  if lab then link body 2 ++ [IMovI R0 0; IJa 1; IMovI R0 1; ISt R8 (s16 off) R0 1]
  else body ++ [IMovI R0 0; ISt R8 (s16 off) R0 1].
(** output_arg.go:242-330 compile, after CompileEvalExpr; None: error. *)
Definition gen_arg (T : tinfo) (E : benv) (r : eres) (off : Z) : option oarg :=
  match r_btf r with
  | None => None
  | Some t =>
    match sizeof E t with
    | None => None
    | Some size =>
      let str := is_str_ty T t in
      let nump := num_ptr t in
      let mk code lab chk n := Some {| oa_type := r_type r; oa_str := str; oa_num := nump; oa_chk := chk; oa_off := r_off r; oa_true := n;
                                   oa_insn := finish (r_code r ++ code) lab (off + n) |} in
      match r_type r with
      | RDeref => mk (gen_deref (r_reg r) off size) true true size
      | RDefault | RHist | RTDigest =>
          if str then
            match ti_chars T t with
            | Some n => mk (gen_str (r_reg r) off n false) (r_lab r) false n
            | None => mk (gen_str (r_reg r) off max_str true) true true max_str
            end
          else if (size =? 0) || (8 <? size) then None
          else mk (gen_num (r_reg r) off nump) (r_lab r) false (if nump then 16 else 8)
      | RString => mk (gen_buf (r_reg r) (r_off r) (r_size r) off true) true true (r_size r)
      | _ => mk (gen_buf (r_reg r) (r_off r) (r_size r) off false) true true (r_size r)
      end
    end
  end.
(** variable.go:13-35 ExtractVarNames (as a set; the panic on a call without arguments is left out). *)
Fixpoint names (e : expr) : list string :=
  match e with
  | EName x => [x]
  | ENum _ | EOther => []
  | EArrow a _ | EDot a _ | EIndir a | EAddr a | ECast _ a | EParen a | ENot a | ETwid a | EMinus a | EPlus a | EPreInc a | EPreDec a => names a
  | EIndex a b | EBin _ a b | ECmp _ a b | EAndAnd a b | EOrOr a b => names a ++ names b
  | ECond a b c => names a ++ names b ++ names c
  | ECall f args => names f ++ flat_map names args
  end.
Definition var_names (e : expr) : list string :=
  match e with ECall _ (a :: _) => names a | _ => names e end.
(** output_arg.go:332-340 match *)
Definition matches_params (vars : list (string * ty)) (e : expr) : bool := existsb (fun p => in_names (fst p) (var_names e)) vars.
(** output_arg.go:349-372 matchParams *)
Fixpoint match_params (T : tinfo) (K : cfg) (es : list expr) (off : Z) : option (list oarg * Z) :=
  match es with
  | [] => Some ([], off)
  | e :: es' =>
      if negb (matches_params (cf_vars K) e) then match_params T K es' off else
      match compile_eval K e with
      | None => None
      | Some r => match gen_arg T (cf_env K) r off with
                  | None => None
                  | Some a => match match_params T K es' (off + oa_size a) with
                              | Some (l, o) => Some (a :: l, o)
                              | None => None
                              end
                  end
      end
  end.
(** output_arg.go:374-397 genInsns: output_arg(__u64 *args, void *buff) *)
Definition gen_output_arg (l : list oarg) : prog :=
  {| code := [IMovR R9 R1; IMovR R8 R2] ++ flat_map oa_insn l ++ [IExit]; label := None |}.

(** ** Display (bpfsnoop_arg.go:41-273): what is handed to the printing code. *)
Inductive shown :=
| SNull                         (* [NULL] *)
| SBytes (l : list Z)           (* dump of these bytes in the style of the expression's kind *)
| SText (l : list Z)            (* string *)
| SNum (v : Z)
| SNumPtr (v pointee : Z)
| SSample (l : list Z).         (* added to the histogram or t-digest, nothing printed *)
Definition is_sample (t : rtype) : bool := match t with RHist | RTDigest => true | _ => false end.
(** None: slice or index out of range. *)
Definition dec_value (a : oarg) (d : list Z) : option (shown * list Z) :=
  let n := Z.to_nat (oa_true a) in
  if (List.length d <? n + 1)%nat then None else
  match oa_type a with
  | RHist | RTDigest => Some (SSample (firstn n d), d)
  | RString => Some (SText (null_terminated (firstn n d)), skipn (n + 1) d)
  | RDefault =>
      if oa_str a then match read_strn d n with Some (s, d') => Some (SText s, skipn 1 d') | None => None end
      else match read_u64 d with
           | None => None
           | Some (v, d') => if oa_num a then match read_u64 d' with Some (w, d'') => Some (SNumPtr v w, skipn 1 d'') | None => None end
                             else Some (SNum v, skipn 1 d')
           end
  | _ => Some (SBytes (firstn n d), skipn (n + 1) d)
  end.
Fixpoint dec_args (l : list oarg) (d : list Z) : option (list shown) :=
  match l with
  | [] => Some []
  | a :: l' =>
      match nth_error d (Z.to_nat (oa_true a)) with
      | None => None
      | Some x =>
          if negb (x =? 0) then option_map (cons SNull) (dec_args l' (skipn (Z.to_nat (oa_true a) + 1) d))
          else match dec_value a d with
               | None => None
               | Some (s, d') => option_map (cons s) (dec_args l' d')
               end
      end
  end.
