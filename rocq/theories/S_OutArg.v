(** * Specification of --output-arg: what each expression should show. *)
From Coq Require Import ZArith List Bool String.
From Verif Require Import M_Go M_Ebpf M_CcNum M_Cc M_FnArgs M_OutArg S_FnArgs S_CSem S_CSup S_Null.
Import ListNotations.
Open Scope Z_scope.

(** n bytes at a; zeros when they cannot be read *)
Definition dump (M : mem) (a : Z) (n : nat) : list Z := match bytes M a n with Some l => l | None => repeat 0 n end.
(** at most n - 1 bytes of the C string at a; empty when it cannot be read *)
Definition str_to (M : mem) (a : Z) (n : nat) : list Z := match cstr M a n with Some l => firstn (n - 1) l | None => [] end.
(** the 8 bytes of v, low end first *)
Definition le8 (v : Z) : list Z := map (fun i => Z.shiftr v (8 * i) mod 256) [0; 1; 2; 3; 4; 5; 6; 7].
(** Expression of kind a with value v (None: its evaluation ran into a NULL pointer), memory M. *)
Definition view_arg (M : mem) (a : oarg) (v : option Z) : shown :=
  match v with
  | None => SNull
  | Some v =>
      let n := Z.to_nat (oa_true a) in
      if oa_chk a && (v =? 0) then SNull else
      match oa_type a with
      | RHist | RTDigest => SSample (le8 v)
      | RString => SText (str_to M ((v + oa_off a) mod 2 ^ 64) n)
      | RDefault => if oa_str a then SText (str_to M v n)
                    else if oa_num a then SNumPtr v (if v =? 0 then 0 else num_at M v) else SNum v
      | _ => SBytes (dump M ((v + oa_off a) mod 2 ^ 64) n)
      end
  end.

(** The expression whose value is taken: p of `*p` and of f(p, ...), else the expression itself. *)
Definition subject (e : expr) : expr :=
  match e with EIndir a => a | ECall _ (a :: _) => a | _ => e end.
(** The C value of an expression in the supported fragment, as a 64-bit number. *)
Definition value_of (K : cfg) (C : cenv) (e : expr) : option Z :=
  match csem C (cc2btf (cf_env K)) e, sup K C e with
  | Some c, Some k => match ld K C c k with Some (n, _, _) => Some n | None => None end
  | _, _ => None
  end.
(** Does showing the expression read memory at its value? *)
Definition reads (a : oarg) : bool :=
  match oa_type a with RHist | RTDigest => false | RDefault => oa_str a || oa_num a | _ => true end.
(** mybtf: `const char *` is a pointer, an array of n chars is an array type. *)
Definition tinfo_ok (T : tinfo) : Prop :=
  (forall t, ti_ccp T t = true -> exists u, under t = TPtr u) /\ (forall t n, ti_chars T t = Some n -> exists u, under t = TArr u n).

(** How the evaluation of the expression of an --output-arg ends: a C value, or a NULL pointer that is followed. *)
Definition outcome (K : cfg) (C : cenv) (e : expr) (o : option Z) : Prop :=
  match o with Some n => value_of K C (subject e) = Some n | None => hits_null K C (subject e) = true end.
(** The destination: [size] bytes at R2, outside the frame of the program and outside the memory the expressions look at. *)
Record out_state (C : cenv) (s : mst) (buf size : Z) : Prop := {
  os_buf : rg s R2 = buf /\ 0 <= buf /\ buf + size <= 2 ^ 64;
  os_frame : forall i, 0 <= i < size -> (buf + i - rg s RFP) mod 2 ^ 64 < 2 ^ 64 - 512;
  os_apart : forall a, ce_map C a = true -> ~ (buf <= a < buf + size) }.
(** nor does what is read through the value overlap it *)
Definition arg_apart (buf size : Z) (a : oarg) (o : option Z) : Prop :=
  forall v, o = Some v -> reads a = true -> apart buf size ((v + oa_off a) mod 2 ^ 64) (Z.to_nat (oa_true a)).
(** Added to a histogram or t-digest instead of being printed *)
Definition sampled (x : shown) : Prop := match x with SSample _ => True | _ => False end.

(** ** The bytes a call of an output function asks for: first byte, number of bytes, shown as a string? *)
Definition fixed_sizes : list (string * Z) :=
  [("eth", 6); ("eth2", 12); ("ip4", 4); ("ip42", 8); ("ip6", 16); ("ip62", 32); ("port", 2); ("port2", 4);
   ("u8", 1); ("s8", 1); ("u16", 2); ("s16", 2); ("le16", 2); ("be16", 2); ("u32", 4); ("s32", 4); ("le32", 4); ("be32", 4);
   ("u64", 8); ("s64", 8); ("le64", 8); ("be64", 8)]%string.
(** p points to (or is an array of) elements of [elem] bytes; array: the number of elements. *)
Inductive request (elem : Z) (array : option Z) : expr -> Z -> Z -> bool -> Prop :=
| q_deref p : request elem array (EIndir p) 0 elem false
| q_buf f p t n : In f ["buf"; "hex"; "pkt"]%string -> parse_number t = inl n -> request elem array (ECall (EName f) [p; ENum t]) 0 n false
| q_buf_off f p t0 t o n : In f ["buf"; "hex"; "pkt"]%string -> parse_number t0 = inl o -> parse_number t = inl n ->
    request elem array (ECall (EName f) [p; ENum t0; ENum t]) o n false
| q_pkt p t n proto : parse_number t = inl n -> request elem array (ECall (EName "pkt") [p; ENum t; EName proto]) 0 n false
| q_pkt_off p t0 t o n proto : parse_number t0 = inl o -> parse_number t = inl n -> request elem array (ECall (EName "pkt") [p; ENum t0; ENum t; EName proto]) o n false
| q_slice p t n : parse_number t = inl n -> request elem array (ECall (EName "slice") [p; ENum t]) 0 (n * elem) false
| q_slice_off p t0 t o n : parse_number t0 = inl o -> parse_number t = inl n ->
    request elem array (ECall (EName "slice") [p; ENum t0; ENum t]) (o * elem) (n * elem) false
| q_fixed f n p : In (f, n) fixed_sizes -> request elem array (ECall (EName f) [p]) 0 n false
| q_fixed_off f n p t o : In (f, n) fixed_sizes -> parse_number t = inl o -> request elem array (ECall (EName f) [p; ENum t]) o n false
| q_str p : request elem array (ECall (EName "str") [p]) 0 (match array with Some n => n | None => 64 end) true
| q_str_n p t n : parse_number t = inl n -> request elem array (ECall (EName "str") [p; ENum t]) 0 n true.
(** type of the pointer or array: size of what it points to; number of elements *)
Definition elem_of (E : benv) (t : option ty) : option (Z * option Z) :=
  match t with
  | Some t => match under t with TPtr u => Some (sizeof0 E (Some u), None) | TArr u n => Some (sizeof0 E (Some u), Some n) | _ => None end
  | None => None
  end.
