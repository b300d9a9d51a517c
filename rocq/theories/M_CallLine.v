(** * The line of one function event, from its record: outputFuncInfo (bpfsnoop_func.go:84-147), outputFnArgs, outputFnRetval
    (bpfsnoop_func_args.go:90-126, 155-215), record.Handle (bpfsnoop.go:130-177), ReprFuncParam, ReprFuncReturn and the texts of
    ReprValue (internal/btfx/types.go:187-381).

    Composed of M_Cfg (what Handle takes out of a record), M_FnArgs (decoding of the arguments), M_Repr (values) and M_Color (the line).
    Simplified: the name of a type (Repr), the number of a bit-field, the duration and the time are texts given; programs of type XDP and
    SchedCLS, whose result is an action (M_Bytes), are left out. *)
From Coq Require Import ZArith NArith List Bool String Ascii.
From Verif Require Import M_Go M_Bytes M_FnArgs M_Repr M_Label M_Proto M_Cfg M_Color.
Import ListNotations.
Open Scope string_scope.
Open Scope Z_scope.

(** The string with these bytes *)
Definition bytes_text (l : list Z) : string := fold_right (fun b s => String (ascii_of_N (Z.to_N b)) s) "" l.
(** A parameter (or the result): name, text of its type, what getFuncParams looks at, its type and, for a pointer, the type it points to *)
Record pdesc := { pd_name : string; pd_type : string; pd_pt : ptype; pd_ty : vty; pd_target : vty }.
(** bpfsnoop_func.go:18-26, 35-83 funcInfo: name (with [tp] or [bpf]), parameters and their flags, result *)
Record finfo := { fi_name : string; fi_params : list pdesc; fi_prms : list prm; fi_ret : pdesc; fi_void : bool }.

Section Line.
  Variable find : Z -> string.      (* findSymbolHelper *)
  Variable junk : list Z.           (* see M_Repr *)
  Variable bit_text : Z -> string.  (* mybtf.DumpBitfield *)

  (** types.go:187-321: the text of a value *)
  Fixpoint text (s : M_Repr.shown) : string :=
    match s with
    | M_Repr.SHex v => hx (Z.to_N v)
    | M_Repr.SDec v => dec v
    | M_Repr.SHexDec v => hx (Z.to_N v) ++ "/" ++ dec v
    | M_Repr.SFunc v sym => hx (Z.to_N v) ++ "(" ++ sym ++ ")"
    | M_Repr.SBool b => if b then "true" else "false"
    | M_Repr.SName n => n
    | M_Repr.SBits v => bit_text v
    | M_Repr.SRec n ms => n ++ "{" ++ String.concat "," (map (fun m => (if String.eqb (fst m) "" then "" else fst m ++ "=") ++ text (snd m)) ms) ++ "}"
    | M_Repr.SUnk => "..UNK.."
    | M_Repr.SErr => "..ERR.."
    end.
  (** types.go:323-338 reprValue; None: panic *)
  Definition value_text (d : pdesc) (isstr isnum : bool) (a : sarg) : option string :=
    if isstr then Some ("""" ++ bytes_text (sa_str a) ++ """")
    else match repr_value find junk (pd_ty d) (if isnum then Some (pd_target d) else None) (sa_val a) (sa_ptr a) (sa_next a) with
         | Some (x, None) => Some (text x)
         | Some (x, Some y) => Some (text x ++ "(" ++ text y ++ ")")
         | None => None
         end.
  (** types.go:350-363 ReprFuncParam *)
  Definition param_text (d : pdesc) (p : prm) (a : sarg) : option string :=
    option_map (fun v => "(" ++ pd_type d ++ ")" ++ pd_name d ++ "=" ++ v) (value_text d (p_str p) (p_num p) a).
  (** types.go:365-381 ReprFuncReturn *)
  Definition ret_text (void : bool) (d : pdesc) (p : prm) (a : sarg) : option string :=
    if void then Some "(void)"
    else if p_str p then Some ("""" ++ bytes_text (sa_str a) ++ """")
    else option_map (fun v => "(" ++ pd_type d ++ ")" ++ v) (value_text d false (p_num p) {| sa_reg := sa_reg a; sa_str := []; sa_val := sa_val a; sa_ptr := sa_ptr a; sa_next := 0 |}).
  (** bpfsnoop_func_args.go:163-203: the texts of the parameters; flags of second halves are skipped *)
  Fixpoint param_texts (ds : list pdesc) (ps : list prm) (l : list sarg) : option (list string) :=
    match ds, ps, l with
    | d :: ds', p :: ps', a :: l' =>
        match param_text d p a, param_texts ds' ps' l' with Some s, Some r => Some (s :: r) | _, _ => None end
    | _, _, _ => Some []
    end.
  (** bpfsnoop.go:136-141: is this event one of a pair? *)
  Definition in_session (flags : Z) : bool :=
    have_flag flags 7 || (have_flag flags 8 && negb (have_flag flags 9)) || (have_flag flags 4 && negb (have_flag flags 9)) || have_flag flags 6.
  (** bpfsnoop.go:130-177 with bpfsnoop_func.go:84-131; dur, time: their texts; None: panic *)
  Definition call_event (fi : finfo) (e : M_Cfg.event) (sec : sections) (dur time : string) : option M_Color.event :=
    let exit := M_Cfg.e_type e =? 2 in
    let tp := have_flag (e_flags e) 9 in
    let mk empty ps ret := Some {|
      e_arrow := if exit then "← " else if tp then "- " else "→ "; e_name := fi_name fi; e_empty := empty; e_params := ps; e_more := false; e_ret := ret;
      e_kmulti := false; e_exit := exit; M_Color.e_cpu := Z.to_N (M_Cfg.e_cpu e); M_Color.e_pid := Z.to_N (M_Cfg.e_pid e);
      M_Color.e_comm := bytes_text (null_terminated (M_Cfg.e_comm e)); e_dur := if in_session (e_flags e) && exit then Some dur else None; e_time := time;
      e_pkt := None; e_attrs := []; M_Color.e_lbr := []; M_Color.e_stack := [] |} in
    match s_args sec with
    | None => mk true [] None
    | Some d =>
        match output_fn_args (Z.of_nat (List.length (fi_params fi))) (fi_prms fi) (ret_flags (pd_pt (fi_ret fi))) exit d with
        | None => None
        | Some (l, r) =>
            match param_texts (fi_params fi) (filter (fun p => negb (p_part p)) (fi_prms fi)) l, r with
            | Some ps, None => mk false ps None
            | Some ps, Some a => match ret_text (fi_void fi) (fi_ret fi) (ret_flags (pd_pt (fi_ret fi))) a with Some t => mk false ps (Some t) | None => None end
            | None, _ => None
            end
        end
    end.
End Line.
