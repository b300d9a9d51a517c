(** * The line of an event of kprobe.multi tracing, from its record: outputFuncInfo with isKmulti (bpfsnoop_func.go:84-147),
    outputFnArgsKmulti, outputFnRetvalKmulti (bpfsnoop_func_args.go:216-284) and record.Handle (bpfsnoop.go:130-177).

    Composed of M_Cfg, M_FnArgs, M_Repr, M_Color and M_CallLine, with the simplifications listed there. *)
From Coq Require Import ZArith NArith List Bool String Ascii.
From Verif Require Import M_Go M_Bytes M_FnArgs M_Repr M_Label M_Proto M_Cfg M_Color M_CallLine.
Import ListNotations.
Open Scope string_scope.
Open Scope Z_scope.

Section Line.
  Variable find : Z -> string.      (* findSymbolHelper *)
  Variable junk : list Z.           (* see M_Repr *)
  Variable bit_text : Z -> string.  (* mybtf.DumpBitfield *)

  Definition plain_prm : prm := {| p_str := false; p_num := false; p_part := false |}.
  (** bpfsnoop_func_args.go:234-256: ReprFuncParam(param, i, false, false, arg, 0, valNext, "", f) *)
  Fixpoint multi_params (ds : list pdesc) (l : list (Z * Z)) : option (list string) :=
    match ds, l with
    | d :: ds', (v, nx) :: l' =>
        match param_text find junk bit_text d plain_prm {| sa_reg := -1; sa_str := []; sa_val := v; sa_ptr := 0; sa_next := nx |}, multi_params ds' l' with
        | Some s, Some r => Some (s :: r)
        | _, _ => None
        end
    | _, _ => Some []
    end.
  (** bpfsnoop_func_args.go:267-275; [proto]: info.proto is not nil *)
  Definition multi_ret (proto : bool) (fi : finfo) (v : Z) : option string :=
    if proto then ret_text find junk bit_text (fi_void fi) (fi_ret fi) plain_prm {| sa_reg := -1; sa_str := []; sa_val := v; sa_ptr := 0; sa_next := 0 |}
    else Some (hx (Z.to_N v) ++ "/" ++ fmt_d (Z.to_N v)).
  (** bpfsnoop.go:130-177 with bpfsnoop_func.go:84-147, isKmulti; None: panic *)
  Definition multi_event (maxargs : nat) (proto : bool) (fi : finfo) (e : M_Cfg.event) (sec : sections) (dur time : string) : option M_Color.event :=
    let exit := M_Cfg.e_type e =? 2 in
    let tp := have_flag (e_flags e) 9 in
    let mk empty ps more ret := Some {|
      e_arrow := if exit then "← " else if tp then "- " else "→ "; e_name := fi_name fi; e_empty := empty; e_params := ps; e_more := more; e_ret := ret;
      e_kmulti := true; e_exit := exit; M_Color.e_cpu := Z.to_N (M_Cfg.e_cpu e); M_Color.e_pid := Z.to_N (M_Cfg.e_pid e);
      M_Color.e_comm := bytes_text (null_terminated (M_Cfg.e_comm e)); e_dur := if in_session (e_flags e) && exit then Some dur else None; e_time := time;
      e_pkt := None; e_attrs := []; M_Color.e_lbr := []; M_Color.e_stack := [] |} in
    match s_args sec with
    | None => mk true [] false None
    | Some d =>
        let params := if proto then fi_params fi else [] in
        match output_kmulti maxargs (List.length params) d exit with
        | (l, more, r) =>
            match multi_params params l, r with
            | Some ps, None => mk false ps more None
            | Some ps, Some v => match multi_ret proto fi v with Some t => mk false ps more (Some t) | None => None end
            | None, _ => None
            end
        end
    end.
  (** bpfsnoop.go:135: which of the two *)
  Definition any_event (maxargs : nat) (proto : bool) (fi : finfo) (e : M_Cfg.event) (sec : sections) (dur time : string) : option M_Color.event :=
    if have_flag (e_flags e) 11 then multi_event maxargs proto fi e sec dur time else call_event find junk bit_text fi e sec dur time.
End Line.
