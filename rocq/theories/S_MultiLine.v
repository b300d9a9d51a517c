(** * Specification of the line printed for an event of kprobe.multi tracing. *)
From Coq Require Import ZArith NArith List Bool String.
From Verif Require Import M_Go M_FnArgs M_Repr M_Label M_Proto M_Cfg M_Color M_CallLine S_FnArgs S_Cfg S_CallLine.
Import ListNotations.
Open Scope string_scope.
Open Scope Z_scope.

(** (type)name=value of every parameter that has an argument register, then ... if there are more parameters than registers *)
Fixpoint slots_text (find bit_text : Z -> string) (ds : list pdesc) (regs : list Z) : list string :=
  match ds, regs with
  | d :: ds', v :: regs' => ("(" ++ pd_type d ++ ")" ++ pd_name d ++ "=" ++ number_text find bit_text (pd_ty d) v) :: slots_text find bit_text ds' regs'
  | _ :: _, [] => ["..."]
  | [], _ => []
  end.
(** the result; of a function without type information in hexadecimal and decimal *)
Definition multi_result (find bit_text : Z -> string) (proto : bool) (fi : finfo) (v : Z) : string :=
  if negb proto then hx (Z.to_N v) ++ "/" ++ fmt_d (Z.to_N v)
  else if fi_void fi then "(void)" else "(" ++ pd_type (fi_ret fi) ++ ")" ++ number_text find bit_text (pd_ty (fi_ret fi)) v.
(** [regs]: the argument registers at the moment of the event *)
Definition multi_line (find bit_text : Z -> string) (proto : bool) (fi : finfo) (f : fn) (regs : list Z) (retval : Z) (exit : bool) (cpu pid : Z) (comm : list Z) (dur time : string) : string :=
  (if exit then "← " else "→ ") ++ fi_name fi ++
  " args=(" ++ String.concat ", " (slots_text find bit_text (if proto then fi_params fi else []) regs) ++ ")" ++
  (if exit then " retval=" ++ multi_result find bit_text proto fi retval else "") ++
  " cpu=" ++ fmt_d (Z.to_N cpu) ++ " process=(" ++ fmt_d (Z.to_N pid) ++ ":" ++ bytes_text (until_nul comm) ++ ")" ++
  (if exit && (f_both f || f_graph f) then " duration=" ++ dur else "") ++ " timestamp=" ++ time ++ eol.
