(** * Specification of the line printed for one call of a traced function. *)
From Coq Require Import ZArith NArith List Bool String.
From Verif Require Import M_Go M_FnArgs M_Repr M_Label M_Proto M_Cfg M_Color M_CallLine S_FnArgs S_Cfg.
Import ListNotations.
Open Scope string_scope.
Open Scope Z_scope.

(** The bytes before the first 0 *)
Fixpoint until_nul (l : list Z) : list Z := match l with [] => [] | b :: l' => if b =? 0 then [] else b :: until_nul l' end.

(** The text of a number of type t (C68 says which number it is) *)
Definition number_text (find : Z -> string) (bit_text : Z -> string) (t : vty) (v : Z) : string := text bit_text (repr_num find t v).
(** A view of a value as text: a string quoted, a pointer to a number with that number unless it is NULL. *)
Definition view_text (find bit_text : Z -> string) (d : pdesc) (v : view) : string :=
  match v with
  | VStr s => """" ++ bytes_text s ++ """"
  | VNum n => number_text find bit_text (pd_ty d) n
  | VPtr a n => if a =? 0 then "0x0" else hx (Z.to_N a) ++ "(" ++ number_text find bit_text (pd_target d) n ++ ")"
  end.
(** (type)name=value, for the views of the parameters *)
Fixpoint args_text (find bit_text : Z -> string) (ds : list pdesc) (vs : list view) : list string :=
  match ds, vs with
  | d :: ds', v :: vs' => ("(" ++ pd_type d ++ ")" ++ pd_name d ++ "=" ++ view_text find bit_text d v) :: args_text find bit_text ds' vs'
  | _, _ => []
  end.
(** (void), "string" or (type)value *)
Definition result_text (find bit_text : Z -> string) (fi : finfo) (v : view) : string :=
  if fi_void fi then "(void)" else match v with VStr _ => view_text find bit_text (fi_ret fi) v | _ => "(" ++ pd_type (fi_ret fi) ++ ")" ++ view_text find bit_text (fi_ret fi) v end.
(** Neither a struct nor a union *)
Definition is_scalar (t : vty) : Prop := match t with VRec _ _ => False | _ => True end.
Definition desc_scalar (d : pdesc) : Prop := is_scalar (pd_ty d) /\ is_scalar (pd_target d) /\ pt_size (pd_pt d) <= 8.
(** Does an exit follow the entry (or did an entry come before the exit)?  Then the exit shows how long the call took. *)
Definition paired (f : fn) (c : tcfg) : bool := tc_sess c || f_insn f || (negb (f_tp f) && (f_graph f || tc_both c)).

(** The line: what the registers [vals] of the call and the memory they point to hold, and on exit the value returned. *)
Definition call_line (find bit_text : Z -> string) (fi : finfo) (f : fn) (c : tcfg) (M : mem) (vals : list Z) (retval : Z) (exit : bool) (cpu pid : Z) (comm : list Z) (dur time : string) : string :=
  (if exit then "← " else if f_tp f then "- " else "→ ") ++ fi_name fi ++
  " args=(" ++ String.concat ", " (args_text find bit_text (fi_params fi) (expected_args M false (map pd_pt (fi_params fi)) vals)) ++ ")" ++
  (if exit then " retval=" ++ result_text find bit_text fi (view_of M (pt_charptr (pd_pt (fi_ret fi))) (pt_numptr (pd_pt (fi_ret fi))) retval) else "") ++
  " cpu=" ++ fmt_d (Z.to_N cpu) ++ " process=(" ++ fmt_d (Z.to_N pid) ++ ":" ++ bytes_text (until_nul comm) ++ ")" ++
  (if exit && paired f c then " duration=" ++ dur else "") ++ " timestamp=" ++ time ++ eol.
