(** * Specification: evaluating an expression follows a NULL pointer. *)
From Coq Require Import ZArith List Bool String.
From Verif Require Import M_Ebpf M_CcNum M_Cc S_CSem S_CSup.
Import ListNotations.
Open Scope Z_scope.

(** [e] itself lies in the supported fragment and C gives it the truth value [b]. *)
Definition known (K : cfg) (C : cenv) (b : bool) (e : expr) : bool :=
  match csem C (cc2btf (cf_env K)) e, sup K C e with
  | Some c, Some k =>
      match k with
      | KNum _ => true
      | KEnum _ => false
      | _ => match ldr K C c k with Some _ => true | None => false end
      end &&
      match rval C c with
      | Some x => match truth x with Some t => Bool.eqb t b | None => false end
      | None => false
      end
  | _, _ => false
  end.

Section Null.
  Variables (K : cfg) (C : cenv).
  Notation tn := (cc2btf (cf_env K)).

  (** Paths: a parameter or a constant address, followed by member accesses, subscripts, indirections, casts. *)
  Fixpoint path (e : expr) : bool :=
    match e with
    | EName _ => true
    | EArrow a _ | EDot a _ | EIndex a _ | EIndir a | EAddr a | EParen a => path a
    | ECast _ (ENum _) => true
    | ECast _ a => path a
    | _ => false
    end.
  (** a is a path to a pointer object in memory (in CO-RE mode: a pointer member of a struct or union) that holds NULL. *)
  Definition null_ptr (a : expr) : bool :=
    path a &&
    match csem C tn a, sup K C a with
    | Some (CLoc l t bf), Some (KLoc prev off) =>
        match rval C (CLoc l t bf), ld K C (CLoc l t bf) (KLoc prev off) with
        | Some (CPtr p _), Some _ => (p =? 0) &&
            (match cf_mode K with MCore => match can_cast K prev with Some (Some _) => true | _ => false end | _ => true end)
        | _, _ => false
        end
    | _, _ => false
    end.
  Fixpoint follows_null (e : expr) : bool :=
    match e with
    | EArrow a _ | EIndir a | EIndex a _ => null_ptr a || follows_null a
    | EDot a _ | EAddr a | EParen a | ECast _ a => follows_null a
    | _ => false
    end.

  (** The expression has no compile-time value. *)
  Fixpoint runtime_expr (e : expr) : bool :=
    match e with
    | EName x => negb (String.eqb x "NULL" || String.eqb x "false" || String.eqb x "true") &&
                 match lookup_var (cf_vars K) x 0 with Some _ => true | None => false end
    | EArrow _ _ | EDot _ _ | EIndex _ _ | EIndir _ | EAddr _ => true
    | ECast _ (ENum _) => true
    | ECast _ a | EParen a | ENot a | ETwid a | EMinus a | EPlus a | EPreInc a | EPreDec a => runtime_expr a
    | EBin _ a b | ECmp _ a b => runtime_expr a || runtime_expr b
    | EAndAnd a b | EOrOr a b => runtime_expr a && runtime_expr b
    | ECond c _ _ => runtime_expr c
    | _ => false
    end.
  (** Evaluation follows a NULL pointer somewhere.  Both operands of && and || are evaluated; of ?:, the condition and the
      operand it selects (both, when the value of the condition is not known). *)
  Fixpoint hits_null (e : expr) : bool :=
    (path e && follows_null e) ||
    match e with
    | EArrow a _ | EDot a _ | EIndex a _ | EIndir a | EAddr a | ECast _ a
    | EParen a | ENot a | ETwid a | EMinus a | EPlus a | EPreInc a | EPreDec a => hits_null a
    | EBin _ a b | ECmp _ a b => hits_null a || hits_null b
    | EAndAnd a b | EOrOr a b => (hits_null a && runtime_expr b) || (runtime_expr a && hits_null b)
    | ECond c a b => hits_null c || (hits_null a && hits_null b) || (known K C true c && hits_null a) || (known K C false c && hits_null b)
    | _ => false
    end.
End Null.
