(** * Command-line targets: /repo/internal/bpfsnoop/flags_kfunc.go, flags_prog.go, the checks of flags.go, getTypeDescFrom of
    filter_arg.go.

    Strings are byte strings.  Simplified: strings.ToLower and strings.TrimSpace are the ASCII ones; the fields fltrExpr (for logs)
    is kept, log output is not; error values are a few constructors. *)
From Coq Require Import List Bool String Ascii ZArith.
Import ListNotations.
Open Scope string_scope.

(** Go's strings package: HasPrefix and slicing k[n:], ToLower, Split on ':', Cut on ':', TrimSpace, Contains *)
Fixpoint has_prefix (p s : string) : bool :=
  match p, s with
  | EmptyString, _ => true
  | String a p', String b s' => Ascii.eqb a b && has_prefix p' s'
  | _, _ => false
  end.
Fixpoint drop (n : nat) (s : string) : string :=
  match n, s with
  | S n', String _ s' => drop n' s'
  | _, _ => s
  end.
Definition lower_ascii (c : ascii) : ascii :=
  let n := nat_of_ascii c in if Nat.leb 65 n && Nat.leb n 90 then ascii_of_nat (n + 32) else c.
Fixpoint to_lower (s : string) : string :=
  match s with EmptyString => EmptyString | String c s' => String (lower_ascii c) (to_lower s') end.
Fixpoint split_colon (s : string) : list string :=
  match s with
  | EmptyString => [""]
  | String c s' =>
      if Ascii.eqb c ":" then "" :: split_colon s'
      else match split_colon s' with f :: l => String c f :: l | [] => [String c ""] end
  end.
Fixpoint cut_colon (s : string) : string * string * bool :=
  match s with
  | EmptyString => ("", "", false)
  | String c s' => if Ascii.eqb c ":" then ("", s', true) else let '(a, b, ok) := cut_colon s' in (String c a, b, ok)
  end.
Definition is_space (c : ascii) : bool :=
  let n := nat_of_ascii c in (Nat.leb 9 n && Nat.leb n 13) || Nat.eqb n 32.
Fixpoint trim_left (s : string) : string :=
  match s with EmptyString => EmptyString | String c s' => if is_space c then trim_left s' else s end.
Fixpoint trim_right (s : string) : string :=
  match s with
  | EmptyString => EmptyString
  | String c s' => match trim_right s' with EmptyString => if is_space c then EmptyString else String c "" | t => String c t end
  end.
Definition trim (s : string) : string := trim_right (trim_left s).
Fixpoint contains (sub s : string) : bool :=
  has_prefix sub s || match s with EmptyString => false | String _ s' => contains sub s' end.

(** The global flags read by the parsers; g_both is hasModeEntry() && hasModeExit(). *)
Record globals := { g_insn : bool; g_graph : bool; g_stack : bool; g_lbr : bool; g_both : bool; g_pkt : bool }.

(** flags_kfunc.go:19-54: the state of the prefix loop *)
Record kst := { k_i : bool; k_g : bool; k_s : bool; k_l : bool; k_b : bool; k_p : bool; k_m : bool; k_skb : bool; k_rest : string }.
Definition kst0 (k : string) : kst :=
  {| k_i := false; k_g := false; k_s := false; k_l := false; k_b := false; k_p := false; k_m := false; k_skb := false; k_rest := k |}.
Inductive kind := Ki | Kg | Ks | Kl | Kb | Kp | Km | Kskb.
Definition kind_eqb (a b : kind) : bool :=
  match a, b with Ki, Ki | Kg, Kg | Ks, Ks | Kl, Kl | Kb, Kb | Kp, Kp | Km, Km | Kskb, Kskb => true | _, _ => false end.
Definition setk (x : kind) (s : kst) (r : string) : kst :=
  {| k_i := k_i s || kind_eqb x Ki; k_g := k_g s || kind_eqb x Kg; k_s := k_s s || kind_eqb x Ks; k_l := k_l s || kind_eqb x Kl;
     k_b := k_b s || kind_eqb x Kb; k_p := k_p s || kind_eqb x Kp; k_m := k_m s || kind_eqb x Km; k_skb := k_skb s || kind_eqb x Kskb;
     k_rest := r |}.
(** one `if strings.HasPrefix(k, "(x)")` of the loop *)
Definition kstep (x : kind) (p : string) (s : kst) : kst := if has_prefix p (k_rest s) then setk x s (drop 3 (k_rest s)) else s.
(** flags_kfunc.go:50-53 *)
Definition kstep_skb (s : kst) : kst := if has_prefix "(skb)" (to_lower (k_rest s)) then setk Kskb s (drop 5 (k_rest s)) else s.
(** flags_kfunc.go:23-53: one pass of the loop *)
Definition kpass (s : kst) : kst :=
  kstep_skb (kstep Km "(m)" (kstep Kp "(p)" (kstep Kb "(b)" (kstep Kl "(l)" (kstep Ks "(s)" (kstep Kg "(g)" (kstep Ki "(i)" s))))))).
(** flags_kfunc.go:23: `for strings.HasPrefix(k, "(")`.  A loop that need not end is a relation: no result when it does not end. *)
Inductive kloop : kst -> kst -> Prop :=
| kloop_done s : has_prefix "(" (k_rest s) = false -> kloop s s
| kloop_more s r : has_prefix "(" (k_rest s) = true -> kloop (kpass s) r -> kloop s r.

(** filter_arg.go:33-45 getTypeDescFrom on a string that starts with '(': the text up to the first ')' *)
Fixpoint upto_paren (s : string) : option string :=
  match s with
  | EmptyString => None
  | String c s' => if Ascii.eqb c ")" then Some "" else option_map (String c) (upto_paren s')
  end.

(** flags_kfunc.go:11-17 KfuncFlag with bpf_prog_flag.go:19-30 *)
Record kflag := { f_name : string; f_arg : string; f_typ : string; f_insn : bool; f_graph : bool; f_stack : bool; f_lbr : bool;
  f_both : bool; f_pkt : bool; f_multi : bool; f_argName : string; f_argType : string }.
Inductive kres := KInsnGraph | KMultiInsn | KBadType | KFields | KMultiUntyped | KOk (f : kflag).
Definition skb_type := "struct sk_buff *".
(** flags_kfunc.go:55-111: what follows the loop *)
Definition kfinish (g : globals) (s : kst) : kres :=
  let arg0 := if k_skb s then "skb" else "" in
  let typ0 := if k_skb s then skb_type else "" in
  let insn := k_i s || g_insn g in
  let graph := k_g s || g_graph g in
  let make name arg typ :=
    if k_m s && String.eqb typ "" then KMultiUntyped
    else KOk {| f_name := name; f_arg := arg; f_typ := typ; f_insn := insn; f_graph := graph; f_stack := k_s s || g_stack g;
                f_lbr := k_l s || g_lbr g; f_both := k_b s || g_both g; f_pkt := k_p s || g_pkt g; f_multi := k_m s;
                f_argName := if k_m s then arg else ""; f_argType := if k_m s then typ else "" |} in
  if insn && graph then KInsnGraph
  else if k_m s && insn then KMultiInsn
  else match split_colon (k_rest s) with
  | [n] => make (trim n) arg0 typ0
  | [n; a] =>
      let a' := trim a in
      match a' with
      | String "(" a'' =>
          match upto_paren a'' with
          | None => KBadType
          | Some t => make (trim n) (trim (drop (String.length t + 2) a')) (trim t)
          end
      | _ => make (trim n) a' typ0
      end
  | [n; a; t] => make (trim n) (trim a) (trim t)
  | _ => KFields
  end.
(** flags_kfunc.go:19-111 parseKfuncFlag *)
Definition parse_kfunc (g : globals) (k : string) (r : kres) : Prop := exists s, kloop (kst0 k) s /\ r = kfinish g s.

(** flags_prog.go:35-57: the prefix loop of parseProgFlag *)
Definition ppass (s : kst) : kst :=
  kstep Kp "(p)" (kstep Kb "(b)" (kstep Kl "(l)" (kstep Ks "(s)" (kstep Kg "(g)" s)))).
Inductive ploop : kst -> kst -> Prop :=
| ploop_done s : has_prefix "(" (k_rest s) = false -> ploop s s
| ploop_more s r : has_prefix "(" (k_rest s) = true -> ploop (ppass s) r -> ploop s r.
(** strconv.ParseUint(s, 10, 32) *)
Fixpoint uint_acc (acc : Z) (s : string) : option Z :=
  match s with
  | EmptyString => Some acc
  | String c s' =>
      let d := (Z.of_nat (nat_of_ascii c) - 48)%Z in
      if ((0 <=? d) && (d <=? 9))%Z%bool then let acc' := (10 * acc + d)%Z in if (acc' <? 2 ^ 32)%Z then uint_acc acc' s' else None else None
  end.
Definition parse_uint32 (s : string) : option Z := match s with EmptyString => None | _ => uint_acc 0 s end.

(** flags_prog.go:22-33 ProgFlag: the program it names and its options *)
Inductive desc := DAll | DId (id : Z) | DPinned (p : string) | DTag (t : string) | DName (n : string) | DPid (p : Z).
Record pflag := { p_desc : desc; p_func : string; p_graph : bool; p_stack : bool; p_lbr : bool; p_both : bool; p_pkt : bool }.
Inductive pres := PNoFile | PNoTag | PNoName | PBadPid | PBadId | POk (f : pflag).
Definition pfinish (exists_ : string -> bool) (g : globals) (s : kst) : pres :=
  let mk d fn := POk {| p_desc := d; p_func := fn; p_graph := k_g s || g_graph g; p_stack := k_s s || g_stack g; p_lbr := k_l s || g_lbr g;
                        p_both := k_b s || g_both g; p_pkt := k_p s || g_pkt g |} in
  let p := k_rest s in
  if String.eqb p "*" then mk DAll ""
  else
    let '(id, fn, ok) := cut_colon p in
    let by_id (id fn : string) (ok : bool) := match parse_uint32 id with None => PBadId | Some n => mk (DId n) (if ok then fn else "") end in
    if String.eqb id "i" || String.eqb id "id" then let '(id, fn, ok) := cut_colon fn in by_id id fn ok
    else if String.eqb id "p" || String.eqb id "pinned" then
      let '(x, f, _) := cut_colon fn in if exists_ x then mk (DPinned x) f else PNoFile
    else if String.eqb id "t" || String.eqb id "tag" then
      let '(x, f, _) := cut_colon fn in if String.eqb x "" then PNoTag else mk (DTag x) f
    else if String.eqb id "n" || String.eqb id "name" then
      let '(x, f, _) := cut_colon fn in if String.eqb x "" then PNoName else mk (DName x) f
    else if String.eqb id "pid" then
      let '(x, f, _) := cut_colon fn in match parse_uint32 x with None => PBadPid | Some n => mk (DPid n) f end
    else by_id id fn ok.
(** flags_prog.go:35-128 parseProgFlag; [exists_] is fileExists *)
Definition parse_prog (exists_ : string -> bool) (g : globals) (p : string) (r : pres) : Prop :=
  exists s, ploop (kst0 p) s /\ r = pfinish exists_ g s.

(** ** Modes: flags.go *)
Record cli := { c_modes : list string; c_kfuncs : list string; c_include : list string; c_exclude : list string; c_extra : list string;
  c_filterArg : bool; c_filterPkt : bool; c_outputArg : bool; c_outputPkt : bool; c_fgraph : bool; c_depth : N }.
Definition entry_mode := "entry".
Definition exit_mode := "exit".
Definition is_multi (k : string) : bool := contains "(m)" k.
(** flags.go:253-260 multiModeOnly *)
Definition multi_only (ks : list string) : bool := forallb is_multi ks.
(** flags.go:262-270 setDefaultModes *)
Definition default_modes (c : cli) : list string :=
  match c_modes c with
  | [] => if multi_only (c_kfuncs c) then [entry_mode] else [exit_mode]
  | l => l
  end.
Definition known_mode (m : string) : bool := String.eqb m entry_mode || String.eqb m exit_mode.
(** flags.go:272-291 checkMode *)
Definition check_mode (modes : list string) : bool :=
  match modes with
  | [a] => known_mode a
  | [a; b] => known_mode a && known_mode b
  | _ => false
  end.
Definition has_mode (m : string) (modes : list string) : bool := existsb (String.eqb m) modes.
(** flags.go:329-356 checkMultiExitFilterConflict: true when there is no conflict *)
Definition check_multi_exit (c : cli) (modes : list string) : bool :=
  negb (existsb is_multi (c_kfuncs c)) || negb (has_mode exit_mode modes) || has_mode entry_mode modes ||
  negb (c_filterArg c || c_filterPkt c || c_outputArg c || c_outputPkt c).
(** flags.go:293-319 checkFgraphMultiUnsupported *)
Definition check_fgraph_multi (c : cli) : bool :=
  forallb (fun k => negb (is_multi k && contains "(g)" k)) (c_kfuncs c) &&
  forallb (fun k => negb (is_multi k)) (c_include c) && forallb (fun k => negb (is_multi k)) (c_exclude c) && forallb (fun k => negb (is_multi k)) (c_extra c).
(** flags.go:172-193: the modes in force, or None when ParseFlags reports an error *)
Definition parse_modes (c : cli) : option (list string) :=
  let m := default_modes c in
  if check_mode m && check_multi_exit c m && negb (c_depth c =? 0)%N && (c_depth c <=? 500)%N && check_fgraph_multi c then Some m else None.
(** flags.go:358-376 Kfuncs, KfuncsMulti *)
Definition kfuncs_plain (c : cli) : list string := filter (fun k => negb (is_multi k)) (c_kfuncs c).
Definition kfuncs_multi (c : cli) : list string := filter is_multi (c_kfuncs c).
