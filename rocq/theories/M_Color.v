(** * What an event looks like with and without colours: /repo/internal/bpfsnoop/lbr_stack.go, bpfsnoop_func_stack.go:69-97,
    bpfsnoop_func.go:86-148, bpfsnoop_func_args.go:106-127, 159-284, bpfsnoop.go:161-177, bpfsnoop_pkt.go:91-103, bpfsnoop_arg.go:41-286,
    bpfsnoop_insn.go:23-45, bpfsnoop_graph.go:29-55, dump.go:18-33 and bpf_read_data.go:112-118.

    [colorful] is flags.go:154 colorfulOutput (noColorOutput is its negation).  Values already turned into text (a parameter, a return
    value, an attribute, durations, the time, the tuple of a packet) are strings.  The library that paints (github.com/fatih/color) writes
    ESC [ codes m before and ESC [ 0 m after the text unless its own switch NO_COLOR is on ([nocolor]); for bold text its closing code differs,
    which is left out.  Strings are bytes; fmt counts characters (of UTF-8) when it pads, len counts bytes. *)
From Coq Require Import ZArith NArith List Bool String Ascii.
From Coq Require Import DecimalString.
From Verif Require Import M_Go M_Label M_Proto.
Import ListNotations.
Open Scope string_scope.
Open Scope Z_scope.

Definition esc : ascii := "027".
Definition eol : string := String "010" "".
Definition tabch : string := String "009" "".
(** fmt %#x and %d of unsigned numbers; %d of signed ones *)
Definition hx (n : N) : string := "0x" ++ fmt_x (Z.of_N n).
Definition dec (z : Z) : string := NilZero.string_of_int (Z.to_int z).
Fixpoint spaces (n : nat) : string := match n with O => "" | S k => String " " (spaces k) end.
(** utf8.RuneCountInString on valid UTF-8: bytes 0x80-0xBF continue a character *)
Fixpoint runes (s : string) : Z :=
  match s with
  | "" => 0
  | String c s' => (if ((128 <=? Z.of_nat (nat_of_ascii c)) && (Z.of_nat (nat_of_ascii c) <? 192))%bool then 0 else 1) + runes s'
  end.
Definition len (s : string) : Z := Z.of_nat (String.length s).
(** fmt %-*s: a negative width stands for its absolute value, left-justified *)
Definition pad (w : Z) (s : string) : string := s ++ spaces (Z.to_nat (Z.abs w - runes s)).
(** fmt %02d *)
Definition dec02 (z : Z) : string := if (0 <=? z) && (z <? 10) then "0" ++ dec z else dec z.

Definition color := list N.
Definition green : color := [32%N].
Definition red : color := [31%N].
Definition blue : color := [34%N].
Definition cyan : color := [36%N].
Definition magenta : color := [35%N].
Definition yellow : color := [33%N].
Definition yellow_bold : color := [33%N; 1%N].
Definition rgb (r g b : N) : color := [38%N; 2%N; r; g; b].

(** lbr_stack.go:13-26 branchEndpoint *)
Record endpoint := { ep_addr : N; ep_func : string; ep_off : N; ep_file : string; ep_line : N; ep_inline : bool }.
(** lbr_stack.go:77-79 *)
Record entry := { en_from : endpoint; en_to : endpoint }.
(** lbr_stack.go:87-93 branchRecord *)
Record record := { r_entries : list entry; r_fn : Z; r_fi : Z; r_tn : Z; r_ti : Z }.
(** One frame of a function stack: the address and its endpoint *)
Record frame := { f_ip : N; f_ep : endpoint }.
(** The text of one --output-arg: hidden (histogram, t-digest), NULL (of a histogram or t-digest or not), or shown *)
Inductive attr := AHidden | ANull (hist : bool) (s : string) | AShown (s : string).
(** bpfsnoop_arg.go:48, 279: not isHist and not isTDig *)
Definition counts (a : attr) : bool := match a with AHidden => false | ANull hist _ => negb hist | AShown _ => true end.
(** What is printed for one function event *)
Record event := {
  e_arrow : string; e_name : string; e_empty : bool; e_params : list string; e_more : bool; e_ret : option string; e_kmulti : bool; e_exit : bool;
  e_cpu : N; e_pid : N; e_comm : string; e_dur : option string; e_time : string;
  e_pkt : option string; e_attrs : list attr; e_lbr : list entry; e_stack : list frame }.

Section Color.
  Variable nocolor : bool.
  Variable verbose : bool.
  Definition sgr (c : color) : string := String esc ("[" ++ String.concat ";" (map fmt_d c) ++ "m").
  Definition paint (c : color) (s : string) : string := if nocolor then s else sgr c ++ s ++ sgr [0%N].

  (** lbr_stack.go:28-41 updateInfo *)
  Definition endpoint_name (e : endpoint) : string :=
    if verbose then hx (ep_addr e) ++ ":" ++ ep_func e ++ "+" ++ hx (ep_off e) else ep_func e ++ "+" ++ hx (ep_off e).
  Definition line_info (e : endpoint) : string :=
    if String.eqb (ep_file e) "" then ""
    else "(" ++ ep_file e ++ ":" ++ fmt_d (ep_line e) ++ ")" ++ (if ep_inline e then "[inline]" else "").
  (** lbr_stack.go:43-75 branchEndpoint.format *)
  Definition format_ep (colorful : bool) (e : endpoint) (nlen ilen : Z) : string :=
    if negb colorful then pad nlen (endpoint_name e) ++ " " ++ pad ilen (line_info e)
    else
      (if verbose then paint blue (hx (ep_addr e)) ++ ":" else "") ++
      paint (rgb 225 213 119) (ep_func e) ++ "+" ++ hx (ep_off e) ++
      (if len (endpoint_name e) <? nlen then pad (nlen - len (endpoint_name e)) "" else "") ++
      " " ++
      (if negb (String.eqb (ep_file e) "") then
         "(" ++ paint (rgb 136 136 136) (ep_file e ++ ":" ++ fmt_d (ep_line e)) ++ ")" ++
         (if ep_inline e then "[inline]" else "") ++
         (if len (line_info e) <? ilen then pad (ilen - len (line_info e)) "" else "")
       else pad ilen "").
  (** lbr_stack.go:81-85 branchEntry.format *)
  Definition format_entry (colorful : bool) (e : entry) (ln li rn ri : Z) : string :=
    format_ep colorful (en_from e) ln li ++ " -> " ++ format_ep colorful (en_to e) rn ri.
  (** lbr_stack.go:104-112 addEntry *)
  Definition add_entry (r : record) (e : entry) : record :=
    {| r_entries := (r_entries r ++ [e])%list;
       r_fn := Z.max (r_fn r) (len (endpoint_name (en_from e))); r_fi := Z.max (r_fi r) (len (line_info (en_from e)));
       r_tn := Z.max (r_tn r) (len (endpoint_name (en_to e))); r_ti := Z.max (r_ti r) (len (line_info (en_to e))) |}.
  (** lbr_stack.go:95-102 newBranchRecord *)
  Definition new_record (e : entry) : record := add_entry {| r_entries := []; r_fn := 0; r_fi := 0; r_tn := 0; r_ti := 0 |} e.
  (** lbr_stack.go:140-159 pushEntry, the last record first; the stack is never empty here (bpfsnoop_lbr.go:75-79) *)
  Definition push_entry (s : list record) (e : entry) : list record :=
    match s with
    | [] => [new_record e]
    | r :: s' =>
        match rev (r_entries r) with
        | lst :: _ => if String.eqb (ep_func (en_to lst)) (ep_func (en_from e)) then add_entry r e :: s' else new_record e :: r :: s'
        | [] => new_record e :: r :: s'
        end
    end.
  (** bpfsnoop_lbr.go:75-79: oldest branch first *)
  Definition build (l : list entry) : list record := rev (fold_left push_entry l []).
  (** lbr_stack.go:161-173 outputRecord *)
  Definition out_record (colorful : bool) (r : record) (idx ln li rn ri : Z) : string :=
    match r_entries r with
    | [] => ""
    | e :: es =>
        ("[#" ++ dec02 idx ++ "] ") ++ format_entry colorful e ln li rn ri ++ eol ++
        String.concat "" (map (fun e' => "      " ++ format_entry colorful e' ln li rn ri ++ eol) es)
    end.
  (** lbr_stack.go:175-193 getLeftFmt, getRightFmt *)
  Definition max_of (f : record -> Z) (s : list record) : Z := fold_left (fun m r => Z.max m (f r)) s 0.
  (** lbr_stack.go:195-204 output *)
  Fixpoint out_records (colorful : bool) (s : list record) (idx ln li rn ri : Z) : string :=
    match s with
    | [] => ""
    | r :: s' => out_record colorful r idx ln li rn ri ++ out_records colorful s' (idx - 1) ln li rn ri
    end.
  Definition out_lbr (colorful : bool) (lbr_nr : Z) (l : list entry) : string :=
    let s := build l in
    out_records colorful s (lbr_nr - 1) (max_of r_fn s) (max_of r_fi s) (max_of r_tn s) (max_of r_ti s).

  (** bpfsnoop_func_stack.go:69-95 *)
  Definition out_frame (colorful : bool) (f : frame) : string :=
    let e := f_ep f in
    let src := tabch ++ "; " ++ ep_file e ++ ":" ++ fmt_d (ep_line e) in
    "  " ++
    (if negb colorful then
       (if verbose then hx (f_ip f) ++ ":" else "") ++
       pad 50 (ep_func e ++ "+" ++ hx (ep_off e)) ++
       (if negb (String.eqb (ep_file e) "") then src else "")
     else
       (if verbose then paint blue (hx (f_ip f)) ++ ":" else "") ++
       paint (rgb 225 213 119) (ep_func e) ++
       pad (50 - len (ep_func e)) ("+" ++ hx (ep_off e)) ++
       (if negb (String.eqb (ep_file e) "") then paint (rgb 136 136 136) src else "")) ++ eol.

  (** bpfsnoop_func_args.go:147-160 funcParamColors; the colour of parameter i *)
  Definition param_color (i : nat) : color :=
    nth (Nat.modulo i 6) [rgb 157 157 157; rgb 122 122 122; rgb 84 84 84; rgb 156 145 145; rgb 124 116 116; rgb 92 84 84] [].
  Fixpoint out_params (colorful : bool) (i : nat) (l : list string) : string :=
    match l with
    | [] => ""
    | p :: l' => (match i with O => "" | S _ => ", " end) ++ (if colorful then paint (param_color i) p else p) ++ out_params colorful (S i) l'
    end.
  (** bpfsnoop_func_args.go:120-127, 277-284 *)
  Definition out_ret (colorful : bool) (r : string) : string :=
    if colorful then paint green " retval" ++ "=" ++ paint red r else " retval=" ++ r.
  (** bpfsnoop_func.go:86-148 outputFuncInfo, with bpfsnoop_func_args.go:162-263 *)
  Definition out_func (colorful : bool) (v : event) : string :=
    (if colorful then paint yellow_bold ((e_arrow v ++ e_name v) ++ " ") ++ paint blue "args" else (e_arrow v ++ e_name v) ++ " args") ++
    (if e_empty v then "=()" ++ (if e_exit v && negb (e_kmulti v) then " retval=(void)" else "")
     else "=(" ++ out_params colorful 0 (e_params v) ++
          (if e_more v then (match e_params v with [] => "" | _ => ", " end) ++ "..." else "") ++ ")" ++
          (match e_ret v with Some r => out_ret colorful r | None => "" end)).
  (** bpfsnoop.go:161-177 *)
  Definition out_tail (colorful : bool) (v : event) : string :=
    (if colorful then
       paint cyan (" cpu=" ++ fmt_d (e_cpu v)) ++
       paint magenta (" process=(" ++ fmt_d (e_pid v) ++ ":" ++ e_comm v ++ ")") ++
       (match e_dur v with Some d => paint (rgb 255 0 127) (" duration=" ++ d) | None => "" end) ++
       paint (rgb 144 238 144) (" timestamp=" ++ e_time v)
     else
       (" cpu=" ++ fmt_d (e_cpu v) ++ " process=(" ++ fmt_d (e_pid v) ++ ":" ++ e_comm v ++ ")") ++
       (match e_dur v with Some d => " duration=" ++ d | None => "" end) ++
       " timestamp=" ++ e_time v) ++ eol.
  (** bpfsnoop_pkt.go:91-103 *)
  Definition out_pkt (colorful : bool) (t : string) : string :=
    "Pkt tuple: " ++ (if colorful then paint green t ++ eol else t ++ eol).
  (** bpfsnoop_arg.go:41-286: the loop over the attributes, whether a comma is due first *)
  Fixpoint out_attrs_go (colorful : bool) (comma : bool) (l : list attr) : string :=
    match l with
    | [] => eol
    | a :: l' =>
        (if comma then ", " else "") ++
        (match a with
         | AHidden => ""
         | ANull _ s => if colorful then paint red s else s
         | AShown s => if colorful then paint (rgb 136 136 136) s else s
         end) ++
        out_attrs_go colorful (comma || counts a) l'
    end.
  Definition out_attrs (colorful : bool) (l : list attr) : string :=
    (if existsb counts l then "Arg attrs: " else "") ++ out_attrs_go colorful false l.
  (** bpfsnoop.go:158-206: everything printed for one event *)
  Definition out_event (colorful : bool) (lbr_nr : Z) (v : event) : string :=
    out_func colorful v ++ out_tail colorful v ++
    (match e_pkt v with Some t => out_pkt colorful t | None => "" end) ++
    (match e_attrs v with [] => "" | l => out_attrs colorful l end) ++
    (match e_lbr v with [] => "" | l => "LBR stack:" ++ eol ++ out_lbr colorful lbr_nr l end) ++
    (match e_stack v with [] => "" | l => "Func stack:" ++ eol ++ String.concat "" (map (out_frame colorful) l) end).

  (** bpfsnoop_insn.go:34-43 *)
  Definition out_insn (colorful : bool) (fn : string) (cpu : N) (dur desc : string) : string :=
    (if colorful then paint yellow fn ++ paint cyan (" cpu=" ++ pad 2 (fmt_d cpu)) ++ paint (rgb 255 0 127) (" duration=" ++ pad 12 dur)
     else fn ++ " cpu=" ++ pad 2 (fmt_d cpu) ++ " duration=" ++ pad 12 dur) ++ " insn=" ++ desc ++ eol.
  (** strings.Repeat *)
  Fixpoint rep (n : nat) (s : string) : string := match n with O => "" | S k => s ++ rep k s end.
  (** bpfsnoop_graph.go:42-52 *)
  Definition out_graph (colorful : bool) (depth : nat) (fninfo : string) (cpu : N) (cost dur : string) : string :=
    (if colorful then
       paint (rgb 58 64 94) (rep depth "..") ++ fninfo ++
       paint cyan (" cpu=" ++ fmt_d cpu ++ " depth=" ++ fmt_d (N.of_nat depth)) ++ paint (rgb 255 0 127) (" duration=" ++ cost ++ "|" ++ dur)
     else rep depth "  " ++ fninfo ++ " cpu=" ++ fmt_d cpu ++ " depth=" ++ fmt_d (N.of_nat depth) ++ " duration=" ++ cost ++ "|" ++ dur) ++ eol.
  (** fmt %02x *)
  Definition hex2 (b : N) : string := if (b <? 16)%N then "0" ++ fmt_x (Z.of_N b) else fmt_x (Z.of_N b).
  (** dump.go:18-33 printInsnInfo *)
  Definition out_dis (colorful : bool) (pc off : N) (bytes : list N) (mnemonic opstr : string) : string :=
    let o := pad 14 ("<+" ++ fmt_d off ++ "/" ++ hx off ++ ">:") in
    let b := pad 19 (String.concat " " (map hex2 bytes)) in
    if negb colorful then hx pc ++ " " ++ o ++ " " ++ b ++ tabch ++ mnemonic ++ tabch ++ opstr
    else paint blue (hx pc) ++ " " ++ o ++ " " ++ b ++ tabch ++ paint green mnemonic ++ tabch ++ paint red opstr.
  (** bpf_read_data.go:112-118 *)
  Definition out_read (colorful : bool) (expr attrs : string) : string :=
    "Expr: " ++ (if colorful then paint green (expr ++ eol) else expr ++ eol) ++ "Out: " ++ attrs ++ eol.
End Color.
