(** * Reading the kernel's text files: bufio.Scanner, the line loops of /repo/internal/bpfsnoop/kallsyms.go,
    bpf_tracing_func_multi.go and bpf_prog_flag.go.

    Files are byte strings.  Simplified: white space is the ASCII white space (strings.TrimSpace and strings.Fields also know U+0085,
    U+00A0 and the Unicode spaces); read errors of the file itself are not modelled. *)
From Coq Require Import List Bool String Ascii NArith ZArith.
From Verif Require Import M_Flags M_Kallsyms.
Import ListNotations.
Open Scope string_scope.

Definition LF : ascii := "010".
Definition CR : ascii := "013".
(** bufio.ScanLines: the data between line feeds; the last piece is what follows the last line feed *)
Fixpoint split_lf (s : string) : list string :=
  match s with
  | EmptyString => [""]
  | String c s' =>
      if Ascii.eqb c LF then "" :: split_lf s'
      else match split_lf s' with f :: l => String c f :: l | [] => [String c ""] end
  end.
(** bufio.ScanLines, dropCR: one carriage return at the end of the line *)
Fixpoint drop_cr (s : string) : string :=
  match s with
  | EmptyString => EmptyString
  | String c s' => match s' with EmptyString => if Ascii.eqb c CR then "" else String c "" | _ => String c (drop_cr s') end
  end.
(** bufio.Scanner: bufio.MaxScanTokenSize = 64 * 1024; a buffer full of a line without its end is ErrTooLong *)
Definition too_long (l : string) : bool := N.leb 65536 (N.of_nat (String.length l)).
(** The tokens of the scan loop and whether scanner.Err() is nil.  What follows the last line feed is a line unless it is empty. *)
Fixpoint tokens (l : list string) : list string * bool :=
  match l with
  | [] => ([], true)
  | x :: l' =>
      if too_long x then ([], false)
      else match l' with
           | [] => (match x with EmptyString => [] | _ => [drop_cr x] end, true)
           | _ => let '(ls, ok) := tokens l' in (drop_cr x :: ls, ok)
           end
  end.
Definition scan (text : string) : list string * bool := tokens (split_lf text).

(** strings.Fields *)
Fixpoint split_space (s : string) : list string :=
  match s with
  | EmptyString => [""]
  | String c s' =>
      if is_space c then "" :: split_space s'
      else match split_space s' with f :: l => String c f :: l | [] => [String c ""] end
  end.
Definition fields (s : string) : list string := filter (fun f => negb (String.eqb f "")) (split_space s).

(** strings.Trim(s, "[]") *)
Definition is_bracket (c : ascii) : bool := Ascii.eqb c "[" || Ascii.eqb c "]".
Fixpoint trimb_left (s : string) : string :=
  match s with EmptyString => EmptyString | String c s' => if is_bracket c then trimb_left s' else s end.
Fixpoint trimb_right (s : string) : string :=
  match s with
  | EmptyString => EmptyString
  | String c s' => match trimb_right s' with EmptyString => if is_bracket c then EmptyString else String c "" | t => String c t end
  end.
Definition trim_brackets (s : string) : string := trimb_right (trimb_left s).

(** kallsyms.go:120-130 and 165-168: the fields of one line as [M_Kallsyms.ks_line] takes them (fewer than three: skipped there) *)
Definition ks_fields (line : string) : list string :=
  match trim line with
  | EmptyString => []
  | t => match fields t with
         | a :: b :: n :: m :: r => a :: b :: trim n :: trim_brackets m :: r
         | [a; b; n] => [a; b; trim n]
         | l => l
         end
  end.
(** NewKallsyms, kallsyms.go:104-222, on the text of /proc/kallsyms.  None = an error is returned. *)
Definition ks_of_text (text : string) : option kallsyms :=
  let '(ls, ok) := scan text in
  match ks_lines ks_empty (map ks_fields ls) with
  | Some ks => if ok then Some ks else None
  | None => None
  end.

(** loadAvailableFilterFunctions, bpf_tracing_func_multi.go:46-76: the names put into the map, in order of the file *)
Inductive avail := ANames (l : list string) | AErr | APanic.
Fixpoint avail_lines (ls : list string) : avail :=
  match ls with
  | [] => ANames []
  | line :: ls' =>
      match trim line with
      | EmptyString => avail_lines ls'
      | t => match fields t with
             | [] => APanic                                  (* strings.Fields(line)[0] *)
             | n :: _ => match avail_lines ls' with ANames l => ANames (n :: l) | r => r end
             end
      end
  end.
Definition load_avail (text : string) : avail :=
  let '(ls, ok) := scan text in
  match avail_lines ls with ANames l => if ok then ANames l else AErr | r => r end.

(** bpf_prog_flag.go:199-223: the scan loop of prepareProgInfoByPid over one fdinfo file *)
Inductive pid_res := NoId | AnId (id : Z) | IdErr | IdPanic.
Fixpoint prog_id_lines (ls : list string) (ok : bool) : pid_res :=
  match ls with
  | [] => if ok then NoId else IdErr
  | line :: ls' =>
      if has_prefix "prog_id:" line then
        match fields line with
        | _ :: d :: _ => match parse_uint32 d with Some i => AnId i | None => IdErr end
        | _ => IdPanic                                       (* strings.Fields(line)[1] *)
        end
      else prog_id_lines ls' ok
  end.
Definition prog_id_of (text : string) : pid_res := let '(ls, ok) := scan text in prog_id_lines ls ok.

(** bpf_prog_flag.go:175-230 prepareProgInfoByPid: one file descriptor is the target of its link and the text of its fdinfo, None when they
    cannot be read.  The programs whose addProgByID is called, in order (addProgByID is [M_ProgSel.add_by_id], C67); None = error or panic. *)
Record fd := { fd_link : option string; fd_info : option string }.
Fixpoint pid_progs (fds : list fd) : option (list Z) :=
  match fds with
  | [] => Some []
  | f :: fds' =>
      match fd_link f with
      | None => pid_progs fds'
      | Some l =>
          if negb (String.eqb (trim l) "anon_inode:bpf-prog") then pid_progs fds'
          else match fd_info f with
               | None => pid_progs fds'
               | Some text =>
                   match prog_id_of text with
                   | NoId => pid_progs fds'
                   | AnId i => option_map (cons i) (pid_progs fds')
                   | _ => None
                   end
               end
      end
  end.
