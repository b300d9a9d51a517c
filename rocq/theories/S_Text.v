(** * How the kernel writes the files (specification for C110). *)
From Coq Require Import List Bool String Ascii NArith ZArith.
From Verif Require Import M_Kallsyms S_Kallsyms S_Flags M_Text.
Import ListNotations.
Open Scope nat_scope.
Open Scope string_scope.

(** A word: not empty, printable ASCII (so no white space). *)
Definition printable (c : ascii) : Prop := 33 <= nat_of_ascii c <= 126.
Fixpoint all_chars (P : ascii -> Prop) (s : string) : Prop := match s with EmptyString => True | String c s' => P c /\ all_chars P s' end.
Definition word (s : string) : Prop := s <> "" /\ all_chars printable s.
(** Names in the kernel have fewer than 512 bytes (KSYM_NAME_LEN). *)
Definition short (s : string) : Prop := (N.of_nat (String.length s) < 512)%N.
Definition no_bracket (c : ascii) : Prop := c <> "["%char /\ c <> "]"%char.

Definition tab : string := String "009" "".
Definition newline : string := String "010" "".
Definition ends_line (s : string) : string := s ++ newline.

(** A line of /proc/kallsyms: "%px %c %s\n", "%px %c %s\t[%s]\n" (kernel/kallsyms.c, s_show) *)
Record sym := { s_addr : Z; s_type : ascii; s_name : string; s_mod : option string }.
Definition sym_line (s : sym) : string :=
  hex16 (s_addr s) ++ " " ++ String (s_type s) "" ++ " " ++ s_name s ++ match s_mod s with Some m => tab ++ "[" ++ m ++ "]" | None => "" end.
Definition sym_ok (s : sym) : Prop :=
  (0 <= s_addr s < 2 ^ 64)%Z /\ printable (s_type s) /\ word (s_name s) /\ short (s_name s) /\
  (forall m, s_mod s = Some m -> word m /\ short m /\ all_chars no_bracket m).
(** The functions of the listing: address, name, module ("" for the kernel proper). *)
Definition is_function (s : sym) : bool := Ascii.eqb (s_type s) "t" || Ascii.eqb (s_type s) "T".
Definition sym_mod (s : sym) : string := match s_mod s with Some m => m | None => "" end.

(** A line of available_filter_functions: "%ps" gives "name" or "name [module]" *)
Definition avail_line (f : string * option string) : string := fst f ++ match snd f with Some m => " [" ++ m ++ "]" | None => "" end.
Definition avail_ok (f : string * option string) : Prop := word (fst f) /\ short (fst f) /\ forall m, snd f = Some m -> word m /\ short m.

(** The text of a file of lines. *)
Definition file (ls : list string) : string := String.concat "" (map ends_line ls).

(** fdinfo of a program (kernel/bpf/syscall.c, bpf_prog_show_fdinfo): lines, one of which is "prog_id:\t%u" *)
Definition is_line (s : string) : Prop := all_chars (fun c => c <> "010"%char) s /\ (N.of_nat (String.length s) < 65536)%N.
Definition fdinfo (pre : list string) (id : list nat) (post : string) : string := file (pre ++ [("prog_id:" ++ tab ++ digits id)%string])%list ++ post.
Inductive fd_of : fd -> option Z -> Prop :=
| fd_other l i : (forall t, l = Some t -> M_Flags.trim t <> "anon_inode:bpf-prog") -> fd_of {| fd_link := l; fd_info := i |} None
| fd_gone : fd_of {| fd_link := Some "anon_inode:bpf-prog"; fd_info := None |} None
| fd_prog pre id post : Forall is_line pre -> (forall l, In l pre -> M_Flags.has_prefix "prog_id:" l = false) ->
    id <> [] -> (forall d, In d id -> d < 10) -> (number id < 2 ^ 32)%Z -> (List.length id <= 10) ->
    fd_of {| fd_link := Some "anon_inode:bpf-prog"; fd_info := Some (fdinfo pre id post) |} (Some (number id)).
Fixpoint listed_ids (l : list (option Z)) : list Z := match l with [] => [] | Some i :: l' => i :: listed_ids l' | None :: l' => listed_ids l' end.
