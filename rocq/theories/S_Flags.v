(** * Specification of the command-line targets: how a -k and a -p argument are written. *)
From Coq Require Import List Bool String Ascii ZArith.
From Verif Require Import M_Flags.
Import ListNotations.
Open Scope string_scope.

(** The option prefixes; (skb) in any mixture of cases. *)
Inductive tok := Tok (k : kind) | TokSkb (S_ K_ B_ : bool).
Definition kind_of (t : tok) : kind := match t with Tok k => k | TokSkb _ _ _ => Kskb end.
Definition text (t : tok) : string :=
  match t with
  | Tok Ki => "(i)" | Tok Kg => "(g)" | Tok Ks => "(s)" | Tok Kl => "(l)" | Tok Kb => "(b)" | Tok Kp => "(p)" | Tok Km => "(m)"
  | Tok Kskb => "(skb)"
  | TokSkb s k b => "(" ++ (if s then "S" else "s") ++ (if k then "K" else "k") ++ (if b then "B" else "b") ++ ")"
  end.
Fixpoint texts (ts : list tok) : string := match ts with [] => "" | t :: ts' => text t ++ texts ts' end.
Definition asked (x : kind) (ts : list tok) : bool := existsb (fun t => kind_eqb (kind_of t) x) ts.
(** The argument proper does not start with a parenthesis. *)
Definition opens (s : string) : bool := match s with String "(" _ => true | _ => false end.

Fixpoint mentions (c : ascii) (s : string) : bool := match s with EmptyString => false | String d s' => Ascii.eqb c d || mentions c s' end.
(** White space: tab, newline, vertical tab, form feed, carriage return, space. *)
Definition white (c : ascii) : Prop := In (nat_of_ascii c) [9; 10; 11; 12; 13; 32].
Fixpoint all_white (s : string) : Prop := match s with EmptyString => True | String c s' => white c /\ all_white s' end.
(** No white space at either end. *)
Definition tight (s : string) : Prop := (forall c s', s = String c s' -> ~ white c) /\ (forall c s', s = s' ++ String c "" -> ~ white c).
(** A word: no colon, no white space at either end. *)
Definition word (s : string) : Prop := mentions ":" s = false /\ tight s.
(** NAME, NAME:ARG, NAME:(TYPE)ARG, NAME:ARG:TYPE; skb tells whether (skb) was asked for. *)
Inductive target (skb : bool) : string -> string -> string -> string -> Prop :=
| t_name n : word n -> target skb n n (if skb then "skb" else "") (if skb then "struct sk_buff *" else "")
| t_arg n a : word n -> word a -> opens a = false -> target skb (n ++ ":" ++ a) n a (if skb then "struct sk_buff *" else "")
| t_typed n t a : word n -> word t -> mentions ")" t = false -> word a -> target skb (n ++ ":(" ++ t ++ ")" ++ a) n a t
| t_arg_type n a t : word n -> word a -> word t -> target skb (n ++ ":" ++ a ++ ":" ++ t) n a t.

(** The prefixes of -p. *)
Definition progk (t : tok) := match t with Tok Kg | Tok Ks | Tok Kl | Tok Kb | Tok Kp => True | _ => False end.

(** Decimal numbers. *)
Fixpoint digits (l : list nat) : string := match l with [] => "" | d :: l' => String (ascii_of_nat (48 + d)) (digits l') end.
Definition number (l : list nat) : Z := fold_left (fun a d => (10 * a + Z.of_nat d)%Z) l 0%Z.
(** The ways to name a program: body of the argument, program, function ("" when not given). *)
Definition optional (f : string) : string := if String.eqb f "" then "" else ":" ++ f.
Inductive names_prog (exists_ : string -> bool) : string -> desc -> string -> Prop :=
| n_all : names_prog exists_ "*" DAll ""
| n_num pre l f : In pre [""; "i:"; "id:"] -> l <> [] -> (forall d, In d l -> d < 10) -> (number l < 2 ^ 32)%Z -> names_prog exists_ (pre ++ digits l ++ optional f) (DId (number l)) f
| n_pid l f : l <> [] -> (forall d, In d l -> d < 10) -> (number l < 2 ^ 32)%Z -> names_prog exists_ ("pid:" ++ digits l ++ optional f) (DPid (number l)) f
| n_tag pre t f : In pre ["t:"; "tag:"] -> t <> "" -> mentions ":" t = false -> names_prog exists_ (pre ++ t ++ optional f) (DTag t) f
| n_name pre n f : In pre ["n:"; "name:"] -> n <> "" -> mentions ":" n = false -> names_prog exists_ (pre ++ n ++ optional f) (DName n) f
| n_pinned pre p f : In pre ["p:"; "pinned:"] -> exists_ p = true -> mentions ":" p = false -> names_prog exists_ (pre ++ p ++ optional f) (DPinned p) f.

(** Modes: what a command line must satisfy, and the modes in force. *)
Definition acceptable (c : cli) (m : list string) : Prop :=
  (forall x, In x m -> x = "entry" \/ x = "exit") /\ (List.length m = 1 \/ List.length m = 2) /\
  (1 <= c_depth c <= 500)%N /\
  (* kprobe.multi at the exit only has no arguments to filter on or to show *)
  ((exists k, In k (c_kfuncs c) /\ contains "(m)" k = true) -> ~ In "entry" m ->
     c_filterArg c = false /\ c_filterPkt c = false /\ c_outputArg c = false /\ c_outputPkt c = false) /\
  (forall k, In k (c_include c ++ c_exclude c ++ c_extra c) -> contains "(m)" k = false) /\
  (forall k, In k (c_kfuncs c) -> contains "(m)" k = true -> contains "(g)" k = false).
