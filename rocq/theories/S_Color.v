(** * Specification: a terminal shows the text without the colour sequences. *)
From Coq Require Import ZArith NArith List Bool String Ascii.
From Verif Require Import M_Color.
Import ListNotations.
Open Scope string_scope.
Open Scope Z_scope.

(** What is left of a text when every sequence from an ESC to the next letter m is removed; the flag: inside a sequence. *)
Fixpoint visible_from (inside : bool) (s : string) : string :=
  match s with
  | "" => ""
  | String c s' =>
      if inside then visible_from (negb (Ascii.eqb c "m")) s'
      else if Ascii.eqb c "027" then visible_from true s' else String c (visible_from false s')
  end.
Definition visible (s : string) : string := visible_from false s.
(** A text that brings no ESC of its own. *)
Fixpoint plain (s : string) : Prop := match s with "" => True | String c s' => c <> "027"%char /\ plain s' end.
(** Only 7-bit characters. *)
Fixpoint ascii_only (s : string) : Prop := match s with "" => True | String c s' => (nat_of_ascii c < 128)%nat /\ ascii_only s' end.

Definition ep_plain (e : endpoint) : Prop := plain (ep_func e) /\ plain (ep_file e).
Definition ep_ascii (e : endpoint) : Prop := ascii_only (ep_func e) /\ ascii_only (ep_file e).
Definition en_ok (e : entry) : Prop := ep_plain (en_from e) /\ ep_ascii (en_from e) /\ ep_plain (en_to e) /\ ep_ascii (en_to e).
(** The function name and the offset leave no need for blanks beyond column 50. *)
Definition fits (f : frame) : Prop := len (ep_func (f_ep f)) <= 50 + len ("+" ++ hx (ep_off (f_ep f))).
Definition attr_plain (a : attr) : Prop := match a with AHidden => True | ANull _ s | AShown s => plain s end.
Definition opt_plain (o : option string) : Prop := match o with Some s => plain s | None => True end.
(** Every text of the event comes without ESC; names of functions and files are ASCII. *)
Definition event_plain (v : event) : Prop :=
  plain (e_arrow v) /\ plain (e_name v) /\ Forall plain (e_params v) /\ opt_plain (e_ret v) /\ plain (e_comm v) /\ opt_plain (e_dur v) /\
  plain (e_time v) /\ opt_plain (e_pkt v) /\ Forall attr_plain (e_attrs v) /\ Forall en_ok (e_lbr v) /\
  Forall (fun f => ep_plain (f_ep f) /\ ep_ascii (f_ep f)) (e_stack v).

(** One line of the branch table: a tag of six characters, then the two ends of the branch, each a name and its source position
    followed by blanks. *)
Definition cell (name info : string) (s : string) : Prop := exists a b : nat, s = name ++ spaces a ++ " " ++ info ++ spaces b.
Definition branch_line (verbose : bool) (left right : Z) (e : entry) (line : string) : Prop :=
  exists tag l r, line = tag ++ l ++ " -> " ++ r ++ eol /\ len tag = 6 /\ len l = left /\ len r = right /\
    cell (endpoint_name verbose (en_from e)) (line_info (en_from e)) l /\ cell (endpoint_name verbose (en_to e)) (line_info (en_to e)) r.
