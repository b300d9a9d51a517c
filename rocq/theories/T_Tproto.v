(** * C81: type listings. *)
From Coq Require Import List Bool String ZArith Lia Sorting.Sorted.
From Verif Require Import M_Go M_Tproto S_Tproto P_Tproto.
Import ListNotations.
Open Scope string_scope.
Open Scope list_scope.
Open Scope Z_scope.

(** The member lines of a listing are, one to one and in order of declaration, the leaf members of the type - those of nested structs and
    unions included -, each with its byte offset from the start of the outermost type, its first bit and width if it is a bit-field, or its
    size. *)
Theorem C81_members : forall s rn ms, layout_ok ms -> exists ps,
  Forall2 (fun l p => exists m o, at_path ms p = Some (m, o) /\ line_of (List.length p) m o l) (member_lines (show_rec s rn ms)) ps /\
  StronglySorted before ps /\ forall p, In p ps <-> exists m o, at_path ms p = Some (m, o) /\ is_leaf m.
Proof. exact listing. Qed.
(** Refuted: a negative enumerator is printed as a number of at least 2^63. *)
Theorem C81_negative_enum_refuted : forall n v, - 2 ^ 63 <= v < 0 -> exists w, show_enum [(n, v)] = [(n, w)] /\ w = v + 2 ^ 64 /\ 2 ^ 63 <= w.
Proof.
  intros n v H. exists (v + 2 ^ 64). split; [|split; [reflexivity|lia]]. unfold show_enum. cbn [map fst snd]. f_equal. f_equal.
  unfold u64. change W64 with (2 ^ 64). symmetry. apply (Z.mod_unique_pos _ _ (-1)); lia.
Qed.
(** Refuted: types are not listed in the order in which they were asked for; a function comes before a type that was asked for first, and
    without the semicolon, which stays behind. *)
Theorem C81_order_refuted : forall s rn ms p, show_type_proto [NRec s rn ms; NFunc p] = [OFunc p; OLines (show_rec s rn ms); OSemi].
Proof. reflexivity. Qed.
(** Refuted: the declaration of an array member has no semicolon. *)
Theorem C81_array_semicolon_refuted : forall d e c sz n off bits prev, exists x o b z,
  show_member prev d (TMember n off bits (TLeaf (KArr e c) sz)) = [LMember d (x ++ "]")%string o b z].
Proof.
  intros. exists (e ++ " " ++ n ++ "[" ++ c)%string. eexists _, _, _. cbn [show_member]. unfold member_line. repeat f_equal. cbn [decl].
  assert (A : forall a b c : string, ((a ++ b) ++ c)%string = (a ++ (b ++ c))%string) by (intros a b0 c0; induction a as [|ch a IH]; cbn; [reflexivity|rewrite IH; reflexivity]).
  rewrite !A. reflexivity.
Qed.
Print Assumptions C81_members.
Print Assumptions C81_negative_enum_refuted.
Print Assumptions C81_order_refuted.
Print Assumptions C81_array_semicolon_refuted.

(** struct s { int a; union { char *b; struct { u8 c:3; u8 d:5; } x; }; } *)
Definition demo : list tmember :=
  [TMember "a" 0 0 (TLeaf (KOther "int") 4);
   TMember "" 64 0 (TRec false "" [TMember "b" 0 0 (TLeaf (KPtr "char *") 8);
     TMember "x" 8 0 (TRec true "" [TMember "c" 0 3 (TLeaf (KOther "u8") 1); TMember "d" 3 5 (TLeaf (KOther "u8") 1)])])].
Example C81_case : layout_ok demo /\ at_path demo [1; 1; 1]%nat = Some (TMember "d" 3 5 (TLeaf (KOther "u8") 1), 75) /\
  member_lines (show_rec true "s" demo) =
    [LMember 1 "int a;" 0 None 4; LMember 2 "char *b;" 8 None 8; LMember 3 "u8 c;" 9 (Some (0, 3)) 0; LMember 3 "u8 d;" 9 (Some (3, 5)) 0] /\
  show_type_proto [NEnum "e" [("M", -1)%Z]; NFunc "int f(void)"] = [OFunc "int f(void)"; OEnum "e" [("M", 18446744073709551615)]; OSemi].
Proof.
  split; [|split; [reflexivity|split; reflexivity]].
  intros p m o H. unfold is_leaf.
  destruct p as [|[|[|i]] p]; [discriminate| | |destruct i; discriminate].
  - destruct p; [|discriminate]. injection H as <- <-. cbn. repeat split; try lia; intros X; try (exfalso; apply X; exact I).
  - destruct p as [|[|[|i]] p]; [| | |destruct i; discriminate].
    + injection H as <- <-. cbn. repeat split; lia.
    + destruct p; [|discriminate]. injection H as <- <-. cbn. repeat split; try lia; intros X; try (exfalso; apply X; exact I).
    + destruct p as [|[|[|i]] p]; [| | |destruct i; discriminate].
      * injection H as <- <-. cbn. repeat split; lia.
      * destruct p; [|discriminate]. injection H as <- <-. cbn. repeat split; try lia; intros X; try (exfalso; apply X; exact I).
      * destruct p; [|discriminate]. injection H as <- <-. cbn. repeat split; try lia; intros X; try (exfalso; apply X; exact I).
Qed.
