(** * Property C114: what the type named in a cast is. *)
From Coq Require Import ZArith List String Bool.
From Verif Require Import M_Cc S_CType X_CcDemo.
Import ListNotations.
Open Scope Z_scope. Open Scope string_scope.

(** A cast to an integer type of C, or to a pointer to one, is a cast to a type of that size and sign. *)
Theorem C114_integer_types : forall E p n z s, kernel_types E -> In (n, (z, s)) c_integers ->
  exists t, cc2btf E {| ct_ptr := p; ct_struct := false; ct_name := n |} = Some (pointer_if p t) /\ under t = TInt z s.
Proof.
  intros E p n z s HE Hn.
  assert (G : forall m, In (m, (z, s)) kernel_integers -> cc2btf E {| ct_ptr := p; ct_struct := false; ct_name := n |} =
             match e_kfind E m with Some t => Some (pointer_if p t) | None => None end ->
             exists t, cc2btf E {| ct_ptr := p; ct_struct := false; ct_name := n |} = Some (pointer_if p t) /\ under t = TInt z s).
  { intros m Hm Hc. destruct (HE m z s Hm) as (t & Ht & Hu). exists t. rewrite Hc, Ht. split; [reflexivity|exact Hu]. }
  unfold c_integers in Hn. cbn [In] in Hn.
  destruct Hn as [H|[H|[H|[H|[H|[H|[H|[H|[H|[H|[]]]]]]]]]]]; injection H as <- <- <-.
  - apply (G "char"); [cbn; tauto|reflexivity].
  - apply (G "unsigned char"); [cbn; tauto|reflexivity].
  - apply (G "s16"); [cbn; tauto|reflexivity].
  - apply (G "u16"); [cbn; tauto|reflexivity].
  - apply (G "int"); [cbn; tauto|reflexivity].
  - apply (G "uint"); [cbn; tauto|reflexivity].
  - apply (G "s64"); [cbn; tauto|reflexivity].
  - apply (G "ulong"); [cbn; tauto|reflexivity].
  - apply (G "s64"); [cbn; tauto|reflexivity].
  - apply (G "u64"); [cbn; tauto|reflexivity].
Qed.
Print Assumptions C114_integer_types.
(** void, and a pointer to it. *)
Theorem C114_void : forall E p, cc2btf E {| ct_ptr := p; ct_struct := false; ct_name := "void" |} = Some (pointer_if p TVoid).
Proof. intros E p. reflexivity. Qed.
Print Assumptions C114_void.
(** Any other word names the kernel type of that name, and is refused when there is none. *)
Theorem C114_type_names : forall E p n, ~ In n c_words ->
  cc2btf E {| ct_ptr := p; ct_struct := false; ct_name := n |} = option_map (pointer_if p) (e_kfind E n).
Proof.
  intros E p n Hn. unfold cc2btf. cbn [ct_struct ct_name ct_ptr].
  assert (H : forall w, In w c_words -> String.eqb n w = false).
  { intros w Hw. apply String.eqb_neq. intros ->. exact (Hn Hw). }
  rewrite !H by (cbn; tauto). cbn [orb]. destruct (e_kfind E n); reflexivity.
Qed.
Print Assumptions C114_type_names.
(** `struct T` and `union T` name a struct or a union of that name (the kernel's or the module's), and nothing else. *)
Theorem C114_struct_tags : forall E p n t,
  cc2btf E {| ct_ptr := p; ct_struct := true; ct_name := n |} = Some t <->
  exists u, e_find E n = Some u /\ t = pointer_if p u /\ exists tag, under u = TStruct tag \/ under u = TUnion tag.
Proof.
  intros E p n t. unfold cc2btf. cbn [ct_struct ct_name ct_ptr]. destruct (e_find E n) as [u|]; [|split; [discriminate|intros (u & H & _); discriminate]].
  split.
  - destruct (under u) eqn:Eu; try discriminate; intros H; injection H as <-; exists u; (split; [reflexivity|]); (split; [destruct p; reflexivity|]); exists tag; tauto.
  - intros (v & H & -> & tag & Ht). injection H as <-. destruct Ht as [-> | ->]; destruct p; reflexivity.
Qed.
Print Assumptions C114_struct_tags.

Definition demo_kernel : benv := {| e_size := e_size demo_env; e_smember := e_smember demo_env; e_umember := e_umember demo_env; e_find := e_find demo_env;
  e_kfind := fun n => match find (fun x => String.eqb (fst x) n) kernel_integers with Some (_, (z, s)) => Some (TAlias (TInt z s)) | None => None end; e_tid := e_tid demo_env |}.
Example C114_kernel_types_met : kernel_types demo_kernel.
Proof.
  intros n z s H. cbn [In kernel_integers] in H. destruct H as [H|[H|[H|[H|[H|[H|[H|[H|[H|[]]]]]]]]]]; injection H as <- <- <-; (eexists; split; reflexivity).
Qed.
Example C114_demo : cc2btf demo_kernel {| ct_ptr := true; ct_struct := false; ct_name := "short" |} = Some (TPtr (TAlias (TInt 2 true))) /\
  cc2btf demo_kernel {| ct_ptr := true; ct_struct := true; ct_name := "sk_buff" |} = Some (TPtr (TStruct "sk_buff")) /\
  cc2btf demo_kernel {| ct_ptr := false; ct_struct := true; ct_name := "int" |} = None /\
  cc2btf demo_kernel {| ct_ptr := false; ct_struct := false; ct_name := "nonesuch" |} = None.
Proof. repeat split; reflexivity. Qed.
